(** Vocabulary of the bootstrap. *)
From Coq Require Import List Reals.
Import ListNotations.
Local Open Scope R_scope.

(** Mean and (population) standard deviation. *)
Definition mean_and_std (l : list R) (r : R * R) : Prop :=
  fst r * INR (length l) = fold_right Rplus 0 l /\
  0 <= snd r /\ snd r * snd r * INR (length l) = fold_right Rplus 0 (map (fun v => (v - fst r) * (v - fst r)) l).

(** The value drawn by a label. *)
Definition drawn {L V} (series : list (L * V)) (l : L) (v : V) : Prop := In (l, v) series.
