(** Vocabulary for training runs. *)
From Coq Require Import Reals List Permutation.
From Verif Require Import Model.HoltWinters.
Import ListNotations.
Local Open Scope R_scope.
(** [perm] is a draw of all rows [0..n-1], each once. *)
Definition shuffle (n : nat) (perm : list nat) : Prop := Permutation perm (seq 0 n).
(** [p] was evaluated and no evaluation gave a smaller loss. *)
Definition best_evaluated {P} (es : list (P * num)) (p : P) : Prop := exists l, In (p, Some l) es /\ forall q m, In (q, m) es -> exists r, m = Some r /\ l <= r.
