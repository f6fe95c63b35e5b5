(** Vocabulary for hybrid models. *)
From Coq Require Import List Arith.
From Verif Require Import Model.Hybrid.
Import ListNotations.

(** The forecast in which the first [n] steps come from single-step models fitted on [d0] and the
    others from the multi-step model fitted on [d], over the horizon of [d]. *)
Definition steps_from {D M G X V} (L : learners D M G X V) (n : nat) (d0 d : D) (x : X) : list V :=
  map (fun k => if k <? n then one_at L (fit_one L d0 k) k x else multi_at L (fit_multi L d n) (k - n) x) (seq 0 (horizon L d)).
