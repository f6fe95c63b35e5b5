(** Vocabulary: steps multiplied by their own factors and moved by their own offsets. *)
From Coq Require Import List Reals.
Import ListNotations.
Local Open Scope R_scope.

Definition rescaled (k b : nat -> R) (row : list R) : list R := map (fun j => k j * nth j row 0 + b j) (seq 0 (length row)).
