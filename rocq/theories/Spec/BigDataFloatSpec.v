(** Error of a conversion to single precision. *)
From Coq Require Import Reals.
Local Open Scope R_scope.

(** At most 2^-24 relative to the value, for values that are not subnormal. *)
Definition single_error (x y : R) : Prop := / 2 ^ 126 <= Rabs x -> Rabs (y - x) <= / 2 ^ 24 * Rabs x.
(** A number that single precision represents: at most 24 significant bits, none below 2^-149. *)
Definition single_number (x : R) : Prop := exists m e : Z, (Z.abs m < 2 ^ 24)%Z /\ (-149 <= e)%Z /\ x = (IZR m * powerRZ 2 e)%R.
