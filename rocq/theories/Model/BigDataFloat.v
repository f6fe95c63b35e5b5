(** Model of the reduction of floating point columns. *)
From Coq Require Import Reals List ZArith.
From Flocq Require Import Core.
Import ListNotations.

(** [astype(np.float32)]: rounding to nearest even in the IEEE single format (exponents
    unbounded above: the code only casts below the largest single).
    Used by [reduce_floats], big_data_utils.py:142-148. *)
Definition to_float32 (x : R) : R := round radix2 (FLT_exp (-149) 24) ZnearestE x.
(** Largest finite single. Used by [reduce_floats], big_data_utils.py:142-148. *)
Definition float32_max : R := ((2 - / 2 ^ 23) * 2 ^ 127)%R.
(** Used by [reduce_floats], big_data_utils.py:142-148. *)
Definition known (s : list (option R)) : list R := flat_map (fun v => match v with Some x => [x] | None => [] end) s.
(** big_data_utils.py:142-148; [None] is NaN (skipped by min/max; with no value at all the
    comparisons fail); infinities are not modelled. *)
Definition reduce_floats (s : list (option R)) : list (option R) :=
  match known s with
  | [] => s
  | a :: l =>
      if Rlt_dec (- float32_max) (fold_left Rmin l a) then
        if Rlt_dec (fold_left Rmax l a) float32_max then map (option_map to_float32) s else s
      else s
  end.
