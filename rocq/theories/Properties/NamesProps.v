(** Properties C13 (frequency strings) and C14 (names identify offsets). *)
From Coq Require Import List Ascii ZArith.
From Verif Require Import Model.Freq Spec.FreqSpec Proof.FreqProof.
From Verif Require Import Model.Names Spec.NamesSpec Proof.NamesProof.
Import ListNotations.
Local Open Scope char_scope.

(** C13. Every string: each deprecated letter is replaced by its modern spelling
    and nothing else changes; no deprecated letter is left; normalising again
    changes nothing; a non-string argument is returned as is. *)
Theorem C13_freq_normalisation :
  forall (A : Type) (f : freq_arg A),
    (forall s, f = FStr s ->
       exists s', normalize_timedelta_freq f = FStr s' /\
         s' = concat (map modern_spelling s) /\
         (forall d, In d s' -> ~ deprecated_letter d)) /\
    (forall a, f = FOther a -> normalize_timedelta_freq f = f) /\
    normalize_timedelta_freq (normalize_timedelta_freq f) = normalize_timedelta_freq f.
Proof. exact normalize_freq_lemma. Qed.
Print Assumptions C13_freq_normalisation.

Example C13_example :
  @normalize_timedelta_freq unit (FStr ["1"; "5"; "T"; "2"; "L"])
  = FStr ["1"; "5"; "m"; "i"; "n"; "2"; "m"; "s"].
Proof. reflexivity. Qed.

(** C14. Lag suffixes: different (base name, lag) pairs have different column
    names, and the lag is the number after the tag. *)
Theorem C14_lag_names_injective :
  forall b1 l1 b2 l2, lag_name b1 l1 = lag_name b2 l2 -> b1 = b2 /\ l1 = l2.
Proof. exact lag_name_inj. Qed.
Print Assumptions C14_lag_names_injective.

Theorem C14_lag_names_readable :
  forall base lag,
    exists suffix, lag_name base lag = base ++ lag_tag ++ suffix /\ read_int suffix = Some lag.
Proof. exact lag_name_readable. Qed.
Print Assumptions C14_lag_names_readable.

(** C14. Human readable offsets can be read back, padded or not, for every
    offset in whole seconds (negative ones included); hence they are injective. *)
Theorem C14_offsets_readable :
  forall padded secs, read_offset (hr_timedelta padded secs) = Some secs.
Proof. exact hr_timedelta_read. Qed.
Print Assumptions C14_offsets_readable.

Theorem C14_offsets_injective :
  forall p1 t1 p2 t2, hr_timedelta p1 t1 = hr_timedelta p2 t2 -> t1 = t2.
Proof. exact hr_timedelta_inj. Qed.
Print Assumptions C14_offsets_injective.

Example C14_example_lag :
  lag_name ["x"] (-7) = ["x"; "_"; "l"; "a"; "g"; "_"; "-"; "0"; "0"; "7"]
  /\ lag_name ["x"] 1234 = ["x"; "_"; "l"; "a"; "g"; "_"; "1"; "2"; "3"; "4"].
Proof. split; reflexivity. Qed.

Example C14_example_offset :
  hr_timedelta true (-93784) =
    ["-"; "0"; "1"; "d"; "0"; "2"; "h"; "0"; "3"; "m"; "0"; "4"; "s"]
  /\ hr_timedelta false 7200 = ["2"; "h"].
Proof. split; reflexivity. Qed.
