(** Vocabulary for the renaming of features. *)
From Coq Require Import String Ascii List ZArith Bool.
From Verif Require Import Model.Names Model.Rename.
Import ListNotations.

(** A table a transformer built, or a concatenation of such tables. *)
Definition built_by_transformers (t : table) : Prop := t_columns t = metadata_columns.

(** [r] is the part of [c] before the first "_lag", all of [c] if there is none. *)
Definition before_first_lag (c r : text) : Prop :=
  (exists rest, c = (r ++ list_ascii_of_string "_lag" ++ rest)%list \/ c = r) /\
  (forall u v, c = (u ++ list_ascii_of_string "_lag" ++ v)%list -> length r <= length u) /\
  (r = c -> forall u v, c <> (u ++ list_ascii_of_string "_lag" ++ v)%list).
(** The target [sa] steps ahead, the only one with that lag, refers to [time]. *)
Definition refers_to (targets : table) (sa time : Z) : Prop :=
  exists i, nth_error (t_cell targets lag_column) i = Some (- sa)%Z /\ nth_error (t_cell targets referring_time) i = Some time /\
  forall j, (j < length (t_cell targets referring_time)) -> nth_error (t_cell targets lag_column) j = Some (- sa)%Z -> j = i.
