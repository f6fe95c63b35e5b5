(** Specifications for the formatter properties C05-C12. *)
From Coq Require Import List ZArith Bool Ascii.
Import ListNotations.
Local Open Scope Z_scope.

Section S.
Context {V : Type}.
Definition column : Type := list ascii * list (option V).

(** The cell of column [c] in row [i] holds a value. *)
Definition has_value (i : nat) (c : column) : bool :=
  match nth i (snd c) None with Some _ => true | None => false end.

(** Numbers of the rows in which every one of [cols] has a value, in order. *)
Definition complete_rows (n : nat) (cols : list column) : list nat :=
  filter (fun i => forallb (has_value i) cols) (seq 0 n).

(** The rows [rows] of a column / of an index. *)
Definition restrict (rows : list nat) (c : column) : column :=
  (fst c, map (fun i => nth i (snd c) None) rows).
Definition restrict_index (rows : list nat) (idx : list Z) : list Z := map (fun i => nth i idx 0) rows.

(** Every column has one cell per row. *)
Definition rectangular (n : nat) (cols : list column) : Prop :=
  forall c, In c cols -> length (snd c) = n.
End S.

(** Largest look-back: bounds every feature's |start|, and is one of them. *)
Definition widest (starts : list Z) (d : Z) : Prop :=
  In d (map Z.abs starts) /\ forall s, In s starts -> Z.abs s <= d.

(** Timestamps selected by a mask. *)
Definition selected (idx : list Z) (mask : list bool) (t : Z) : Prop :=
  exists i, (i < length idx)%nat /\ nth i idx 0 = t /\ nth i mask false = true.

(** Coding of a day. *)
Definition day_code (bridge long_weekend holiday : Z -> Prop) (d code : Z) : Prop :=
  (holiday d /\ code = 3) \/
  (~ holiday d /\ long_weekend d /\ code = 2) \/
  (~ holiday d /\ ~ long_weekend d /\ bridge d /\ code = 1) \/
  (~ holiday d /\ ~ long_weekend d /\ ~ bridge d /\ code = 0).

(** The cell under the column named [nm] of a row. *)
Definition cell_named (names : list (list ascii)) (row : list Z) (nm : list ascii) : option Z :=
  option_map snd (find (fun p => if list_eq_dec ascii_dec (fst p) nm then true else false) (combine names row)).
Definition hour_column : list ascii := ["h";"o";"u";"r"]%char.
Definition weekday_column : list ascii := ["d";"a";"y";"o";"f";"w";"e";"e";"k"]%char.
Definition minute_column : list ascii := ["m";"i";"n";"u";"t";"e";"o";"f";"d";"a";"y"]%char.
Definition offset_column : list ascii := ["u";"t";"c";"_";"o";"f";"f";"s";"e";"t"]%char.

(** Two instants are congruent modulo the period up to a delay of at most [tol]. *)
Definition late_by_at_most (period tol target source : Z) : Prop :=
  exists k r, target - source = k * period + r /\ 0 <= r < period /\ r <= tol.
