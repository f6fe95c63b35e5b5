(** Model of big_data_utils.py and of the frame/tensor conversions of utilities.py. A frame
    is seen along the splitting axis as a list of slices (rows or columns). *)
From Coq Require Import List ZArith Bool Arith.
Import ListNotations.

(** big_data_utils.py:37: [np.linspace(0, n, k+1).astype(int)], with exact division. *)
Definition split_points (n k : nat) : list nat := map (fun i => i * n / k) (seq 0 (S k)).
(** big_data_utils.py:39-46. *)
Definition pieces {A} (points : list nat) (l : list A) : list (list A) :=
  map (fun s => firstn (nth (S s) points 0 - nth s points 0) (skipn (nth s points 0) l)) (seq 0 (length points - 1)).
(** Used by [make_pieces], big_data_utils.py:65-69. *)
Definition array_split {A} (l : list A) (k : nat) : list (list A) := pieces (split_points (length l) k) l.

(** big_data_utils.py:103-109: tasks run in some order; each puts its result where it belongs. *)
Definition run_tasks {A B} (f : A -> B) (tasks : list A) (order : list nat) : list (option B) :=
  fold_left (fun slots i => match nth_error tasks i with
                            | Some a => firstn i slots ++ Some (f a) :: skipn (S i) slots
                            | None => slots end)
    order (repeat None (length tasks)).
(** Used by [fdf_ray], big_data_utils.py:105-112. *)
Fixpoint gather {B} (l : list (option B)) : option (list B) :=
  match l with [] => Some [] | Some b :: l' => option_map (cons b) (gather l') | None :: _ => None end.
(** big_data_utils.py:65-69: the number of columns decides, whatever the axis. *)
Definition make_pieces {A} (l : list A) (n_cols n_splits : nat) : list (list A) :=
  if (n_splits <? n_cols) then array_split l n_splits else [l].
(** big_data_utils.py:105-112, frames: pieces in parallel, then concatenation. *)
Definition fdf_ray {A B} (f : list A -> list B) (ps : list (list A)) (order : list nat) : option (list B) :=
  option_map (@concat B) (gather (run_tasks f ps order)).
(** big_data_utils.py:105-118, tuples of frames. *)
Definition fdf_ray_pair {A B C} (f : list A -> list B * list C) (ps : list (list A)) (order : list nat) : option (list B * list C) :=
  option_map (fun r => (concat (map fst r), concat (map snd r))) (gather (run_tasks f ps order)).
(** big_data_utils.py:82-97, arrays without ray: only the first piece is used. *)
Definition fdf_numpy {A B} (f : list A -> list B) (ps : list (list A)) : list B := concat (map f (firstn 1 ps)).

(** * Memory reduction *)
(** Types of columns; the number of bits of (signed) integers. Used by [reduce_ints], big_data_utils.py:128-141, 149. *)
Inductive dtype := Int (bits : Z) | Other.
(** Used by [wrap], big_data_utils.py:128-141, 149. *)
Definition int_min (bits : Z) : Z := (- 2 ^ (bits - 1))%Z.
(** Used by [fits], big_data_utils.py:128-141, 149. *)
Definition int_max (bits : Z) : Z := (2 ^ (bits - 1) - 1)%Z.
(** [astype]: two's complement wrap-around. Used by [reduce_ints], big_data_utils.py:128-141, 149. *)
Definition wrap (bits v : Z) : Z := ((v - int_min bits) mod 2 ^ bits + int_min bits)%Z.
(** Used by [reduce_ints], big_data_utils.py:128-141, 149. *)
Definition minimum_z (l : list Z) : option Z := match l with [] => None | a :: l' => Some (fold_left Z.min l' a) end.
(** Used by [reduce_ints], big_data_utils.py:128-141, 149. *)
Definition maximum_z (l : list Z) : option Z := match l with [] => None | a :: l' => Some (fold_left Z.max l' a) end.
(** Used by [reduce_ints], big_data_utils.py:128-141, 149. *)
Definition fits (bits : Z) (lo hi : option Z) : bool :=
  match lo, hi with Some lo, Some hi => (int_min bits <? lo)%Z && (hi <? int_max bits)%Z | _, _ => false end.
(** big_data_utils.py:128-141, 149: integer columns (comparisons with the NaN of an empty column fail). *)
Definition reduce_ints (d : dtype) (s : list Z) : dtype * list Z :=
  match d with
  | Int _ =>
      let lo := minimum_z s in
      let hi := maximum_z s in
      let cast bits := (Int bits, map (wrap bits) s) in
      if fits 8 lo hi then cast 8%Z else if fits 16 lo hi then cast 16%Z
      else if fits 32 lo hi then cast 32%Z else if fits 64 lo hi then cast 64%Z else (d, s)
  | Other => (d, s)
  end.
(** big_data_utils.py:180-182: the serial path assigns to the columns of the caller's frame. First component: the
    result, second: the caller's frame afterwards. *)
Definition reduce_serial (cols : list (dtype * list Z)) : list (dtype * list Z) * list (dtype * list Z) :=
  let r := map (fun c => reduce_ints (fst c) (snd c)) cols in (r, r).

(** * Frames with two column levels and tensors (utilities.py:8-21) *)
(** Like pandas, a frame keeps the labels of its levels, also those no column uses any more.
    Used by [from_tensor], utilities.py:8-12. *)
Record frame2 (L1 L2 V : Type) := Frame2 { f2_lev1 : list L1; f2_lev2 : list L2; f2_cols : list (L1 * L2); f2_rows : list (list V) }.
Arguments Frame2 {L1 L2 V}. Arguments f2_lev1 {L1 L2 V}. Arguments f2_lev2 {L1 L2 V}. Arguments f2_cols {L1 L2 V}. Arguments f2_rows {L1 L2 V}.
(** utilities.py:8-12: [x] is indexed by row, first index, second index; its third size is [n2]. Columns are
    (second, first). [None]: the number of labels [first] does not fit. Labels are taken to be
    distinct. *)
Definition from_tensor {L1 L2 V} (x : list (list (list V))) (n2 : nat) (first : list L1) (second : list L2) (d : V)
  : option (frame2 L2 L1 V) :=
  let k := Nat.min n2 (length second) in
  if forallb (fun row => length row =? length first) x then
    Some (Frame2 (firstn k second) first (list_prod (firstn k second) first)
                 (map (fun row => flat_map (fun i => map (fun cell => nth i cell d) row) (seq 0 k)) x))
  else None.
(** Used by [to_tensor], utilities.py:14-21. *)
Fixpoint chunk {V} (n c : nat) (l : list V) : list (list V) :=
  match n with O => [] | S n' => firstn c l :: chunk n' c (skipn c l) end.
(** Used by [to_tensor], utilities.py:14-21. *)
Definition swap_axes {V} (n c : nat) (d : V) (m : list (list V)) : list (list V) :=
  map (fun j => map (fun i => nth j (nth i m []) d) (seq 0 n)) (seq 0 c).
(** utilities.py:14-21: [values.reshape(-1, n, c)] with the sizes of the two levels. [None] = ValueError. *)
Definition to_tensor {L1 L2 V} (zero_first : bool) (d : V) (f : frame2 L1 L2 V) : option (list (list (list V))) :=
  let n := length (f2_lev1 f) in
  let c := length (f2_lev2 f) in
  let values := concat (f2_rows f) in
  if (0 <? n * c) && (length values mod (n * c) =? 0) then
    Some (map (fun row => let m := chunk n c row in if zero_first then m else swap_axes n c d m)
              (chunk (length values / (n * c)) (n * c) values))
  else None.
(** Selecting columns by position ([df.iloc[:, positions]]) keeps the levels.
    utilities.py:14-21 (the caller does this before). *)
Definition select_columns {L1 L2 V} (f : frame2 L1 L2 V) (dc : L1 * L2) (d : V) (positions : list nat) : frame2 L1 L2 V :=
  Frame2 (f2_lev1 f) (f2_lev2 f) (map (fun p => nth p (f2_cols f) dc) positions)
    (map (fun row => map (fun p => nth p row d) positions) (f2_rows f)).
