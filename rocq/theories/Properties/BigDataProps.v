(** Splitting, parallel application, memory reduction and conversions of frames: C36, C37, C38,
    C61, C84, C85. *)
From Coq Require Import Reals List ZArith Bool Arith Lia Lra.
From Verif Require Import Model.BigData Model.BigDataFloat Spec.BigDataSpec Spec.BigDataFloatSpec Proof.BigDataProof Proof.BigDataProof2 Proof.BigDataProof3.
Import ListNotations.
Local Close Scope R_scope. Local Open Scope nat_scope.

(** C36 *)
Theorem C36_partition :
  forall (A : Type) (l : list A) k, 0 < k ->
  concat (array_split l k) = l /\ length (array_split l k) = k /\
  (forall p, In p (array_split l k) -> length p = length l / k \/ length p = S (length l / k)) /\
  (forall p, In p (array_split l k) -> (Nat.divide k (length l) -> length p = length l / k)).
Proof. exact (@array_split_partition). Qed.
Print Assumptions C36_partition.
Theorem C36_any_cut_points :
  forall (A : Type) (points : list nat) (l : list A), cuts points (length l) ->
  concat (pieces points l) = l /\ length (pieces points l) = length points - 1.
Proof. exact (@split_any_points). Qed.
Print Assumptions C36_any_cut_points.
Example C36_case : array_split [1; 2; 3; 4; 5; 6; 7] 3 = [[1; 2]; [3; 4]; [5; 6; 7]].
Proof. reflexivity. Qed.

(** C37 *)
Theorem C37_pieces_in_order :
  forall (A B : Type) (f : list A -> list B) ps order, schedule (length ps) order ->
  fdf_ray f ps order = Some (concat (map f ps)).
Proof. exact (@parallel_in_order). Qed.
Print Assumptions C37_pieces_in_order.
Theorem C37_pairs_in_order :
  forall (A B C : Type) (f : list A -> list B * list C) ps order, schedule (length ps) order ->
  fdf_ray_pair f ps order = Some (concat (map (fun p => fst (f p)) ps), concat (map (fun p => snd (f p)) ps)).
Proof. exact (@parallel_pair_in_order). Qed.
Print Assumptions C37_pairs_in_order.
Theorem C37_slicewise_partial :
  forall (A B : Type) (f : list A -> list B) l n_cols n_splits order, 0 < n_splits -> slicewise f ->
  schedule (length (make_pieces l n_cols n_splits)) order ->
  fdf_ray f (make_pieces l n_cols n_splits) order = Some (f l).
Proof. exact (@parallel_slicewise). Qed.
Print Assumptions C37_slicewise_partial.
Theorem C37_missing_task_no_result :
  forall (A B : Type) (f : list A -> list B) ps order i, i < length ps -> ~ In i order ->
  fdf_ray f ps order = None.
Proof. exact (@parallel_loses_task). Qed.
Print Assumptions C37_missing_task_no_result.
Theorem C37_arrays_lose_data_refuted :
  forall (A : Type) (l : list A) n_cols n_splits, 1 < n_splits < n_cols -> l <> [] ->
  length (fdf_numpy (fun x => x) (make_pieces l n_cols n_splits)) < length l.
Proof. exact (@numpy_loses). Qed.
Print Assumptions C37_arrays_lose_data_refuted.
Example C37_case : slicewise (map (Nat.mul 2)) /\ schedule 3 [2; 0; 2; 1] /\
  fdf_ray (map (Nat.mul 2)) (make_pieces [1; 2; 3; 4; 5; 6; 7] 4 3) [2; 0; 2; 1] = Some [2; 4; 6; 8; 10; 12; 14] /\
  fdf_numpy (map (Nat.mul 2)) (make_pieces [1; 2; 3; 4; 5; 6; 7] 4 3) = [2; 4].
Proof. split; [intros a b; apply map_app|]. split; [|split; reflexivity]. intros i Hi. destruct i as [|[|[|i]]]; cbn; lia. Qed.

(** C38 *)
Theorem C38_integers_unchanged :
  forall d s, snd (reduce_ints d s) = s /\
  forall bits, fst (reduce_ints d s) = Int bits -> (forall b, d = Int b -> Forall (holds b) s) -> Forall (holds bits) s.
Proof. exact (@reduce_ints_exact). Qed.
Print Assumptions C38_integers_unchanged.
Example C38_case : reduce_ints (Int 64) [3; -200; 40]%Z = (Int 16, [3; -200; 40]%Z) /\
  reduce_ints (Int 64) [9223372036854775807]%Z = (Int 64, [9223372036854775807]%Z).
Proof. split; reflexivity. Qed.

(** C84 *)
Local Open Scope Z_scope.
Theorem C84_never_larger_partial :
  forall b s, In b [8; 16; 32; 64] ->
  (forall v, In v s -> - 2 ^ (b - 1) < v < 2 ^ (b - 1) - 1) ->
  exists c, fst (reduce_ints (Int b) s) = Int c /\ c <= b.
Proof. exact (@reduce_ints_smaller). Qed.
Print Assumptions C84_never_larger_partial.
Theorem C84_width :
  forall b s c, s <> [] -> In c [8; 16; 32; 64] ->
  (forall v, In v s -> - 2 ^ (c - 1) < v < 2 ^ (c - 1) - 1) ->
  (forall c', In c' [8; 16; 32; 64] -> c' < c -> exists v, In v s /\ ~ (- 2 ^ (c' - 1) < v < 2 ^ (c' - 1) - 1)) ->
  fst (reduce_ints (Int b) s) = Int c.
Proof. exact (@reduce_ints_width). Qed.
Print Assumptions C84_width.
Theorem C84_extreme_values_grow_refuted :
  forall b s, In b [8; 16; 32] -> Forall (holds b) s -> In (2 ^ (b - 1) - 1) s \/ In (- 2 ^ (b - 1)) s ->
  fst (reduce_ints (Int b) s) = Int (2 * b).
Proof. exact (@reduce_ints_grows). Qed.
Print Assumptions C84_extreme_values_grow_refuted.
Theorem C84_callers_frame_refuted :
  forall cols b s c, In (Int b, s) cols -> s <> [] -> In c [8; 16; 32; 64] -> c < b ->
  (forall v, In v s -> - 2 ^ (c - 1) < v < 2 ^ (c - 1) - 1) -> ~ untouched cols (snd (reduce_serial cols)).
Proof. exact (@serial_changes_wide). Qed.
Print Assumptions C84_callers_frame_refuted.
Local Close Scope Z_scope.
Example C84_callers_case : exists cols, ~ untouched cols (snd (reduce_serial cols)) /\ Forall (fun c => Forall (holds 64) (snd c)) cols.
Proof. exact serial_changes_caller. Qed.
Example C84_case : reduce_ints (Int 8) [127; 3]%Z = (Int 16, [127; 3]%Z).
Proof. reflexivity. Qed.

(** C85 *)
Local Open Scope R_scope.
Theorem C85_floats_close_partial :
  forall s, length (reduce_floats s) = length s /\
  (forall i, (i < length s)%nat -> (nth i (reduce_floats s) None = None <-> nth i s None = None)) /\
  (forall i x y, nth i s None = Some x -> nth i (reduce_floats s) None = Some y -> single_error x y) /\
  (forall i (z : Z), (- 2 ^ 24 <= z <= 2 ^ 24)%Z -> nth i s None = Some (IZR z) -> nth i (reduce_floats s) None = Some (IZR z)) /\
  (forall i j x y x' y', nth i s None = Some x -> nth j s None = Some y ->
     nth i (reduce_floats s) None = Some x' -> nth j (reduce_floats s) None = Some y' -> x <= y -> x' <= y').
Proof. exact (@reduce_floats_spec). Qed.
Print Assumptions C85_floats_close_partial.
Theorem C85_large_columns_unchanged :
  forall s x, In (Some x) s -> float32_max <= Rabs x -> reduce_floats s = s.
Proof. exact (@reduce_floats_large). Qed.
Print Assumptions C85_large_columns_unchanged.
Theorem C85_kept_exactly :
  forall s i x, (forall x, In (Some x) s -> Rabs x < float32_max) -> nth i s None = Some x ->
  (nth i (reduce_floats s) None = Some x <-> single_number x).
Proof. exact (@reduce_floats_kept). Qed.
Print Assumptions C85_kept_exactly.
Theorem C85_again :
  forall s, reduce_floats (reduce_floats s) = reduce_floats s.
Proof. exact (@reduce_floats_again). Qed.
Print Assumptions C85_again.
Theorem C85_distinct_values_collapse_refuted : exists s i j x y, nth i s None = Some x /\ nth j s None = Some y /\ x <> y /\
  nth i (reduce_floats s) None = nth j (reduce_floats s) None.
Proof. exact (@reduce_floats_collapse). Qed.
Print Assumptions C85_distinct_values_collapse_refuted.
Example C85_case : reduce_floats [Some 3; None] = [Some 3; None].
Proof.
  destruct (reduce_floats_cases [Some 3; None]) as [-> | ->]; [|reflexivity]. cbn. now rewrite (float32_int 3) by lia.
Qed.
Local Close Scope R_scope.

(** C61 *)
Theorem C61_round_trip :
  forall (L1 L2 V : Type) (x : list (list (list V))) (first : list L1) (second : list L2) (d : V),
  first <> [] -> second <> [] -> full3 (length first) (length second) x ->
  exists f, from_tensor x (length second) first second d = Some f /\
    f2_cols f = list_prod second first /\ length (f2_rows f) = length x /\
    (forall t i j d1 d2, t < length x -> i < length first -> j < length second ->
      value_under f t (nth j second d2, nth i first d1) (at3 x d t i j)) /\
    to_tensor false d f = Some x.
Proof. exact (@tensor_round_trip). Qed.
Print Assumptions C61_round_trip.
Theorem C61_full_product_partial :
  forall (L1 L2 V : Type) zf (d : V) (f : frame2 L1 L2 V) d1 d2, f2_lev1 f <> [] -> f2_lev2 f <> [] ->
  f2_cols f = list_prod (f2_lev1 f) (f2_lev2 f) -> rectangular f ->
  exists x, to_tensor zf d f = Some x /\ length x = length (f2_rows f) /\
    forall t i j, t < length (f2_rows f) -> i < length (f2_lev1 f) -> j < length (f2_lev2 f) ->
      value_under f t (nth i (f2_lev1 f) d1, nth j (f2_lev2 f) d2) (if zf then at3 x d t i j else at3 x d t j i).
Proof. exact (@to_tensor_values). Qed.
Print Assumptions C61_full_product_partial.
Theorem C61_after_selection_refuted : exists (f : frame2 nat nat nat) positions x,
  f2_cols f = list_prod (f2_lev1 f) (f2_lev2 f) /\ rectangular f /\
  to_tensor true 0 (select_columns f (0, 0) 0 positions) = Some x /\ length x <> length (f2_rows f) /\
  (exists v, In v (nth 0 (nth 0 x []) []) /\ In v (nth 0 (f2_rows f) [])) /\ (exists v, In v (nth 1 (nth 0 x []) []) /\ In v (nth 1 (f2_rows f) []) /\ ~ In v (nth 0 (f2_rows f) [])).
Proof. exact (@selection_mixes_rows). Qed.
Print Assumptions C61_after_selection_refuted.
Example C61_case : full3 2 3 [[[1; 2; 3]; [4; 5; 6]]] /\
  option_map f2_rows (from_tensor [[[1; 2; 3]; [4; 5; 6]]] 3 [10; 11] [20; 21; 22] 0) = Some [[1; 4; 2; 5; 3; 6]].
Proof. split; [repeat constructor|reflexivity]. Qed.
