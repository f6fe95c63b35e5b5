(** Scaling, held-out rows and random features: C129 - C133. *)
From Coq Require Import List ZArith Arith Bool Reals Lia Lra.
From Verif Require Import Model.Series Model.Subsample Model.Scaling Model.Rff Spec.ScalingSpec Proof.ScalingProof Proof.ScalingProof2 Proof.StatsProof Proof.RffProof.
Import ListNotations.
Local Open Scope R_scope.

(** C129 *)
Theorem C129_standardised :
  forall (l : list R), l <> [] ->
  let s := map (transform (fit_column true l)) l in
  total s = 0 /\
  ((exists a b, In a l /\ In b l /\ a <> b) -> total (squares s) = INR (length l)) /\
  ((forall a b, In a l -> In b l -> a = b) -> s = repeat 0 (length l)).
Proof. exact (@standardised). Qed.
Print Assumptions C129_standardised.
Theorem C129_inverse :
  forall (with_mean : bool) (l : list R) (v : R), l <> [] ->
  inverse (fit_column with_mean l) (transform (fit_column with_mean l) v) = v /\
  transform (fit_column with_mean l) (inverse (fit_column with_mean l) v) = v.
Proof. exact (@inverse_transform). Qed.
Print Assumptions C129_inverse.
Theorem C129_round_trip :
  forall (with_mean : bool) (cols : nat) (rows : list (list R)) (r : list R), rows <> [] -> length r = cols ->
  inverse_row (fit_table with_mean cols rows) (transform_row (fit_table with_mean cols rows) r) = r.
Proof. exact (@table_round_trip). Qed.
Print Assumptions C129_round_trip.
Theorem C129_monotone :
  forall (with_mean : bool) (l : list R) (v w : R), l <> [] -> v < w -> transform (fit_column with_mean l) v < transform (fit_column with_mean l) w.
Proof. exact (@transform_monotone). Qed.
Print Assumptions C129_monotone.
Theorem C129_network :
  forall (centre : bool) (cols outs : nat) (x y xs ys : list (list R)),
  x <> [] -> length x = length y -> (forall r, In r x -> length r = cols) -> (forall r, In r y -> length r = outs) ->
  fit_network centre pair None cols outs x y = (xs, ys) ->
  length xs = length x /\ length ys = length y /\
  (forall j, (j < outs)%nat -> total (column j ys) = 0 /\
     ((exists a b, In a (column j y) /\ In b (column j y) /\ a <> b) -> total (squares (column j ys)) = INR (length y))) /\
  (forall j, (j < cols)%nat -> exists s, 0 < s /\
     if centre then total (column j xs) = 0 /\ (exists m, column j xs = map (fun v => (v - m) / s) (column j x))
     else column j xs = map (fun v => v / s) (column j x)).
Proof. exact (@network_standardised). Qed.
Print Assumptions C129_network.
Example C129_case : (exists a b, In a [1; 3] /\ In b [1; 3] /\ a <> b) /\ map (transform (fit_column true [1; 3])) [1; 3] = [-1; 1].
Proof.
  split; [exists 1, 3; cbn; repeat split; auto; lra|].
  assert (M : col_mean [1; 3] = 2) by (unfold col_mean; cbn; lra).
  assert (V : col_var [1; 3] = 1) by (unfold col_var; rewrite M; unfold col_mean; cbn; lra).
  assert (S : col_scale [1; 3] = 1) by (unfold col_scale; rewrite V; destruct (Req_EM_T 1 0); [lra|apply sqrt_1]).
  unfold fit_column, transform. cbn [map fst snd]. rewrite M, S. repeat f_equal; lra.
Qed.

(** C130 *)
Theorem C130_plain_partial :
  forall (X Y M : Type) (learn : list X -> list Y -> M) (r : R) (x x' : list X) (y y' : list Y),
  length x = length x' -> length y = length y' ->
  (forall n, (n + n_val (length x) r <= length x)%nat -> firstn n x = firstn n x' /\ firstn n y = firstn n y') ->
  fit_plain learn (Some r) x y = fit_plain learn (Some r) x' y'.
Proof. exact (@plain_ignores). Qed.
Print Assumptions C130_plain_partial.
Theorem C130_scaled_refuted :
  forall (r : R) (tr : list R) (a b v v' : R) (y : list (list R)),
  n_val (S (length tr)) r = 1%nat -> In a tr -> In b tr -> a <> b -> v <> v' ->
  fit_scaled (fun x _ => x) (Some r) 1 (map (fun v => [v]) (tr ++ [v])) y
  <> fit_scaled (fun x _ => x) (Some r) 1 (map (fun v => [v]) (tr ++ [v'])) y.
Proof. exact (@scaled_sees). Qed.
Print Assumptions C130_scaled_refuted.
Theorem C130_network_refuted :
  forall (r : R) (tr : list R) (a b v v' : R) (y : list (list R)) (outs : nat),
  n_val (S (length tr)) r = 1%nat -> In a tr -> In b tr -> a <> b -> v <> v' ->
  fit_network true (fun x _ => x) (Some r) 1 outs (map (fun v => [v]) (tr ++ [v])) y
  <> fit_network true (fun x _ => x) (Some r) 1 outs (map (fun v => [v]) (tr ++ [v'])) y.
Proof. exact (@network_sees). Qed.
Print Assumptions C130_network_refuted.
Theorem C130_network_scale_refuted :
  forall (r : R) (tr : list R) (a v v' : R) (y : list (list R)) (outs : nat),
  n_val (S (length tr)) r = 1%nat -> In a tr -> a <> 0 -> col_scale (tr ++ [v]) <> col_scale (tr ++ [v']) ->
  fit_network false (fun x _ => x) (Some r) 1 outs (map (fun v => [v]) (tr ++ [v])) y
  <> fit_network false (fun x _ => x) (Some r) 1 outs (map (fun v => [v]) (tr ++ [v'])) y.
Proof. exact (@network_sees_scale). Qed.
Print Assumptions C130_network_scale_refuted.
Example C130_scales : col_scale ([1; 2] ++ [3]) <> col_scale ([1; 2] ++ [6]).
Proof.
  assert (M1 : col_mean [1; 2; 3] = 2) by (unfold col_mean; cbn; lra). assert (M2 : col_mean [1; 2; 6] = 3) by (unfold col_mean; cbn; lra).
  assert (V1 : col_var [1; 2; 3] = 2 / 3) by (unfold col_var; rewrite M1; unfold col_mean; cbn; lra).
  assert (V2 : col_var [1; 2; 6] = 14 / 3) by (unfold col_var; rewrite M2; unfold col_mean; cbn; lra).
  cbn [app]. unfold col_scale. rewrite V1, V2. destruct (Req_EM_T (2 / 3) 0); [lra|]. destruct (Req_EM_T (14 / 3) 0); [lra|].
  intros E. apply sqrt_inj in E; lra.
Qed.
Example C130_case : n_val (S (length [1; 2; 3; 4])) (1 / 5) = 1%nat.
Proof.
  unfold n_val. apply floor_eq. cbn [INR]. cbn. lra.
Qed.

(** C131 *)
Theorem C131_weights_kept :
  forall (M : Type) (apply : M -> list R -> list R) (learn : list (list R) -> list (list R) -> M) (dim : nat)
    (dw dw1 dw2 : nat -> list (list R)) (db db1 db2 : nat -> list R) (r : regressor M) (x y x' : list (list R)),
  let r' := rff_fit dw db learn dim r x y in
  rff_predict dw1 db1 apply dim r' x' = rff_predict dw2 db2 apply dim r' x' /\
  rff_fit dw1 db1 learn dim r' x y = r' /\
  rff_predict dw1 db1 apply dim r' x' <> None.
Proof. exact (@weights_kept). Qed.
Print Assumptions C131_weights_kept.
Theorem C131_given_weights :
  forall (M : Type) (learn : list (list R) -> list (list R) -> M) (dim : nat)
    (dw1 dw2 : nat -> list (list R)) (db1 db2 : nat -> list R) (W : list (list R)) (b : list R) (m : option M) (x y : list (list R)),
  rff_fit dw1 db1 learn dim (Regressor (Some W) (Some b) m) x y = rff_fit dw2 db2 learn dim (Regressor (Some W) (Some b) m) x y.
Proof. exact (@given_weights). Qed.
Print Assumptions C131_given_weights.
Theorem C131_rows :
  forall (M : Type) (apply : M -> list R -> list R) (dim : nat) (dw : nat -> list (list R)) (db : nat -> list R)
    (r : regressor M) (x1 x2 p : list (list R)),
  rff_predict dw db apply dim r (x1 ++ x2) = Some p ->
  exists p1 p2, rff_predict dw db apply dim r x1 = Some p1 /\ rff_predict dw db apply dim r x2 = Some p2 /\ p = p1 ++ p2 /\ length p1 = length x1.
Proof. exact (@predict_rows). Qed.
Print Assumptions C131_rows.
Theorem C131_bounded_features :
  forall (M : Type) (learn : list (list R) -> list (list R) -> M) (learn' : list (list R) -> list (list R) -> M)
    (apply apply' : M -> list R -> list R) (dim : nat) (dw : nat -> list (list R)) (db : nat -> list R) (r : regressor M) (x y x' : list (list R)),
  (forall f t, Forall (Forall (fun v => -1 <= v <= 1)) f -> length f = length x -> learn f t = learn' f t) ->
  (forall m f, Forall (fun v => -1 <= v <= 1) f -> apply m f = apply' m f) ->
  rff_predict dw db apply dim (rff_fit dw db learn dim r x y) x' = rff_predict dw db apply' dim (rff_fit dw db learn' dim r x y) x'.
Proof. exact (@learner_sees_bounded). Qed.
Print Assumptions C131_bounded_features.
Theorem C131_boosting :
  forall (learn : list (list R) -> list R -> R * list R) (s1 s2 : list (list (list R) * list R)) (x : list (list R)) (y : list R),
  no_worse_than_zero learn -> length y = length x ->
  let error stages := total (squares (map2 Rminus y (map (additive_predict stages (fst (additive_fit learn stages x y))) x))) in
  error (s1 ++ s2) <= error s1 <= total (squares y).
Proof. exact (@boosting_improves). Qed.
Print Assumptions C131_boosting.
Example C131_learner : no_worse_than_zero best_constant.
Proof. exact best_constant_ok. Qed.
Example C131_case : rff_predict (fun _ => [[5]]) (fun n => repeat 0 n) (fun m f => [linear_apply m f]) 1
    (rff_fit (fun _ => [[1]]) (fun n => repeat 0 n) (fun f y => (0, [2])) 1 (Regressor None None None) [[0]] [[2]]) [[0]; [PI]]
    = Some [[2]; [-2]].
Proof.
  unfold rff_predict, rff_fit, set_weight, conv, linear_apply, dot, map2. cbn. 
  replace (0 * 1 + 0 + 0) with 0 by lra. replace (PI * 1 + 0 + 0) with PI by lra. rewrite cos_0, cos_PI. repeat f_equal; lra.
Qed.

(** C132 *)
Theorem C132_others_partial :
  forall (cols : list label) (normalizers : list nat), (forall n, In n normalizers -> In (named n) cols) -> denormalizable cols normalizers = true.
Proof. exact (@others_select). Qed.
Print Assumptions C132_others_partial.
Theorem C132_rff_refuted :
  forall (cols : list label) (normalizers : list nat), normalizers <> [] -> rff_denormalizable cols normalizers = false.
Proof. exact (@rff_raises). Qed.
Print Assumptions C132_rff_refuted.
Example C132_case : denormalizable [named 3; named 4] [4%nat] = true /\ rff_denormalizable [named 3; named 4] [4%nat] = false.
Proof. split; reflexivity. Qed.

(** C133 *)
Theorem C133_shape_partial :
  forall (dim_in dim_out : nat) (std : R) (scales : nat -> nat -> R) (orth : nat -> nat -> nat -> R), (0 < dim_in)%nat ->
  length (orf_matrix dim_in dim_out std scales orth) = dim_out /\
  Forall (fun c => length c = dim_in) (orf_matrix dim_in dim_out std scales orth).
Proof. exact (@orf_shape). Qed.
Print Assumptions C133_shape_partial.
Theorem C133_rows_partial :
  forall (dim_in dim_out : nat) (std : R) (scales : nat -> nat -> R) (orth : nat -> nat -> nat -> R) (blk i j : nat),
  (0 < dim_in)%nat -> orthogonal dim_in (orth blk) -> ((blk + 1) * dim_in <= dim_out)%nat -> (i < dim_in)%nat -> (j < dim_in)%nat ->
  let entry i k := nth i (nth (blk * dim_in + k) (orf_matrix dim_in dim_out std scales orth) []) 0 in
  ip dim_in (entry i) (entry j) = if Nat.eq_dec i j then std * std * (scales blk i * scales blk i) else 0.
Proof. exact (@orf_rows). Qed.
Print Assumptions C133_rows_partial.
Theorem C133_columns_refuted :
  forall (dim_in dim_out : nat) (std : R) (scales scales' : nat -> nat -> R) (orth : nat -> nat -> nat -> R) (blk p a b : nat),
  (0 < dim_in)%nat -> ((blk + 1) * dim_in <= dim_out)%nat -> (a < dim_in)%nat -> (b < dim_in)%nat -> (p < dim_in)%nat ->
  std <> 0 -> orth blk p a <> 0 -> orth blk p b <> 0 ->
  (forall i, i <> p -> scales' blk i = scales blk i) -> scales' blk p * scales' blk p <> scales blk p * scales blk p ->
  let inner s := ip dim_in (fun i => nth i (nth (blk * dim_in + a) (orf_matrix dim_in dim_out std s orth) []) 0)
                           (fun i => nth i (nth (blk * dim_in + b) (orf_matrix dim_in dim_out std s orth) []) 0) in
  inner scales <> 0 \/ inner scales' <> 0.
Proof. exact (@orf_columns). Qed.
Print Assumptions C133_columns_refuted.
Definition rotation (i j : nat) : R :=
  if (i =? j)%nat then 3 / 5 else if (i <? j)%nat then - (4 / 5) else 4 / 5.
Example C133_case : orthogonal 2 rotation /\ rotation 0 0 <> 0 /\ rotation 0 1 <> 0.
Proof.
  split; [|cbn; lra]. split; intros [|[|i]] [|[|j]] Hi Hj; try lia; cbn; lra.
Qed.
