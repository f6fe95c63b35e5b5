(** Scores by group: C127, C128. *)
From Coq Require Import List ZArith Arith Bool Reals Lia Lra.
From Verif Require Import Model.Stats Model.Metrics Model.Summary Spec.StatsSpec Spec.MetricsSpec Spec.SummarySpec Proof.MetricsProof Proof.SummaryProof.
Import ListNotations.
Local Open Scope R_scope.

(** C127 *)
Theorem C127_rmse_partial :
  forall (ax : axis) (x t : frame) (mask : nat -> nat -> bool) (nq : nat) (groups : list (list Z)),
  Forall (fun labels => grouped ax labels x) groups ->
  exists tables, summary_scores rmse x t (Some mask) nq (map integers groups) = Some tables /\
    Forall2 (fun labels tbl => listed labels (map fst tbl) /\
      forall g k, In g labels -> (k < other_size ax x)%nat ->
        root_mean_square (pairs x t (kept mask (group_cells ax labels g k))) (entry tbl g k)) groups tables.
Proof. exact (@summary_rmse). Qed.
Print Assumptions C127_rmse_partial.
Theorem C127_mape_partial :
  forall (ax : axis) (x t : frame) (mask : nat -> nat -> bool) (nq : nat) (groups : list (list Z)),
  Forall (fun labels => grouped ax labels x) groups ->
  exists tables, summary_scores mape x t (Some mask) nq (map integers groups) = Some tables /\
    Forall2 (fun labels tbl => listed labels (map fst tbl) /\
      forall g k, In g labels -> (k < other_size ax x)%nat ->
        mean_of percentage_error (pairs x t (kept mask (group_cells ax labels g k))) (entry tbl g k)) groups tables.
Proof. exact (@summary_mape). Qed.
Print Assumptions C127_mape_partial.
Theorem C127_masked_partial :
  forall metric (x x' t t' : frame) (mask : nat -> nat -> bool) (nq : nat) (cols : list column),
  point_score metric -> same_where mask x x' -> same_where mask t t' ->
  summary_scores metric x t (Some mask) nq cols = summary_scores metric x' t' (Some mask) nq cols.
Proof. exact (@summary_independent). Qed.
Print Assumptions C127_masked_partial.
Theorem C127_quantiles_refuted :
  forall (metric : cube -> frame -> option (list Z) -> option table) (q : cube) (t : frame)
  (mask : nat -> nat -> bool) (nq : nat) (cols : list column),
  c_dim0 q = f_rows t -> c_dim1 q = f_cols t -> ~ (f_rows t = f_cols t /\ c_dim2 q = f_cols t) ->
  summary_scores3 metric q t (Some mask) nq cols = None.
Proof. exact (@quantiles_unmaskable). Qed.
Print Assumptions C127_quantiles_refuted.
Example C127_case : let x := Frame 2 1 (fun i _ => if (i =? 0)%nat then Some 3 else Some 100) in
  let t := Frame 2 1 (fun _ _ => Some 1) in let mask := fun i _ : nat => (i =? 0)%nat in
  grouped over_rows [5; 5]%Z x /\ pairs x t (kept mask (group_cells over_rows [5; 5]%Z 5 0)) = [(3, 1)].
Proof. cbv zeta. split; [split; [reflexivity|discriminate]|]. reflexivity. Qed.

(** C128 *)
Theorem C128_balanced_partial :
  forall (nq : nat) (cols : list column) (gs : list (list Z)) (k : nat) (l : list R),
  groupings nq cols = Some gs -> nth_error cols k = Some (floats l) -> NoDup l -> (0 < nq <= length l)%nat ->
  exists labels, nth_error gs k = Some labels /\ length labels = length l /\
    (forall i i', (i < length l)%nat -> (i' < length l)%nat -> nth i l 0 <= nth i' l 0 -> (nth i labels 0 <= nth i' labels 0)%Z) /\
    (forall g, In g labels -> (1 <= g <= Z.of_nat nq)%Z) /\
    (forall j, (1 <= j <= nq)%nat -> Rabs (INR (group_size labels (Z.of_nat j)) - INR (length l - 1) / INR nq) <= 1).
Proof. exact (@balanced_groups). Qed.
Print Assumptions C128_balanced_partial.
Theorem C128_column_partial :
  forall (nq : nat) (cols cols' : list column) (gs gs' : list (list Z)) (k k' : nat) (c : column),
  standard c -> groupings nq cols = Some gs -> groupings nq cols' = Some gs' -> nth_error cols k = Some c -> nth_error cols' k' = Some c ->
  nth_error gs k = nth_error gs' k'.
Proof. exact (@column_groups). Qed.
Print Assumptions C128_column_partial.
Theorem C128_small_integers_refuted :
  forall (nq : nat) (l : list Z) (f : list R) (gs : list (list Z)) (labels : list Z),
  (0 < nq < length (nodup Z.eq_dec l))%nat -> groupings nq [small_integers l] = Some [l] /\
  (groupings nq [small_integers l; floats f] = Some gs -> nth_error gs 0 = Some labels ->
   ~ forall i i', (i < length l)%nat -> (i' < length l)%nat -> nth i labels 0%Z = nth i' labels 0%Z -> nth i l 0%Z = nth i' l 0%Z).
Proof. exact (@small_integers_merged). Qed.
Print Assumptions C128_small_integers_refuted.
Theorem C128_small_integers_reached :
  forall (nq : nat) (l : list Z) (f : list R), exists gs labels,
  groupings nq [small_integers l; floats f] = Some gs /\ nth_error gs 0 = Some labels.
Proof. exact (@small_integers_cut). Qed.
Print Assumptions C128_small_integers_reached.
Theorem C128_texts_refuted :
  forall (nq : nat) (l : list Z) (f : list R) (before after : list column),
  (nq <= length (nodup Z.eq_dec l))%nat -> In (floats f) (before ++ texts l :: after) -> groupings nq (before ++ texts l :: after) = None.
Proof. exact (@texts_raise). Qed.
Print Assumptions C128_texts_refuted.
Example C128_case : NoDup [1; 2; 3; 4] /\ (0 < 2 <= length [1; 2; 3; 4])%nat /\ standard (floats [1; 2; 3; 4]) /\
  exists gs, groupings 2 [floats [1; 2; 3; 4]] = Some gs.
Proof.
  split; [|split; [cbn; lia|split; [exact I|]]].
  - repeat constructor; cbn; lra.
  - unfold groupings. cbn [existsb is_floats orb map]. destruct (selected 2 (floats [1; 2; 3; 4])); eexists; reflexivity.
Qed.
Example C128_small : (0 < 2 < length (nodup Z.eq_dec [1; 2; 3]%Z))%nat /\ (2 <= length (nodup Z.eq_dec [1; 2; 3]%Z))%nat.
Proof. cbn. lia. Qed.
