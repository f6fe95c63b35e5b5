From Coq Require Import List ZArith Bool Arith Reals Lia Lra.
From Verif Require Import Model.Series Model.Subsample Model.Scaling Model.Rff Spec.ScalingSpec Proof.SeriesProof Proof.QuantilesProof Proof.SubsampleProof.
Import ListNotations.
Local Open Scope R_scope.

Lemma total_cons a l : total (a :: l) = a + total l. Proof. reflexivity. Qed.
Lemma total_affine (c d : R) l : total (map (fun v => c * v + d) l) = c * total l + d * INR (length l).
Proof. induction l as [|a l IH]; [cbn; lra|]. cbn [map length]. rewrite !total_cons, IH, S_INR. lra. Qed.
Lemma total_scal {A} (c : R) (f : A -> R) l : total (map (fun v => c * f v) l) = c * total (map f l).
Proof. induction l as [|a l IH]; [cbn; lra|]. cbn [map]. rewrite !total_cons, IH. lra. Qed.
Lemma total_squares_nonneg {A} (f : A -> R) l : 0 <= total (map (fun v => f v * f v) l).
Proof. induction l as [|a l IH]; [cbn; lra|]. cbn [map]. rewrite total_cons. pose proof (Rle_0_sqr (f a)) as H. unfold Rsqr in H. lra. Qed.
Lemma total_squares_zero {A} (f : A -> R) l : total (map (fun v => f v * f v) l) = 0 -> forall a, In a l -> f a = 0.
Proof.
  induction l as [|a l IH]; intros H b Hb; [destruct Hb|]. cbn [map] in H. rewrite total_cons in H.
  pose proof (total_squares_nonneg f l). pose proof (Rle_0_sqr (f a)) as Ha. unfold Rsqr in Ha.
  destruct Hb as [->|Hb]; [apply Rsqr_0_uniq; unfold Rsqr; lra|apply IH; [lra|exact Hb]].
Qed.
Lemma len_pos {A} (l : list A) : l <> [] -> 0 < INR (length l).
Proof. intros H. apply lt_0_INR. destruct l; [congruence|cbn; lia]. Qed.

Lemma mean_spec l : l <> [] -> col_mean l * INR (length l) = total l.
Proof. intros H. apply len_pos in H. unfold col_mean, total. field. lra. Qed.
Lemma var_spec l : l <> [] -> col_var l * INR (length l) = total (map (fun v => (v - col_mean l) * (v - col_mean l)) l).
Proof.
  intros H. unfold col_var. rewrite <- (map_length (fun v => (v - col_mean l) * (v - col_mean l)) l) at 1.
  apply mean_spec. destruct l; [congruence|discriminate].
Qed.
Lemma var_nonneg l : l <> [] -> 0 <= col_var l.
Proof.
  intros H. pose proof (len_pos l H). pose proof (var_spec l H) as E. pose proof (total_squares_nonneg (fun v => v - col_mean l) l). cbn beta in *.
  apply (Rmult_le_reg_r (INR (length l))); lra.
Qed.
Lemma scale_pos l : l <> [] -> 0 < col_scale l.
Proof. intros H. unfold col_scale. pose proof (var_nonneg l H). destruct (Req_EM_T (col_var l) 0); [lra|]. apply sqrt_lt_R0. lra. Qed.
Lemma var_zero l : l <> [] -> col_var l = 0 -> forall v, In v l -> v = col_mean l.
Proof.
  intros H E v Hv. pose proof (var_spec l H) as S. rewrite E, Rmult_0_l in S. symmetry in S.
  pose proof (total_squares_zero (fun v => v - col_mean l) l S v Hv) as Z. cbn in Z. lra.
Qed.

Lemma standardised (l : list R) : l <> [] ->
  let s := map (transform (fit_column true l)) l in
  total s = 0 /\
  ((exists a b, In a l /\ In b l /\ a <> b) -> total (squares s) = INR (length l)) /\
  ((forall a b, In a l -> In b l -> a = b) -> s = repeat 0 (length l)).
Proof.
  intros Hl s. pose proof (scale_pos l Hl) as Hs. pose proof (len_pos l Hl) as Hn. pose proof (mean_spec l Hl) as Hm.
  assert (Es : s = map (fun v => / col_scale l * v + - (col_mean l / col_scale l)) l).
  { unfold s. apply map_ext. intros v. unfold transform, fit_column. cbn [fst snd]. field. lra. }
  split; [|split].
  - rewrite Es, total_affine, <- Hm. field. lra.
  - intros (a & b & Ha & Hb & Hab). assert (Hv : col_var l <> 0).
    { intros E. apply Hab. rewrite (var_zero l Hl E a Ha), (var_zero l Hl E b Hb). reflexivity. }
    unfold squares, s. rewrite map_map.
    rewrite (map_ext _ (fun v => / (col_scale l * col_scale l) * ((v - col_mean l) * (v - col_mean l)))).
    2:{ intros v. unfold transform, fit_column. cbn [fst snd]. field. lra. }
    rewrite total_scal, <- var_spec by exact Hl. unfold col_scale in *. destruct (Req_EM_T (col_var l) 0); [contradiction|].
    rewrite sqrt_sqrt by (apply var_nonneg; exact Hl). field. exact Hv.
  - intros Hc. destruct l as [|a l]; [congruence|]. set (l0 := a :: l) in *.
    assert (Hma : forall v, In v l0 -> v = col_mean l0).
    { intros v Hv. apply (Rmult_eq_reg_r (INR (length l0))); [|lra]. rewrite Hm.
      assert (E : l0 = map (fun w => 0 * w + v) l0).
      { rewrite <- (map_id l0) at 1. apply map_ext_in. intros w Hw. rewrite (Hc w v Hw Hv). lra. }
      transitivity (total (map (fun w => 0 * w + v) l0)); [rewrite total_affine; lra|now rewrite <- E]. }
    unfold s. clear Es Hc. assert (G : forall m, (forall v, In v m -> v = col_mean l0) -> map (transform (fit_column true l0)) m = repeat 0 (length m)).
    { induction m as [|v m IH]; intros H; [reflexivity|]. cbn [map length repeat]. rewrite IH by (intros; apply H; now right). f_equal.
      unfold transform, fit_column. cbn [fst snd]. rewrite (H v) at 1 by now left. unfold Rdiv. lra. }
    apply G, Hma.
Qed.

Lemma inverse_transform (with_mean : bool) (l : list R) (v : R) : l <> [] ->
  inverse (fit_column with_mean l) (transform (fit_column with_mean l) v) = v /\
  transform (fit_column with_mean l) (inverse (fit_column with_mean l) v) = v.
Proof. intros H. pose proof (scale_pos l H). unfold inverse, transform, fit_column. cbn [fst snd]. split; field; lra. Qed.

Lemma transform_monotone (with_mean : bool) (l : list R) (v w : R) : l <> [] -> v < w -> transform (fit_column with_mean l) v < transform (fit_column with_mean l) w.
Proof.
  intros H Hv. pose proof (scale_pos l H). unfold transform, fit_column. cbn [fst snd].
  apply Rmult_lt_compat_r; [now apply Rinv_0_lt_compat|lra].
Qed.

Lemma table_round_trip (with_mean : bool) (cols : nat) (rows : list (list R)) (r : list R) : rows <> [] -> length r = cols ->
  inverse_row (fit_table with_mean cols rows) (transform_row (fit_table with_mean cols rows) r) = r.
Proof.
  intros Hr Hc. set (sc := fit_table with_mean cols rows). assert (Ls : length sc = cols) by (unfold sc, fit_table; now rewrite map_length, seq_length).
  assert (L1 : length (map2 transform sc r) = cols) by (rewrite map2_length; lia).
  assert (L2 : length (map2 inverse sc (map2 transform sc r)) = cols) by (rewrite map2_length; lia).
  unfold inverse_row, transform_row. apply (list_eq_nth _ _ 0); [lia|]. intros i Hi.
  rewrite (map2_nth inverse _ _ i (0, 1) 0 0) by lia.
  rewrite (map2_nth transform _ _ i (0, 1) 0 0) by lia. unfold sc, fit_table. rewrite nth_map_seq by lia.
  apply inverse_transform. destruct rows; [congruence|discriminate].
Qed.

(** * Rows held out *)
Lemma plain_ignores {X Y M : Type} (learn : list X -> list Y -> M) (r : R) (x x' : list X) (y y' : list Y) :
  length x = length x' -> length y = length y' ->
  (forall n, (n + n_val (length x) r <= length x)%nat -> firstn n x = firstn n x' /\ firstn n y = firstn n y') ->
  fit_plain learn (Some r) x y = fit_plain learn (Some r) x' y'.
Proof.
  intros Hx Hy H. unfold fit_plain, train_val_split. rewrite <- Hx. destruct (le_lt_dec (n_val (length x) r) (length x)) as [L|L].
  - destruct (H (length x - n_val (length x) r)%nat) as [-> ->]; [lia|reflexivity].
  - replace (length x - n_val (length x) r)%nat with 0%nat by lia. reflexivity.
Qed.

Lemma column_single l : column 0 (map (fun v => [v]) l) = l.
Proof. unfold column. rewrite map_map. cbn. apply map_id. Qed.

Lemma total_app l m : total (l ++ m) = total l + total m.
Proof. induction l as [|a l IH]; [change (total m = 0 + total m); lra|]. cbn [app]. rewrite !total_cons, IH. lra. Qed.

Lemma scaled_depends (tr : list R) (a b v v' : R) : In a tr -> In b tr -> a <> b -> v <> v' ->
  map (transform_row (fit_table true 1 (map (fun v => [v]) (tr ++ [v])))) (map (fun v => [v]) tr)
  <> map (transform_row (fit_table true 1 (map (fun v => [v]) (tr ++ [v'])))) (map (fun v => [v]) tr).
Proof.
  intros Ha Hb Hab Hv E. unfold fit_table in E. cbn [seq map] in E. rewrite !column_single in E. rewrite !map_map in E.
  assert (P : forall c, In c tr -> transform (fit_column true (tr ++ [v])) c = transform (fit_column true (tr ++ [v'])) c).
  { intros c Hc. apply (In_nth _ _ 0) in Hc as (i & Hi & <-).
    apply (f_equal (fun l => nth 0 (nth i l []) 0)) in E.
    rewrite !(nth_indep (map _ tr) [] (transform_row [(0, 0)] [0])) in E by (rewrite map_length; exact Hi).
    rewrite (nth_indep _ _ (transform_row [fit_column true (tr ++ [v])] [0])) in E by (rewrite map_length; exact Hi).
    rewrite (nth_indep _ (transform_row [(0, 0)] [0]) (transform_row [fit_column true (tr ++ [v'])] [0])) in E by (rewrite map_length; exact Hi).
    rewrite (map_nth (fun x => transform_row [fit_column true (tr ++ [v])] [x])), (map_nth (fun x => transform_row [fit_column true (tr ++ [v'])] [x])) in E.
    exact E. }
  pose proof (P a Ha) as Pa. pose proof (P b Hb) as Pb. unfold transform, fit_column in Pa, Pb. cbn [fst snd] in Pa, Pb.
  assert (N1 : tr ++ [v] <> []) by (destruct tr; discriminate). assert (N2 : tr ++ [v'] <> []) by (destruct tr; discriminate).
  pose proof (scale_pos _ N1) as S1. pose proof (scale_pos _ N2) as S2.
  pose proof (mean_spec _ N1) as M1. pose proof (mean_spec _ N2) as M2. pose proof (len_pos _ N1) as L1. pose proof (len_pos _ N2) as L2.
  rewrite total_app, app_length in *. cbn [length total fold_right] in *.
  set (s := col_scale (tr ++ [v])) in *. set (s' := col_scale (tr ++ [v'])) in *.
  set (m := col_mean (tr ++ [v])) in *. set (m' := col_mean (tr ++ [v'])) in *.
  assert (Es : s = s').
  { assert (D : (a - b) / s = (a - b) / s').
    { replace ((a - b) / s) with ((a - m) / s - (b - m) / s) by (field; lra). rewrite Pa, Pb. field. lra. }
    assert (D' : (a - b) * (s' - s) = 0).
    { replace ((a - b) * (s' - s)) with (((a - b) / s - (a - b) / s') * (s * s')) by (field; lra). rewrite D. ring. }
    apply Rmult_integral in D' as [D'|D']; lra. }
  rewrite Es in Pa. assert (m = m').
  { assert (D : (a - m) = (a - m')); [|lra]. apply (Rmult_eq_reg_r (/ s')); [exact Pa|]. apply Rinv_neq_0_compat. lra. }
  subst m m'. rewrite H in M1. rewrite M1 in M2. apply Hv. lra.
Qed.

Lemma split_one {A} (r : R) (tr : list A) (v : A) : n_val (S (length tr)) r = 1%nat ->
  firstn (length (tr ++ [v]) - n_val (length (tr ++ [v])) r) (tr ++ [v]) = tr.
Proof.
  intros H. rewrite app_length. cbn [length]. replace (length tr + 1)%nat with (S (length tr)) by lia. rewrite H.
  replace (S (length tr) - 1)%nat with (length tr) by lia. rewrite firstn_app, firstn_all, Nat.sub_diag. cbn. apply app_nil_r.
Qed.

Lemma scaled_sees (r : R) (tr : list R) (a b v v' : R) (y : list (list R)) :
  n_val (S (length tr)) r = 1%nat -> In a tr -> In b tr -> a <> b -> v <> v' ->
  fit_scaled (fun x _ => x) (Some r) 1 (map (fun v => [v]) (tr ++ [v])) y
  <> fit_scaled (fun x _ => x) (Some r) 1 (map (fun v => [v]) (tr ++ [v'])) y.
Proof.
  intros Hn Ha Hb Hab Hv. unfold fit_scaled, train_val_split. rewrite !map_app. cbn [map].
  rewrite !split_one by (rewrite map_length; exact Hn).
  pose proof (scaled_depends tr a b v v' Ha Hb Hab Hv) as H. rewrite !map_app in H. exact H.
Qed.

Lemma network_sees (r : R) (tr : list R) (a b v v' : R) (y : list (list R)) (outs : nat) :
  n_val (S (length tr)) r = 1%nat -> In a tr -> In b tr -> a <> b -> v <> v' ->
  fit_network true (fun x _ => x) (Some r) 1 outs (map (fun v => [v]) (tr ++ [v])) y
  <> fit_network true (fun x _ => x) (Some r) 1 outs (map (fun v => [v]) (tr ++ [v'])) y.
Proof.
  intros Hn Ha Hb Hab Hv. unfold fit_network, train_val_split. rewrite !map_app. cbn [map].
  rewrite !split_one by (rewrite map_length; exact Hn).
  pose proof (scaled_depends tr a b v v' Ha Hb Hab Hv) as H. rewrite !map_app in H. exact H.
Qed.

(** Without centring: the scale is that of all rows. *)
Lemma network_sees_scale (r : R) (tr : list R) (a v v' : R) (y : list (list R)) (outs : nat) :
  n_val (S (length tr)) r = 1%nat -> In a tr -> a <> 0 -> col_scale (tr ++ [v]) <> col_scale (tr ++ [v']) ->
  fit_network false (fun x _ => x) (Some r) 1 outs (map (fun v => [v]) (tr ++ [v])) y
  <> fit_network false (fun x _ => x) (Some r) 1 outs (map (fun v => [v]) (tr ++ [v'])) y.
Proof.
  intros Hn Ha Ha0 Hs E. unfold fit_network, train_val_split in E. rewrite !map_app in E. cbn [map] in E.
  rewrite !split_one in E by (rewrite map_length; exact Hn).
  replace (map (fun v => [v]) tr ++ [[v]]) with (map (fun v => [v]) (tr ++ [v])) in E by (rewrite map_app; reflexivity).
  replace (map (fun v => [v]) tr ++ [[v']]) with (map (fun v => [v]) (tr ++ [v'])) in E by (rewrite map_app; reflexivity).
  unfold fit_table in E. cbn [seq map] in E. rewrite !column_single in E. rewrite !map_map in E.
  assert (P : transform (fit_column false (tr ++ [v])) a = transform (fit_column false (tr ++ [v'])) a).
  { apply (In_nth _ _ 0) in Ha as (i & Hi & <-). apply (f_equal (fun l => nth 0 (nth i l []) 0)) in E.
    rewrite (nth_indep _ [] (transform_row [fit_column false (tr ++ [v])] [0])) in E by (rewrite map_length; exact Hi).
    rewrite (nth_indep (map (fun x => transform_row [fit_column false (tr ++ [v'])] [x]) tr) [] (transform_row [fit_column false (tr ++ [v'])] [0])) in E by (rewrite map_length; exact Hi).
    rewrite (map_nth (fun x => transform_row [fit_column false (tr ++ [v])] [x])), (map_nth (fun x => transform_row [fit_column false (tr ++ [v'])] [x])) in E.
    exact E. }
  unfold transform, fit_column in P. cbn [fst snd] in P.
  assert (N1 : tr ++ [v] <> []) by (destruct tr; discriminate). assert (N2 : tr ++ [v'] <> []) by (destruct tr; discriminate).
  pose proof (scale_pos _ N1) as S1. pose proof (scale_pos _ N2) as S2. apply Hs.
  apply (Rmult_eq_reg_l a); [|exact Ha0].
  transitivity ((a - 0) / col_scale (tr ++ [v']) * col_scale (tr ++ [v']) * col_scale (tr ++ [v])); [field; lra|]. rewrite <- P. field. lra.
Qed.
