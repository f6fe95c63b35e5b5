From Coq Require Import List Reals Lra Lia Arith.
From Verif Require Import Model.Stats Model.Subsample Model.Quantiles Model.Losses Model.Gaussian Spec.LossSpec Proof.StatsProof Proof.SubsampleProof.
Import ListNotations.
Local Open Scope R_scope.

Lemma map2_c {A B C} (f : A -> B -> C) a la b lb : map2 f (a :: la) (b :: lb) = f a b :: map2 f la lb.
Proof. reflexivity. Qed.
Lemma pow2_gt_0 (x : R) : x <> 0 -> 0 < x ^ 2.
Proof. intro H. pose proof (Rsqr_pos_lt x H) as K. unfold Rsqr in K. lra. Qed.
Lemma ln_below (x : R) : 0 < x -> x <> 1 -> ln x < x - 1.
Proof.
  intros H N. assert (ln x <> 0) as L by (intro E; apply N; rewrite <- (exp_ln x H), E; apply exp_0).
  pose proof (exp_ineq1 (ln x) L) as K. rewrite (exp_ln x H) in K. lra.
Qed.
Lemma ln_le (x : R) : 0 < x -> ln x <= x - 1.
Proof. intro H. destruct (Req_dec x 1) as [-> | N]; [rewrite ln_1; lra | pose proof (ln_below x H N); lra]. Qed.

Lemma sum_map2 {A} (f g : A -> R) l : fold_right Rplus 0 (map (fun a => f a + g a) l) = fold_right Rplus 0 (map f l) + fold_right Rplus 0 (map g l).
Proof. induction l as [|a l IH]; cbn [map fold_right]; [lra | rewrite IH; lra]. Qed.
Lemma sum_mapc {A} (c : R) (f : A -> R) l : fold_right Rplus 0 (map (fun a => c * f a) l) = c * fold_right Rplus 0 (map f l).
Proof. induction l as [|a l IH]; cbn [map fold_right]; [lra | rewrite IH; lra]. Qed.
Lemma sum_const {A} (c : R) (l : list A) : fold_right Rplus 0 (map (fun _ => c) l) = c * INR (length l).
Proof. induction l as [|a l IH]; cbn [map fold_right length]; [cbn; lra | rewrite IH, S_INR; lra]. Qed.
Lemma lenR {A} (l : list A) : l <> [] -> 0 < INR (length l).
Proof. intro H. destruct l; [congruence|]. apply lt_0_INR; cbn [length]; lia. Qed.
Lemma average_sum l : l <> [] -> average l * INR (length l) = fold_right Rplus 0 l.
Proof. intro H. unfold average. pose proof (lenR l H). field. lra. Qed.
Lemma variance_sum l : l <> [] -> fold_right Rplus 0 (map (fun v => (v - average l) * (v - average l)) l) = variance l * INR (length l).
Proof. intro H. unfold variance. pose proof (lenR l H). unfold average at 3. rewrite map_length. field. lra. Qed.
Lemma sum_sq_nonneg {A} (f : A -> R) l : 0 <= fold_right Rplus 0 (map (fun v => f v * f v) l).
Proof. induction l as [|a l IH]; cbn [map fold_right]; [lra|]. pose proof (Rle_0_sqr (f a)) as K; unfold Rsqr in K; lra. Qed.
Lemma variance_nonneg l : l <> [] -> 0 <= variance l.
Proof.
  intro H. pose proof (variance_sum l H) as E. pose proof (lenR l H).
  pose proof (sum_sq_nonneg (fun v => v - average l) l) as K. cbn beta in K. rewrite E in K.
  destruct (Rle_lt_dec 0 (variance l)) as [|N]; [easy|]. pose proof (Rmult_lt_compat_r _ _ _ H0 N). lra.
Qed.
(** Bias and variance. *)
Lemma bias_variance (y : list R) (mu : R) : y <> [] ->
  fold_right Rplus 0 (map (fun v => (mu - v) * (mu - v)) y) = (variance y + (mu - average y) * (mu - average y)) * INR (length y).
Proof.
  intro H. pose proof (average_sum y H) as A. pose proof (variance_sum y H) as V. set (a := average y) in *.
  rewrite (map_ext _ (fun v => (v - a) * (v - a) + ((2 * (a - mu)) * v + ((mu * mu) - a * a)))) by (intro v; ring).
  rewrite sum_map2, V, sum_map2, sum_mapc, sum_const, map_id, <- A. ring.
Qed.

Lemma normal_constant (y : list R) (mu s : R) : y <> [] -> 0 < s ->
  normal_loss (everywhere y mu) y (everywhere y s) = Some ((variance y + (mu - average y) * (mu - average y)) / s + ln s).
Proof.
  intros N S. unfold normal_loss, mean_loss.
  assert (all_some (map2 (fun p s => normal_cell (fst p) (snd p) s) (combine (everywhere y mu) y) (everywhere y s)) =
          Some (map (fun v => (mu - v) ^ 2 / s + ln s) y)) as ->.
  { clear N. induction y as [|v y IH]; [reflexivity|].
    change (everywhere (v :: y) mu) with (mu :: everywhere y mu). change (everywhere (v :: y) s) with (s :: everywhere y s).
    cbn [combine]. rewrite map2_c. cbn [all_some map fst snd].
    replace (normal_cell mu v s) with (Some ((mu - v) ^ 2 / s + ln s)) by (unfold normal_cell; rewrite (proj2 (StatsProof.Rltb_spec 0 s) S); reflexivity).
    cbn [all_some]. rewrite IH. reflexivity. }
  f_equal. unfold jmean. rewrite map_length.
  rewrite (map_ext _ (fun v => / s * ((mu - v) * (mu - v)) + ln s)) by (intro; field; lra).
  rewrite sum_map2, sum_mapc, sum_const, bias_variance by easy. field. pose proof (lenR y N). lra.
Qed.
Lemma score_minimum (V s b : R) : 0 < V -> 0 < s -> 0 <= b -> 1 + ln V <= (V + b) / s + ln s /\ ((V + b) / s + ln s = 1 + ln V -> b = 0 /\ s = V).
Proof.
  intros HV Hs Hb. assert (0 < V / s) as P by (apply Rdiv_lt_0_compat; easy).
  assert (ln (V / s) = ln V - ln s) as L by (unfold Rdiv; rewrite ln_mult, ln_Rinv; try lra; apply Rinv_0_lt_compat; easy).
  assert ((V + b) / s = V / s + b / s) as D by (field; lra).
  assert (0 <= b / s) as Q by (apply Rmult_le_pos; [easy | left; apply Rinv_0_lt_compat; easy]).
  pose proof (ln_le (V / s) P) as K. split; [lra|]. intro E.
  assert (b / s = 0) as B by lra. assert (V / s = 1) as O by (destruct (Req_dec (V / s) 1) as [|N]; [easy | pose proof (ln_below _ P N); lra]).
  split; [apply (f_equal (fun t => t * s)) in B | apply (f_equal (fun t => t * s)) in O]; unfold Rdiv in *; rewrite ?Rmult_assoc, ?Rinv_l in *; lra.
Qed.

Lemma likelihood_minimum (y : list R) (mu s : R) : y <> [] -> 0 < variance y -> 0 < s ->
  exists best l,
    normal_loss (everywhere y (average y)) y (everywhere y (variance y)) = Some best /\
    normal_loss (everywhere y mu) y (everywhere y s) = Some l /\
    best <= l /\ (l = best -> mu = average y /\ s = variance y).
Proof.
  intros N V S. rewrite !normal_constant by easy. do 2 eexists. split; [reflexivity|]. split; [reflexivity|].
  pose proof (Rle_0_sqr (mu - average y)) as B. unfold Rsqr in B.
  destruct (score_minimum (variance y) s _ V S B) as [A C].
  replace ((variance y + (average y - average y) * (average y - average y)) / variance y) with 1 by (field; lra).
  split; [exact A|]. intro E. destruct (C E) as [D ->]. split; [|easy].
  apply Rmult_integral in D. lra.
Qed.

(** With free variances, each goes to the squared error of its own row. *)
Lemma all_some_map2 {A B C} (f : A -> B -> option C) (g : A -> B -> C) la : forall lb, (forall a b, In (a, b) (combine la lb) -> f a b = Some (g a b)) ->
  all_some (map2 f la lb) = Some (map2 g la lb).
Proof.
  induction la as [|a la IH]; intros [|b lb] H; try reflexivity. rewrite map2_c; cbn [all_some].
  rewrite (H a b) by (left; reflexivity). rewrite IH; [reflexivity|]. intros; apply H; right; easy.
Qed.
Lemma jmean_map2_le {A B} (f g : A -> B -> R) la lb : length la = length lb -> (forall a b, In (a, b) (combine la lb) -> f a b <= g a b) -> jmean (map2 f la lb) <= jmean (map2 g la lb).
Proof.
  intros L H. unfold jmean. rewrite !map2_length by easy. unfold Rdiv. destruct la as [|a la].
  - destruct lb; cbn; lra.
  - apply Rmult_le_compat_r; [left; apply Rinv_0_lt_compat, lenR; easy|].
    revert lb L H. generalize (a :: la). clear a la. induction l as [|a la IH]; intros [|b lb] L H; try (cbn; lra).
    rewrite !map2_c; cbn [fold_right]. apply Rplus_le_compat; [apply H; left; reflexivity|]. apply IH; [cbn [length] in L; lia|]. intros; apply H; right; easy.
Qed.
Lemma likelihood_cells (y_hat y s : list R) : length y_hat = length y -> length s = length y ->
  (forall i, (i < length y)%nat -> nth i y_hat 0 <> nth i y 0) -> Forall (fun v => 0 < v) s ->
  exists best l,
    normal_loss y_hat y (map (fun p => (fst p - snd p) ^ 2) (combine y_hat y)) = Some best /\
    normal_loss y_hat y s = Some l /\ best <= l.
Proof.
  intros L1 L2 N P. unfold normal_loss, mean_loss.
  assert (forall a b, In (a, b) (combine y_hat y) -> a <> b) as NE.
  { intros a b I. apply (In_nth _ _ (0, 0)) in I as (i & Hi & E). rewrite combine_length in Hi. rewrite combine_nth in E by easy.
    injection E as <- <-. apply N. lia. }
  set (ps := combine y_hat y) in *. assert (length s = length ps) as L3 by (unfold ps; rewrite combine_length; lia). clearbody ps.
  set (g := fun (p : R * R) (s : R) => (fst p - snd p) ^ 2 / s + ln s).
  rewrite (all_some_map2 _ g) by (intros [a b] v I; assert (0 < v) as K;
    [ assert (In v (map (fun p => (fst p - snd p) ^ 2) ps)) as J by (apply in_combine_r in I; easy);
      apply in_map_iff in J as ((c & d) & <- & J); cbn [fst snd]; pose proof (NE c d J); apply pow2_gt_0; lra
    | unfold normal_cell; cbn [fst snd]; rewrite (proj2 (StatsProof.Rltb_spec 0 v) K); reflexivity ]).
  rewrite (all_some_map2 _ g) by (intros [a b] v I; assert (0 < v) as K;
    [ apply in_combine_r in I; rewrite Forall_forall in P; apply P; easy
    | unfold normal_cell; cbn [fst snd]; rewrite (proj2 (StatsProof.Rltb_spec 0 v) K); reflexivity ]).
  do 2 eexists. split; [reflexivity|]. split; [reflexivity|].
  assert (map2 g ps (map (fun p => (fst p - snd p) ^ 2) ps) = map2 (fun p (_ : R) => g p ((fst p - snd p) ^ 2)) ps s) as ->.
  { clear -L3. revert s L3. induction ps as [|p ps IH]; intros [|v s] L; try easy. cbn [map]; rewrite !map2_c. f_equal. apply IH. cbn [length] in L; lia. }
  apply jmean_map2_le; [easy|]. intros [a b] v I. unfold g; cbn [fst snd].
  assert (0 < (a - b) ^ 2) as K by (apply pow2_gt_0; pose proof (NE a b (in_combine_l _ _ _ _ I)); lra).
  assert (0 < v) as V by (apply in_combine_r in I; rewrite Forall_forall in P; apply P; easy).
  destruct (score_minimum ((a - b) ^ 2) v 0 K V (Rle_refl 0)) as [H _]. rewrite Rplus_0_r in H.
  unfold Rdiv at 1. rewrite Rinv_r by lra. exact H.
Qed.

(** C141. *)
Lemma all_some_none {A} (l : list (option A)) : In None l -> all_some l = None.
Proof. induction l as [|[a|] l IH]; intros H; [easy | destruct H as [H|H]; [easy | cbn; rewrite IH; easy] | reflexivity]. Qed.
Lemma convex_numbers (z sigma targets : list R) : length z = length targets -> length sigma = length targets ->
  exists l, network_loss (convex_outputs z sigma) targets = Some l.
Proof.
  intros L1 L2. unfold network_loss, convex_outputs. rewrite app_length, map_length.
  replace ((length z + length sigma) / 2)%nat with (length z) by (rewrite L1, L2; replace (length targets + length targets)%nat with (length targets * 2)%nat by lia; rewrite Nat.div_mul; lia).
  rewrite firstn_app, firstn_all, Nat.sub_diag, firstn_O, app_nil_r. rewrite skipn_app, skipn_all, Nat.sub_diag. cbn [skipn app].
  unfold normal_loss, mean_loss.
  rewrite (all_some_map2 _ (fun p s => (fst p - snd p) ^ 2 / s + ln s)); [eexists; reflexivity|].
  intros [a b] v I. apply in_combine_r in I. apply in_map_iff in I as (w & <- & _).
  unfold normal_cell, softplus; cbn [fst snd]. cut (0 < ln (1 + exp w) + / 10 ^ 10); [intro K; rewrite (proj2 (StatsProof.Rltb_spec _ _) K); reflexivity|].
  assert (0 < ln (1 + exp w)) by (rewrite <- ln_1; apply ln_increasing; pose proof (exp_pos w); lra).
  assert (0 < / 10 ^ 10) by (apply Rinv_0_lt_compat, pow_lt; lra). lra.
Qed.
Lemma feed_forward_nan (out targets : list R) (v : R) : length out = (2 * length targets)%nat ->
  In v (skipn (length targets) out) -> v <= 0 -> network_loss out targets = None.
Proof.
  intros L I V. unfold network_loss. rewrite L, Nat.mul_comm, Nat.div_mul by lia.
  unfold normal_loss, mean_loss. rewrite all_some_none; [reflexivity|].
  set (ps := combine (firstn (length targets) out) targets).
  assert (length ps = length (skipn (length targets) out)) as E.
  { unfold ps. rewrite combine_length, firstn_length, skipn_length. lia. }
  revert E I. generalize (skipn (length targets) out). clearbody ps. clear L.
  induction ps as [|p ps IH]; intros [|w s] E I; try easy. rewrite map2_c. destruct I as [-> | I].
  - left. unfold normal_cell. destruct (Rltb 0 v) eqn:K; [apply StatsProof.Rltb_spec in K; lra | reflexivity].
  - right. apply IH; [cbn [length] in E; lia | easy].
Qed.

(** C145. *)
Lemma embedding_nonneg (columns : list (list R)) :
  columns <> [] -> (forall c, In c columns -> exists v, In v c /\ v <> 0) ->
  0 <= embedding_penalty columns /\
  (embedding_penalty columns = 0 <-> (forall c, In c columns -> average c = 0 /\ variance c = 1)).
Proof.
  intros N NZ.
  assert (forall c, In c columns -> 0 <= embedding_cell c /\ (embedding_cell c = 0 <-> (average c = 0 /\ variance c = 1))) as K.
  { intros c I. destruct (NZ c I) as (v & Iv & Nv). assert (c <> []) as C by (intros ->; easy).
    unfold embedding_cell. fold (jmean c). change (jmean c) with (average c).
    assert (jmean (map (fun v => v ^ 2) c) = variance c + average c * average c) as E.
    { unfold jmean. rewrite map_length, (map_ext _ (fun v => (0 - v) * (0 - v))) by (intro; ring).
      rewrite bias_variance by easy. field. pose proof (lenR c C). lra. }
    assert (0 < jmean (map (fun v => v ^ 2) c)) as P.
    { unfold jmean. rewrite map_length. apply Rdiv_lt_0_compat; [|apply lenR; easy].
      clear -Iv Nv. induction c as [|w c IH]; [easy|]. cbn [map fold_right].
      assert (0 <= fold_right Rplus 0 (map (fun v => v ^ 2) c)) as Q.
      { rewrite (map_ext _ (fun v => v * v)) by (intro; ring). apply (sum_sq_nonneg (fun v => v)). }
      destruct Iv as [-> | I]; [pose proof (pow2_gt_0 v Nv); lra | specialize (IH I); pose proof (pow2_ge_0 w); lra]. }
    set (m := jmean (map (fun v => v ^ 2) c)) in *. pose proof (ln_le m P). pose proof (pow2_ge_0 (average c)).
    split; [lra|]. split.
    - intro Z. assert (average c ^ 2 = 0) as A by lra.
      assert (m = 1) as M by (destruct (Req_dec m 1) as [|M]; [easy | pose proof (ln_below m P M); lra]).
      assert (average c = 0) as A0 by (destruct (Req_dec (average c) 0) as [|B]; [easy | pose proof (pow2_gt_0 _ B); lra]).
      rewrite A0 in E |- *. split; lra.
    - intros [A V]. rewrite A, V in E. rewrite E, A. replace (1 + 0 * 0) with 1 by lra. rewrite ln_1. ring. }
  assert (0 <= fold_right Rplus 0 (map embedding_cell columns) /\ (fold_right Rplus 0 (map embedding_cell columns) = 0 <-> forall c, In c columns -> average c = 0 /\ variance c = 1)) as [A B].
  { clear N NZ. induction columns as [|c cs IH]; [cbn; split; [lra | split; [intros _ c [] | reflexivity]]|].
    cbn [map fold_right]. destruct IH as [IA IB]; [intros; apply K; right; easy|]. destruct (K c (or_introl eq_refl)) as [C D].
    split; [lra|]. split.
    - intros Z d [<- | I]; [apply D; lra | apply IB; [lra | easy]].
    - intro H. rewrite (proj2 D), (proj2 IB); [lra | intros; apply H; right; easy | apply H; left; reflexivity]. }
  pose proof (lenR columns N) as L. unfold embedding_penalty, jmean. rewrite map_length. split.
  - apply Rmult_le_pos; [easy | left; apply Rinv_0_lt_compat; easy].
  - rewrite <- B. split; intro H.
    + apply (f_equal (fun t => t * INR (length columns))) in H. unfold Rdiv in H. rewrite Rmult_assoc, Rinv_l in H; lra.
    + rewrite H. unfold Rdiv. ring.
Qed.
