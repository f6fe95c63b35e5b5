From Coq Require Import List Reals Lra Lia Arith Bool Permutation.
From Verif Require Import Model.Stats Model.Subsample Model.Quantiles Model.Losses Spec.LossSpec Proof.StatsProof Proof.SubsampleProof Proof.LossProof.
Import ListNotations.
Local Open Scope R_scope.

Lemma nodup_value (l : list R) i j : NoDup l -> (i < length l)%nat -> (j < length l)%nat -> nth i l 0 = nth j l 0 -> i = j.
Proof. intros N I J E. apply (proj1 (NoDup_nth l 0) N i j I J E). Qed.
Lemma sorts_facts l p : sorts l p -> length p = length l /\ NoDup p /\ (forall i, (i < length l)%nat -> (nth i p 0 < length l)%nat) /\ (forall k, (k < length l)%nat -> exists i, (i < length l)%nat /\ nth i p 0%nat = k).
Proof.
  intros [P _]. pose proof (Permutation_length P) as L. rewrite seq_length in L.
  split; [easy|]. split; [apply (Permutation_NoDup (Permutation_sym P)), seq_NoDup|]. split.
  - intros i I. assert (In (nth i p 0%nat) (seq 0 (length l))) as K by (apply (Permutation_in _ P), nth_In; lia). apply in_seq in K. lia.
  - intros k K. assert (In k p) as I by (apply (Permutation_in _ (Permutation_sym P)), in_seq; lia).
    apply (In_nth _ _ 0%nat) in I as (i & Hi & E). exists i. split; [lia | easy].
Qed.
Lemma sorts_unique l p q : NoDup l -> sorts l p -> sorts l q -> p = q.
Proof.
  intros N Sp Sq. destruct (sorts_facts l p Sp) as (Lp & Np & Rp & Cp). destruct (sorts_facts l q Sq) as (Lq & Nq & Rq & Cq).
  apply (nth_ext p q 0%nat 0%nat); [lia|]. intros i. rewrite Lp.
  induction i as [i IH] using lt_wf_ind. intro I.
  assert (forall p q, length p = length l -> NoDup p -> sorts l q -> (forall k, (k < length l)%nat -> exists i, (i < length l)%nat /\ nth i q 0%nat = k) ->
    (forall i, (i < length l)%nat -> (nth i p 0 < length l)%nat) ->
    (forall m, (m < i)%nat -> (m < length l)%nat -> nth m p 0%nat = nth m q 0%nat) -> nth (nth i q 0%nat) l 0 <= nth (nth i p 0%nat) l 0) as K.
  { clear -I. intros p q Lp Np Sq Cq Rp H. destruct (Cq (nth i p 0%nat) (Rp i I)) as (j & J & E).
    destruct (lt_eq_lt_dec i j) as [[A | ->] | A].
    - rewrite <- E. apply (proj2 Sq). lia.
    - rewrite E. lra.
    - exfalso. rewrite <- (H j A J) in E. apply (proj1 (NoDup_nth p 0%nat) Np) in E; lia. }
  apply (nodup_value l); [easy | apply Rp; easy | apply Rq; easy|]. apply Rle_antisym.
  - apply (K q p Lq Nq Sp Cp Rq). intros m M1 M2. symmetry. apply IH; easy.
  - apply (K p q Lp Np Sq Cq Rp). intros m M1 M2. apply IH; easy.
Qed.
Lemma sorts_same_order a b p : length a = length b -> NoDup a -> same_order a b -> sorts a p -> sorts b p.
Proof.
  intros L N S Sp. destruct (sorts_facts a p Sp) as (Lp & Np & Rp & Cp). destruct Sp as [P O]. split; [rewrite <- L; easy|].
  rewrite <- L. intros i j IJ. left. apply S; [apply Rp; lia | apply Rp; lia|].
  destruct (O i j IJ) as [H|H]; [easy|]. apply (nodup_value a) in H; [|easy|apply Rp; lia|apply Rp; lia].
  apply (proj1 (NoDup_nth p 0%nat) Np) in H; lia.
Qed.
Lemma sorts_order a b p : length a = length b -> NoDup a -> NoDup b -> sorts a p -> sorts b p -> same_order a b.
Proof.
  intros L Na Nb Sa Sb i j I J. destruct (sorts_facts a p Sa) as (Lp & Np & Rp & Cp).
  destruct (Cp i I) as (m & M & <-). destruct (Cp j J) as (n & K & <-).
  assert (forall a, length a = length p -> NoDup a -> sorts a p -> forall m n, (m < length a)%nat -> (n < length a)%nat -> (nth (nth m p 0%nat) a 0 < nth (nth n p 0%nat) a 0 <-> (m < n)%nat)) as G.
  { clear -Np. intros a La Na Sa m n M N. destruct (sorts_facts a p Sa) as (_ & _ & R & _). destruct Sa as [_ O]. split; intro H.
    - destruct (lt_eq_lt_dec m n) as [[A | ->] | A]; [easy | lra |]. pose proof (O n m ltac:(lia)). lra.
    - destruct (O m n ltac:(lia)) as [C|C]; [easy|]. apply (nodup_value a) in C; [|easy|apply R; easy|apply R; easy].
      apply (proj1 (NoDup_nth p 0%nat) Np) in C; lia. }
  rewrite (G a) by (easy || lia). rewrite (G b) by (easy || lia). reflexivity.
Qed.

(** Correlations of permutations. *)
Lemma sum_perm (l l' : list R) : Permutation l l' -> fold_right Rplus 0 l = fold_right Rplus 0 l'.
Proof. induction 1; cbn [fold_right]; lra. Qed.
Lemma jmean_perm (l l' : list R) : Permutation l l' -> jmean l = jmean l'.
Proof. intro P. unfold jmean. rewrite (sum_perm _ _ P), (Permutation_length P). reflexivity. Qed.
Lemma map2_same {A B} (f : A -> A -> B) l : map2 f l l = map (fun a => f a a) l.
Proof. induction l; [reflexivity|]. rewrite map2_c, IHl. reflexivity. Qed.
Lemma cov_var l : covariance l l = variance l.
Proof. unfold covariance. rewrite map2_same. reflexivity. Qed.
Lemma variance_perm l l' : Permutation l l' -> variance l = variance l'.
Proof.
  intro P. unfold variance. change average with jmean. rewrite (jmean_perm l l' P). apply jmean_perm. apply Permutation_map, P.
Qed.
Lemma sum_map2_lin (f g h : R -> R -> R) a : forall b, (forall u v, f u v = g u v + h u v) -> fold_right Rplus 0 (map2 f a b) = fold_right Rplus 0 (map2 g a b) + fold_right Rplus 0 (map2 h a b).
Proof.
  induction a as [|u a IH]; intros [|v b] H; try (cbn; lra). rewrite !map2_c. cbn [fold_right]. rewrite (IH b H), H. lra.
Qed.
(** Sum of the squared differences. *)
Definition gap (a b : list R) : R := fold_right Rplus 0 (map2 (fun u v => (u - v) * (u - v)) a b).
Definition opp_gap (m : R) (a b : list R) : R := fold_right Rplus 0 (map2 (fun u v => (u + v - 2 * m) * (u + v - 2 * m)) a b).
Lemma gap_nonneg a : forall b, 0 <= gap a b.
Proof. unfold gap. induction a as [|u a IH]; intros [|v b]; try (cbn; lra). rewrite map2_c. cbn [fold_right]. specialize (IH b). pose proof (Rle_0_sqr (u - v)) as K. unfold Rsqr in K. lra. Qed.
Lemma opp_gap_nonneg m a : forall b, 0 <= opp_gap m a b.
Proof. unfold opp_gap. induction a as [|u a IH]; intros [|v b]; try (cbn; lra). rewrite map2_c. cbn [fold_right]. specialize (IH b). pose proof (Rle_0_sqr (u + v - 2 * m)) as K. unfold Rsqr in K. lra. Qed.
Lemma gap_zero a : forall b, length a = length b -> gap a b = 0 -> a = b.
Proof.
  induction a as [|u a IH]; intros [|v b] L E; try easy. unfold gap in E. rewrite map2_c in E. cbn [fold_right] in E. fold (gap a b) in E.
  pose proof (gap_nonneg a b). pose proof (Rle_0_sqr (u - v)) as K. unfold Rsqr in K.
  f_equal; [|apply IH; [cbn [length] in L; lia | lra]]. assert ((u - v) * (u - v) = 0) as Z by lra. apply Rmult_integral in Z. lra.
Qed.
Lemma sq_sum m a : forall b, length a = length b -> 
  2 * fold_right Rplus 0 (map2 (fun u v => (u - m) * (v - m)) a b) = fold_right Rplus 0 (map (fun v => (v - m) * (v - m)) a) + fold_right Rplus 0 (map (fun v => (v - m) * (v - m)) b) - gap a b /\
  2 * fold_right Rplus 0 (map2 (fun u v => (u - m) * (v - m)) a b) = opp_gap m a b - fold_right Rplus 0 (map (fun v => (v - m) * (v - m)) a) - fold_right Rplus 0 (map (fun v => (v - m) * (v - m)) b).
Proof.
  unfold gap, opp_gap. induction a as [|u a IH]; intros [|v b] L; try easy; [cbn; lra|]. rewrite !map2_c. cbn [fold_right map].
  destruct (IH b ltac:(cbn [length] in L; lia)). nra.
Qed.
Lemma seq_variance n : (2 <= n)%nat -> 0 < variance (map INR (seq 0 n)).
Proof.
  intro N. set (l := map INR (seq 0 n)). assert (l <> []) as NE by (unfold l; destruct n; [lia | easy]).
  destruct (variance_nonneg l NE) as [H|H]; [easy|]. exfalso. pose proof (variance_sum l NE) as S. rewrite <- H, Rmult_0_l in S.
  assert (forall v, In v l -> v = average l) as K.
  { revert S. generalize (average l). clear. induction l as [|w l IH]; intros m S v I; [easy|]. cbn [map fold_right] in S.
    pose proof (Rle_0_sqr (w - m)) as K. unfold Rsqr in K. pose proof (sum_sq_nonneg (fun v => v - m) l) as Q. cbn beta in Q.
    destruct I as [-> | I]; [|apply IH; [lra | easy]]. assert ((v - m) * (v - m) = 0) as Z by lra. apply Rmult_integral in Z. lra. }
  assert (In 0 l) as I0 by (unfold l; apply in_map_iff; exists 0%nat; split; [reflexivity | apply in_seq; lia]).
  assert (In 1 l) as I1 by (unfold l; apply in_map_iff; exists 1%nat; split; [reflexivity | apply in_seq; lia]).
  pose proof (K 0 I0). pose proof (K 1 I1). lra.
Qed.
Lemma corr_perm (p q : list nat) n : (2 <= n)%nat -> Permutation p (seq 0 n) -> Permutation q (seq 0 n) ->
  exists c, corrcoef (map INR p) (map INR q) = Some c /\
    c = 1 - gap (map INR p) (map INR q) / (2 * INR n * variance (map INR (seq 0 n))) /\
    c = -1 + opp_gap (average (map INR (seq 0 n))) (map INR p) (map INR q) / (2 * INR n * variance (map INR (seq 0 n))).
Proof.
  intros N P Q. set (a := map INR p). set (b := map INR q). set (l := map INR (seq 0 n)).
  assert (Permutation a l) as Pa by (apply Permutation_map, P). assert (Permutation b l) as Pb by (apply Permutation_map, Q).
  pose proof (seq_variance n N) as V. fold l in V.
  assert (length a = n) as La by (rewrite (Permutation_length Pa); unfold l; rewrite map_length, seq_length; reflexivity).
  assert (length b = n) as Lb by (rewrite (Permutation_length Pb); unfold l; rewrite map_length, seq_length; reflexivity).
  assert (length l = n) as Ll by (unfold l; rewrite map_length, seq_length; reflexivity).
  assert (l <> []) as NE by (intro Z; rewrite Z in Ll; cbn in Ll; lia).
  unfold corrcoef. rewrite !cov_var, (variance_perm a l Pa), (variance_perm b l Pb).
  rewrite sqrt_sqrt by lra. destruct (Req_EM_T (variance l) 0) as [Z|_]; [lra|]. eexists. split; [reflexivity|].
  assert (0 < INR n) as Nn by (apply lt_0_INR; lia).
  unfold covariance. rewrite (jmean_perm a l Pa), (jmean_perm b l Pb). change (jmean l) with (average l).
  unfold jmean. rewrite map2_length by lia. rewrite La.
  destruct (sq_sum (average l) a b ltac:(lia)) as [E1 E2].
  rewrite (sum_perm _ _ (Permutation_map (fun v => (v - average l) * (v - average l)) Pa)), (sum_perm _ _ (Permutation_map (fun v => (v - average l) * (v - average l)) Pb)), variance_sum, Ll in E1, E2 by easy.
  set (X := fold_right Rplus 0 (map2 (fun u v => (u - average l) * (v - average l)) a b)) in *.
  split.
  - replace X with (variance l * INR n - gap a b / 2) by lra. field. split; lra.
  - replace X with (opp_gap (average l) a b / 2 - variance l * INR n) by lra. field. split; lra.
Qed.

Lemma order_best (argsort : list R -> list nat) (objs_hat objs : list R) :
  (forall l, sorts l (argsort l)) -> length objs_hat = length objs -> (2 <= length objs)%nat -> distinct objs -> distinct objs_hat ->
  exists v, order_penalty argsort objs_hat objs = Some v /\ -1 <= v <= 1 /\ (v = -1 <-> same_order objs objs_hat).
Proof.
  intros A L N D Dh. pose proof (A objs) as Sa. pose proof (A objs_hat) as Sb.
  destruct (corr_perm (argsort objs) (argsort objs_hat) (length objs) N (proj1 Sa)) as (c & E & E1 & E2); [rewrite <- L; apply Sb|].
  unfold order_penalty. rewrite E. eexists. split; [reflexivity|].
  pose proof (seq_variance _ N) as V. assert (0 < INR (length objs)) as Nn by (apply lt_0_INR; lia).
  set (W := 2 * INR (length objs) * variance (map INR (seq 0 (length objs)))) in *.
  assert (0 < W) as HW by (unfold W; apply Rmult_lt_0_compat; lra).
  pose proof (gap_nonneg (map INR (argsort objs)) (map INR (argsort objs_hat))) as G.
  pose proof (opp_gap_nonneg (average (map INR (seq 0 (length objs)))) (map INR (argsort objs)) (map INR (argsort objs_hat))) as O.
  assert (0 <= gap (map INR (argsort objs)) (map INR (argsort objs_hat)) / W) by (apply Rmult_le_pos; [easy | left; apply Rinv_0_lt_compat; easy]).
  assert (0 <= opp_gap (average (map INR (seq 0 (length objs)))) (map INR (argsort objs)) (map INR (argsort objs_hat)) / W) by (apply Rmult_le_pos; [easy | left; apply Rinv_0_lt_compat; easy]).
  split; [lra|]. split.
  - intro Z. assert (gap (map INR (argsort objs)) (map INR (argsort objs_hat)) / W = 0) as G0 by lra.
    assert (gap (map INR (argsort objs)) (map INR (argsort objs_hat)) = 0) as G1.
    { apply (f_equal (fun t => t * W)) in G0. unfold Rdiv in G0. rewrite Rmult_assoc, Rinv_l in G0; lra. }
    apply gap_zero in G1; [|rewrite !map_length; destruct (sorts_facts _ _ Sa) as (-> & _); destruct (sorts_facts _ _ Sb) as (-> & _); lia].
    assert (argsort objs = argsort objs_hat) as EQ.
    { clear -G1. revert G1. generalize (argsort objs) (argsort objs_hat). induction l as [|x l IH]; intros [|y m] H; try easy. cbn [map] in H. injection H as H1 H2. apply INR_eq in H1. rewrite H1. f_equal. apply IH, H2. }
    apply (sorts_order objs objs_hat (argsort objs)); [lia | easy | easy | easy |]. rewrite EQ. easy.
  - intro S. assert (argsort objs = argsort objs_hat) as EQ.
    { apply (sorts_unique objs_hat); [easy | apply (sorts_same_order objs); [lia | easy | easy | easy] | easy]. }
    rewrite EQ in E1. assert (gap (map INR (argsort objs_hat)) (map INR (argsort objs_hat)) = 0) as Z.
    { unfold gap. rewrite map2_same. rewrite (map_ext _ (fun _ => 0)) by (intro; ring). rewrite sum_const. ring. }
    rewrite Z in E1. unfold Rdiv in E1. lra.
Qed.

Lemma order_reversed (argsort : list R -> list nat) : (forall l, sorts l (argsort l)) ->
  exists objs reversed near,
    distinct objs /\ distinct reversed /\ distinct near /\ length reversed = length objs /\ length near = length objs /\
    (forall i j, (i < length objs)%nat -> (j < length objs)%nat -> (nth i objs 0 < nth j objs 0 <-> nth j reversed 0 < nth i reversed 0)) /\
    length (swapped objs near) = 1%nat /\
    order_penalty argsort reversed objs = Some (- (1 / 2)) /\ order_penalty argsort near objs = Some 1.
Proof.
  intro A. exists [1; 0; 2], [-1; 0; -2], [2; 0; 1].
  assert (forall a b c : R, a <> b -> a <> c -> b <> c -> NoDup [a; b; c]) as ND.
  { intros a b c H1 H2 H3. constructor; [intros [K | [K | []]]; congruence|]. constructor; [intros [K | []]; congruence|]. constructor; [easy | constructor]. }
  assert (NoDup [1; 0; 2]) as D1 by (apply ND; lra). assert (NoDup [-1; 0; -2]) as D2 by (apply ND; lra). assert (NoDup [2; 0; 1]) as D3 by (apply ND; lra).
  split; [exact D1|]. split; [exact D2|]. split; [exact D3|]. split; [reflexivity|]. split; [reflexivity|]. split.
  { intros i j I J. cbn [length] in I, J. destruct i as [|[|[|i]]]; [| | |lia]; (destruct j as [|[|[|j]]]; [| | |lia]); cbn [nth]; lra. }
  assert (forall l p, sorts l p -> NoDup l -> argsort l = p) as U by (intros l p S N; apply (sorts_unique l); [easy | apply A | easy]).
  assert (argsort [1; 0; 2] = [1; 0; 2]%nat) as E1.
  { apply U; [|easy]. split; [apply perm_swap|]. cbn [length]. intros i j IJ. destruct i as [|[|[|i]]]; [| | |lia]; (destruct j as [|[|[|j]]]; [| | |lia]); cbn [nth]; try lia; lra. }
  assert (argsort [-1; 0; -2] = [2; 0; 1]%nat) as E2.
  { apply U; [|easy]. split.
    - cbn [length seq]. apply (Permutation_cons_append [0; 1]%nat 2%nat).
    - cbn [length]. intros i j IJ. destruct i as [|[|[|i]]]; [| | |lia]; (destruct j as [|[|[|j]]]; [| | |lia]); cbn [nth]; try lia; lra. }
  assert (argsort [2; 0; 1] = [1; 2; 0]%nat) as E3.
  { apply U; [|easy]. split.
    - cbn [length seq]. apply Permutation_sym, (Permutation_cons_append [1; 2]%nat 0%nat).
    - cbn [length]. intros i j IJ. destruct i as [|[|[|i]]]; [| | |lia]; (destruct j as [|[|[|j]]]; [| | |lia]); cbn [nth]; try lia; lra. }
  split.
  { unfold swapped. cbn [length seq list_prod map app filter fst snd nth].
    repeat match goal with |- context [Rlt_dec ?a ?b] => destruct (Rlt_dec a b) as [?|?]; try (exfalso; lra) end. reflexivity. }
  assert (variance (map INR (seq 0 3)) = 2 / 3) as V.
  { unfold variance, average. cbn [seq map length fold_right]. simpl INR. field. }
  unfold order_penalty. rewrite E1, E2, E3. split.
  - destruct (corr_perm [1; 0; 2]%nat [2; 0; 1]%nat 3 ltac:(lia)) as (c & -> & -> & _); [apply perm_swap | apply (Permutation_cons_append [0; 1]%nat 2%nat)|].
    f_equal. rewrite V. unfold gap, map2. cbn [combine map fold_right fst snd]. simpl INR. field.
  - destruct (corr_perm [1; 0; 2]%nat [1; 2; 0]%nat 3 ltac:(lia)) as (c & -> & -> & _); [apply perm_swap | apply Permutation_sym, (Permutation_cons_append [1; 2]%nat 0%nat)|].
    f_equal. rewrite V. unfold gap, map2. cbn [combine map fold_right fst snd]. simpl INR. field.
Qed.

Lemma min_positive (l : list R) : Forall (fun v => 0 < v) l -> exists e, 0 < e /\ Forall (fun v => e <= v) l.
Proof.
  induction l as [|a l IH]; intro H; [exists 1; split; [lra | constructor]|]. inversion H; subst. destruct (IH H3) as (e & E & F).
  exists (Rmin a e). split; [apply Rmin_glb_lt; easy|]. constructor; [apply Rmin_l|].
  eapply Forall_impl; [|exact F]. cbn beta. intros v V. pose proof (Rmin_r a e). lra.
Qed.
Lemma order_flat (argsort : list R -> list nat) (objs_hat objs : list R) :
  (forall l, sorts l (argsort l)) -> distinct objs_hat ->
  exists e, 0 < e /\ forall objs_hat', length objs_hat' = length objs_hat ->
    (forall i, (i < length objs_hat)%nat -> Rabs (nth i objs_hat' 0 - nth i objs_hat 0) < e) ->
    order_penalty argsort objs_hat' objs = order_penalty argsort objs_hat objs.
Proof.
  intros A D. unfold distinct in D. set (h := objs_hat) in *. set (n := length h).
  destruct (min_positive (map (fun ij => Rabs (nth (fst ij) h 0 - nth (snd ij) h 0))
    (filter (fun ij => negb (fst ij =? snd ij)%nat) (list_prod (seq 0 n) (seq 0 n))))) as (e & E & F).
  { apply Forall_forall. intros v I. apply in_map_iff in I as ((i & j) & <- & I). apply filter_In in I as [I J]. apply in_prod_iff in I as [I1 I2].
    cbn [fst snd] in *. apply in_seq in I1, I2. apply negb_true_iff, Nat.eqb_neq in J. apply Rabs_pos_lt. intro Z. apply J.
    apply (nodup_value h); [easy | lia | lia | lra]. }
  assert (forall i j, (i < n)%nat -> (j < n)%nat -> i <> j -> e <= Rabs (nth i h 0 - nth j h 0)) as G.
  { intros i j I J N. rewrite Forall_forall in F. apply F. apply in_map_iff. exists (i, j). split; [reflexivity|].
    apply filter_In. split; [apply in_prod_iff; split; apply in_seq; lia | cbn [fst snd]; apply negb_true_iff, Nat.eqb_neq, N]. }
  exists (e / 2). split; [lra|]. intros h' L C. fold n in C.
  assert (forall i j, (i < n)%nat -> (j < n)%nat -> i <> j -> nth i h 0 < nth j h 0 -> nth i h' 0 < nth j h' 0) as M.
  { intros i j I J N H. pose proof (G i j I J N) as K. rewrite Rabs_left in K by lra.
    pose proof (C i I) as Ci. pose proof (C j J) as Cj. apply Rabs_def2 in Ci, Cj. lra. }
  assert (same_order h h') as S.
  { intros i j I J. split; intro H.
    - apply M; [easy | easy | intros ->; lra | easy].
    - destruct (Nat.eq_dec i j) as [-> | N]; [lra|].
      destruct (Rtotal_order (nth i h 0) (nth j h 0)) as [K | [K | K]]; [easy | apply (nodup_value h) in K; [congruence | easy | easy | easy] |].
      pose proof (M j i J I ltac:(congruence) K). lra. }
  assert (NoDup h') as D'.
  { apply (NoDup_nth h' 0). intros i j I J K. destruct (Nat.eq_dec i j) as [|N]; [easy|]. exfalso. rewrite L in I, J. fold n in I, J.
    destruct (Rtotal_order (nth i h 0) (nth j h 0)) as [B | [B | B]];
      [pose proof (M i j I J N B); lra | apply (nodup_value h) in B; easy | pose proof (M j i J I ltac:(congruence) B); lra]. }
  assert (argsort h' = argsort h) as EQ.
  { apply (sorts_unique h'); [easy | apply A |]. apply (sorts_same_order h); [lia | easy | easy | apply A]. }
  unfold order_penalty. rewrite EQ. reflexivity.
Qed.
