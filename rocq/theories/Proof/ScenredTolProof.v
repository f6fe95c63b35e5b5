From Coq Require Import List Bool Arith Reals Lra Lia.
From Verif Require Import Model.Subsample Model.Stats Model.Metrics Model.Scenred Spec.MetricsSpec Spec.ScenredSpec
  Proof.SeriesProof Proof.SubsampleProof Proof.StatsProof Proof.MetricsProof Proof.ScenredProof.
Import ListNotations.
Local Open Scope R_scope.

(** * Later steps leave the survivors of a step alone *)
Lemma loop_S {V} T N dist nearest tol nodes fuel i dmax dp dr (st : reduction V) :
  reduce_loop T N dist nearest tol nodes (S fuel) i dmax dp dr st =
  if below_tol dr (tol i) && (nodes i <? branches N st i)%nat then
    let dp' := if Req_EM_T (tol i) infty then dp else dp + cost T N dist st i (removed T N dist st i) in
    reduce_loop T N dist nearest tol nodes fuel i dmax dp' (ratio dp' dmax) (merge T N dist nearest i st)
  else st.
Proof. reflexivity. Qed.
Section Keep.
Context {V : Type} (T N : nat) (dist : nat -> nat -> nat -> R) (nearest : (nat -> R) -> nat -> nat) (tol : nat -> R) (nodes : nat -> nat).
Lemma loop_J fuel : forall i dmax dp dr (st : reduction V) u c, u <> i ->
  J (reduce_loop T N dist nearest tol nodes fuel i dmax dp dr st) u c = J st u c.
Proof.
  induction fuel as [|fuel IH]; intros i dmax dp dr st u c Hu; [reflexivity|]. cbn [reduce_loop]. destruct (_ && _); [|reflexivity].
  rewrite IH by exact Hu. cbn [merge J]. unfold set2. rewrite (proj2 (Nat.eqb_neq u i) Hu). reflexivity.
Qed.
Lemma from_J k : forall (st : reduction V) u c, (k <= u)%nat -> J (reduce_from T N dist nearest tol nodes k st) u c = J st u c.
Proof.
  induction k as [|i IH]; intros st u c Hu; [reflexivity|]. cbn [reduce_from]. rewrite IH by lia.
  assert (E : J (carry i (reduce_step T N dist nearest tol nodes i st)) u c = J (reduce_step T N dist nearest tol nodes i st) u c).
  { destruct i as [|i']; [reflexivity|]. cbn [carry J]. rewrite (proj2 (Nat.eqb_neq u i')) by lia. reflexivity. }
  rewrite E. unfold reduce_step. apply loop_J. lia.
Qed.
Lemma from_top k i (st : reduction V) c : k = S i ->
  J (reduce_from T N dist nearest tol nodes k st) i c = J (reduce_step T N dist nearest tol nodes i st) i c.
Proof.
  intros ->. cbn [reduce_from]. rewrite from_J by lia. destruct i as [|i']; [reflexivity|]. cbn [carry J]. rewrite (proj2 (Nat.eqb_neq (S i') i')) by lia. reflexivity.
Qed.
End Keep.

Lemma fold_min_le (f : nat -> R) l : forall a, fold_left (fun m c => Rmin m (f c)) l a <= a /\ forall c, In c l -> fold_left (fun m c => Rmin m (f c)) l a <= f c.
Proof.
  induction l as [|x l IH]; intros a; cbn [fold_left]; [split; [lra|contradiction]|]. destruct (IH (Rmin a (f x))) as [A B]. split.
  - eapply Rle_trans; [exact A|apply Rmin_l].
  - intros c [<-|Hc]; [eapply Rle_trans; [exact A|apply Rmin_r]|apply B, Hc].
Qed.
Lemma fold_min_ge (f : nat -> R) b l : forall a, b <= a -> (forall c, In c l -> b <= f c) -> b <= fold_left (fun m c => Rmin m (f c)) l a.
Proof.
  induction l as [|x l IH]; intros a Ha H; cbn [fold_left]; [exact Ha|]. apply IH; [apply Rmin_glb; [exact Ha|apply H; cbn; auto]|].
  intros; apply H; cbn; auto.
Qed.

Section First.
Context {V : Type} (T N : nat) (dist : nat -> nat -> nat -> R) (nearest : (nat -> R) -> nat -> nat) (tol : nat -> R) (nodes : nat -> nat) (samples : nat -> nat -> V).
Context (Hdist : usable_distance T N dist) (Hnear : finds_smallest nearest) (HN : (3 <= N)%nat) (HT : (0 < T)%nat).
Let st0 : reduction V := initial N samples.

Lemma alive0 i : alive N st0 i = seq 0 N.
Proof. unfold alive, st0. cbn [initial J]. apply filter_all. auto. Qed.
Lemma column_sum c : (c < N)%nat -> Rsum (map (fun r => if (r =? c)%nat then 0 else dist (T - 1) r c) (seq 0 N)) = sum_over N (fun r => dist (T - 1) r c).
Proof.
  intros Hc. unfold sum_over. assert (E : map (fun r => if (r =? c)%nat then 0 else dist (T - 1) r c) (seq 0 N) = map (fun r => dist (T - 1)%nat r c) (seq 0 N)).
  { apply map_ext_in. intros r Hr. apply in_seq in Hr. destruct (Nat.eqb_spec r c) as [->|]; [|reflexivity]. symmetry. apply (Hdist c c); lia. }
  rewrite E. reflexivity.
Qed.
Lemma delta_max0 m : most_central T N dist m -> delta_max N dist st0 (T - 1) = sum_over N (fun r => dist (T - 1) r m).
Proof.
  intros [Hm Hmin]. unfold delta_max. rewrite alive0. destruct N as [|N'] eqn:EN; [lia|]. rewrite <- EN in *.
  assert (Es : seq 0 N = 0%nat :: seq 1 N') by (rewrite EN; reflexivity).
  set (cs := fun c => Rsum (map (fun r => if (r =? c)%nat then 0 else dist (T - 1)%nat r c) (seq 0 N))).
  assert (Hcs : forall c, (c < N)%nat -> cs c = sum_over N (fun r => dist (T - 1)%nat r c)) by (intros; apply column_sum; auto).
  change (match seq 0 N with [] => 0 | c0 :: l' => fold_left (fun m0 c => Rmin m0 (cs c)) l' (cs c0) end = sum_over N (fun r => dist (T - 1)%nat r m)).
  rewrite Es. apply Rle_antisym.
  - rewrite <- Hcs by exact Hm. destruct (fold_min_le cs (seq 1 N') (cs 0%nat)) as [A B]. destruct m as [|m']; [exact A|]. apply B. apply in_seq. lia.
  - apply fold_min_ge; [rewrite Hcs by lia; apply Hmin; lia|]. intros c Hc. apply in_seq in Hc. rewrite Hcs by lia. apply Hmin. lia.
Qed.
Lemma cost0 a b : closest_pair T N dist a b -> cost T N dist st0 (T - 1) (removed T N dist st0 (T - 1)) = dist (T - 1) a b / INR N.
Proof.
  intros (Ha & Hb & Hab & Hmin). destruct (largest_bounds T N dist Hdist ltac:(lia)) as [LB LG].
  assert (HNp : 0 < / INR N) by (apply Rinv_0_lt_compat, lt_0_INR; lia).
  assert (Hc : forall c, cost T N dist st0 (T - 1) c = column_min T N dist st0 (T - 1) c * / INR N) by reflexivity.
  assert (Hm : forall c r, masked T N dist st0 (T - 1) c r = distance0 T N dist r c) by reflexivity.
  unfold removed. destruct (argmin_spec (cost T N dist st0 (T - 1)) N ltac:(lia)) as [A B]. set (c := argmin _ _) in *. rewrite Hc. unfold Rdiv. f_equal.
  apply Rle_antisym.
  - specialize (B b Hb). rewrite !Hc in B. apply Rmult_le_reg_r in B; [|exact HNp]. eapply Rle_trans; [exact B|]. unfold column_min.
    eapply Rle_trans; [apply (proj2 (argmin_spec (masked T N dist st0 (T - 1) b) N ltac:(lia)) a Ha)|]. rewrite Hm. unfold distance0.
    rewrite (proj2 (Nat.eqb_neq a b) Hab). lra.
  - unfold column_min. destruct (argmin_spec (masked T N dist st0 (T - 1) c) N ltac:(lia)) as [A2 _]. set (r := argmin (masked T N dist st0 (T - 1) c) N) in *. rewrite Hm. unfold distance0.
    destruct (Nat.eqb_spec r c) as [Heq|Hne].
    + pose proof (LG a b Ha Hb). pose proof (proj1 (proj1 (Hdist r c A2 A))). lra.
    + pose proof (Hmin r c A2 A Hne). lra.
Qed.
Lemma central_far a b m : separated T N dist -> closest_pair T N dist a b -> most_central T N dist m ->
  0 < dist (T - 1) a b <= sum_over N (fun r => dist (T - 1) r m).
Proof.
  intros Hs (Ha & Hb & Hab & Hmin) [Hm _]. split; [apply Hs; auto; lia|].
  assert (exists r, (r < N)%nat /\ r <> m) as (r & Hr & Hrm) by (destruct (Nat.eq_dec m 0); [exists 1%nat|exists 0%nat]; lia).
  eapply Rle_trans; [apply (Hmin r m Hr Hm Hrm)|]. unfold sum_over.
  assert (G : forall l, (forall x, In x l -> (x < N)%nat) -> 0 <= total (map (fun x => dist (T - 1)%nat x m) l) /\ (In r l -> dist (T - 1)%nat r m <= total (map (fun x => dist (T - 1)%nat x m) l))).
  { induction l as [|x l IH]; intros Hl; [split; [unfold total; cbn; lra|contradiction]|]. cbn [map]. change (total (?u :: ?v)) with (u + total v).
    destruct (IH ltac:(intros; apply Hl; cbn; auto)) as [P Q]. pose proof (proj1 (proj1 (Hdist x m ltac:(apply Hl; cbn; auto) Hm))). split; [lra|].
    intros [->|Hin]; [lra|]. specialize (Q Hin). lra. }
  apply G; [intros x Hx; apply in_seq in Hx; lia|apply in_seq; lia].
Qed.

Context (Hnodes : nodes (T - 1)%nat = 1%nat).
Lemma first_merges a b m : separated T N dist -> closest_pair T N dist a b -> most_central T N dist m ->
  let n := length (alive N (reduce_step T N dist nearest tol nodes (T - 1) st0) (T - 1)) in
  let first := dist (T - 1)%nat a b / INR N / sum_over N (fun r => dist (T - 1)%nat r m) in
  (tol (T - 1)%nat <= 0 -> n = N) /\ (0 < tol (T - 1)%nat <= first -> n = (N - 1)%nat) /\ (0 < tol (T - 1)%nat -> first < tol (T - 1)%nat -> (n <= N - 2)%nat).
Proof.
  intros Hs Hc Hm. cbv zeta. pose proof (central_far a b m Hs Hc Hm) as [D1 D2].
  assert (HNp : 0 < INR N) by (apply lt_0_INR; lia).
  set (s := sum_over N (fun r => dist (T - 1)%nat r m)) in *. set (d := dist (T - 1)%nat a b) in *.
  assert (Hf : 0 < d / INR N / s <= 1).
  { split; [apply Rdiv_lt_0_compat; [apply Rdiv_lt_0_compat; lra|lra]|]. apply Rmult_le_reg_r with s; [lra|]. unfold Rdiv at 1. rewrite Rmult_assoc, Rinv_l, Rmult_1_r, Rmult_1_l by lra.
    apply Rmult_le_reg_r with (INR N); [lra|]. unfold Rdiv. rewrite Rmult_assoc, Rinv_l, Rmult_1_r by lra.
    assert (1 <= INR N) by (replace 1 with (INR 1) by reflexivity; apply le_INR; lia). nra. }
  pose proof (initial_inv T N tol nodes samples ltac:(lia)) as I0. fold st0 in I0.
  assert (L0 : length (alive N st0 (T - 1)) = N) by (rewrite alive0; apply seq_length).
  destruct (merge_inv T N dist nearest tol nodes samples Hdist Hnear ltac:(lia) _ _ _ I0 ltac:(lia)) as (I1 & _ & _ & _ & L1).
  set (st1 := merge T N dist nearest (T - 1) st0) in *. rewrite L0 in L1.
  assert (B0 : (1 <? branches N st0 (T - 1))%nat = true) by (rewrite (branches_alive N tol nodes samples ltac:(lia) _ _ _ I0); apply Nat.ltb_lt; lia).
  assert (B1 : (1 <? branches N st1 (T - 1))%nat = true) by (rewrite (branches_alive N tol nodes samples ltac:(lia) _ _ _ I1); apply Nat.ltb_lt; lia).
  set (dp1 := if Req_EM_T (tol (T - 1)%nat) infty then 0 else 0 + d / INR N).
  assert (F : forall k, reduce_loop T N dist nearest tol nodes (S k) (T - 1) s 0 (Some 0) st0 =
    if Rltb 0 (tol (T - 1)%nat) then reduce_loop T N dist nearest tol nodes k (T - 1) s dp1 (ratio dp1 s) st1 else st0).
  { intros k. rewrite loop_S, Hnodes, B0, andb_true_r, (cost0 a b Hc). reflexivity. }
  assert (ER : ratio dp1 s = Some (dp1 / s)) by (unfold ratio; destruct (Req_EM_T s 0); [lra|reflexivity]).
  assert (F1 : forall k, exists dp dr st', reduce_loop T N dist nearest tol nodes (S k) (T - 1) s dp1 (Some (dp1 / s)) st1 =
    (if Rltb (dp1 / s) (tol (T - 1)%nat) then reduce_loop T N dist nearest tol nodes k (T - 1) s dp dr st' else st1) /\
    (exists rep, inv N samples (T - 1) st' rep) /\ length (alive N st' (T - 1)) = (N - 2)%nat).
  { intros k. destruct (merge_inv T N dist nearest tol nodes samples Hdist Hnear ltac:(lia) _ _ _ I1 ltac:(lia)) as (I2 & _ & _ & _ & L2).
    rewrite loop_S, Hnodes, B1, andb_true_r. cbn [below_tol]. do 3 eexists. split; [reflexivity|]. split; [eexists; exact I2|]. lia. }
  assert (G : forall dp dr st' k, (exists rep, inv N samples (T - 1) st' rep) -> length (alive N st' (T - 1)) = (N - 2)%nat ->
     (length (alive N (reduce_loop T N dist nearest tol nodes k (T - 1) s dp dr st') (T - 1)) <= N - 2)%nat).
  { intros dp dr st' k [rep I] Hl. destruct (loop_inv T N dist nearest tol nodes samples Hdist Hnear ltac:(lia) k _ s dp dr _ _ I ltac:(lia)) as (? & _ & _ & _ & _ & C & _).
    rewrite Hl in C. exact C. }
  unfold reduce_step. rewrite (delta_max0 m Hm). fold s.
  enough (W : forall f, (2 <= f)%nat -> let n := length (alive N (reduce_loop T N dist nearest tol nodes f (T - 1) s 0 (Some 0) st0) (T - 1)) in
    (tol (T - 1)%nat <= 0 -> n = N) /\ (0 < tol (T - 1)%nat <= d / INR N / s -> n = (N - 1)%nat) /\ (0 < tol (T - 1)%nat -> d / INR N / s < tol (T - 1)%nat -> (n <= N - 2)%nat)).
  { apply (W N). lia. }
  intros f Hf2. cbv zeta. destruct f as [|[|k]]; try lia. rewrite F, ER. destruct (F1 k) as (dp & dr & st' & E1 & I2 & L2). rewrite E1.
  assert (Hinf : infty > 1) by (unfold infty; lra).
  split; [|split].
  - intros Ht. destruct (Rltb 0 _) eqn:E2; [apply Rltb_spec in E2; lra|]. exact L0.
  - intros [Ht1 Ht2]. destruct (Rltb 0 _) eqn:E2; [|assert (Rltb 0 (tol (T - 1)%nat) = true) by (apply Rltb_spec; lra); congruence].
    assert (Ed : dp1 = d / INR N) by (unfold dp1; destruct (Req_EM_T _ _); [lra|lra]).
    rewrite Ed. destruct (Rltb (d / INR N / s) _) eqn:E3; [apply Rltb_spec in E3; lra|]. lia.
  - intros Ht1 Ht2. destruct (Rltb 0 _) eqn:E2; [|assert (Rltb 0 (tol (T - 1)%nat) = true) by (apply Rltb_spec; lra); congruence].
    destruct (Rltb (dp1 / s) _) eqn:E3; [apply G; auto|]. exfalso. assert (Rltb (dp1 / s) (tol (T - 1)%nat) = true); [|congruence].
    apply Rltb_spec. unfold dp1. destruct (Req_EM_T _ _); [unfold Rdiv; lra|]. replace (0 + d / INR N) with (d / INR N) by lra. lra.
Qed.
End First.

Lemma reduction_by_tolerance {V} (eqd : forall a b : V, {a = b} + {a <> b}) T N dist nearest t0 (samples : nat -> nat -> V) n SS PP net a b m :
  (2 <= T)%nat -> (3 <= N)%nat -> usable_distance T N dist -> separated T N dist -> finds_smallest nearest ->
  closest_pair T N dist a b -> most_central T N dist m ->
  scenred eqd T N dist nearest t0 None samples = ((n, SS, PP), net) ->
  let first := dist (T - 1)%nat a b / INR N / sum_over N (fun r => dist (T - 1)%nat r m) in
  let allowed := t0 / (3 / 2) ^ (T + 1) in
  (allowed <= 0 -> n = N) /\ (0 < allowed <= first -> n = (N - 1)%nat) /\ (first < allowed -> (n <= N - 2)%nat).
Proof.
  intros HT HN Hd Hs Hn Hc Hm HE. cbv zeta. unfold scenred in HE. injection HE as E1 E2 E3 E4.
  set (ones := fun _ : nat => 1%nat) in *. cbn [node_counts] in *.
  assert (Et : tolerance T t0 ones (T - 1) = t0 / (3 / 2) ^ (T + 1)).
  { unfold tolerance. replace (all_ones T ones) with true by (symmetry; apply forallb_forall; intros; reflexivity).
    destruct (T - 1)%nat eqn:E; [lia|]. replace (T + 1)%nat with (S n0 + 2)%nat by lia. reflexivity. }
  assert (En : forced ones (T - 1) = 1%nat) by (destruct (T - 1)%nat; reflexivity).
  pose proof (first_merges T N dist nearest (tolerance T t0 ones) (forced ones) samples Hd Hn HN ltac:(lia) En a b m Hs Hc Hm) as F. cbv zeta in F. rewrite Et in F.
  assert (El : n = length (alive N (reduce_step T N dist nearest (tolerance T t0 ones) (forced ones) (T - 1) (initial N samples)) (T - 1))).
  { rewrite <- E1. unfold kept, alive, reduce. f_equal. apply filter_ext. intros c.
    apply from_top. lia. }
  rewrite <- El in F. destruct F as (F1 & F2 & F3). split; [exact F1|]. split; [exact F2|]. intros Hlt. apply F3; [|exact Hlt].
  pose proof (central_far T N dist (fun _ => 0) (fun _ => 0%nat) Hd HN ltac:(lia) a b m Hs Hc Hm) as [D1 D2]. eapply Rlt_trans; [|exact Hlt].
  apply Rdiv_lt_0_compat; [apply Rdiv_lt_0_compat; [lra|apply lt_0_INR; lia]|lra].
Qed.
