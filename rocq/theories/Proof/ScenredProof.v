From Coq Require Import List Bool Arith Reals Lra Lia Permutation.
From Verif Require Import Model.Subsample Model.Stats Model.Metrics Model.Scenred Spec.MetricsSpec Spec.ScenredSpec
  Proof.SeriesProof Proof.SubsampleProof Proof.StatsProof Proof.MetricsProof.
Import ListNotations.
Local Open Scope R_scope.

(** * Minima *)
Lemma argmin_upto_spec f n : (argmin_upto f n <= n)%nat /\ forall j, (j <= n)%nat -> f (argmin_upto f n) <= f j.
Proof.
  induction n as [|n [IH1 IH2]]; cbn.
  - split; [lia|]. intros j Hj. replace j with 0%nat by lia. lra.
  - destruct (Rltb (f (S n)) (f (argmin_upto f n))) eqn:E.
    + apply Rltb_spec in E. split; [lia|]. intros j Hj. destruct (Nat.eq_dec j (S n)) as [->|]; [lra|]. specialize (IH2 j ltac:(lia)). lra.
    + assert (~ f (S n) < f (argmin_upto f n)) by (intros H; apply Rltb_spec in H; congruence).
      split; [lia|]. intros j Hj. destruct (Nat.eq_dec j (S n)) as [->|]; [lra|]. apply IH2. lia.
Qed.
Lemma argmin_spec f n : (0 < n)%nat -> (argmin f n < n)%nat /\ forall j, (j < n)%nat -> f (argmin f n) <= f j.
Proof. intros H. destruct (argmin_upto_spec f (n - 1)) as [A B]. unfold argmin. split; [lia|]. intros j Hj. apply B. lia. Qed.
Lemma argmin_finds : finds_smallest argmin.
Proof. intros f n H. apply argmin_spec, H. Qed.
Lemma max_upto_spec f n : (forall j, (j <= n)%nat -> f j <= max_upto f n) /\ exists j, (j <= n)%nat /\ f j = max_upto f n.
Proof.
  induction n as [|n [IH1 (j0 & H1 & H2)]]; cbn.
  - split; [intros j Hj; replace j with 0%nat by lia; lra|]. exists 0%nat. auto.
  - split.
    + intros j Hj. destruct (Nat.eq_dec j (S n)) as [->|]; [apply Rmax_r|]. eapply Rle_trans; [apply IH1; lia|apply Rmax_l].
    + unfold Rmax. destruct (Rle_dec _ _); [exists (S n)|exists j0]; split; auto.
Qed.
Lemma max_of_ge f n j : (j < n)%nat -> f j <= max_of f n.
Proof. intros H. apply (proj1 (max_upto_spec f (n - 1))). lia. Qed.
Lemma max_of_attained f n : (0 < n)%nat -> exists j, (j < n)%nat /\ f j = max_of f n.
Proof. intros H. destruct (proj2 (max_upto_spec f (n - 1))) as (j & A & B). exists j. split; [lia|exact B]. Qed.

Section Red.
Context {V : Type} (T N : nat) (dist : nat -> nat -> nat -> R) (nearest : (nat -> R) -> nat -> nat)
  (tol : nat -> R) (nodes : nat -> nat) (samples : nat -> nat -> V).
Context (Hdist : usable_distance T N dist) (Hnear : finds_smallest nearest) (HN : (0 < N)%nat).

Lemma largest_bounds : 0 <= largest T N dist < 10 ^ 12 - 1 /\ forall r c, (r < N)%nat -> (c < N)%nat -> dist (T - 1)%nat r c <= largest T N dist.
Proof.
  unfold largest. split.
  - destruct (max_of_attained (fun r => max_of (dist (T - 1)%nat r) N) N HN) as (r & Hr & <-).
    destruct (max_of_attained (dist (T - 1)%nat r) N HN) as (c & Hc & <-). apply (Hdist r c Hr Hc).
  - intros r c Hr Hc. eapply Rle_trans; [apply (max_of_ge (dist (T - 1)%nat r) N c Hc)|].
    apply (max_of_ge (fun r => max_of (dist (T - 1)%nat r) N) N r Hr).
Qed.

Definition members (rep : nat -> nat) (r : nat) : nat := length (filter (fun c => (rep c =? r)%nat) (seq 0 N)).
Record inv (i : nat) (st : reduction V) (rep : nat -> nat) : Prop := {
  i_rep : forall c, (c < N)%nat -> (rep c < N)%nat /\ J st i (rep c) = true;
  i_self : forall c, (c < N)%nat -> J st i c = true -> rep c = c;
  i_prob : forall r, (r < N)%nat -> P st i r = INR (members rep r) / INR N;
  i_merged : forall r c, (r < N)%nat -> (c < N)%nat -> J st i r = true -> L st r c = true <-> (rep c = r /\ c <> r);
  i_vals : forall u c, (u <= i)%nat -> (c < N)%nat -> SC st u c = samples u (rep c) }.

Lemma HNR : 0 < INR N. Proof. apply lt_0_INR, HN. Qed.
Lemma members_dead i st rep r : inv i st rep -> (r < N)%nat -> J st i r = false -> members rep r = 0%nat.
Proof.
  intros I Hr Hj. unfold members. rewrite filter_none; [reflexivity|]. intros c Hc. apply in_seq in Hc. apply Nat.eqb_neq. intros E.
  destruct (i_rep _ _ _ I c ltac:(lia)). congruence.
Qed.
Lemma members_alive i st rep r : inv i st rep -> (r < N)%nat -> J st i r = true -> (1 <= members rep r)%nat.
Proof.
  intros I Hr Hj. unfold members. assert (In r (filter (fun c => (rep c =? r)%nat) (seq 0 N))).
  { apply filter_In. split; [apply in_seq; lia|]. apply Nat.eqb_eq. eapply i_self; eauto. }
  destruct (filter _ _); [contradiction|cbn; lia].
Qed.
Lemma filter_length_le {A} (f : A -> bool) l : (length (filter f l) <= length l)%nat.
Proof. induction l; cbn; [lia|]. destruct (f a); cbn; lia. Qed.
Lemma members_le rep r : (members rep r <= N)%nat.
Proof. unfold members. eapply Nat.le_trans; [apply filter_length_le|]. rewrite seq_length. lia. Qed.
Lemma prob_pos i st rep r : inv i st rep -> (r < N)%nat -> (0 < P st i r <-> J st i r = true).
Proof.
  intros I Hr. rewrite (i_prob _ _ _ I r Hr). pose proof HNR. destruct (J st i r) eqn:E; split; auto; try discriminate.
  - intros _. apply Rdiv_lt_0_compat; [|auto]. apply lt_0_INR. pose proof (members_alive _ _ _ _ I Hr E). lia.
  - rewrite (members_dead _ _ _ _ I Hr E). cbn. unfold Rdiv. lra.
Qed.
Lemma prob_range i st rep r : inv i st rep -> (r < N)%nat -> 0 <= P st i r <= 1.
Proof.
  intros I Hr. rewrite (i_prob _ _ _ I r Hr). pose proof HNR. split.
  - apply Rmult_le_pos; [apply pos_INR|]. left. apply Rinv_0_lt_compat. auto.
  - apply Rmult_le_reg_r with (INR N); [auto|]. unfold Rdiv. rewrite Rmult_assoc, Rinv_l, Rmult_1_r, Rmult_1_l by lra. apply le_INR, members_le.
Qed.
Lemma branches_alive i st rep : inv i st rep -> branches N st i = length (alive N st i).
Proof.
  intros I. unfold branches, alive. f_equal. apply filter_ext_in. intros c Hc. apply in_seq in Hc.
  destruct (J st i c) eqn:E.
  - apply Rltb_spec. apply (prob_pos _ _ _ _ I); [lia|auto].
  - destruct (Rltb 0 (P st i c)) eqn:F; [|reflexivity]. apply Rltb_spec in F. apply (prob_pos _ _ _ _ I) in F; [congruence|lia].
Qed.

Lemma two_alive (st : reduction V) i : (2 <= length (alive N st i))%nat -> exists a b, a <> b /\ (a < N)%nat /\ (b < N)%nat /\ J st i a = true /\ J st i b = true.
Proof.
  intros H. assert (Hn : NoDup (alive N st i)) by (apply NoDup_filter, seq_NoDup).
  assert (Hin : forall x, In x (alive N st i) -> (x < N)%nat /\ J st i x = true).
  { intros x Hx. apply filter_In in Hx. destruct Hx as [Hx ?]. apply in_seq in Hx. split; [lia|auto]. }
  destruct (alive N st i) as [|a [|b l]]; cbn in H; try lia. exists a, b. inversion Hn; subst.
  destruct (Hin a ltac:(cbn; auto)), (Hin b ltac:(cbn; auto)). split; [|auto]. intros ->. apply H2. cbn. auto.
Qed.

(** * One merge *)
Lemma infty_eq : infty = 10 ^ 12. Proof. unfold infty. lra. Qed.
Lemma masked_nonneg (st : reduction V) i c r : (r < N)%nat -> (c < N)%nat -> 0 <= masked T N dist st i c r.
Proof.
  intros Hr Hc. unfold masked, distance0. destruct (_ && _); [|unfold infty; lra]. destruct largest_bounds as [[B _] _].
  pose proof (proj1 (proj1 (Hdist r c Hr Hc))). destruct (r =? c)%nat; lra.
Qed.
Lemma masked_diag (st : reduction V) i c : (c < N)%nat -> J st i c = true -> masked T N dist st i c c = 1 + largest T N dist.
Proof. intros Hc Hj. unfold masked, distance0. rewrite Hj, Nat.eqb_refl. cbn. destruct (Hdist c c Hc Hc) as [_ ->]. lra. Qed.
Lemma removed_alive i st rep : inv i st rep -> (1 <= length (alive N st i))%nat ->
  (removed T N dist st i < N)%nat /\ J st i (removed T N dist st i) = true.
Proof.
  intros I Ha. unfold removed. destruct (argmin_spec (cost T N dist st i) N HN) as [A B]. split; [exact A|].
  destruct (alive N st i) as [|a l] eqn:E; [cbn in Ha; lia|].
  assert (Hin : In a (alive N st i)) by (rewrite E; cbn; auto). apply filter_In in Hin. destruct Hin as [Hin Ja]. apply in_seq in Hin.
  specialize (B a ltac:(lia)). set (m := argmin _ _) in *. destruct (J st i m) eqn:Jm; [reflexivity|]. exfalso.
  unfold cost in B. rewrite Jm, Ja in B.
  assert (column_min T N dist st i a < infty).
  { unfold column_min. eapply Rle_lt_trans; [apply (proj2 (argmin_spec (masked T N dist st i a) N HN) a); lia|].
    rewrite masked_diag by (auto; lia). rewrite infty_eq. destruct largest_bounds as [? _]. lra. }
  assert (0 <= column_min T N dist st i a).
  { unfold column_min. apply masked_nonneg; [|lia]. apply argmin_spec, HN. }
  pose proof (prob_range _ _ _ a I ltac:(lia)). nra.
Qed.
Lemma augmented_alive i st rep : inv i st rep -> (2 <= length (alive N st i))%nat ->
  (augmented T N dist nearest st i < N)%nat /\ J st i (augmented T N dist nearest st i) = true /\
  augmented T N dist nearest st i <> removed T N dist st i.
Proof.
  intros I Ha. destruct (removed_alive i st rep I ltac:(lia)) as [R1 R2]. unfold augmented. set (rem := removed T N dist st i) in *.
  destruct (Hnear (masked T N dist st i rem) N HN) as [A B]. set (aug := nearest _ _) in *. split; [exact A|].
  assert (exists b, b <> rem /\ (b < N)%nat /\ J st i b = true) as (b & Hb & HbN & Jb).
  { destruct (two_alive st i Ha) as (x & y & Hxy & Hx & Hy & Jx & Jy). destruct (Nat.eq_dec x rem) as [->|]; [exists y; auto|exists x; auto]. }
  assert (Hbv : masked T N dist st i rem b <= largest T N dist).
  { unfold masked, distance0. rewrite Jb, R2. cbn. destruct (Nat.eqb_spec b rem); [congruence|]. rewrite Rplus_0_r. apply largest_bounds; auto. }
  specialize (B b HbN). destruct largest_bounds as [[L1 L2] _]. split.
  - destruct (J st i aug) eqn:E; [reflexivity|]. exfalso. unfold masked at 1 in B. rewrite E in B. cbn in B. rewrite infty_eq in B. lra.
  - intros E. rewrite E in B. rewrite masked_diag in B by auto. lra.
Qed.

Definition relabel (rem aug : nat) (rep : nat -> nat) (c : nat) : nat := if (rep c =? rem)%nat then aug else rep c.
Lemma members_relabel rem aug rep r : rem <> aug ->
  members (relabel rem aug rep) r = if (r =? rem)%nat then 0%nat else if (r =? aug)%nat then (members rep rem + members rep aug)%nat else members rep r.
Proof.
  intros Hne. unfold members, relabel. destruct (Nat.eqb_spec r rem) as [->|Hr].
  - rewrite filter_none; [reflexivity|]. intros c _. destruct (Nat.eqb_spec (rep c) rem); apply Nat.eqb_neq; congruence.
  - destruct (Nat.eqb_spec r aug) as [->|Hr2].
    + induction (seq 0 N) as [|c l IH]; [reflexivity|]. cbn [filter].
      destruct (Nat.eqb_spec (rep c) rem) as [E|E].
      * rewrite Nat.eqb_refl. rewrite (proj2 (Nat.eqb_neq (rep c) aug)) by congruence. cbn [length]. lia.
      * destruct (Nat.eqb_spec (rep c) aug); cbn [length]; lia.
    + f_equal. apply filter_ext. intros c. destruct (Nat.eqb_spec (rep c) rem) as [E|E]; [|reflexivity].
      rewrite E. rewrite (proj2 (Nat.eqb_neq aug r)), (proj2 (Nat.eqb_neq rem r)) by congruence. reflexivity.
Qed.

Definition same_above (i : nat) (st st' : reduction V) : Prop :=
  forall u c, (i < u)%nat -> J st' u c = J st u c /\ P st' u c = P st u c /\ SC st' u c = SC st u c.
Lemma merge_inv i st rep : inv i st rep -> (2 <= length (alive N st i))%nat ->
  let st' := merge T N dist nearest i st in
  let rem := removed T N dist st i in let aug := augmented T N dist nearest st i in
  inv i st' (relabel rem aug rep) /\ same_above i st st' /\
  (forall c, J st' i c = true -> J st i c = true) /\ (forall c, (c < N)%nat -> relabel rem aug rep (rep c) = relabel rem aug rep c) /\
  S (length (alive N st' i)) = length (alive N st i).
Proof.
  intros I Ha. cbv zeta. destruct (removed_alive i st rep I ltac:(lia)) as [R1 R2]. destruct (augmented_alive i st rep I Ha) as (A1 & A2 & A3).
  set (rem := removed T N dist st i) in *. set (aug := augmented T N dist nearest st i) in *.
  assert (Er : rep rem = rem) by (eapply i_self; eauto). assert (Ea : rep aug = aug) by (eapply i_self; eauto).
  assert (HJ : forall c, J (merge T N dist nearest i st) i c = if (c =? rem)%nat then false else J st i c).
  { intros c. cbn [merge J]. unfold set2. rewrite Nat.eqb_refl. reflexivity. }
  split; [|split; [|split; [|split]]].
  - constructor.
    + intros c Hc. rewrite HJ. unfold relabel. destruct (i_rep _ _ _ I c Hc) as [H1 H2]. destruct (Nat.eqb_spec (rep c) rem) as [E|E].
      * rewrite (proj2 (Nat.eqb_neq aug rem) A3). auto.
      * rewrite (proj2 (Nat.eqb_neq (rep c) rem) E). auto.
    + intros c Hc. rewrite HJ. destruct (Nat.eqb_spec c rem) as [|E]; [discriminate|]. intros Hj. unfold relabel.
      rewrite (i_self _ _ _ I c Hc Hj), (proj2 (Nat.eqb_neq c rem) E). reflexivity.
    + intros r Hr. rewrite members_relabel by auto. cbn [merge P]. fold rem aug. unfold set2. rewrite Nat.eqb_refl. cbn [andb].
      destruct (Nat.eqb_spec r rem); [cbn; unfold Rdiv; lra|]. destruct (Nat.eqb_spec r aug).
      * rewrite plus_INR, (i_prob _ _ _ I rem R1), (i_prob _ _ _ I aug A1). unfold Rdiv. lra.
      * apply (i_prob _ _ _ I r Hr).
    + intros r c Hr Hc. rewrite HJ. destruct (Nat.eqb_spec r rem) as [|Hne]; [discriminate|]. intros Jr.
      cbn [merge L]. fold rem aug. unfold set2. unfold relabel.
      pose proof (i_merged _ _ _ I rem c R1 Hc R2) as Lrem. pose proof (i_merged _ _ _ I aug c A1 Hc A2) as Laug. pose proof (i_merged _ _ _ I r c Hr Hc Jr) as Lr.
      rewrite (proj2 (Nat.eqb_neq rem aug)) by auto. cbn [andb].
      destruct (Nat.eqb_spec r aug) as [->|Hra]; cbn [andb].
      * destruct (L st rem c) eqn:E1.
        -- destruct (proj1 Lrem eq_refl) as [H1 H2]. rewrite H1, Nat.eqb_refl. split; [|auto]. intros _. split; [reflexivity|]. intros ->. congruence.
        -- destruct (Nat.eqb_spec c rem) as [->|E2].
           ++ rewrite Er, Nat.eqb_refl. split; auto.
           ++ rewrite Laug. destruct (Nat.eqb_spec (rep c) rem) as [E3|E3]; [|tauto].
              exfalso. assert (false = true) by (apply Lrem; auto). discriminate.
      * rewrite Lr. destruct (Nat.eqb_spec (rep c) rem) as [E3|E3]; [|tauto]. split; intros [? ?]; congruence.
    + intros u c Hu Hc. cbn [merge SC]. fold rem aug. unfold set2. rewrite (proj2 (Nat.eqb_neq rem aug)) by auto. cbn [andb].
      rewrite (proj2 (Nat.leb_le u i) Hu). cbn [andb]. unfold relabel.
      pose proof (i_merged _ _ _ I rem c R1 Hc R2) as Lrem. rewrite (proj2 (Nat.eqb_neq aug rem) A3).
      destruct (L st rem c) eqn:E1.
      * destruct (proj1 Lrem eq_refl) as [H1 _]. rewrite H1, Nat.eqb_refl. rewrite (i_vals _ _ _ I u aug Hu A1), Ea. reflexivity.
      * destruct (Nat.eqb_spec c rem) as [->|E2].
        -- rewrite Er, Nat.eqb_refl, (i_vals _ _ _ I u aug Hu A1), Ea. reflexivity.
        -- rewrite (i_vals _ _ _ I u c Hu Hc). destruct (Nat.eqb_spec (rep c) rem) as [E3|E3]; [|reflexivity].
           exfalso. assert (false = true) by (apply Lrem; auto). discriminate.
  - intros u c Hu. cbn [merge J P SC]. unfold set2. rewrite (proj2 (Nat.eqb_neq u i)) by lia. rewrite (proj2 (Nat.leb_gt u i)) by lia. cbn. auto.
  - intros c. rewrite HJ. destruct (c =? rem)%nat; [discriminate|auto].
  - intros c Hc. unfold relabel at 1 2. destruct (i_rep _ _ _ I c Hc) as [H1 H2]. rewrite (i_self _ _ _ I (rep c) H1 H2). reflexivity.
  - unfold alive. rewrite (filter_ext (J (merge T N dist nearest i st) i) (fun c => if (c =? rem)%nat then false else J st i c)) by exact HJ.
    assert (Hc : forall l, NoDup l -> In rem l -> S (length (filter (fun c => if (c =? rem)%nat then false else J st i c) l)) = length (filter (J st i) l)).
    { induction l as [|c l IH]; [contradiction|]. intros Hn Hin. inversion Hn; subst. cbn [filter]. destruct (Nat.eqb_spec c rem) as [->|E].
      - rewrite R2. cbn [length]. f_equal. f_equal. apply filter_ext_in. intros d Hd. destruct (Nat.eqb_spec d rem); [congruence|reflexivity].
      - destruct Hin as [|Hin]; [congruence|]. destruct (J st i c); cbn [length]; rewrite <- (IH H2 Hin); reflexivity. }
    apply Hc; [apply seq_NoDup|apply in_seq; lia].
Qed.

(** * One step *)
Definition finer (rep rep' : nat -> nat) : Prop := forall c, (c < N)%nat -> rep' (rep c) = rep' c.
Lemma loop_inv fuel : forall i dmax dp dr st rep, inv i st rep -> (1 <= nodes i)%nat ->
  exists rep', let st' := reduce_loop T N dist nearest tol nodes fuel i dmax dp dr st in
    inv i st' rep' /\ same_above i st st' /\ (forall c, J st' i c = true -> J st i c = true) /\ finer rep rep' /\
    (length (alive N st' i) <= length (alive N st i))%nat /\
    ((nodes i <= length (alive N st i))%nat -> (nodes i <= length (alive N st' i))%nat) /\
    ((length (alive N st i) <= nodes i)%nat -> length (alive N st' i) = length (alive N st i)) /\
    (tol i = infty -> dmax <> 0 -> dp = 0 -> dr = Some 0 -> (length (alive N st i) <= fuel + nodes i)%nat ->
       length (alive N st' i) = Nat.min (nodes i) (length (alive N st i))) /\
    (dmax = 0 -> (length (alive N st i) <= S (length (alive N st' i)))%nat).
Proof.
  induction fuel as [|fuel IH]; intros i dmax dp dr st rep I Hn; cbn [reduce_loop].
  - exists rep. cbv zeta. split; [exact I|]. split; [intros u c Hu; auto|]. split; [auto|]. split.
    { intros c Hc. destruct (i_rep _ _ _ I c Hc). eapply i_self; eauto. }
    split; [lia|]. split; [lia|]. split; [auto|]. split; intros; lia.
  - destruct (below_tol dr (tol i) && (nodes i <? branches N st i)%nat) eqn:E.
    + apply andb_true_iff in E. destruct E as [E1 E2]. apply Nat.ltb_lt in E2. rewrite (branches_alive _ _ _ I) in E2.
      destruct (merge_inv i st rep I ltac:(lia)) as (I' & SA & Jm & Fin & Len).
      set (st1 := merge T N dist nearest i st) in *. set (rep1 := relabel _ _ rep) in *.
      set (dp' := if Req_EM_T (tol i) infty then dp else dp + cost T N dist st i (removed T N dist st i)).
      destruct (IH i dmax dp' (ratio dp' dmax) st1 rep1 I' Hn) as (rep' & I2 & SA2 & Jm2 & Fin2 & C1 & C2 & C3 & C4 & C5).
      exists rep'. cbv zeta. split; [exact I2|]. split.
      { intros u c Hu. destruct (SA u c Hu) as (a1 & a2 & a3), (SA2 u c Hu) as (b1 & b2 & b3). rewrite b1, b2, b3. auto. }
      split; [intros c Hc; apply Jm, Jm2, Hc|]. split.
      { intros c Hc. destruct (i_rep _ _ _ I c Hc) as [H1 H2]. rewrite <- (Fin2 (rep c) H1), (Fin c Hc), (Fin2 c Hc). reflexivity. }
      split; [lia|]. split; [intros _; apply C2; lia|]. split; [lia|]. split.
      { intros Ht Hd Hp Hr Hf. rewrite C4; [lia|exact Ht|exact Hd| | |lia].
        - unfold dp'. destruct (Req_EM_T _ _); [exact Hp|congruence].
        - unfold dp', ratio. destruct (Req_EM_T (tol i) infty); [|congruence]. destruct (Req_EM_T dmax 0); [congruence|]. rewrite Hp. f_equal. unfold Rdiv. lra. }
      intros Hd. unfold ratio. destruct (Req_EM_T dmax 0) as [_|]; [|congruence].
      destruct fuel; cbn [reduce_loop below_tol andb]; lia.
    + exists rep. cbv zeta. split; [exact I|]. split; [intros u c Hu; auto|]. split; [auto|]. split.
      { intros c Hc. destruct (i_rep _ _ _ I c Hc). eapply i_self; eauto. }
      apply andb_false_iff in E. split; [lia|]. split; [lia|]. split; [auto|]. split; [|lia].
      intros Ht Hd Hp Hr Hf. destruct E as [E|E].
      * exfalso. rewrite Hr, Ht in E. cbn in E. assert (Rltb 0 infty = true) by (apply Rltb_spec; unfold infty; lra). congruence.
      * apply Nat.ltb_ge in E. rewrite (branches_alive _ _ _ I) in E. lia.
Qed.
(** The bound on the number of merges is never reached. *)
Lemma loop_fuel fuel : forall i dmax dp dr st rep, inv i st rep -> (1 <= nodes i)%nat -> (length (alive N st i) <= fuel + nodes i)%nat ->
  reduce_loop T N dist nearest tol nodes (S fuel) i dmax dp dr st = reduce_loop T N dist nearest tol nodes fuel i dmax dp dr st.
Proof.
  induction fuel as [|fuel IH]; intros i dmax dp dr st rep I Hn Hf.
  - cbn [reduce_loop]. rewrite (branches_alive _ _ _ I). destruct (Nat.ltb_spec (nodes i) (length (alive N st i))); [lia|]. rewrite andb_false_r. reflexivity.
  - cbn [reduce_loop]. destruct (below_tol dr (tol i) && (nodes i <? branches N st i)%nat) eqn:E; [|reflexivity].
    apply andb_true_iff in E. destruct E as [E1 E2]. apply Nat.ltb_lt in E2. rewrite (branches_alive _ _ _ I) in E2.
    destruct (merge_inv i st rep I ltac:(lia)) as (I' & SA & Jm & Fin & Len). apply (IH i _ _ _ _ _ I' Hn). lia.
Qed.

Lemma initial_inv : inv (T - 1) (initial N samples) (fun c => c).
Proof.
  constructor; cbn [initial J P L SC]; auto; try discriminate.
  - intros r Hr. replace (members (fun c => c) r) with 1%nat; [cbn; unfold Rdiv; lra|]. unfold members.
    assert (H : forall l, NoDup l -> In r l -> length (filter (fun c => (c =? r)%nat) l) = 1%nat).
    { induction l as [|c l IH]; [contradiction|]. intros Hn Hin. inversion Hn; subst. cbn [filter]. destruct (Nat.eqb_spec c r) as [->|E].
      - cbn. rewrite filter_none; [reflexivity|]. intros d Hd. apply Nat.eqb_neq. congruence.
      - apply IH; [auto|]. destruct Hin; [congruence|auto]. }
    symmetry. apply H; [apply seq_NoDup|apply in_seq; lia].
  - intros r c _ _ _. split; [discriminate|]. intros [-> H]. congruence.
Qed.

Lemma Rmin_pos_fold (f : nat -> R) l : forall a, 0 < a -> (forall c, In c l -> 0 < f c) -> 0 < fold_left (fun m c => Rmin m (f c)) l a.
Proof.
  induction l as [|c l IH]; intros a Ha H; [exact Ha|]. cbn [fold_left]. apply IH; [apply Rmin_glb_lt; [exact Ha|apply H; cbn; auto]|].
  intros; apply H; cbn; auto.
Qed.
Lemma delta_max_pos (st : reduction V) i : separated T N dist -> (i < T)%nat -> (2 <= length (alive N st i))%nat -> 0 < delta_max N dist st i.
Proof.
  intros Hs Hi Ha. unfold delta_max.
  assert (Hn : NoDup (alive N st i)) by (apply NoDup_filter, seq_NoDup).
  assert (Hb : forall c, In c (alive N st i) -> (c < N)%nat) by (intros c Hc; apply filter_In in Hc; destruct Hc as [Hc _]; apply in_seq in Hc; lia).
  set (l := alive N st i) in *. set (cs := fun c => Rsum (map (fun r => if (r =? c)%nat then 0 else dist i r c) l)).
  assert (Hc : forall c, In c l -> 0 < cs c).
  { intros c Hc. unfold cs.
    assert (Hge : forall l0, incl l0 l -> 0 <= Rsum (map (fun r => if (r =? c)%nat then 0 else dist i r c) l0)).
    { induction l0 as [|r l0 IH]; intros Hin; [cbn; lra|]. cbn [map]. unfold Rsum in *. cbn [fold_right].
      assert (0 <= (if (r =? c)%nat then 0 else dist i r c)).
      { destruct (Nat.eqb_spec r c); [lra|]. left. apply Hs; auto. apply Hb, Hin; cbn; auto. }
      specialize (IH ltac:(intros x Hx; apply Hin; cbn; auto)). lra. }
    assert (exists d, In d l /\ d <> c) as (d & Hd & Hdc).
    { destruct l as [|x [|y l0]]; cbn in Ha; try lia. inversion Hn; subst. destruct (Nat.eq_dec x c) as [->|]; [|exists x; cbn; auto].
      exists y. split; [cbn; auto|]. intros ->. apply H1. cbn. auto. }
    apply in_split in Hd. destruct Hd as (l1 & l2 & El). rewrite El, map_app. unfold Rsum. rewrite fold_right_app. cbn [map fold_right].
    rewrite (proj2 (Nat.eqb_neq d c)) by exact Hdc.
    assert (Hfr : forall (m : list R) a, fold_right Rplus a m = Rsum m + a).
    { induction m as [|x m IH]; intros a; unfold Rsum in *; cbn; [lra|]. rewrite IH. lra. }
    rewrite Hfr. pose proof (Hge l1 ltac:(rewrite El; intros x Hx; apply in_or_app; auto)).
    pose proof (Hge l2 ltac:(rewrite El; intros x Hx; apply in_or_app; cbn; auto)). unfold Rsum in *.
    assert (0 < dist i d c).
    { apply Hs; [exact Hi|apply Hb; rewrite El; apply in_or_app; cbn; auto|apply Hb; exact Hc|exact Hdc]. }
    lra. }
  destruct l as [|c0 l0]; [cbn in Ha; lia|]. apply (Rmin_pos_fold cs l0); [apply Hc; cbn; auto|]. intros; apply Hc; cbn; auto.
Qed.

Lemma delta_max_zero (st : reduction V) i : (forall r c, dist i r c = 0) -> delta_max N dist st i = 0.
Proof.
  intros H. unfold delta_max. cbv zeta.
  set (cs := fun c => Rsum (map (fun r => if (r =? c)%nat then 0 else dist i r c) (alive N st i))).
  assert (Hc : forall c, cs c = 0).
  { intros c. unfold cs. generalize (alive N st i). induction l as [|r l IH]; [reflexivity|]. cbn [map]. unfold Rsum in *. cbn [fold_right]. rewrite IH, H.
    destruct (r =? c)%nat; lra. }
  enough (Hf : forall l, fold_left (fun m c => Rmin m (cs c)) l 0 = 0).
  { revert Hf Hc. unfold cs. destruct (alive N st i) as [|c0 l]; [reflexivity|]. intros Hf Hc. rewrite Hc. apply Hf. }
  induction l as [|c l IH]; [reflexivity|]. cbn [fold_left]. rewrite Hc. unfold Rmin. destruct (Rle_dec _ _); exact IH.
Qed.
Definition count_at (st : reduction V) (t : nat) : nat := length (alive N st t).
Definition step_counts (t before after : nat) : Prop :=
  (after <= before)%nat /\ ((nodes t <= before)%nat -> (nodes t <= after)%nat) /\ ((before <= nodes t)%nat -> after = before) /\
  (tol t = infty -> separated T N dist -> (t < T)%nat -> after = Nat.min (nodes t) before) /\
  ((forall r c, dist t r c = 0) -> (before <= S after)%nat).
Lemma step_inv i st rep : inv i st rep -> (1 <= nodes i)%nat ->
  exists rep', let st' := reduce_step T N dist nearest tol nodes i st in
    inv i st' rep' /\ same_above i st st' /\ (forall c, J st' i c = true -> J st i c = true) /\ finer rep rep' /\
    step_counts i (count_at st i) (count_at st' i).
Proof.
  intros I Hn. unfold reduce_step. destruct (loop_inv N i (delta_max N dist st i) 0 (Some 0) st rep I Hn) as (rep' & I' & SA & Jm & Fin & C1 & C2 & C3 & C4 & C5).
  exists rep'. cbv zeta. do 4 (split; [assumption|]). unfold step_counts, count_at in *. do 3 (split; [assumption|]). split.
  2: { intros H0. apply C5. apply delta_max_zero, H0. }
  intros Ht Hs Hi. destruct (le_lt_dec 2 (length (alive N st i))) as [H2|H2].
  - apply C4; auto; [pose proof (delta_max_pos st i Hs Hi H2); lra|].
    assert (length (alive N st i) <= N)%nat; [|lia]. unfold alive. eapply Nat.le_trans; [apply filter_length_le|]. rewrite seq_length. lia.
  - rewrite C3 by lia. lia.
Qed.
Lemma carry_inv i st rep : inv (S i) st rep -> inv i (carry (S i) st) rep /\ same_above i st (carry (S i) st) /\
  (forall c, J (carry (S i) st) i c = J st (S i) c).
Proof.
  intros I. split; [|split].
  - constructor; cbn [carry J P L SC]; rewrite ?Nat.eqb_refl; try apply I. intros u c Hu Hc. apply (i_vals _ _ _ I); lia.
  - intros u c Hu. cbn [carry J P SC]. rewrite (proj2 (Nat.eqb_neq u i)) by lia. auto.
  - intros c. cbn. rewrite Nat.eqb_refl. reflexivity.
Qed.

Record settled (t : nat) (st : reduction V) (rep : nat -> nat) : Prop := {
  s_rep : forall c, (c < N)%nat -> (rep c < N)%nat /\ J st t (rep c) = true;
  s_self : forall c, (c < N)%nat -> J st t c = true -> rep c = c;
  s_prob : forall r, (r < N)%nat -> P st t r = INR (members rep r) / INR N;
  s_vals : forall c, (c < N)%nat -> SC st t c = samples t (rep c) }.
Lemma inv_settled i st rep : inv i st rep -> settled i st rep.
Proof. intros I. constructor; try apply I. intros c Hc. apply (i_vals _ _ _ I); auto. Qed.
Lemma settled_above i t st st' rep : settled t st rep -> (i < t)%nat -> same_above i st st' -> settled t st' rep.
Proof.
  intros H Ht SA. constructor.
  - intros c Hc. destruct (SA t (rep c) Ht) as (-> & _). apply (s_rep _ _ _ H c Hc).
  - intros c Hc. destruct (SA t c Ht) as (-> & _). apply (s_self _ _ _ H c Hc).
  - intros c Hc. destruct (SA t c Ht) as (_ & -> & _). apply (s_prob _ _ _ H c Hc).
  - intros c Hc. destruct (SA t c Ht) as (_ & _ & ->). apply (s_vals _ _ _ H c Hc).
Qed.
Lemma same_above_trans i j st1 st2 st3 : (i <= j)%nat -> same_above j st1 st2 -> same_above i st2 st3 -> same_above j st1 st3.
Proof. intros Hij A B u c Hu. destruct (A u c Hu) as (a1 & a2 & a3), (B u c ltac:(lia)) as (b1 & b2 & b3). rewrite b1, b2, b3. auto. Qed.
Lemma count_above i st st' t : same_above i st st' -> (i < t)%nat -> count_at st' t = count_at st t.
Proof. intros SA Ht. unfold count_at, alive. f_equal. apply filter_ext. intros c. apply (SA t c Ht). Qed.

Lemma from_inv k : forall st rep0, inv k st rep0 -> (forall i, (i <= k)%nat -> (1 <= nodes i)%nat) ->
  exists reps, let st' := reduce_from T N dist nearest tol nodes (S k) st in
    (forall t, (t <= k)%nat -> settled t st' (reps t)) /\ same_above k st st' /\ (forall c, J st' k c = true -> J st k c = true) /\
    finer rep0 (reps k) /\ (forall t, (t < k)%nat -> finer (reps (S t)) (reps t)) /\
    (forall t c, (t < k)%nat -> J st' t c = true -> J st' (S t) c = true) /\
    (forall t, (t < k)%nat -> step_counts t (count_at st' (S t)) (count_at st' t)) /\ step_counts k (count_at st k) (count_at st' k).
Proof.
  induction k as [|k IH]; intros st rep0 I Hn.
  - destruct (step_inv 0 st rep0 I (Hn 0%nat (le_n _))) as (rep' & I' & SA & Jm & Fin & Cn).
    exists (fun _ => rep'). cbn [reduce_from carry]. cbv zeta. split; [|split; [|split; [|split; [|split; [|split; [|split]]]]]]; auto; try lia.
    intros t Ht. replace t with 0%nat by lia. apply inv_settled, I'.
  - destruct (step_inv (S k) st rep0 I (Hn (S k) (le_n _))) as (rep' & I' & SA & Jm & Fin & Cn).
    set (st1 := reduce_step T N dist nearest tol nodes (S k) st) in *.
    destruct (carry_inv k st1 rep' I') as (I2 & SA2 & Jc).
    destruct (IH (carry (S k) st1) rep' I2 ltac:(intros; apply Hn; lia)) as (reps & R1 & R2 & R3 & R4 & R5 & R6 & R7 & R8).
    exists (fun t => if (t =? S k)%nat then rep' else reps t).
    change (reduce_from T N dist nearest tol nodes (S (S k)) st) with (reduce_from T N dist nearest tol nodes (S k) (carry (S k) st1)).
    cbv zeta. set (st' := reduce_from T N dist nearest tol nodes (S k) (carry (S k) st1)) in *.
    assert (SA3 : same_above k st1 st') by (eapply same_above_trans; [apply le_n|exact SA2|exact R2]).
    split; [|split; [|split; [|split; [|split; [|split; [|split]]]]]].
    + intros t Ht. destruct (Nat.eqb_spec t (S k)) as [->|]; [|apply R1; lia]. eapply settled_above; [apply inv_settled, I'| |exact SA3]. lia.
    + intros u c Hu. destruct (SA3 u c ltac:(lia)) as (a1 & a2 & a3), (SA u c Hu) as (b1 & b2 & b3). rewrite a1, a2, a3. auto.
    + intros c. destruct (SA3 (S k) c ltac:(lia)) as (-> & _). apply Jm.
    + rewrite Nat.eqb_refl. exact Fin.
    + intros t Ht. rewrite (proj2 (Nat.eqb_neq t (S k))) by lia. destruct (Nat.eqb_spec (S t) (S k)) as [E|]; [|apply R5; lia].
      injection E as ->. exact R4.
    + intros t c Ht Hj. destruct (Nat.eq_dec t k) as [->|]; [|apply R6; auto; lia].
      destruct (SA3 (S k) c ltac:(lia)) as (-> & _). rewrite <- Jc. apply R3, Hj.
    + intros t Ht. destruct (Nat.eq_dec t k) as [->|]; [|apply R7; lia].
      rewrite (count_above k st1 st' (S k) SA3 ltac:(lia)).
      replace (count_at st1 (S k)) with (count_at (carry (S k) st1) k); [exact R8|]. unfold count_at, alive. f_equal. apply filter_ext. exact Jc.
    + rewrite (count_above k st1 st' (S k) SA3 ltac:(lia)). exact Cn.
Qed.

Lemma reduce_facts : (0 < T)%nat -> (forall i, (i < T)%nat -> (1 <= nodes i)%nat) ->
  exists reps, let st := reduce T N dist nearest tol nodes samples in
    (forall t, (t < T)%nat -> settled t st (reps t)) /\ (forall t, (S t < T)%nat -> finer (reps (S t)) (reps t)) /\
    (forall t c, (S t < T)%nat -> J st t c = true -> J st (S t) c = true) /\
    (forall t, (t < T)%nat -> step_counts t (if (S t =? T)%nat then N else count_at st (S t)) (count_at st t)).
Proof.
  intros HT Hn. destruct (from_inv (T - 1) (initial N samples) (fun c => c) initial_inv) as (reps & R1 & R2 & R3 & R4 & R5 & R6 & R7 & R8).
  { intros i Hi. apply Hn. lia. }
  exists reps. cbv zeta. unfold reduce. replace (S (T - 1)) with T in * by lia.
  split; [intros t Ht; apply R1; lia|]. split; [intros t Ht; apply R5; lia|]. split; [intros t c Ht; apply R6; lia|].
  intros t Ht. destruct (Nat.eqb_spec (S t) T) as [E|E]; [|apply R7; lia].
  replace t with (T - 1)%nat by lia. replace N with (count_at (initial N samples) (T - 1)) at 1; [exact R8|].
  unfold count_at, alive. cbn [initial J]. rewrite filter_all by auto. apply seq_length.
Qed.
End Red.
