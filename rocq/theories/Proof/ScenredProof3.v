From Coq Require Import List Bool Arith ZArith Reals Lra Lia Permutation Sorted.
From Verif Require Import Model.Subsample Model.Stats Model.Metrics Model.Scenred Spec.MetricsSpec Spec.ScenredSpec
  Proof.SeriesProof Proof.SubsampleProof Proof.StatsProof Proof.MetricsProof Proof.ScenredProof Proof.ScenredProof2.
Import ListNotations.
Local Open Scope R_scope.

Definition pair_dec : forall a b : nat * nat, {a = b} + {a <> b}.
Proof. decide equality; apply Nat.eq_dec. Defined.
Definition place (l : list (nat * nat)) (x : nat * nat) : nat :=
  match find_index (fun y => if pair_dec x y then true else false) l with Some k => k | None => 0%nat end.
Lemma place_spec l x d : In x l -> (place l x < length l)%nat /\ nth (place l x) l d = x.
Proof.
  intros H. unfold place. destruct (find_index_ex (fun y => if pair_dec x y then true else false) l x H) as [k E]; [destruct (pair_dec x x); congruence|]. rewrite E.
  destruct (find_index_some _ _ _ d E) as (A & B & _). destruct (pair_dec x (nth k l d)); [auto|discriminate].
Qed.
Lemma place_nth l k d : NoDup l -> (k < length l)%nat -> place l (nth k l d) = k.
Proof. intros Hn Hk. destruct (place_spec l (nth k l d) d (nth_In _ _ Hk)) as [A B]. apply (proj1 (NoDup_nth l d) Hn); auto. Qed.
Lemma place_prefix l1 l2 x : In x l1 -> place (l1 ++ l2) x = place l1 x.
Proof.
  intros H. unfold place. set (f := fun y => if pair_dec x y then true else false).
  assert (f x = true) by (unfold f; destruct (pair_dec x x); congruence).
  revert H. induction l1 as [|a l1 IH]; [contradiction|]. intros Hin. cbn. destruct (f a) eqn:F; [reflexivity|]. destruct Hin as [->|Hin]; [congruence|].
  specialize (IH Hin). destruct (find_index_ex f l1 x Hin H0) as [k E]. rewrite E in *.
  destruct (find_index_ex f (l1 ++ l2) x ltac:(apply in_or_app; auto) H0) as [k' E']. rewrite E' in *. cbn. congruence.
Qed.
Lemma place_next l1 x l2 : ~ In x l1 -> place (l1 ++ x :: l2) x = length l1.
Proof.
  intros H. unfold place. set (f := fun y => if pair_dec x y then true else false).
  replace (find_index f (l1 ++ x :: l2)) with (Some (length l1)); [reflexivity|].
  induction l1 as [|a l1 IH]; cbn.
  - replace (f x) with true; [reflexivity|]. unfold f. destruct (pair_dec x x); congruence.
  - replace (f a) with false; [|unfold f; destruct (pair_dec x a) as [->|]; [exfalso; apply H; cbn; auto|reflexivity]].
    rewrite <- IH; [reflexivity|]. intros Hin. apply H. cbn. auto.
Qed.

Definition le_fst (a b : nat * nat) : Prop := (fst a <= fst b)%nat.
Lemma sorted_app {A} (R : A -> A -> Prop) l1 l2 : StronglySorted R l1 -> StronglySorted R l2 -> (forall a b, In a l1 -> In b l2 -> R a b) -> StronglySorted R (l1 ++ l2).
Proof.
  intros H1 H2 H. induction H1 as [|a l1 H1 IH HF]; [exact H2|]. cbn. constructor.
  - apply IH. intros; apply H; cbn; auto.
  - apply Forall_app. split; [exact HF|]. apply Forall_forall. intros b Hb. apply H; cbn; auto.
Qed.
Lemma sorted_prod m l : forall a, StronglySorted le_fst (list_prod (seq a m) (l : list nat)).
Proof.
  induction m as [|m IH]; intros a; [constructor|]. cbn. apply sorted_app; [|apply IH|].
  - clear IH. induction l as [|x l IHl]; [constructor|]. cbn. constructor; [exact IHl|]. apply Forall_forall. intros y Hy. apply in_map_iff in Hy.
    destruct Hy as (z & <- & _). unfold le_fst. cbn. lia.
  - intros x y Hx Hy. apply in_map_iff in Hx. destruct Hx as (z & <- & _). apply in_prod_iff in Hy || (destruct y; apply in_prod_iff in Hy).
    destruct Hy as [Hy _]. apply in_seq in Hy. unfold le_fst. cbn. lia.
Qed.
Lemma sorted_filter {A} (R : A -> A -> Prop) p l : StronglySorted R l -> StronglySorted R (filter p l).
Proof.
  induction 1 as [|a l H IH HF]; [constructor|]. cbn. destruct (p a); [|exact IH]. constructor; [exact IH|].
  rewrite Forall_forall in *. intros b Hb. apply filter_In in Hb. apply HF, Hb.
Qed.
Lemma sorted_split {A} (R : A -> A -> Prop) l1 a l2 b : StronglySorted R (l1 ++ a :: l2) -> In b l2 -> R a b.
Proof.
  induction l1 as [|c l1 IH]; cbn; intros H Hb; inversion H; subst; [rewrite Forall_forall in *; auto|auto].
Qed.
Lemma nodup_prod {A B} (la : list A) (lb : list B) : NoDup la -> NoDup lb -> NoDup (list_prod la lb).
Proof.
  intros Ha Hb. induction Ha as [|a la Hin Ha IH]; [constructor|]. cbn. 
  assert (Happ : forall (l1 l2 : list (A * B)), NoDup l1 -> NoDup l2 -> (forall x, In x l1 -> ~ In x l2) -> NoDup (l1 ++ l2)).
  { induction l1 as [|x l1 IH1]; intros l2 H1 H2 Hd; [exact H2|]. inversion H1; subst. cbn. constructor.
    - rewrite in_app_iff. intros [|]; [contradiction|]. eapply Hd; [|eassumption]. cbn; auto.
    - apply IH1; auto. intros y Hy. apply Hd. cbn; auto. }
  apply Happ; [|exact IH|].
  - clear -Hb. induction Hb as [|b lb Hin Hb IH]; [constructor|]. cbn. constructor; [|exact IH]. rewrite in_map_iff. intros (z & E & Hz). congruence.
  - intros x Hx Hx2. apply in_map_iff in Hx. destruct Hx as (z & <- & Hz). apply in_prod_iff in Hx2. destruct Hx2. contradiction.
Qed.
Lemma sorted_place_lt l x y : StronglySorted le_fst l -> In x l -> In y l -> (fst x < fst y)%nat -> (place l x < place l y)%nat.
Proof.
  intros Hs Hx Hy Hlt. destruct (place_spec l x (0, 0)%nat Hx) as [A1 A2], (place_spec l y (0, 0)%nat Hy) as [B1 B2].
  destruct (lt_dec (place l x) (place l y)) as [|Hge]; [assumption|]. exfalso.
  assert (place l x <> place l y) by (intros E; rewrite E, B2 in A2; subst; lia).
  set (i := place l y) in *. set (j := place l x) in *. assert (i < j)%nat by lia.
  assert (Hsn : forall (l : list (nat * nat)) i j, StronglySorted le_fst l -> (i < j < length l)%nat -> le_fst (nth i l (0, 0)%nat) (nth j l (0, 0)%nat)).
  { clear. induction l as [|a l IH]; intros i j Hs H; [cbn in H; lia|]. inversion Hs; subst. destruct j as [|j]; [lia|]. destruct i as [|i]; cbn.
    - rewrite Forall_forall in H3. apply H3. apply nth_In. cbn in H. lia.
    - apply IH; auto. cbn in H. lia. }
  specialize (Hsn l i j Hs ltac:(lia)). rewrite A2, B2 in Hsn. unfold le_fst in Hsn. lia.
Qed.

Section Net.
Context {V : Type} (eqd : forall a b : V, {a = b} + {a <> b}) (T n : nat) (SS : nat -> nat -> V) (PP : nat -> nat -> R) (rep : nat -> nat -> nat).
Context (H : scenario_tree T n SS PP rep) (D : distinct_values T n SS PP) (HT : (2 <= T)%nat).
Context (r : nat) (Hr : filter (fun s => Rltb 0 (PP 0%nat s)) (seq 0 n) = [r]).

Lemma alive_root s : (s < n)%nat -> 0 < PP 0%nat s -> s = r.
Proof.
  intros Hs Hp. assert (In s [r]); [|destruct H0 as [|[]]; congruence]. rewrite <- Hr. apply filter_In. split; [apply in_seq; lia|]. apply Rltb_spec, Hp.
Qed.
Lemma root_alive : (r < n)%nat /\ 0 < PP 0%nat r.
Proof. assert (Hin : In r [r]) by (cbn; auto). rewrite <- Hr in Hin. apply filter_In in Hin. destruct Hin as [A B]. apply in_seq in A. apply Rltb_spec in B. split; [lia|auto]. Qed.
Lemma root_prob : PP 0%nat r = 1.
Proof.
  rewrite <- (tree_total T n SS PP rep H (T - 1) ltac:(lia)). replace (T - 1 - (T - 1))%nat with 0%nat by lia.
  unfold sum_over. rewrite (map_ext_in _ (fun s => if Nat.eq_dec r s then PP 0%nat r else 0)).
  - symmetry. apply total_pick; [apply seq_NoDup|]. apply in_seq. pose proof root_alive. lia.
  - intros s Hs. apply in_seq in Hs. destruct (Nat.eq_dec r s) as [->|E]; [reflexivity|].
    pose proof (st_nonneg _ _ _ _ _ H 0%nat s ltac:(lia) ltac:(lia)). destruct (Rlt_dec 0 (PP 0%nat s)) as [Hp|Hp]; [|lra].
    exfalso. apply E. symmetry. apply alive_root; [lia|auto].
Qed.
Lemma rep_root s : (s < n)%nat -> rep 0 s = r.
Proof. intros Hs. destruct (st_node _ _ _ _ _ H 0%nat s ltac:(lia) Hs). apply alive_root; auto. Qed.

Let alv (p : nat * nat) : bool := Rltb 0 (PP (fst p) (snd p)).
Let all := list_prod (seq 1 (T - 1)) (seq 0 n).
Let labels (ps : list (nat * nat)) := (0%nat, r) :: filter alv ps.
Let LL := labels all.
Let node_of (p : nat * nat) : nat * R * V := (fst p, PP (fst p) (snd p), SS (fst p) (snd p)).
Let plab (p : nat * nat) : nat * nat := ((fst p - 1)%nat, rep (fst p - 1)%nat (snd p)).
Let G (ps : list (nat * nat)) : graph V :=
  Graph (map node_of (labels ps)) (map (fun p => (place LL (plab p), place LL p)) (filter alv ps)).

Lemma all_in p : In p all <-> (1 <= fst p < T)%nat /\ (snd p < n)%nat.
Proof. destruct p as [t s]. unfold all. rewrite in_prod_iff, !in_seq. cbn. intuition lia. Qed.
Lemma LL_in p : In p LL -> (fst p < T)%nat /\ (snd p < n)%nat /\ 0 < PP (fst p) (snd p).
Proof.
  intros [<-|Hp]; [cbn; pose proof root_alive; intuition lia|]. apply filter_In in Hp. destruct Hp as [Hp A]. apply all_in in Hp. apply Rltb_spec in A. intuition lia.
Qed.
Lemma in_LL t s : (t < T)%nat -> (s < n)%nat -> 0 < PP t s -> In (t, s) LL.
Proof.
  intros Ht Hs Hp. destruct t as [|t]; [left; f_equal; symmetry; apply alive_root; auto|]. right. apply filter_In. split; [apply all_in; cbn; lia|]. apply Rltb_spec, Hp.
Qed.
Lemma all_nodup : NoDup all. Proof. apply nodup_prod; apply seq_NoDup. Qed.
Lemma LL_nodup : NoDup LL.
Proof. constructor; [|apply NoDup_filter, all_nodup]. intros Hin. apply filter_In in Hin. destruct Hin as [Hin _]. apply all_in in Hin. cbn in Hin. lia. Qed.
Lemma LL_sorted : StronglySorted le_fst LL.
Proof. constructor; [apply sorted_filter, sorted_prod|]. apply Forall_forall. intros p _. unfold le_fst. cbn. lia. Qed.
Lemma plab_in t s : (1 <= t < T)%nat -> (s < n)%nat -> In (plab (t, s)) LL.
Proof. intros Ht Hs. unfold plab. cbn. destruct (st_node _ _ _ _ _ H (t - 1)%nat s ltac:(lia) Hs). apply in_LL; auto. lia. Qed.

Lemma visit_prefix ps : forall rest, all = ps ++ rest -> visit_all eqd SS PP ps (Some (Graph [(0%nat, 1, SS 0%nat r)] [])) = Some (G ps).
Proof.
  induction ps as [|p ps IH] using rev_ind; intros rest E.
  - unfold visit_all, G, labels. cbn. unfold node_of. cbn. rewrite root_prob. reflexivity.
  - unfold visit_all in *. rewrite fold_left_app. cbn [fold_left]. rewrite <- app_assoc in E. cbn in E. rewrite (IH _ E). clear IH.
    assert (Hp : In p all) by (rewrite E; apply in_or_app; cbn; auto). pose proof (proj1 (all_in p) Hp) as [Ht Hs].
    assert (Hnp : ~ In p ps). { pose proof all_nodup as Hn. rewrite E in Hn. apply NoDup_remove_2 in Hn. intros Hin. apply Hn. apply in_or_app. auto. }
    destruct p as [t s]. cbn in Ht, Hs. cbn [fst snd]. unfold visit.
    destruct (Req_EM_T (PP t s) 0) as [Ez|Ez].
    { unfold G, labels. rewrite !filter_app. cbn [filter]. replace (alv (t, s)) with false; [rewrite app_nil_r; reflexivity|]. symmetry. unfold alv. cbn.
      destruct (Rltb 0 (PP t s)) eqn:F; [|reflexivity]. apply Rltb_spec in F. lra. }
    assert (Hpos : 0 < PP t s) by (pose proof (st_nonneg _ _ _ _ _ H t s ltac:(lia) Hs); lra).
    assert (Ha : alv (t, s) = true) by (apply Rltb_spec; exact Hpos).
    assert (Hsub : forall q, In q (labels ps) -> In q LL).
    { intros q [<-|Hq]; [left; reflexivity|]. right. apply filter_In in Hq. apply filter_In. split; [|apply Hq]. rewrite E. apply in_or_app. left. apply Hq. }
    assert (Hnl : ~ In (t, s) (labels ps)).
    { intros [Hq|Hq]; [injection Hq as ?; lia|]. apply filter_In in Hq. apply Hnp, Hq. }
    assert (Hex : existsb (same eqd t (SS t s)) (map node_of (labels ps)) = false).
    { destruct (existsb _ _) eqn:Ee; [|reflexivity]. exfalso. apply existsb_exists in Ee. destruct Ee as (x & Hx & Sx). apply in_map_iff in Hx. destruct Hx as ([t' s'] & <- & Hin).
      unfold same, n_time, n_val, node_of in Sx. cbn in Sx. apply andb_true_iff in Sx. destruct Sx as [S1 S2]. apply Nat.eqb_eq in S1. subst t'.
      destruct (eqd (SS t s') (SS t s)) as [Ev|]; [|discriminate]. destruct (LL_in _ (Hsub _ Hin)) as (B1 & B2 & B3). cbn in B1, B2, B3.
      assert (s' = s) by (apply (D t); auto). subst. contradiction. }
    change (g_nodes (G ps)) with (map node_of (labels ps)). rewrite Hex.
    assert (Hpin : In (plab (t, s)) (labels ps)).
    { pose proof (plab_in t s ltac:(lia) Hs) as [Hq|Hq]; [left; exact Hq|]. right. apply filter_In in Hq. destruct Hq as [Hq1 Hq2]. apply filter_In. split; [|exact Hq2].
      rewrite E in Hq1. apply in_app_or in Hq1. destruct Hq1 as [|[Hq1|Hq1]]; [assumption| |]; exfalso.
      - injection Hq1 as Hq1 _. lia.
      - pose proof (sorted_prod (T - 1) (seq 0 n) 1) as Hso. fold all in Hso. rewrite E in Hso. pose proof (sorted_split _ _ _ _ _ Hso Hq1) as Hle. unfold le_fst, plab in Hle. cbn in Hle. lia. }
    assert (Hsame : same eqd (t - 1) (SS (t - 1)%nat s) (node_of (plab (t, s))) = true).
    { unfold same, n_time, n_val, node_of, plab. cbn. rewrite Nat.eqb_refl. cbn. rewrite <- (st_values _ _ _ _ _ H (t - 1)%nat s) by lia. destruct (eqd _ _); congruence. }
    destruct (find_index_ex (same eqd (t - 1) (SS (t - 1)%nat s)) (map node_of (labels ps)) _ (in_map node_of _ _ Hpin) Hsame) as [x Ex].
    rewrite Ex.
    destruct (find_index_some _ _ _ (node_of (0, r)%nat) Ex) as (X1 & X2 & _). rewrite map_length in X1. rewrite map_nth in X2.
    set (q := nth x (labels ps) (0%nat, r)) in *. assert (Hq : In q (labels ps)) by (apply nth_In; exact X1).
    assert (Eq : q = plab (t, s)).
    { destruct (LL_in _ (Hsub _ Hq)) as (B1 & B2 & B3). clearbody q. destruct q as [t' s']. unfold same, n_time, n_val, node_of in X2. cbn in X2, B1, B2, B3.
      apply andb_true_iff in X2. destruct X2 as [S1 S2]. apply Nat.eqb_eq in S1. subst t'. destruct (eqd _ _) as [Ev|]; [|discriminate].
      unfold plab. cbn. f_equal. destruct (st_node _ _ _ _ _ H (t - 1)%nat s ltac:(lia) Hs) as [N1 N2]. apply (D (t - 1)%nat); auto. rewrite Ev. apply (st_values _ _ _ _ _ H); lia. }
    assert (EL : LL = labels ps ++ (t, s) :: filter alv rest).
    { unfold LL, labels. rewrite E, filter_app. cbn [filter]. replace (alv (t, s)) with true by (symmetry; apply Rltb_spec; exact Hpos). reflexivity. }
    assert (Px : place LL (plab (t, s)) = x).
    { rewrite EL, place_prefix by exact Hpin. rewrite <- Eq. apply place_nth; [|exact X1].
      pose proof LL_nodup as Hn. rewrite EL in Hn. apply NoDup_remove_1 in Hn. clear -Hn. induction (labels ps) as [|a l IHl]; [constructor|].
      cbn in Hn. inversion Hn; subst. constructor; [|apply IHl; assumption]. intros Hin. apply H1. apply in_or_app. auto. }
    assert (Pn : place LL (t, s) = length (labels ps)) by (rewrite EL; apply place_next; exact Hnl).
    change (g_edges (G ps)) with (map (fun p => (place LL (plab p), place LL p)) (filter alv ps)).
    unfold G. replace (labels (ps ++ [(t, s)])) with (labels ps ++ [(t, s)]) by (unfold labels; rewrite filter_app; cbn [filter]; rewrite Ha; reflexivity).
    rewrite !filter_app. cbn [filter]. rewrite Ha. rewrite !map_app. cbn [map]. rewrite Px, Pn, !map_length. reflexivity.
Qed.

Lemma G_edges_ne : g_edges (G all) <> [].
Proof.
  cbn. intros E. apply (f_equal (@length _)) in E. rewrite map_length in E. cbn in E.
  pose proof root_alive as [A B]. assert (Hin : In (1%nat, r) (filter alv all)).
  { apply filter_In. split; [apply all_in; cbn; lia|]. apply Rltb_spec. cbn. apply (st_survive _ _ _ _ _ H); auto; lia. }
  destruct (filter alv all); [contradiction|discriminate].
Qed.
Lemma network_is : get_network eqd T n SS PP = Some (G all).
Proof.
  unfold get_network. rewrite Hr. fold all. rewrite (visit_prefix all []) by (rewrite app_nil_r; reflexivity).
  pose proof G_edges_ne. destruct (g_edges (G all)) eqn:E; [contradiction|reflexivity].
Qed.
Lemma G_time k : (k < length LL)%nat -> time_of (G all) k = fst (nth k LL (0, r)%nat).
Proof.
  intros Hk. unfold time_of. cbn [G g_nodes]. change (labels all) with LL. rewrite map_map. 
  rewrite (nth_indep _ _ (n_time (node_of (0, r)%nat))) by (rewrite map_length; exact Hk). 
  rewrite (map_nth (fun x => n_time (node_of x))). reflexivity.
Qed.
Lemma G_prob k : (k < length LL)%nat -> prob_of (G all) k = PP (fst (nth k LL (0, r)%nat)) (snd (nth k LL (0, r)%nat)).
Proof.
  intros Hk. unfold prob_of. cbn [G g_nodes]. change (labels all) with LL. rewrite map_map. 
  rewrite (nth_indep _ _ (n_prob (node_of (0, r)%nat))) by (rewrite map_length; exact Hk). 
  rewrite (map_nth (fun x => n_prob (node_of x))). reflexivity.
Qed.
Lemma G_time_place p : In p LL -> time_of (G all) (place LL p) = fst p.
Proof. intros Hp. destruct (place_spec LL p (0, r)%nat Hp) as [A B]. rewrite G_time by exact A. rewrite B. reflexivity. Qed.
Lemma G_prob_place p : In p LL -> prob_of (G all) (place LL p) = PP (fst p) (snd p).
Proof. intros Hp. destruct (place_spec LL p (0, r)%nat Hp) as [A B]. rewrite G_prob by exact A. rewrite B. reflexivity. Qed.
Lemma tl_in p : In p (filter alv all) -> In p LL /\ In (plab p) LL /\ (1 <= fst p < T)%nat.
Proof.
  intros Hp. split; [right; exact Hp|]. apply filter_In in Hp. destruct Hp as [Hp _]. apply all_in in Hp. destruct p as [t s]. cbn in Hp.
  split; [apply plab_in; lia|cbn; lia].
Qed.
Lemma net_rooted : rooted_tree (G all).
Proof.
  repeat split.
  - discriminate.
  - cbn [G g_nodes g_edges]. rewrite map_map. cbn [snd]. rewrite map_length. change (labels all) with LL.
    replace (map (fun x => place LL x) (filter alv all)) with (seq 1 (length LL - 1)); [apply Permutation_refl|].
    apply (list_eq_nth _ _ 0%nat); [rewrite seq_length, map_length; unfold LL, labels; cbn; lia|].
    intros i Hi. rewrite seq_length in Hi. rewrite seq_nth by exact Hi.
    rewrite (nth_indep _ _ (place LL (0, 0)%nat)) by (rewrite map_length; unfold LL, labels in Hi; cbn in Hi; lia).
    rewrite map_nth. change (nth i (filter alv all) (0, 0)%nat) with (nth (S i) LL (0, 0)%nat). rewrite place_nth; [reflexivity|apply LL_nodup|lia].
  - cbn [G g_edges] in H0. apply in_map_iff in H0. destruct H0 as (p & E & Hp). injection E as <- <-. destruct (tl_in p Hp) as (A & B & C).
    apply sorted_place_lt; [apply LL_sorted| | |]; auto. cbn. lia.
  - cbn [G g_edges] in H0. apply in_map_iff in H0. destruct H0 as (p & E & Hp). injection E as <- <-. destruct (tl_in p Hp) as (A & B & C).
    rewrite !G_time_place by auto. cbn. lia.
Qed.
Lemma total_filter {A} (f : A -> R) p l : total (map f (filter p l)) = total (map (fun x => if p x then f x else 0) l).
Proof. induction l as [|a l IH]; [reflexivity|]. cbn [filter map]. destruct (p a); cbn [map]; rewrite !total_cons, IH; [reflexivity|lra]. Qed.
Lemma total_prod {A B} (f : A -> B -> R) la lb : total (map (fun p => f (fst p) (snd p)) (list_prod la lb)) = total (map (fun a => total (map (f a) lb)) la).
Proof.
  induction la as [|a la IH]; [reflexivity|]. cbn [list_prod map]. rewrite map_app, total_app, IH, total_cons. f_equal. rewrite map_map. reflexivity.
Qed.
Lemma net_consistent : consistent T (G all).
Proof.
  split.
  - rewrite G_prob by (cbn; lia). apply root_prob.
  - intros k Hk. cbn [G g_nodes] in Hk. rewrite map_length in Hk. change (labels all) with LL in Hk.
    set (q := nth k LL (0, r)%nat). assert (Hq : In q LL) by (apply nth_In; exact Hk). destruct (LL_in q Hq) as (Q1 & Q2 & Q3).
    rewrite G_time, G_prob by exact Hk. fold q. repeat split; auto. intros Hlt.
    unfold children_of. cbn [G g_edges]. rewrite (filter_of_map _ _ _), map_map, map_map. cbn [fst snd].
    rewrite filter_twice. rewrite total_filter.
    rewrite (map_ext_in _ (fun p => (fun u s => if (u =? S (fst q))%nat then (if Nat.eq_dec (rep (fst q) s) (snd q) then PP (S (fst q)) s else 0) else 0) (fst p) (snd p))).
    2:{ intros [u s] Hp. pose proof (proj1 (all_in _) Hp) as [P1 P2]. cbn in P1, P2. cbn [fst snd].
        destruct (alv (u, s)) eqn:Ea.
        - assert (Hf : In (u, s) (filter alv all)) by (apply filter_In; auto). destruct (tl_in _ Hf) as (F1 & F2 & F3).
          rewrite andb_true_l. rewrite G_prob_place by exact F1. cbn [fst snd].
          destruct (place LL (plab (u, s)) =? k)%nat eqn:Ek.
          + apply Nat.eqb_eq in Ek. assert (Eq : q = plab (u, s)) by (unfold q; rewrite <- Ek; apply place_spec; exact F2). rewrite Eq. unfold plab. cbn [fst snd].
            replace (u =? S (u - 1))%nat with true by (symmetry; apply Nat.eqb_eq; lia).
            destruct (Nat.eq_dec _ _); [|congruence]. f_equal; lia.
          + destruct (u =? S (fst q))%nat eqn:Eu; [|reflexivity]. apply Nat.eqb_eq in Eu. destruct (Nat.eq_dec _ _) as [Er|]; [|reflexivity].
            exfalso. apply Nat.eqb_neq in Ek. apply Ek. replace (plab (u, s)) with q; [apply place_nth; [apply LL_nodup|exact Hk]|].
            unfold plab. cbn [fst snd]. rewrite Eu. replace (S (fst q) - 1)%nat with (fst q) by lia. rewrite Er. clearbody q. destruct q; reflexivity.
        - rewrite andb_false_l. destruct (u =? S (fst q))%nat eqn:Eu; [|reflexivity]. apply Nat.eqb_eq in Eu. destruct (Nat.eq_dec _ _); [|reflexivity].
          rewrite <- Eu. unfold alv in Ea. cbn in Ea. pose proof (st_nonneg _ _ _ _ _ H u s ltac:(lia) ltac:(lia)).
          destruct (Rlt_dec 0 (PP u s)) as [X|X]; [apply Rltb_spec in X; congruence|lra]. }
    unfold all. rewrite (total_prod (fun u s => if (u =? S (fst q))%nat then (if Nat.eq_dec (rep (fst q) s) (snd q) then PP (S (fst q)) s else 0) else 0)).
    rewrite (st_children _ _ _ _ _ H (fst q) (snd q)) by auto.
    rewrite (map_ext_in _ (fun u => if Nat.eq_dec (S (fst q)) u then sum_over n (fun s => if Nat.eq_dec (rep (fst q) s) (snd q) then PP (S (fst q)) s else 0) else 0)).
    + apply total_pick; [apply seq_NoDup|]. apply in_seq. lia.
    + intros u _. destruct (Nat.eq_dec (S (fst q)) u) as [E|E].
      * subst u. rewrite Nat.eqb_refl. reflexivity.
      * replace (u =? S (fst q))%nat with false by (symmetry; apply Nat.eqb_neq; lia). apply total_zeros.
Qed.
Lemma net_carries s : (s < n)%nat -> carries T (G all) SS PP s.
Proof.
  intros Hs. exists (map (fun t => place LL (t, rep t s)) (seq 0 T)), (place LL ((T - 1)%nat, s)).
  assert (Hin : forall t, (t < T)%nat -> In (t, rep t s) LL) by (intros t Ht; destruct (st_node _ _ _ _ _ H t s Ht Hs); apply in_LL; auto).
  assert (Hl : rep (T - 1) s = s) by (apply (st_self _ _ _ _ _ H); [lia|auto|apply (st_leaves _ _ _ _ _ H); auto]).
  assert (Hnth : forall t d, (t < T)%nat -> nth t (map (fun t => place LL (t, rep t s)) (seq 0 T)) d = place LL (t, rep t s)).
  { intros t d Ht. rewrite (nth_map_seq (fun t => place LL (t, rep t s))) by exact Ht. reflexivity. }
  split; [|split].
  - repeat split.
    + rewrite map_length, seq_length, G_time_place; [cbn; lia|]. pose proof (Hin (T - 1)%nat ltac:(lia)) as X. rewrite Hl in X. exact X.
    + rewrite Hnth by lia. rewrite rep_root by exact Hs. unfold place, LL, labels. cbn. destruct (Nat.eq_dec r r); [reflexivity|congruence].
    + replace T with (S (T - 1))%nat at 1 by lia. rewrite seq_S, map_app. cbn [map]. rewrite last_last. cbn [plus]. rewrite Hl. reflexivity.
    + rewrite map_length, seq_length. intros i Hi. rewrite !Hnth by lia. cbn [G g_edges]. apply in_map_iff. exists (S i, rep (S i) s). split.
      * f_equal. unfold plab. cbn [fst snd]. replace (S i - 1)%nat with i by lia. rewrite (st_nested _ _ _ _ _ H) by auto. reflexivity.
      * destruct (Hin (S i) Hi) as [E|E]; [discriminate|exact E].
  - rewrite map_length, seq_length. reflexivity.
  - intros t Ht. rewrite Hnth by exact Ht. exists (PP t (rep t s)). split.
    + cbn [G g_nodes]. change (labels all) with LL. destruct (place_spec LL _ (0, r)%nat (Hin t Ht)) as [A B].
      rewrite nth_error_map. rewrite (nth_error_nth' LL (0, r)%nat A), B. cbn. unfold node_of. cbn [fst snd].
      rewrite <- (st_values _ _ _ _ _ H) by auto. reflexivity.
    + intros ->. rewrite Hl. reflexivity.
Qed.
Lemma filter_prod (Q : nat * nat -> bool) (l : list nat) t : forall m a,
  filter (fun p => Q p && (fst p =? t)%nat) (list_prod (seq a m) l) = if (a <=? t)%nat && (t <? a + m)%nat then map (pair t) (filter (fun s => Q (t, s)) l) else [].
Proof.
  assert (Hm : forall u, filter (fun p => Q p && (fst p =? t)%nat) (map (fun y => (u, y)) l) = if (u =? t)%nat then map (pair t) (filter (fun s => Q (t, s)) l) else []).
  { intros u. rewrite filter_of_map. destruct (Nat.eqb_spec u t) as [->|E].
    - f_equal. apply filter_ext. intros s. cbn [fst]. rewrite Nat.eqb_refl, andb_true_r. reflexivity.
    - rewrite (filter_ext _ (fun _ => false)); [induction l; [reflexivity|auto]|]. intros s. cbn [fst]. rewrite (proj2 (Nat.eqb_neq _ _) E), andb_false_r. reflexivity. }
  induction m as [|m IH]; intros a.
  - cbn [seq list_prod filter]. destruct (Nat.leb_spec a t); [|reflexivity]. cbn [andb]. destruct (Nat.ltb_spec t (a + 0)); [lia|reflexivity].
  - cbn [seq list_prod]. rewrite filter_app, Hm, IH. destruct (Nat.eqb_spec a t) as [->|E].
    + replace (S t <=? t)%nat with false by (symmetry; apply Nat.leb_gt; lia). cbn [andb]. rewrite app_nil_r. rewrite Nat.leb_refl. cbn [andb].
      replace (t <? t + S m)%nat with true by (symmetry; apply Nat.ltb_lt; lia). reflexivity.
    + cbn [app]. replace (S a + m)%nat with (a + S m)%nat by lia. replace (S a <=? t)%nat with (a <=? t)%nat; [reflexivity|].
      destruct (Nat.leb_spec a t), (Nat.leb_spec (S a) t); lia.
Qed.
Lemma net_counts t : (t < T)%nat -> length (filter (fun x => (n_time x =? t)%nat) (g_nodes (G all))) = how_many_nodes n (PP t).
Proof.
  intros Ht. cbn [G g_nodes]. rewrite filter_of_map, map_length. unfold how_many_nodes.
  rewrite (filter_ext (fun s => if Rlt_dec 0 (PP t s) then true else false) (fun s => Rltb 0 (PP t s))).
  2:{ intros s. destruct (Rlt_dec 0 (PP t s)) as [X|X]; [symmetry; apply Rltb_spec, X|]. destruct (Rltb 0 (PP t s)) eqn:F; [apply Rltb_spec in F; contradiction|reflexivity]. }
  change (fun a => (n_time (node_of a) =? t)%nat) with (fun a : nat * nat => (fst a =? t)%nat).
  unfold labels. cbn [filter fst]. rewrite filter_twice. unfold all. rewrite filter_prod.
  destruct t as [|t].
  - cbn. rewrite Hr. reflexivity.
  - replace ((1 <=? S t)%nat && (S t <? 1 + (T - 1))%nat) with true by (symmetry; apply andb_true_intro; split; [apply Nat.leb_le|apply Nat.ltb_lt]; lia).
    cbn [Nat.eqb]. rewrite map_length. reflexivity.
Qed.
End Net.
Lemma network_tree {V} (eqd : forall a b : V, {a = b} + {a <> b}) T n (SS : nat -> nat -> V) PP rep :
  scenario_tree T n SS PP rep -> distinct_values T n SS PP -> (2 <= T)%nat -> how_many_nodes n (PP 0%nat) = 1%nat ->
  exists g, get_network eqd T n SS PP = Some g /\ rooted_tree g /\ consistent T g /\
    (forall s, (s < n)%nat -> carries T g SS PP s) /\
    forall t, (t < T)%nat -> length (filter (fun x => (n_time x =? t)%nat) (g_nodes g)) = how_many_nodes n (PP t).
Proof.
  intros H D HT H1. unfold how_many_nodes in H1.
  rewrite (filter_ext (fun s => if Rlt_dec 0 (PP 0%nat s) then true else false) (fun s => Rltb 0 (PP 0%nat s))) in H1.
  2:{ intros s. destruct (Rlt_dec 0 (PP 0%nat s)) as [X|X]; [symmetry; apply Rltb_spec, X|]. destruct (Rltb 0 (PP 0%nat s)) eqn:F; [apply Rltb_spec in F; contradiction|reflexivity]. }
  destruct (filter (fun s => Rltb 0 (PP 0%nat s)) (seq 0 n)) as [|r [|]] eqn:Hr; try discriminate. clear H1.
  eexists. split; [eapply network_is; eauto|]. split; [eapply net_rooted; eauto|]. split; [eapply net_consistent; eauto|].
  split; [intros; eapply net_carries; eauto|]. intros. eapply net_counts; eauto.
Qed.
(** Several first nodes, or none: AssertionError. *)
Lemma network_needs_root {V} (eqd : forall a b : V, {a = b} + {a <> b}) T n (SS : nat -> nat -> V) PP :
  how_many_nodes n (PP 0%nat) <> 1%nat -> get_network eqd T n SS PP = None.
Proof.
  intros H1. unfold how_many_nodes in H1. 
  rewrite (filter_ext (fun s => if Rlt_dec 0 (PP 0%nat s) then true else false) (fun s => Rltb 0 (PP 0%nat s))) in H1.
  2:{ intros s. destruct (Rlt_dec 0 (PP 0%nat s)) as [X|X]; [symmetry; apply Rltb_spec, X|]. destruct (Rltb 0 (PP 0%nat s)) eqn:F; [apply Rltb_spec in F; contradiction|reflexivity]. }
  unfold get_network. destruct (filter (fun s => Rltb 0 (PP 0%nat s)) (seq 0 n)) as [|r [|]]; auto. exfalso. apply H1. reflexivity.
Qed.
(** One step: the network is empty. *)
Lemma network_one_step {V} (eqd : forall a b : V, {a = b} + {a <> b}) n (SS : nat -> nat -> V) PP g :
  get_network eqd 1 n SS PP = Some g -> g_nodes g = [] /\ g_edges g = [].
Proof.
  unfold get_network. destruct (filter _ _) as [|r [|]]; try discriminate. cbn. intros [= <-]. auto.
Qed.
(** Two nodes at a step with the same value: the second is not created. *)
Lemma network_loses_equal {V} (eqd : forall a b : V, {a = b} + {a <> b}) T n (SS : nat -> nat -> V) PP g :
  get_network eqd T n SS PP = Some g ->
  forall i j x y, nth_error (g_nodes g) i = Some x -> nth_error (g_nodes g) j = Some y -> n_time x = n_time y -> n_val x = n_val y -> i = j.
Proof.
  assert (Hv : forall l g0 g1, (forall i j x y, nth_error (g_nodes g0) i = Some x -> nth_error (g_nodes g0) j = Some y -> n_time x = n_time y -> n_val x = n_val y -> i = j) ->
    visit_all eqd SS PP l (Some g0) = Some g1 -> forall i j x y, nth_error (g_nodes g1) i = Some x -> nth_error (g_nodes g1) j = Some y -> n_time x = n_time y -> n_val x = n_val y -> i = j).
  { unfold visit_all. induction l as [|[t s] l IH]; intros g0 g1 H0 E; cbn [fold_left fst snd] in E; [injection E as <-; exact H0|].
    unfold visit at 2 in E. destruct (Req_EM_T _ _); [apply (IH _ _ H0 E)|]. destruct (existsb _ _) eqn:Ex; [apply (IH _ _ H0 E)|].
    destruct (find_index _ _) eqn:Ef.
    - refine (IH _ _ _ E). cbn [g_nodes]. clear E IH.
      assert (Hnew : forall k z, nth_error (g_nodes g0) k = Some z -> n_time z = t -> n_val z = SS t s -> False).
      { intros k z Hk E1 E2. assert (existsb (same eqd t (SS t s)) (g_nodes g0) = true); [|congruence]. apply existsb_exists. exists z. split; [eapply nth_error_In; eauto|].
        unfold same. rewrite E1, Nat.eqb_refl, E2. destruct (eqd _ _); [reflexivity|congruence]. }
      assert (Hcase : forall k z, nth_error (g_nodes g0 ++ [(t, PP t s, SS t s)]) k = Some z -> nth_error (g_nodes g0) k = Some z \/ (k = length (g_nodes g0) /\ z = (t, PP t s, SS t s))).
      { intros k z Hk. destruct (lt_dec k (length (g_nodes g0))) as [L|L]; [left; rewrite nth_error_app1 in Hk; auto|right].
        rewrite nth_error_app2 in Hk by lia. destruct (k - length (g_nodes g0))%nat eqn:Ek; [split; [lia|injection Hk as <-; reflexivity]|]. destruct n2; discriminate. }
      intros i j x y Hx Hy Et Ev. apply Hcase in Hx. apply Hcase in Hy. destruct Hx as [Hx|[-> ->]], Hy as [Hy|[-> ->]]; auto.
      + eapply H0; eauto.
      + exfalso. eapply Hnew; eauto.
      + exfalso. eapply Hnew; [exact Hy|symmetry; exact Et|symmetry; exact Ev].
    - exfalso. clear -E. induction l as [|p l IHl]; [discriminate|]. cbn in E. auto. }
  unfold get_network. destruct (filter _ _) as [|r [|]]; try discriminate. destruct (visit_all _ _ _ _ _) as [g1|] eqn:E; [|discriminate].
  assert (H0 : forall i j x y, nth_error [(0%nat, 1, SS 0%nat r)] i = Some x -> nth_error [(0%nat, 1, SS 0%nat r)] j = Some y -> n_time x = n_time y -> n_val x = n_val y -> i = j).
  { intros [|i] [|j] x y Hx Hy; [reflexivity| | |]; try (destruct j; discriminate Hy); destruct i; discriminate Hx. }
  assert (H1 := Hv _ (Graph [(0%nat, 1, SS 0%nat r)] []) _ H0 E). clear E H0 Hv.
  destruct (g_edges g1); intros [= <-]; [cbn; intros [|] ? ? ?; discriminate|exact H1].
Qed.

Lemma reduction_network {V} (eqd : forall a b : V, {a = b} + {a <> b}) T N dist nearest t0 ns (samples : nat -> nat -> V) n SS PP net :
  (2 <= T)%nat -> (0 < N)%nat -> usable_distance T N dist -> separated T N dist -> finds_smallest nearest ->
  (forall i, (0 < i < T)%nat -> (1 <= node_counts ns i)%nat) ->
  (forall t c d, (t < T)%nat -> (c < N)%nat -> (d < N)%nat -> samples t c = samples t d -> c = d) ->
  scenred eqd T N dist nearest t0 ns samples = ((n, SS, PP), net) ->
  exists g, net = Some g /\ rooted_tree g /\ consistent T g /\
    (forall s, (s < n)%nat -> carries T g SS PP s) /\
    forall t, (t < T)%nat -> length (filter (fun x => (n_time x =? t)%nat) (g_nodes g)) = how_many_nodes n (PP t).
Proof.
  intros HT HN Hd Hs Hn Hc Hdiff HE. assert (HT0 : (0 < T)%nat) by lia.
  destruct (full eqd T N dist nearest t0 ns samples n SS PP net Hd Hn HN HT0 Hc HE) as ((orig & assign & R) & Hnet & _).
  pose proof (reduction_one_root eqd T N dist nearest t0 ns samples n SS PP net HT0 HN Hd Hs Hn Hc HE) as H1.
  pose proof (rd_tree _ _ _ _ _ _ _ _ R) as Htree.
  assert (D : distinct_values T n SS PP).
  { intros t r s Ht Hr Hs' Pr Ps E. rewrite !(rd_values _ _ _ _ _ _ _ _ R) in E by auto.
    pose proof (st_self _ _ _ _ _ Htree t r Ht Hr Pr) as Sr. pose proof (st_self _ _ _ _ _ Htree t s Ht Hs' Ps) as Ss. cbn in Sr, Ss. rewrite Sr, Ss in E.
    apply (rd_distinct _ _ _ _ _ _ _ _ R); auto. apply (Hdiff t); auto; apply (rd_orig _ _ _ _ _ _ _ _ R); auto. }
  destruct (network_tree eqd T n SS PP _ Htree D HT H1) as (g & G1 & G2). exists g. rewrite Hnet. auto.
Qed.
(** All scenarios start from the same value and three or more nodes are asked for at every
    later step: AssertionError. *)
Lemma reduction_same_start {V} (eqd : forall a b : V, {a = b} + {a <> b}) T N dist nearest t0 f (samples : nat -> nat -> V) n SS PP net :
  (2 <= T)%nat -> (3 <= N)%nat -> usable_distance T N dist -> finds_smallest nearest ->
  (forall i, (0 < i < T)%nat -> (3 <= f i)%nat) -> (forall r c, dist 0%nat r c = 0) ->
  scenred eqd T N dist nearest t0 (Some f) samples = ((n, SS, PP), net) -> net = None.
Proof.
  intros HT HN Hd Hn Hc H0 HE.
  destruct (full eqd T N dist nearest t0 (Some f) samples n SS PP net Hd Hn ltac:(lia) ltac:(lia) ltac:(intros i Hi; specialize (Hc i Hi); cbn; lia) HE) as (_ & Hnet & C).
  assert (Hk : forall k, (k < T - 1)%nat -> (3 <= how_many_nodes n (PP (T - 1 - k)%nat))%nat).
  { induction k as [|k IH]; intros Hk.
    - replace (T - 1 - 0)%nat with (T - 1)%nat by lia. destruct (C (T - 1)%nat ltac:(lia)) as (_ & C2 & C3 & _). replace (S (T - 1) =? T)%nat with true in * by (symmetry; apply Nat.eqb_eq; lia).
      destruct (le_lt_dec (forced (node_counts (Some f)) (T - 1)) N) as [L|L]; [|rewrite C3; lia].
      specialize (C2 L). assert (3 <= forced (node_counts (Some f)) (T - 1))%nat by (destruct (T - 1)%nat eqn:E; [lia|apply Hc; lia]). lia.
    - specialize (IH ltac:(lia)). destruct (C (T - 1 - S k)%nat ltac:(lia)) as (_ & C2 & C3 & _). replace (S (T - 1 - S k) =? T)%nat with false in * by (symmetry; apply Nat.eqb_neq; lia).
      replace (S (T - 1 - S k)) with (T - 1 - k)%nat in * by lia.
      destruct (le_lt_dec (forced (node_counts (Some f)) (T - 1 - S k)) (how_many_nodes n (PP (T - 1 - k)%nat))) as [L|L]; [|rewrite C3; lia].
      specialize (C2 L). assert (3 <= forced (node_counts (Some f)) (T - 1 - S k))%nat by (destruct (T - 1 - S k)%nat eqn:E; [lia|apply Hc; lia]). lia. }
  destruct (C 0%nat ltac:(lia)) as (_ & _ & _ & _ & C5). specialize (C5 H0). destruct (Nat.eqb_spec 1 T); [lia|].
  specialize (Hk (T - 2)%nat ltac:(lia)). replace (T - 1 - (T - 2))%nat with 1%nat in Hk by lia.
  rewrite Hnet. apply network_needs_root. lia.
Qed.

(** * Reading the scenarios off a network *)
Lemma retrieve_unfold {V} (g : graph V) : g_nodes g <> [] -> retrieve g =
      let times := map n_time (g_nodes g) in
      let tmax := maximum times in
      let leaves := filter (fun x => (nth x times 0%nat =? tmax)%nat) (seq 0 (length times)) in
      let column x := let path := uniq_sorted (ancestors (length times) (g_edges g) x) ++ [x] in
                      if (length path =? tmax + 1)%nat then Some path
                      else if (length path =? 1)%nat then Some (repeat x (tmax + 1)) else None in
      option_map (fun cols => (cols, leaves))
        (fold_right (fun x acc => match column x, acc with Some c, Some l => Some (c :: l) | _, _ => None end) (Some []) leaves).
Proof. intros H. unfold retrieve. destruct (g_nodes g); [contradiction|reflexivity]. Qed.
Section Retrieve.
Context {V : Type} (g : graph V) (Hg : rooted_tree g).
Let len := length (g_nodes g).

Lemma parents_one x : (1 <= x < len)%nat -> exists p, parents (g_edges g) x = [p] /\ In (p, x) (g_edges g).
Proof.
  intros Hx. destruct Hg as (_ & _ & Hp & _). assert (Hn : NoDup (map snd (g_edges g))) by (eapply Permutation_NoDup; [apply Permutation_sym, Hp|apply seq_NoDup]).
  assert (Hin : In x (map snd (g_edges g))) by (eapply Permutation_in; [apply Permutation_sym, Hp|]; apply in_seq; fold len; lia).
  clear Hp. unfold parents. induction (g_edges g) as [|[a b] l IH]; [contradiction|]. cbn in Hn, Hin. inversion Hn; subst. cbn [filter snd].
  destruct (Nat.eqb_spec b x) as [->|E].
  - exists a. split; [|left; reflexivity]. cbn [map fst]. f_equal. clear -H1. induction l as [|[c d] l IH]; [reflexivity|]. cbn [filter snd]. destruct (Nat.eqb_spec d x) as [->|]; [exfalso; apply H1; cbn; auto|].
    apply IH. intros Hin. apply H1. cbn. auto.
  - destruct Hin as [|Hin]; [contradiction|]. destruct (IH H2 Hin) as (p & P1 & P2). exists p. split; [exact P1|right; exact P2].
Qed.
Lemma parents_root x : (x = 0 \/ len <= x)%nat -> parents (g_edges g) x = [].
Proof.
  intros Hx. unfold parents. rewrite filter_none; [reflexivity|]. intros [a b] Hin. cbn. apply Nat.eqb_neq. intros ->.
  destruct Hg as (_ & _ & Hp & _). assert (In x (map snd (g_edges g))) by (apply in_map_iff; exists (a, x); auto).
  eapply Permutation_in in H; [|exact Hp]. apply in_seq in H. fold len in H. lia.
Qed.
Lemma time_le : forall x, (x < len)%nat -> (time_of g x <= x)%nat.
Proof.
  intros x. induction x as [x IH] using lt_wf_ind. intros Hx. destruct x as [|x]; [destruct Hg as (_ & -> & _); lia|].
  destruct (parents_one (S x) ltac:(lia)) as (p & _ & Hin). destruct Hg as (_ & _ & _ & He). destruct (He _ _ Hin) as [A B]. specialize (IH p A ltac:(lia)). lia.
Qed.
Lemma time_zero x : (x < len)%nat -> time_of g x = 0%nat -> x = 0%nat.
Proof.
  intros Hx Ht. destruct x as [|x]; [reflexivity|]. destruct (parents_one (S x) ltac:(lia)) as (p & _ & Hin). destruct Hg as (_ & _ & _ & He). destruct (He _ _ Hin). lia.
Qed.
Lemma ancestors_path : forall k x fuel, (x < len)%nat -> time_of g x = k -> (k <= fuel)%nat ->
  length (ancestors fuel (g_edges g) x) = k /\ path_to g (rev (ancestors fuel (g_edges g) x) ++ [x]) x /\
  StronglySorted lt (rev (ancestors fuel (g_edges g) x) ++ [x]).
Proof.
  induction k as [|k IH]; intros x fuel Hx Ht Hf.
  - assert (x = 0%nat) by (apply time_zero; auto). subst x.
    replace (ancestors fuel (g_edges g) 0) with (@nil nat) by (destruct fuel; cbn; rewrite ?parents_root by auto; reflexivity).
    split; [reflexivity|]. split; [|cbn; repeat constructor]. unfold path_to. rewrite Ht. cbn. repeat split. lia.
  - assert (x <> 0%nat) by (intros ->; destruct Hg as (_ & E & _); lia). destruct fuel as [|fuel]; [lia|].
    destruct (parents_one x ltac:(lia)) as (p & P1 & P2). cbn [ancestors]. rewrite P1. cbn [flat_map]. rewrite app_nil_r.
    destruct Hg as (_ & _ & _ & He). destruct (He _ _ P2) as [Hlt Hti].
    destruct (IH p fuel ltac:(lia) ltac:(lia) ltac:(lia)) as (A & (B1 & B2 & B3 & B4) & C). cbn [rev length]. split; [lia|]. 
    set (w := rev (ancestors fuel (g_edges g) p) ++ [p]) in *.
    assert (Hw : w <> []) by (unfold w; destruct (rev _); discriminate).
    split.
    + unfold path_to. rewrite app_length, B1, Ht. cbn [length]. split; [lia|]. split; [|split].
      * rewrite app_nth1 by (rewrite B1; lia). rewrite (nth_indep w x p) by (rewrite B1; lia). exact B2.
      * apply last_last.
      * intros i Hi. destruct (Nat.eq_dec (S i) (length w)) as [E|E].
        -- rewrite (app_nth1 w) by lia. rewrite app_nth2 by lia. rewrite <- E, Nat.sub_diag. cbn [nth].
           replace (nth i w 0%nat) with p; [exact P2|]. rewrite <- B3. unfold w in E |- *. rewrite app_length in E. cbn in E. rewrite last_last.
           rewrite app_nth2 by lia. replace (i - length (rev (ancestors fuel (g_edges g) p)))%nat with 0%nat by lia. reflexivity.
        -- rewrite !app_nth1 by lia. apply B4. lia.
    + apply sorted_app; [exact C|repeat constructor|]. intros a b Ha [<-|[]].
      assert (a <= p)%nat; [|lia]. clear -C Ha. unfold w in *. apply in_app_or in Ha. destruct Ha as [Ha|[->|[]]]; [|lia].
      apply in_split in Ha. destruct Ha as (l1 & l2 & E). rewrite E in C. rewrite <- app_assoc in C. cbn in C. assert (a < p)%nat; [|lia].
      eapply sorted_split; [exact C|]. apply in_or_app. right. left. reflexivity.
Qed.

Lemma sorted_lt_app_inv (l : list nat) x : StronglySorted lt (l ++ [x]) -> StronglySorted lt l.
Proof.
  induction l as [|a l IH]; intros H; [constructor|]. cbn in H. inversion H; subst. constructor; [apply IH; auto|]. apply Forall_app in H3. apply H3.
Qed.
Lemma sorted_lt_unique : forall u v : list nat, StronglySorted lt u -> StronglySorted lt v -> (forall h, In h u <-> In h v) -> u = v.
Proof.
  induction u as [|a u IH]; intros [|b v] Hu Hv Hi; [reflexivity| | |].
  - destruct (proj2 (Hi b) (or_introl eq_refl)).
  - destruct (proj1 (Hi a) (or_introl eq_refl)).
  - inversion Hu as [|? ? Hu' Fu]; inversion Hv as [|? ? Hv' Fv]; subst. rewrite Forall_forall in Fu, Fv.
    assert (a = b).
    { destruct (proj1 (Hi a) (or_introl eq_refl)) as [H|H]; [now symmetry|]. destruct (proj2 (Hi b) (or_introl eq_refl)) as [H'|H']; [assumption|].
      specialize (Fu _ H'). specialize (Fv _ H). lia. }
    subst b. f_equal. apply IH; [assumption..|]. intros h. split; intros Hh.
    + destruct (proj1 (Hi h) (or_intror Hh)) as [<-|H]; [|exact H]. specialize (Fu _ Hh). lia.
    + destruct (proj2 (Hi h) (or_intror Hh)) as [<-|H]; [|exact H]. specialize (Fv _ Hh). lia.
Qed.
Lemma uniq_sorted_lt l : StronglySorted lt (uniq_sorted l).
Proof.
  assert (H : forall u, NoDup u -> StronglySorted (fun p q => (Z.of_nat p <= Z.of_nat q)%Z) u -> StronglySorted lt u).
  { induction u as [|a u IH]; intros Hn Hs; [constructor|]. inversion Hn; inversion Hs; subst. constructor; [apply IH; auto|].
    rewrite Forall_forall in *. intros b Hb. specialize (H6 b Hb). assert (a <> b) by (intros ->; contradiction). lia. }
  apply H; [|apply sort_by_sorted]. unfold uniq_sorted. eapply Permutation_NoDup; [apply Permutation_sym, sort_by_perm|]. apply NoDup_nodup.
Qed.
Lemma uniq_sorted_in2 l a : In a (uniq_sorted l) <-> In a l.
Proof. unfold uniq_sorted. rewrite <- (nodup_In Nat.eq_dec l a). split; apply Permutation_in; [|apply Permutation_sym]; apply sort_by_perm. Qed.
Lemma uniq_sorted_rev l : StronglySorted lt (rev l) -> uniq_sorted l = rev l.
Proof. intros H. apply sorted_lt_unique; [apply uniq_sorted_lt|exact H|]. intros h. rewrite uniq_sorted_in2, <- in_rev. reflexivity. Qed.

Lemma retrieve_paths : exists cols, retrieve g =
    Some (cols, filter (fun x => time_of g x =? maximum (map n_time (g_nodes g)))%nat (seq 0 (length (g_nodes g)))) /\
  Forall2 (path_to g) cols (filter (fun x => time_of g x =? maximum (map n_time (g_nodes g)))%nat (seq 0 (length (g_nodes g)))).
Proof.
  rewrite retrieve_unfold by apply Hg. cbv zeta. rewrite map_length.
  change (filter (fun x => nth x (map n_time (g_nodes g)) 0 =? maximum (map n_time (g_nodes g)))%nat (seq 0 (length (g_nodes g))))
    with (filter (fun x => time_of g x =? maximum (map n_time (g_nodes g)))%nat (seq 0 (length (g_nodes g)))).
  set (leaves := filter _ _). set (tmax := maximum (map n_time (g_nodes g))) in *.
  assert (Hl : forall x, In x leaves -> (x < len)%nat /\ time_of g x = tmax).
  { intros x Hx. apply filter_In in Hx. destruct Hx as [A B]. apply in_seq in A. apply Nat.eqb_eq in B. unfold len. split; [lia|exact B]. }
  clearbody leaves. fold len.
  induction leaves as [|x leaves IH]; [exists []; split; [reflexivity|constructor]|].
  destruct IH as (cols & E & F); [intros; apply Hl; cbn; auto|].
  destruct (Hl x ltac:(cbn; auto)) as [Hx Ht]. destruct (ancestors_path tmax x len Hx Ht) as (A & B & C); [pose proof (time_le x Hx); lia|].
  exists ((rev (ancestors len (g_edges g) x) ++ [x]) :: cols). split; [|constructor; auto].
  cbn [fold_right]. rewrite uniq_sorted_rev by (eapply sorted_lt_app_inv; exact C).
  destruct (fold_right _ _ leaves) as [l|]; [|discriminate]. injection E as ->. 
  rewrite app_length, rev_length, A. cbn [length]. rewrite Nat.eqb_refl. reflexivity.
Qed.
End Retrieve.
