(** Shares of the scenarios in the initial trees. *)
From Coq Require Import List Bool Arith ZArith Reals Lra Lia Permutation Sorted.
From Verif Require Import Model.Subsample Model.Stats Model.Metrics Model.Scenred Model.TreeBuild Spec.MetricsSpec Spec.ScenredSpec Spec.TreeBuildSpec Spec.TreeInitSpec
  Proof.SeriesProof Proof.SubsampleProof Proof.StatsProof Proof.MetricsProof Proof.ScenredProof Proof.ScenredProof2 Proof.ScenredProof3 Proof.TreeBuildProof Proof.TreeBuildProof2.
Import ListNotations.
Local Open Scope R_scope.

Lemma child_filter_share row' f m i : share row' f m i (child_filter row' f m i).
Proof.
  unfold child_filter. set (P := fun c => Rltb (quantile (select row' f) (INR i / INR m) - 1 / 1000000) (nth c row' 0) && Rleb (nth c row' 0) (quantile (select row' f) (INR (S i) / INR m))).
  assert (HP : forall c, P c = true <-> in_cell row' f m i c).
  { intros c. unfold P, in_cell, boundary, values_of. rewrite andb_true_iff. unfold Rltb, Rleb. fold (select row' f).
    destruct (Rlt_dec _ _), (Rle_dec _ _); split; intros; try tauto; destruct H; try discriminate; contradiction. }
  cbv zeta. fold P. destruct (filter P f) as [|a l] eqn:E.
  - right. split; [|reflexivity]. intros c Hc Hi. apply HP in Hi. assert (X : In c (filter P f)) by (apply filter_In; auto). rewrite E in X. exact X.
  - left. rewrite <- E. split.
    + exists a. assert (X : In a (filter P f)) by (rewrite E; now left). apply filter_In in X. rewrite HP in X. exact X.
    + intros c. rewrite filter_In, HP. reflexivity.
Qed.

Lemma get_nth {A} (F : nat -> A) ch i k : NoDup ch -> nth_error ch i = Some k ->
  get (map (fun p => (snd p, F (fst p))) (combine (seq 0 (length ch)) ch)) k = Some (F i).
Proof.
  intros Hn Hi. enough (G : forall o, get (map (fun p => (snd p, F (fst p))) (combine (seq o (length ch)) ch)) k = Some (F (o + i)%nat)) by apply (G 0%nat).
  revert i Hi. induction ch as [|a ch IH]; intros i Hi o; [destruct i; discriminate|]. inversion Hn; subst. cbn [length seq combine map]. unfold get. cbn [find fst snd].
  destruct i as [|i]; cbn in Hi.
  - injection Hi as ->. rewrite Nat.eqb_refl. f_equal. f_equal. lia.
  - destruct (Nat.eqb_spec a k) as [->|]; [exfalso; apply H1; eapply nth_error_In, Hi|]. specialize (IH H2 i Hi (S o)). unfold get in IH. rewrite IH. f_equal. f_equal. lia.
Qed.
Lemma get_none {A} (F : nat -> A) ch k : ~ In k ch -> get (map (fun p => (snd p, F (fst p))) (combine (seq 0 (length ch)) ch)) k = None.
Proof.
  intros H. unfold get. destruct (find _ _) as [[a b]|] eqn:E; [|reflexivity]. exfalso. apply find_some in E. destruct E as [E1 E2]. cbn in E2. apply Nat.eqb_eq in E2. subst a.
  apply in_map_iff in E1. destruct E1 as ([x y] & Ey & Hin). injection Ey as <- _. apply in_combine_r in Hin. contradiction.
Qed.

Section Linked.
Context {V : Type} (g : graph V) (scens : nat -> list R).
Context (Hg : rooted_tree g).

Lemma succ_edge j k : In k (successors g j) <-> In (j, k) (g_edges g).
Proof.
  unfold successors. rewrite in_map_iff. split.
  - intros ([a b] & <- & H). apply filter_In in H. destruct H as [H E]. cbn in E. apply Nat.eqb_eq in E. now subst.
  - intros H. exists (j, k). split; [reflexivity|]. apply filter_In. split; [exact H|]. apply Nat.eqb_refl.
Qed.
Lemma targets_distinct : NoDup (map snd (g_edges g)).
Proof. destruct Hg as (_ & _ & Hp & _). eapply Permutation_NoDup; [apply Permutation_sym, Hp|apply seq_NoDup]. Qed.
Lemma succ_distinct j : NoDup (successors g j).
Proof.
  unfold successors. pose proof targets_distinct as Hn. induction (g_edges g) as [|[a b] l IH]; [constructor|]. cbn in Hn. inversion Hn; subst. cbn [filter]. cbn [fst].
  destruct (a =? j)%nat; [|now apply IH]. cbn. constructor; [|now apply IH]. intros H. apply H1. apply in_map_iff in H. destruct H as (e & <- & He). apply filter_In in He. apply in_map, He.
Qed.
Lemma one_parent j j' k : In (j, k) (g_edges g) -> In (j', k) (g_edges g) -> j = j'.
Proof.
  pose proof targets_distinct as Hn. induction (g_edges g) as [|[a b] l IH]; [contradiction|]. cbn in Hn. inversion Hn; subst. intros [A|A] [B|B].
  - congruence.
  - injection A as -> ->. exfalso. apply H1. apply (in_map snd) in B. exact B.
  - injection B as -> ->. exfalso. apply H1. apply (in_map snd) in A. exact A.
  - now apply IH.
Qed.

Definition linked (P : nat -> Prop) (st : init_state) : Prop :=
  forall j, P j -> exists f, get (snd st) j = Some f /\ forall i k, nth_error (successors g j) i = Some k ->
    get (fst st) k = Some (child_value (scens (time_of g j)) f (length (successors g j)) i) /\
    get (snd st) k = Some (child_filter (scens (S (time_of g j))) f (length (successors g j)) i).
Lemma linked_node P j st st' : linked P st -> ~ P j -> (forall a, P a -> (time_of g a <= time_of g j)%nat) ->
  init_node g (scens (time_of g j)) (scens (S (time_of g j))) j (Some st) = Some st' -> linked (fun a => P a \/ a = j) st'.
Proof.
  intros HL Hj Ht E. destruct st as [vals filters]. unfold init_node in E. destruct (get filters j) as [f|] eqn:Ef; [|discriminate]. injection E as <-.
  assert (Hno : forall a, (time_of g a <= time_of g j)%nat -> ~ In a (successors g j)).
  { intros a Ha Hin. apply succ_edge in Hin. destruct Hg as (_ & _ & _ & He). destruct (He _ _ Hin) as [_ X]. lia. }
  intros a [Ha| ->].
  - destruct (HL a Ha) as (fa & E1 & E2). exists fa. cbn [fst snd] in *. split; [rewrite get_app, get_none by (apply Hno, Ht, Ha); exact E1|].
    intros i k Hk. destruct (E2 i k Hk) as [X Y].
    assert (Hk' : ~ In k (successors g j)).
    { intros Hin. apply succ_edge in Hin. apply nth_error_In in Hk. apply succ_edge in Hk. apply Hj. now rewrite <- (one_parent a j k Hk Hin). }
    rewrite !get_app, (get_none (child_value (scens (time_of g j)) f (length (successors g j)))), (get_none (child_filter (scens (S (time_of g j))) f (length (successors g j)))) by exact Hk'. split; assumption.
  - exists f. cbn [fst snd]. split; [rewrite get_app, get_none by (apply Hno; lia); exact Ef|].
    intros i k Hk. rewrite !get_app, (get_nth (child_value (scens (time_of g j)) f (length (successors g j))) _ i k (succ_distinct j) Hk), (get_nth (child_filter (scens (S (time_of g j))) f (length (successors g j))) _ i k (succ_distinct j) Hk). split; reflexivity.
Qed.
Lemma linked_weaken (P Q : nat -> Prop) st : (forall a, Q a -> P a) -> linked P st -> linked Q st.
Proof. intros H L a Ha. apply L, H, Ha. Qed.
Lemma init_nodes_none t js : fold_left (fun st j => init_node g (scens t) (scens (S t)) j st) js None = None.
Proof. induction js; [reflexivity|exact IHjs]. Qed.
Lemma linked_nodes t js : forall P st st', NoDup js -> linked P st -> (forall j, In j js -> ~ P j /\ time_of g j = t) -> (forall a, P a -> (time_of g a <= t)%nat) ->
  fold_left (fun st j => init_node g (scens t) (scens (S t)) j st) js (Some st) = Some st' -> linked (fun a => P a \/ In a js) st'.
Proof.
  induction js as [|j js IH]; intros P st st' Hn HL Hj Ht E.
  - cbn in E. injection E as <-. eapply linked_weaken; [|exact HL]. intros a [H|[]]. exact H.
  - cbn [fold_left] in E. inversion Hn; subst. destruct (Hj j ltac:(now left)) as [Pj Tj].
    destruct (init_node g (scens t) (scens (S t)) j (Some st)) as [st1|] eqn:E1; [|rewrite init_nodes_none in E; discriminate].
    rewrite <- Tj in E1. pose proof (linked_node P j st st1 HL Pj ltac:(intros; rewrite Tj; auto) E1) as L1.
    eapply linked_weaken; [|eapply (IH _ st1 st' H2 L1)].
    + intros a [H|[<-|H]]; [left; left; exact H|left; right; reflexivity|right; exact H].
    + intros j' Hj'. destruct (Hj j' ltac:(now right)) as [A B]. split; [|exact B]. intros [X| ->]; [contradiction|contradiction].
    + intros a [H| ->]; [auto|lia].
    + exact E.
Qed.
Lemma init_steps_none ts : fold_left (init_step g scens) ts None = None.
Proof. induction ts as [|t ts IH]; [reflexivity|]. cbn. unfold init_step at 2. now rewrite init_nodes_none. Qed.
Lemma nodes_at_in t k : In k (nodes_at g t) <-> (k < length (g_nodes g))%nat /\ time_of g k = t.
Proof. unfold nodes_at. rewrite filter_In, in_seq, Nat.eqb_eq. unfold time_of. intuition lia. Qed.
Lemma linked_steps n st : fold_left (init_step g scens) (seq 0 n) (Some ([(0%nat, quantile (scens 0%nat) (1 / 2))], [(0%nat, seq 0 (length (scens 0%nat)))])) = Some st ->
  linked (fun a => (a < length (g_nodes g))%nat /\ (time_of g a < n)%nat) st /\ get (snd st) 0%nat = Some (seq 0 (length (scens 0%nat))).
Proof.
  revert st. induction n as [|n IH]; intros st E.
  - cbn in E. injection E as <-. split; [intros a [_ H]; lia|reflexivity].
  - rewrite seq_S, fold_left_app in E. cbn [fold_left plus] in E.
    destruct (fold_left (init_step g scens) (seq 0 n) _) as [st1|]; [|unfold init_step in E; rewrite init_nodes_none in E; discriminate].
    destruct (IH st1 eq_refl) as [L R0]. unfold init_step in E. split.
    + eapply linked_weaken; [|eapply (linked_nodes n (nodes_at g n) _ st1 st)]; [| |exact L| | |exact E].
      * intros a [A B]. rewrite nodes_at_in. cbn beta. lia.
      * unfold nodes_at. apply NoDup_filter, seq_NoDup.
      * intros j Hj. apply nodes_at_in in Hj. cbn beta. lia.
      * intros a [A B]. lia.
    + assert (G : forall js st st', fold_left (fun st j => init_node g (scens n) (scens (S n)) j st) js (Some st) = Some st' -> get (snd st') 0%nat = get (snd st) 0%nat).
      { induction js as [|j js IHj]; intros s s' Es; [cbn in Es; now injection Es as <-|]. cbn [fold_left] in Es.
        destruct (init_node g (scens n) (scens (S n)) j (Some s)) as [s1|] eqn:E1; [|rewrite init_nodes_none in Es; discriminate].
        rewrite (IHj _ _ Es). unfold init_node in E1. destruct s as [vals filters]. destruct (get filters j); [|discriminate]. injection E1 as <-. cbn [snd]. rewrite get_app, get_none; [reflexivity|].
        intros Hin. apply succ_edge in Hin. destruct Hg as (_ & _ & _ & He). destruct (He _ _ Hin) as [X _]. lia. }
      rewrite (G _ _ _ E). exact R0.
Qed.
End Linked.

Lemma succ_children {V} (g : graph V) j : successors g j = children_of g j.
Proof. reflexivity. Qed.
Lemma parent_in_graph {V} (g : graph V) j k : rooted_tree g -> In (j, k) (g_edges g) -> (j < length (g_nodes g))%nat /\ (k < length (g_nodes g))%nat.
Proof.
  intros Hg H. destruct Hg as (A & _ & Hp & He). destruct (He _ _ H) as [X _]. apply (in_map snd) in H. cbn in H. eapply Permutation_in in H; [|exact Hp]. apply in_seq in H.
  destruct (g_nodes g) eqn:E; [contradiction|]. cbn in *. lia.
Qed.
Lemma initial_cells {V} T (g : graph V) scens vals filters : rooted_tree g -> (forall k, (k < length (g_nodes g))%nat -> (time_of g k < T)%nat) ->
  init_vals T g scens = Some (vals, filters) ->
  get filters 0%nat = Some (seq 0 (length (scens 0%nat))) /\
  forall j i k, nth_error (children_of g j) i = Some k ->
  exists f f', get filters j = Some f /\ get filters k = Some f' /\
    share (scens (S (time_of g j))) f (length (children_of g j)) i f' /\
    get vals k = Some (quantile (values_of (scens (time_of g j)) f) (INR (S i) / INR (length (children_of g j) + 1))).
Proof.
  intros Hg Ht E. destruct (linked_steps g scens Hg (T - 1)%nat (vals, filters) E) as [L R0]. split; [exact R0|].
  intros j i k Hk. pose proof Hk as Hk'. apply nth_error_In in Hk'. rewrite <- succ_children in Hk'. apply (succ_edge g) in Hk'.
  destruct (parent_in_graph g j k Hg Hk') as [Lj Lk]. pose proof (Ht k Lk) as Tk. destruct Hg as (_ & _ & _ & He). destruct (He _ _ Hk') as [_ X].
  destruct (L j) as (f & E1 & E2); [split; [exact Lj|lia]|]. destruct (E2 i k Hk) as [A B]. cbn [fst snd] in *.
  exists f, (child_filter (scens (S (time_of g j))) f (length (successors g j)) i). split; [exact E1|]. split; [exact B|]. split; [apply child_filter_share|exact A].
Qed.

Lemma level_bounds i m : (i <= m)%nat -> (0 < m)%nat -> 0 <= INR i / INR m <= 1.
Proof.
  intros Hi Hm. pose proof (lt_0_INR m Hm). pose proof (pos_INR i). split; [apply Rmult_le_pos; [assumption|left; now apply Rinv_0_lt_compat]|].
  apply (Rmult_le_reg_r (INR m)); [assumption|]. unfold Rdiv. rewrite Rmult_assoc, Rinv_l, Rmult_1_r, Rmult_1_l by lra. apply le_INR, Hi.
Qed.
Lemma values_nonempty row f c : In c f -> values_of row f <> [].
Proof. unfold values_of. destruct f; [contradiction|discriminate]. Qed.
Lemma value_position row f c : In c f -> exists i, (i < length (values_of row f))%nat /\ nth i (rsort (values_of row f)) 0 = nth c row 0.
Proof.
  intros Hc. destruct (In_nth (rsort (values_of row f)) (nth c row 0) 0) as (i & Hi & En).
  - eapply Permutation_in; [apply Permutation_sym, rsort_perm|]. unfold values_of. now apply (in_map (fun c => nth c row 0)).
  - exists i. rewrite rsort_length in Hi. auto.
Qed.
Lemma boundary_first row f m c : In c f -> (0 < m)%nat -> boundary row f m 0 <= nth c row 0.
Proof.
  intros Hc Hm. unfold boundary. replace (INR 0 / INR m) with 0 by (cbn; unfold Rdiv; ring). rewrite quantile_0 by now apply (values_nonempty row f c).
  destruct (value_position row f c Hc) as (i & Hi & En). rewrite <- En. apply sorted_nth_le; [apply rsort_sorted|rewrite rsort_length; lia].
Qed.
Lemma boundary_last row f m c : In c f -> (0 < m)%nat -> nth c row 0 <= boundary row f m m.
Proof.
  intros Hc Hm. unfold boundary. replace (INR m / INR m) with 1 by (field; apply not_0_INR; lia). rewrite quantile_1 by now apply (values_nonempty row f c).
  destruct (value_position row f c Hc) as (i & Hi & En). rewrite <- En. apply sorted_nth_le; [apply rsort_sorted|rewrite rsort_length; lia].
Qed.
Lemma boundary_mono row f m c i i' : In c f -> (i <= i' <= m)%nat -> (0 < m)%nat -> boundary row f m i <= boundary row f m i'.
Proof.
  intros Hc Hi Hm. unfold boundary. apply quantile_monotone; [now apply (values_nonempty row f c)|apply level_bounds; lia| |apply level_bounds; lia].
  apply Rmult_le_compat_r; [left; apply Rinv_0_lt_compat, lt_0_INR, Hm|]. apply le_INR. lia.
Qed.
Lemma first_above (b : nat -> R) x m : (0 < m)%nat -> x <= b m -> exists i, (i < m)%nat /\ x <= b (S i) /\ (i = 0%nat \/ b i < x).
Proof.
  induction m as [|m IH]; [lia|]. intros _ Hx. destruct m as [|m]; [exists 0%nat; repeat split; auto|].
  destruct (Rle_dec x (b (S m))) as [L|L].
  - destruct (IH ltac:(lia) L) as (i & A & B & C). exists i. repeat split; auto.
  - exists (S m). split; [lia|]. split; [exact Hx|]. right. lra.
Qed.
Lemma some_cell row f m c : In c f -> (0 < m)%nat -> exists i, (i < m)%nat /\ in_cell row f m i c.
Proof.
  intros Hc Hm. destruct (first_above (boundary row f m) (nth c row 0) m Hm (boundary_last row f m c Hc Hm)) as (i & A & B & C).
  exists i. split; [exact A|]. split; [|exact B]. destruct C as [-> |C]; [|lra]. pose proof (boundary_first row f m c Hc Hm). lra.
Qed.
Lemma share_keeps row f m i f' c : share row f m i f' -> In c f -> in_cell row f m i c -> In c f'.
Proof. intros [[_ H]|[H ->]] Hc Hi; [apply H; auto|exact Hc]. Qed.

Lemma initial_covered {V} T N (g : graph V) scens vals filters : (0 < N)%nat -> (forall t, (t < T)%nat -> length (scens t) = N) -> rooted_tree g ->
  (forall k, (k < length (g_nodes g))%nat -> (time_of g k < T)%nat /\ ((S (time_of g k) < T)%nat -> children_of g k <> [])) ->
  init_vals T g scens = Some (vals, filters) ->
  forall t c, (t < T)%nat -> (c < N)%nat -> exists k f, (k < length (g_nodes g))%nat /\ time_of g k = t /\ get filters k = Some f /\ In c f.
Proof.
  intros HN Hr Hg Ht E. destruct (initial_cells T g scens vals filters Hg (fun k Hk => proj1 (Ht k Hk)) E) as [R0 L].
  induction t as [|t IH]; intros c Htt Hc.
  - exists 0%nat, (seq 0 (length (scens 0%nat))). destruct Hg as (A & B & _). repeat split; auto; [destruct (g_nodes g); [contradiction|cbn; lia]|]. rewrite Hr by lia. apply in_seq. lia.
  - destruct (IH c ltac:(lia) Hc) as (j & f & Lj & Tj & Ef & Hin). destruct (Ht j Lj) as [_ Hch]. specialize (Hch ltac:(lia)).
    assert (Hm : (0 < length (children_of g j))%nat) by (destruct (children_of g j); [contradiction|cbn; lia]).
    destruct (some_cell (scens (S t)) f (length (children_of g j)) c Hin Hm) as (i & Hi & Hcell).
    destruct (nth_error (children_of g j) i) as [k|] eqn:Ek; [|apply nth_error_None in Ek; lia].
    destruct (L j i k Ek) as (f0 & f' & E1 & E2 & Sh & _). rewrite Ef in E1. injection E1 as <-. rewrite Tj in Sh.
    exists k, f'. pose proof (nth_error_In _ _ Ek) as Hin'. rewrite <- succ_children in Hin'. apply (succ_edge g) in Hin'. split; [apply (parent_in_graph g j k Hg Hin')|].
    split; [destruct Hg as (_ & _ & _ & He); destruct (He _ _ Hin') as [_ X]; lia|]. split; [exact E2|]. eapply share_keeps; eauto.
Qed.
Lemma initial_order {V} T N (g : graph V) scens vals filters j i i' k k' v v' : (0 < N)%nat -> (forall t, (t < T)%nat -> length (scens t) = N) -> rooted_tree g ->
  (forall k, (k < length (g_nodes g))%nat -> (time_of g k < T)%nat) -> init_vals T g scens = Some (vals, filters) ->
  nth_error (children_of g j) i = Some k -> nth_error (children_of g j) i' = Some k' -> (i <= i')%nat -> get vals k = Some v -> get vals k' = Some v' -> v <= v'.
Proof.
  intros HN Hr Hg Ht E Hk Hk' Hi Hv Hv'. destruct (initial_cells T g scens vals filters Hg Ht E) as [_ L].
  destruct (L j i k Hk) as (f & f1 & E1 & E2 & _ & V1). destruct (L j i' k' Hk') as (f0 & f2 & E1' & _ & _ & V2). rewrite E1 in E1'. injection E1' as <-.
  rewrite V1 in Hv. rewrite V2 in Hv'. assert (I : forall a b : R, Some a = Some b -> b = a) by (intros a b [= ->]; reflexivity). rewrite (I _ _ Hv), (I _ _ Hv').
  assert (Hi' : (i' < length (children_of g j))%nat) by (apply nth_error_Some; rewrite Hk'; discriminate).
  apply quantile_monotone; [|apply level_bounds; lia| |apply level_bounds; lia].
  - pose proof (nth_error_In _ _ Hk) as Hin. rewrite <- succ_children in Hin. apply (succ_edge g) in Hin. destruct (parent_in_graph g j k Hg Hin) as [Lj Lk].
    pose proof (Ht k Lk). pose proof (Ht j Lj). destruct (init_steps_ok T N g scens HN Hr Hg Ht (T - 1)%nat ltac:(lia)) as (st & Es & _ & _ & G). unfold init_vals in E. rewrite E in Es. injection Es as <-.
    destruct (G j f E1) as [Gf _]. unfold values_of. destruct f; [contradiction|discriminate].
  - apply Rmult_le_compat_r; [left; apply Rinv_0_lt_compat, lt_0_INR; lia|]. apply le_INR. lia.
Qed.
Lemma initial_overlap {V} T (g : graph V) scens vals filters j i k k' f c : rooted_tree g ->
  (forall k, (k < length (g_nodes g))%nat -> (time_of g k < T)%nat) -> init_vals T g scens = Some (vals, filters) ->
  nth_error (children_of g j) i = Some k -> nth_error (children_of g j) (S i) = Some k' -> get filters j = Some f -> In c f ->
  let row := scens (S (time_of g j)) in let b := boundary row f (length (children_of g j)) (S i) in
  b - 1 / 1000000 < nth c row 0 <= b -> exists f' f'', get filters k = Some f' /\ get filters k' = Some f'' /\ In c f' /\ In c f''.
Proof.
  intros Hg Ht E Hk Hk' Hf Hc row b Hb. destruct (initial_cells T g scens vals filters Hg Ht E) as [_ L].
  destruct (L j i k Hk) as (f1 & f' & E1 & E2 & S1 & _). destruct (L j (S i) k' Hk') as (f2 & f'' & E1' & E2' & S2 & _). rewrite Hf in E1, E1'. injection E1 as <-. injection E1' as <-.
  assert (Hi : (S i < length (children_of g j))%nat) by (apply nth_error_Some; rewrite Hk'; discriminate).
  exists f', f''. split; [exact E2|]. split; [exact E2'|]. unfold b in Hb. split.
  - eapply share_keeps; [exact S1|exact Hc|]. split; [|apply Hb]. fold row. pose proof (boundary_mono row f (length (children_of g j)) c i (S i) Hc ltac:(lia) ltac:(lia)). lra.
  - eapply share_keeps; [exact S2|exact Hc|]. fold row. split; [apply Hb|]. pose proof (boundary_mono row f (length (children_of g j)) c (S i) (S (S i)) Hc ltac:(lia) ltac:(lia)). lra.
Qed.
Lemma initial_apart {V} T (g : graph V) scens vals filters j i i' k k' f f' f'' c : rooted_tree g ->
  (forall k, (k < length (g_nodes g))%nat -> (time_of g k < T)%nat) -> init_vals T g scens = Some (vals, filters) ->
  nth_error (children_of g j) i = Some k -> nth_error (children_of g j) i' = Some k' -> (i < i')%nat ->
  get filters j = Some f -> get filters k = Some f' -> get filters k' = Some f'' -> f' <> f -> f'' <> f -> In c f' -> In c f'' ->
  let row := scens (S (time_of g j)) in let b := boundary row f (length (children_of g j)) in
  b i' - 1 / 1000000 < nth c row 0 <= b (S i).
Proof.
  intros Hg Ht E Hk Hk' Hi Hf Hf' Hf'' N1 N2 C1 C2 row b. destruct (initial_cells T g scens vals filters Hg Ht E) as [_ L].
  destruct (L j i k Hk) as (f1 & g1 & E1 & E2 & S1 & _). destruct (L j i' k' Hk') as (f2 & g2 & E1' & E2' & S2 & _). rewrite Hf in E1, E1'. injection E1 as <-. injection E1' as <-.
  rewrite Hf' in E2. rewrite Hf'' in E2'. injection E2 as <-. injection E2' as <-.
  destruct S1 as [[_ S1]|[_ S1]]; [|contradiction]. destruct S2 as [[_ S2]|[_ S2]]; [|contradiction].
  apply S1 in C1. apply S2 in C2. destruct C1 as [_ [_ B1]], C2 as [_ [B2 _]]. split; assumption.
Qed.
