From Coq Require Import List Bool Arith Reals Lra Lia Permutation.
From Verif Require Import Model.Subsample Model.Stats Model.Metrics Model.Scenred Spec.MetricsSpec Spec.ScenredSpec
  Proof.SeriesProof Proof.SubsampleProof Proof.StatsProof Proof.MetricsProof Proof.ScenredProof.
Import ListNotations.
Local Open Scope R_scope.

(** * Positions *)
Lemma find_index_some {A} (f : A -> bool) l k d : find_index f l = Some k -> (k < length l)%nat /\ f (nth k l d) = true /\ forall j, (j < k)%nat -> f (nth j l d) = false.
Proof.
  revert k. induction l as [|a l IH]; intros k H; [discriminate|]. cbn in H. destruct (f a) eqn:E.
  - injection H as <-. cbn. split; [lia|]. split; [exact E|lia].
  - destruct (find_index f l) as [k'|]; [|discriminate]. injection H as <-. destruct (IH k' eq_refl) as (A1 & A2 & A3). cbn. split; [lia|]. split; [exact A2|].
    intros [|j] Hj; [exact E|]. apply A3. lia.
Qed.
Lemma find_index_ex {A} (f : A -> bool) l a : In a l -> f a = true -> exists k, find_index f l = Some k.
Proof.
  induction l as [|b l IH]; [contradiction|]. intros Hin E. cbn. destruct (f b) eqn:F; [eauto|]. destruct Hin as [->|Hin]; [congruence|].
  destruct (IH Hin E) as [k ->]. cbn. eauto.
Qed.
Definition pos (l : list nat) (x : nat) : nat := match find_index (Nat.eqb x) l with Some k => k | None => 0%nat end.
Lemma pos_spec l x d : In x l -> (pos l x < length l)%nat /\ nth (pos l x) l d = x.
Proof.
  intros H. unfold pos. destruct (find_index_ex (Nat.eqb x) l x H (Nat.eqb_refl x)) as [k E]. rewrite E.
  destruct (find_index_some _ _ _ d E) as (A & B & _). apply Nat.eqb_eq in B. auto.
Qed.
Lemma pos_nth l k d : NoDup l -> (k < length l)%nat -> pos l (nth k l d) = k.
Proof. intros Hn Hk. destruct (pos_spec l (nth k l d) d (nth_In _ _ Hk)) as [A B]. apply (proj1 (NoDup_nth l d) Hn); auto. Qed.

Lemma sum_over_nth (l : list nat) (f : nat -> R) d : sum_over (length l) (fun k => f (nth k l d)) = total (map f l).
Proof. unfold sum_over. f_equal. rewrite <- (map_map (fun k => nth k l d) f). f_equal. apply map_seq_nth. Qed.

Lemma total_zeros {A} (l : list A) : total (map (fun _ => 0) l) = 0.
Proof. rewrite total_const. lra. Qed.

(** Counting members group by group. *)
Lemma total_one (Q : nat -> bool) x : forall l, NoDup l -> In x l -> total (map (fun s => if Q s && (x =? s)%nat then 1 else 0) l) = if Q x then 1 else 0.
Proof.
  induction l as [|s l IH]; [contradiction|]. intros Hn Hin. inversion Hn; subst. cbn [map]. rewrite total_cons. destruct (Nat.eqb_spec x s) as [->|E].
  - rewrite (map_ext_in _ (fun _ => 0)).
    + rewrite total_zeros. destruct (Q s); cbn; lra.
    + intros s' Hs'. destruct (Nat.eqb_spec s s') as [->|]; [contradiction|]. rewrite andb_false_r. reflexivity.
  - destruct Hin as [|Hin]; [congruence|]. rewrite IH by auto. rewrite andb_false_r. lra.
Qed.
Lemma total_members (Q : nat -> bool) (rep : nat -> nat) cols : NoDup cols -> forall l, (forall c, In c l -> In (rep c) cols) ->
  total (map (fun s => if Q s then INR (length (filter (fun c => (rep c =? s)%nat) l)) else 0) cols) = INR (length (filter (fun c => Q (rep c)) l)).
Proof.
  intros Hn. induction l as [|c l IH]; intros H.
  - cbn [filter length INR]. rewrite (map_ext _ (fun _ => 0)) by (intros s; destruct (Q s); reflexivity). apply total_zeros.
  - rewrite (map_ext _ (fun s => (if Q s && (rep c =? s)%nat then 1 else 0) + (if Q s then INR (length (filter (fun c => (rep c =? s)%nat) l)) else 0))).
    + rewrite total_map_add, (total_one Q (rep c) cols Hn) by (apply H; cbn; auto). rewrite IH by (intros; apply H; cbn; auto). cbn [filter].
      destruct (Q (rep c)); cbn [length]; rewrite ?S_INR; lra.
    + intros s. cbn [filter]. destruct (Q s); cbn [andb]; [|lra]. destruct (rep c =? s)%nat; cbn [length]; rewrite ?S_INR; lra.
Qed.

(** * Consequences of being a scenario tree *)
Section Tree.
Context {V : Type} (T n : nat) (SS : nat -> nat -> V) (PP : nat -> nat -> R) (rep : nat -> nat -> nat) (H : scenario_tree T n SS PP rep).
Lemma total_swap (f : nat -> nat -> R) : forall la lb, total (map (fun a => total (map (f a) lb)) la) = total (map (fun b => total (map (fun a => f a b) la)) lb).
Proof.
  induction la as [|a la IH]; intros lb; cbn [map].
  - symmetry. apply total_zeros.
  - rewrite total_cons, IH, <- total_map_add. reflexivity.
Qed.
Lemma total_pick a x : forall l, NoDup l -> In x l -> total (map (fun r => if Nat.eq_dec x r then a else 0) l) = a.
Proof.
  induction l as [|s l IH]; [contradiction|]. intros Hn Hin. inversion Hn; subst. cbn [map]. rewrite total_cons. destruct (Nat.eq_dec x s) as [->|E].
  - rewrite (map_ext_in _ (fun _ => 0)); [rewrite total_zeros; lra|]. intros s' Hs'. destruct (Nat.eq_dec s s') as [->|]; [contradiction|reflexivity].
  - destruct Hin as [|Hin]; [congruence|]. rewrite IH by auto. lra.
Qed.
Lemma tree_total k : (k < T)%nat -> sum_over n (PP (T - 1 - k)%nat) = 1.
Proof.
  induction k as [|k IH]; intros Hk; [rewrite Nat.sub_0_r; apply (st_total _ _ _ _ _ H)|].
  rewrite <- IH by lia. set (t := (T - 1 - S k)%nat). replace (T - 1 - k)%nat with (S t) by (unfold t; lia).
  unfold sum_over. rewrite (map_ext_in _ (fun r => total (map (fun s => if Nat.eq_dec (rep t s) r then PP (S t) s else 0) (seq 0 n)))).
  - rewrite total_swap. f_equal. apply map_ext_in. intros s Hs. apply in_seq in Hs. apply total_pick; [apply seq_NoDup|].
    apply in_seq. pose proof (st_node _ _ _ _ _ H t s ltac:(unfold t; lia) ltac:(lia)). lia.
  - intros r Hr. apply in_seq in Hr. apply (st_children _ _ _ _ _ H); [unfold t; lia|lia].
Qed.
Lemma rep_nested t : (t < T)%nat -> forall u s, (u <= t)%nat -> (s < n)%nat -> rep u (rep t s) = rep u s.
Proof.
  intros Ht u s Hu. revert Ht s. induction Hu as [|t Hu IH]; intros Ht s Hs.
  - destruct (st_node _ _ _ _ _ H u s Ht Hs) as [A B]. apply (st_self _ _ _ _ _ H); auto.
  - assert (Hr : (rep (S t) s < n)%nat) by (apply (st_node _ _ _ _ _ H); auto).
    rewrite <- (IH ltac:(lia) (rep (S t) s) Hr), <- (IH ltac:(lia) s Hs). rewrite (st_nested _ _ _ _ _ H t s) by auto. reflexivity.
Qed.
Lemma tree_shared t u s : (s < n)%nat -> (t < T)%nat -> (u <= t)%nat -> SS u s = SS u (rep t s).
Proof.
  intros Hs Ht Hu. rewrite (st_values _ _ _ _ _ H u s) by lia. rewrite (st_values _ _ _ _ _ H u (rep t s)); [|lia|apply (st_node _ _ _ _ _ H); auto].
  rewrite rep_nested by auto. reflexivity.
Qed.
End Tree.

Lemma filter_of_map {A B} (f : A -> B) (p : B -> bool) l : filter p (map f l) = map f (filter (fun a => p (f a)) l).
Proof. induction l as [|a l IH]; [reflexivity|]. cbn. destruct (p (f a)); cbn; now rewrite IH. Qed.
Lemma filter_twice {A} (p q : A -> bool) l : filter p (filter q l) = filter (fun a => q a && p a) l.
Proof. induction l as [|a l IH]; [reflexivity|]. cbn. destruct (q a); cbn; [destruct (p a)|]; now rewrite IH. Qed.

Section Main.
Context {V : Type} (eqd : forall a b : V, {a = b} + {a <> b}) (T N : nat) (dist : nat -> nat -> nat -> R) (nearest : (nat -> R) -> nat -> nat)
  (tol : nat -> R) (nodes : nat -> nat) (samples : nat -> nat -> V).
Context (Hdist : usable_distance T N dist) (Hnear : finds_smallest nearest) (HN : (0 < N)%nat) (HT : (0 < T)%nat)
  (Hnodes : forall i, (i < T)%nat -> (1 <= nodes i)%nat).
Let st := reduce T N dist nearest tol nodes samples.
Let cols := kept T N st.
Let n := length cols.
Let orig k := nth k cols 0%nat.
Let SS u k := SC st u (orig k).
Let PP u k := P st u (orig k).

Lemma cols_nodup : NoDup cols. Proof. apply NoDup_filter, seq_NoDup. Qed.
Lemma cols_in c : In c cols <-> (c < N)%nat /\ J st (T - 1) c = true.
Proof. unfold cols, kept. rewrite filter_In, in_seq. intuition lia. Qed.
Lemma orig_lt k : (k < n)%nat -> (orig k < N)%nat.
Proof. intros Hk. apply cols_in. apply nth_In. exact Hk. Qed.

Lemma settled_pos reps t r : settled N samples t st (reps t) -> (r < N)%nat -> (0 < P st t r <-> J st t r = true).
Proof.
  intros S0 Hr. assert (Hpos : 0 < INR N) by (apply lt_0_INR, HN). rewrite (s_prob _ _ _ _ _ S0 r Hr). destruct (J st t r) eqn:E; split; auto; try discriminate.
  - intros _. apply Rdiv_lt_0_compat; [|auto]. apply lt_0_INR. unfold members.
    assert (In r (filter (fun c => (reps t c =? r)%nat) (seq 0 N))).
    { apply filter_In. split; [apply in_seq; lia|]. apply Nat.eqb_eq. apply (s_self _ _ _ _ _ S0); auto. }
    destruct (filter _ _); [contradiction|cbn; lia].
  - replace (members N (reps t) r) with 0%nat; [cbn; unfold Rdiv; lra|]. unfold members. rewrite filter_none; [reflexivity|].
    intros c Hc. apply in_seq in Hc. apply Nat.eqb_neq. intros E2. destruct (s_rep _ _ _ _ _ S0 c ltac:(lia)). congruence.
Qed.

Lemma main_tree : exists assign, reduced T N n samples SS PP orig assign /\
  (forall t, (t < T)%nat -> how_many_nodes n (PP t) = count_at N st t) /\
  forall t, (t < T)%nat -> step_counts T N dist tol nodes t (if (S t =? T)%nat then N else count_at N st (S t)) (count_at N st t).
Proof.
  destruct (reduce_facts T N dist nearest tol nodes samples Hdist Hnear HN HT Hnodes) as (reps & R1 & R2 & R3 & R4). fold st in R1, R3, R4.
  assert (Jup : forall t u c, (t <= u)%nat -> (u < T)%nat -> J st t c = true -> J st u c = true).
  { intros t u c Htu. induction Htu as [|u Htu IH]; intros Hu Hj; [exact Hj|]. apply R3; [lia|]. apply IH; [lia|exact Hj]. }
  assert (Hcol : forall t c, (t < T)%nat -> (c < N)%nat -> In (reps t c) cols).
  { intros t c Ht Hc. apply cols_in. destruct (s_rep _ _ _ _ _ (R1 t Ht) c Hc) as [A B]. split; [exact A|]. apply (Jup t); auto; lia. }
  assert (Hpos : forall t k, (t < T)%nat -> (k < n)%nat -> (0 < PP t k <-> J st t (orig k) = true)).
  { intros t k Ht Hk. apply (settled_pos reps); [apply R1, Ht|apply orig_lt, Hk]. }
  set (rep := fun t k => pos cols (reps t (orig k))).
  assert (Hrep : forall t k, (t < T)%nat -> (k < n)%nat -> (rep t k < n)%nat /\ orig (rep t k) = reps t (orig k)).
  { intros t k Ht Hk. apply (pos_spec cols (reps t (orig k)) 0%nat). apply Hcol; [exact Ht|apply orig_lt, Hk]. }
  assert (Hinj : forall a b, (a < n)%nat -> (b < n)%nat -> orig a = orig b -> a = b).
  { intros a b Ha Hb E. apply (proj1 (NoDup_nth cols 0%nat) cols_nodup); auto. }
  assert (HNR : 0 < INR N) by (apply lt_0_INR, HN).
  assert (Hsum : forall t (Q : nat -> bool), (t < T)%nat ->
    sum_over n (fun k => if Q (orig k) then PP t k else 0) = INR (length (filter (fun c => Q (reps t c)) (seq 0 N))) / INR N).
  { intros t Q Ht. etransitivity; [exact (sum_over_nth cols (fun s => if Q s then P st t s else 0) 0%nat)|].
    rewrite (map_ext_in _ (fun s => / INR N * (if Q s then INR (length (filter (fun c => (reps t c =? s)%nat) (seq 0 N))) else 0))).
    - rewrite total_map_scal, (total_members Q (reps t) cols cols_nodup); [unfold Rdiv; lra|]. intros c Hc. apply in_seq in Hc. apply Hcol; [exact Ht|lia].
    - intros s Hs. apply cols_in in Hs. rewrite (s_prob _ _ _ _ _ (R1 t Ht) s (proj1 Hs)). unfold members, Rdiv. destruct (Q s); lra. }
  exists (fun t c => pos cols (reps t c)). split; [constructor; [exact orig_lt|exact Hinj| | | |change (scenario_tree T n SS PP rep); constructor]|split; [|exact R4]].
  - intros t c Ht Hc. apply (pos_spec cols (reps t c) 0%nat). apply Hcol; auto.
  - intros t k Ht Hk. unfold PP. rewrite (s_prob _ _ _ _ _ (R1 t Ht)) by (apply orig_lt, Hk). unfold members. do 3 f_equal. apply filter_ext_in. intros c Hc. apply in_seq in Hc.
    destruct (pos_spec cols (reps t c) 0%nat ltac:(apply Hcol; [exact Ht|lia])) as [A B].
    destruct (Nat.eqb_spec (reps t c) (orig k)) as [E|E], (Nat.eqb_spec (pos cols (reps t c)) k) as [F|F]; try reflexivity; exfalso.
    + apply F. rewrite E. apply pos_nth; [apply cols_nodup|exact Hk].
    + apply E. rewrite <- F. symmetry. exact B.
  - intros t k Ht Hk. destruct (Hrep t k Ht Hk) as [A B]. change (SS t k = samples t (orig (rep t k))). rewrite B. apply (s_vals _ _ _ _ _ (R1 t Ht)). apply orig_lt, Hk.
  - intros t s Ht Hs. destruct (Hrep t s Ht Hs) as [A B]. split; [exact A|]. apply Hpos; auto. rewrite B. apply (s_rep _ _ _ _ _ (R1 t Ht)). apply orig_lt, Hs.
  - intros t s Ht Hs. unfold PP. rewrite (s_prob _ _ _ _ _ (R1 t Ht)) by (apply orig_lt, Hs). apply Rmult_le_pos; [apply pos_INR|]. left. apply Rinv_0_lt_compat, HNR.
  - intros t s Ht Hs Hp. apply Hpos in Hp; auto. unfold rep. rewrite (s_self _ _ _ _ _ (R1 t Ht)); [|apply orig_lt, Hs|exact Hp]. apply pos_nth; [apply cols_nodup|exact Hs].
  - intros t s Ht Hs. assert (Ht' : (t < T)%nat) by lia. destruct (Hrep (S t) s Ht Hs) as [A B]. unfold rep at 1. rewrite B.
    rewrite (R2 t Ht (orig s)) by (apply orig_lt, Hs). reflexivity.
  - intros t s Ht Hs Hp. apply Hpos in Hp; [|lia|auto]. apply Hpos; auto.
  - intros t s Ht Hs. destruct (Hrep t s Ht Hs) as [A B]. unfold SS. rewrite B. destruct (s_rep _ _ _ _ _ (R1 t Ht) (orig s) (orig_lt _ Hs)) as [C D].
    rewrite (s_vals _ _ _ _ _ (R1 t Ht) (orig s)) by (apply orig_lt, Hs). rewrite (s_vals _ _ _ _ _ (R1 t Ht) (reps t (orig s))) by exact C.
    rewrite (s_self _ _ _ _ _ (R1 t Ht) _ C D). reflexivity.
  - intros t r Ht Hr. assert (Ht' : (t < T)%nat) by lia.
    transitivity (sum_over n (fun s => if (fun x => (reps t x =? orig r)%nat) (orig s) then PP (S t) s else 0)).
    + rewrite (Hsum (S t) (fun x => (reps t x =? orig r)%nat) Ht). unfold PP. rewrite (s_prob _ _ _ _ _ (R1 t Ht')) by (apply orig_lt, Hr). unfold members. f_equal. f_equal. f_equal.
      apply filter_ext_in. intros c Hc. apply in_seq in Hc. rewrite (R2 t Ht c) by lia. reflexivity.
    + unfold sum_over. f_equal. apply map_ext_in. intros s Hs. apply in_seq in Hs. destruct (Hrep t s Ht' ltac:(lia)) as [A B]. rewrite <- B.
      destruct (Nat.eqb_spec (orig (rep t s)) (orig r)) as [E|E], (Nat.eq_dec (rep t s) r) as [F|F]; try reflexivity.
      * exfalso. apply F, Hinj; auto.
      * exfalso. apply E. rewrite F. reflexivity.
  - intros s Hs. apply Hpos; auto; [lia|]. apply cols_in. apply nth_In, Hs.
  - replace (sum_over n (PP (T - 1)%nat)) with (sum_over n (fun k => if (fun _ => true) (orig k) then PP (T - 1)%nat k else 0)) by reflexivity.
    rewrite (Hsum (T - 1)%nat (fun _ => true)) by lia. rewrite filter_all by auto. rewrite seq_length. apply Rinv_r. lra.
  - intros t Ht. unfold how_many_nodes, count_at, alive.
    rewrite (filter_ext_in _ (fun k => J st t (orig k))).
    + transitivity (length (filter (J st t) cols)).
      * unfold n, orig. rewrite <- (map_length (fun k => nth k cols 0%nat)). rewrite <- filter_of_map. rewrite map_seq_nth. reflexivity.
      * unfold cols, kept. rewrite filter_twice. f_equal. apply filter_ext_in. intros c Hc. destruct (J st t c) eqn:E; [|apply andb_false_r].
        rewrite (Jup t (T - 1)%nat c ltac:(lia) ltac:(lia) E). reflexivity.
    + intros k Hk. apply in_seq in Hk. destruct (Rlt_dec 0 (PP t k)) as [Hp|Hp].
      * symmetry. apply Hpos; auto. lia.
      * symmetry. destruct (J st t (orig k)) eqn:E; [|reflexivity]. exfalso. apply Hp. apply Hpos; auto. lia.
Qed.
End Main.

Lemma tolerance_first T t ns : tolerance T t ns 0 = infty.
Proof. unfold tolerance. destruct (all_ones T ns); reflexivity. Qed.

Section Full.
Context {V : Type} (eqd : forall a b : V, {a = b} + {a <> b}) (T N : nat) (dist : nat -> nat -> nat -> R) (nearest : (nat -> R) -> nat -> nat)
  (t0 : R) (ns : option (nat -> nat)) (samples : nat -> nat -> V) (n : nat) (SS : nat -> nat -> V) (PP : nat -> nat -> R) (net : option (graph V)).
Context (Hdist : usable_distance T N dist) (Hnear : finds_smallest nearest) (HN : (0 < N)%nat) (HT : (0 < T)%nat)
  (Hnodes : forall i, (0 < i < T)%nat -> (1 <= node_counts ns i)%nat)
  (HE : scenred eqd T N dist nearest t0 ns samples = ((n, SS, PP), net)).
Lemma full : (exists orig assign, reduced T N n samples SS PP orig assign) /\ net = get_network eqd T n SS PP /\
  forall t, (t < T)%nat -> step_counts T N dist (tolerance T t0 (node_counts ns)) (forced (node_counts ns)) t
     (if (S t =? T)%nat then N else how_many_nodes n (PP (S t))) (how_many_nodes n (PP t)).
Proof.
  unfold scenred in HE. injection HE as E1 E2 E3 E4.
  assert (Hf : forall i, (i < T)%nat -> (1 <= forced (node_counts ns) i)%nat) by (intros [|i] Hi; [cbn; lia|apply Hnodes; lia]).
  destruct (main_tree eqd T N dist nearest (tolerance T t0 (node_counts ns)) (forced (node_counts ns)) samples Hdist Hnear HN HT Hf) as (assign & R & C & S0).
  subst. split; [eauto|]. split; [reflexivity|]. intros t Ht. specialize (S0 t Ht). rewrite <- (C t Ht) in S0.
  destruct (Nat.eqb_spec (S t) T); [exact S0|]. rewrite <- C in S0 by lia. exact S0.
Qed.
End Full.

Lemma reduction_tree {V} (eqd : forall a b : V, {a = b} + {a <> b}) T N dist nearest t0 ns (samples : nat -> nat -> V) n SS PP net :
  (0 < T)%nat -> (0 < N)%nat -> usable_distance T N dist -> finds_smallest nearest ->
  (forall i, (0 < i < T)%nat -> (1 <= node_counts ns i)%nat) ->
  scenred eqd T N dist nearest t0 ns samples = ((n, SS, PP), net) ->
  exists orig assign, reduced T N n samples SS PP orig assign.
Proof. intros. edestruct (full eqd T N dist nearest t0 ns samples n SS PP net); eauto. Qed.
Lemma reduction_probability {V} (eqd : forall a b : V, {a = b} + {a <> b}) T N dist nearest t0 ns (samples : nat -> nat -> V) n SS PP net :
  (0 < T)%nat -> (0 < N)%nat -> usable_distance T N dist -> finds_smallest nearest ->
  (forall i, (0 < i < T)%nat -> (1 <= node_counts ns i)%nat) ->
  scenred eqd T N dist nearest t0 ns samples = ((n, SS, PP), net) ->
  forall t, (t < T)%nat -> (forall k, (k < n)%nat -> 0 <= PP t k) /\ sum_over n (PP t) = 1.
Proof.
  intros HT HN Hd Hn Hc HE t Ht. destruct (reduction_tree eqd T N dist nearest t0 ns samples n SS PP net HT HN Hd Hn Hc HE) as (orig & assign & R).
  pose proof (rd_tree _ _ _ _ _ _ _ _ R) as H. split; [intros; apply (st_nonneg _ _ _ _ _ H); auto|].
  replace t with (T - 1 - (T - 1 - t))%nat by lia. eapply tree_total; [exact H|lia].
Qed.
Lemma reduction_counts {V} (eqd : forall a b : V, {a = b} + {a <> b}) T N dist nearest t0 f (samples : nat -> nat -> V) n SS PP net :
  (0 < T)%nat -> (0 < N)%nat -> usable_distance T N dist -> separated T N dist -> finds_smallest nearest ->
  (forall i, (0 < i < T)%nat -> (1 <= f i)%nat) -> (exists i, (i < T)%nat /\ f i <> 1%nat) ->
  scenred eqd T N dist nearest t0 (Some f) samples = ((n, SS, PP), net) ->
  forall t, (t < T)%nat -> how_many_nodes n (PP t) =
    Nat.min (if (t =? 0)%nat then 1%nat else f t) (if (S t =? T)%nat then N else how_many_nodes n (PP (S t))).
Proof.
  intros HT HN Hd Hs Hn Hc (i & Hi & Hne) HE t Ht. destruct (full eqd T N dist nearest t0 (Some f) samples n SS PP net Hd Hn HN HT Hc HE) as (_ & _ & C).
  destruct (C t Ht) as (_ & _ & _ & C4 & _). rewrite C4; auto.
  - destruct t; reflexivity.
  - unfold tolerance. replace (all_ones T (node_counts (Some f))) with false; [reflexivity|]. symmetry. unfold all_ones. cbn [node_counts].
    destruct (forallb _ _) eqn:E; [|reflexivity]. rewrite forallb_forall in E. specialize (E i ltac:(apply in_seq; lia)). apply Nat.eqb_eq in E. contradiction.
Qed.
Lemma reduction_exact {V} (eqd : forall a b : V, {a = b} + {a <> b}) T N dist nearest t0 f (samples : nat -> nat -> V) n SS PP net :
  (0 < T)%nat -> (0 < N)%nat -> usable_distance T N dist -> separated T N dist -> finds_smallest nearest ->
  (forall i, (0 < i < T)%nat -> (1 <= f i)%nat) -> (exists i, (i < T)%nat /\ f i <> 1%nat) ->
  (forall i, (S i < T)%nat -> (f i <= f (S i))%nat) -> (f (T - 1) <= N)%nat ->
  scenred eqd T N dist nearest t0 (Some f) samples = ((n, SS, PP), net) ->
  forall t, (t < T)%nat -> how_many_nodes n (PP t) = if (t =? 0)%nat then 1%nat else f t.
Proof.
  intros HT HN Hd Hs Hn Hc Hne Hmono Hlast HE.
  pose proof (reduction_counts eqd T N dist nearest t0 f samples n SS PP net HT HN Hd Hs Hn Hc Hne HE) as C.
  assert (Hk : forall k, (k < T)%nat -> how_many_nodes n (PP (T - 1 - k)%nat) = if (T - 1 - k =? 0)%nat then 1%nat else f (T - 1 - k)%nat).
  { induction k as [|k IH]; intros Hk.
    - replace (T - 1 - 0)%nat with (T - 1)%nat by lia. rewrite C by lia. replace (S (T - 1) =? T)%nat with true by (symmetry; apply Nat.eqb_eq; lia).
      destruct (Nat.eqb_spec (T - 1) 0); apply Nat.min_l; lia.
    - rewrite C by lia. replace (S (T - 1 - S k) =? T)%nat with false by (symmetry; apply Nat.eqb_neq; lia).
      replace (S (T - 1 - S k)) with (T - 1 - k)%nat by lia. rewrite IH by lia.
      replace (T - 1 - k =? 0)%nat with false by (symmetry; apply Nat.eqb_neq; lia). apply Nat.min_l.
      destruct (Nat.eqb_spec (T - 1 - S k) 0); [apply Hc; lia|]. pose proof (Hmono (T - 1 - S k)%nat ltac:(lia)). replace (S (T - 1 - S k)) with (T - 1 - k)%nat in * by lia. lia. }
  intros t Ht. specialize (Hk (T - 1 - t)%nat ltac:(lia)). replace (T - 1 - (T - 1 - t))%nat with t in Hk by lia. exact Hk.
Qed.
Lemma reduction_one_root {V} (eqd : forall a b : V, {a = b} + {a <> b}) T N dist nearest t0 ns (samples : nat -> nat -> V) n SS PP net :
  (0 < T)%nat -> (0 < N)%nat -> usable_distance T N dist -> separated T N dist -> finds_smallest nearest ->
  (forall i, (0 < i < T)%nat -> (1 <= node_counts ns i)%nat) ->
  scenred eqd T N dist nearest t0 ns samples = ((n, SS, PP), net) -> how_many_nodes n (PP 0%nat) = 1%nat.
Proof.
  intros HT HN Hd Hs Hn Hc HE. destruct (full eqd T N dist nearest t0 ns samples n SS PP net Hd Hn HN HT Hc HE) as (_ & _ & C).
  assert (Hk : forall k, (k < T)%nat -> (1 <= how_many_nodes n (PP (T - 1 - k)%nat))%nat).
  { induction k as [|k IH]; intros Hk.
    - replace (T - 1 - 0)%nat with (T - 1)%nat by lia. destruct (C (T - 1)%nat ltac:(lia)) as (_ & C2 & C3 & _). replace (S (T - 1) =? T)%nat with true in * by (symmetry; apply Nat.eqb_eq; lia).
      destruct (le_lt_dec (forced (node_counts ns) (T - 1)) N) as [L|L]; [|rewrite C3; lia].
      specialize (C2 L). assert (1 <= forced (node_counts ns) (T - 1))%nat by (destruct (T - 1)%nat eqn:E; [cbn; lia|apply Hc; lia]). lia.
    - specialize (IH ltac:(lia)). destruct (C (T - 1 - S k)%nat ltac:(lia)) as (_ & C2 & C3 & _). replace (S (T - 1 - S k) =? T)%nat with false in * by (symmetry; apply Nat.eqb_neq; lia).
      replace (S (T - 1 - S k)) with (T - 1 - k)%nat in * by lia.
      destruct (le_lt_dec (forced (node_counts ns) (T - 1 - S k)) (how_many_nodes n (PP (T - 1 - k)%nat))) as [L|L]; [|rewrite C3; lia].
      specialize (C2 L). assert (1 <= forced (node_counts ns) (T - 1 - S k))%nat by (destruct (T - 1 - S k)%nat eqn:E; [cbn; lia|apply Hc; lia]). lia. }
  destruct (C 0%nat HT) as (_ & _ & _ & C4 & _). rewrite C4; auto; [|apply tolerance_first]. cbn [forced]. apply Nat.min_l.
  destruct (Nat.eqb_spec 1 T); [lia|]. specialize (Hk (T - 2)%nat ltac:(lia)). replace (T - 1 - (T - 2))%nat with 1%nat in Hk by lia. exact Hk.
Qed.
