From Coq Require Import List Bool Arith ZArith Reals Lra Lia Permutation Sorted.
From Verif Require Import Model.Subsample Model.Stats Model.Metrics Model.Scenred Model.TreeBuild Spec.MetricsSpec Spec.ScenredSpec Spec.TreeBuildSpec
  Proof.SeriesProof Proof.SubsampleProof Proof.StatsProof Proof.MetricsProof Proof.ScenredProof Proof.ScenredProof2 Proof.ScenredProof3 Proof.TreeBuildProof.
Import ListNotations.
Local Open Scope R_scope.

(** * Initial values *)
Section Init.
Context {V : Type} (T N : nat) (g : graph V) (scens : nat -> list R).
Context (HN : (0 < N)%nat) (Hrows : forall t, (t < T)%nat -> length (scens t) = N) (Hg : rooted_tree g) (Ht : forall k, (k < length (g_nodes g))%nat -> (time_of g k < T)%nat).
Let len := length (g_nodes g).

Definition good_filter (f : list nat) : Prop := f <> [] /\ forall c, In c f -> (c < N)%nat.
Definition good_value (k : nat) (v : R) : Prop :=
  match time_of g k with O => v = quantile (scens 0%nat) (1 / 2) | S t => forall lo hi, (forall x, In x (scens t) -> lo <= x <= hi) -> lo <= v <= hi end.
Definition init_ok (P : nat -> Prop) (st : init_state) : Prop :=
  (forall k, P k -> (exists v, get (fst st) k = Some v) /\ exists f, get (snd st) k = Some f) /\
  (forall k v, get (fst st) k = Some v -> good_value k v) /\ (forall k f, get (snd st) k = Some f -> good_filter f).
Lemma get_app {A} (l1 l2 : list (nat * A)) k : get (l1 ++ l2) k = match get l1 k with Some v => Some v | None => get l2 k end.
Proof. unfold get. induction l1 as [|[a b] l1 IH]; [reflexivity|]. cbn. destruct (a =? k)%nat; [reflexivity|exact IH]. Qed.
Lemma get_in {A} (l : list (nat * A)) k v : get l k = Some v -> In (k, v) l.
Proof. unfold get. destruct (find _ l) as [[a b]|] eqn:E; [|discriminate]. intros [= <-]. apply find_some in E. destruct E as [E1 E2]. apply Nat.eqb_eq in E2. cbn in E2. subst. exact E1. Qed.
Lemma get_map {A} (f : nat * nat -> A) ch k : In k ch -> exists v, get (map (fun p => (snd p, f p)) (combine (seq 0 (length ch)) ch)) k = Some v.
Proof.
  intros Hin. unfold get. assert (Hg' : forall o, exists p, find (fun p => (fst p =? k)%nat) (map (fun p => (snd p, f p)) (combine (seq o (length ch)) ch)) = Some p).
  { induction ch as [|a ch IH]; [contradiction|]. intros o. cbn. destruct (Nat.eqb_spec a k) as [->|E]; [eauto|]. destruct Hin as [|Hin]; [congruence|]. apply IH, Hin. }
  destruct (Hg' 0%nat) as [[a b] ->]. eauto.
Qed.
Lemma child_filter_good row' f m i : good_filter f -> good_filter (child_filter row' f m i).
Proof.
  intros [A B]. unfold child_filter. destruct (filter _ f) as [|a l] eqn:E; [split; auto|]. split; [discriminate|]. intros c Hc. rewrite <- E in Hc. apply filter_In in Hc. apply B, Hc.
Qed.
Lemma child_value_good t f m i : (t < T)%nat -> good_filter f -> (i < m)%nat -> forall lo hi, (forall x, In x (scens t) -> lo <= x <= hi) -> lo <= child_value (scens t) f m i <= hi.
Proof.
  intros Htt [A B] Hi lo hi Hb. unfold child_value. apply quantile_bounds.
  - unfold select. destruct f; [contradiction|discriminate].
  - pose proof (lt_0_INR (m + 1) ltac:(lia)) as Pm. split.
    + apply Rmult_le_pos; [apply pos_INR|]. left. apply Rinv_0_lt_compat, Pm.
    + apply (Rmult_le_reg_r (INR (m + 1))); [exact Pm|]. unfold Rdiv. rewrite Rmult_assoc, Rinv_l by lra. rewrite Rmult_1_r, Rmult_1_l. apply le_INR. lia.
  - intros x Hx. unfold select in Hx. apply in_map_iff in Hx. destruct Hx as (c & <- & Hc). apply Hb. apply nth_In. rewrite Hrows by exact Htt. apply B, Hc.
Qed.
Lemma successors_time j c : In c (successors g j) -> time_of g c = S (time_of g j) /\ In (j, c) (g_edges g).
Proof.
  intros Hc. unfold successors in Hc. apply in_map_iff in Hc. destruct Hc as ([a b] & <- & Hin). apply filter_In in Hin. destruct Hin as [Hin E]. cbn in E |- *. apply Nat.eqb_eq in E. subst a.
  split; [apply Hg, Hin|exact Hin].
Qed.
Lemma init_node_ok P t j st : init_ok P st -> P j -> time_of g j = t -> (t < T)%nat ->
  exists st', init_node g (scens t) (scens (S t)) j (Some st) = Some st' /\ init_ok (fun k => P k \/ In (j, k) (g_edges g)) st'.
Proof.
  intros (O1 & O2 & O3) Hj Hjt Htt. destruct st as [vals filters]. cbn [fst snd] in *. unfold init_node. destruct (O1 j Hj) as [_ [f Hf]]. rewrite Hf.
  pose proof (O3 j f Hf) as Gf. eexists. split; [reflexivity|]. set (ch := successors g j). split; [|split]; cbn [fst snd].
  - intros k Hk. rewrite !get_app. destruct (In_dec Nat.eq_dec k ch) as [Hin|Hin].
    + destruct (get_map (fun p => child_value (scens t) f (length ch) (fst p)) ch k Hin) as [v ->].
      destruct (get_map (fun p => child_filter (scens (S t)) f (length ch) (fst p)) ch k Hin) as [w ->]. split; eauto.
    + destruct Hk as [Hk|Hk].
      * destruct (O1 k Hk) as [[v Hv] [w Hw]]. rewrite Hv, Hw. split; [destruct (get (map _ _) k); eexists; reflexivity|destruct (get (map _ _) k); eexists; reflexivity].
      * exfalso. apply Hin. unfold ch, successors. apply in_map_iff. exists (j, k). split; [reflexivity|]. apply filter_In. split; [exact Hk|]. apply Nat.eqb_refl.
  - intros k v. rewrite get_app. destruct (get (map _ _) k) as [w|] eqn:E; [|apply O2]. intros [= <-]. apply get_in in E. apply in_map_iff in E. destruct E as ([i c] & E & Hin). cbn [fst snd] in E.
    injection E as <- <-. pose proof (in_combine_r _ _ _ _ Hin) as Hc. pose proof (in_combine_l _ _ _ _ Hin) as Hi. apply in_seq in Hi. destruct (successors_time j c Hc) as [Tc _].
    unfold good_value. rewrite Tc, Hjt. apply child_value_good; auto. lia.
  - intros k w. rewrite get_app. destruct (get (map _ _) k) as [w'|] eqn:E; [|apply O3]. intros [= <-]. apply get_in in E. apply in_map_iff in E. destruct E as ([i c] & E & Hin). cbn [fst snd] in E.
    injection E as _ <-. apply child_filter_good, Gf.
Qed.
Lemma init_ok_weaken (P Q : nat -> Prop) st : (forall k, Q k -> P k) -> init_ok P st -> init_ok Q st.
Proof. intros H (A & B & C). split; [|auto]. intros k Hk. apply A, H, Hk. Qed.
Lemma init_nodes_ok t : (t < T)%nat -> forall js P st, init_ok P st -> (forall j, In j js -> P j /\ time_of g j = t) ->
  exists st', fold_left (fun st j => init_node g (scens t) (scens (S t)) j st) js (Some st) = Some st' /\
    init_ok (fun k => P k \/ exists j, In j js /\ In (j, k) (g_edges g)) st'.
Proof.
  intros Htt. induction js as [|j js IH]; intros P st O Hj.
  - exists st. split; [reflexivity|]. eapply init_ok_weaken; [|exact O]. intros k [Hk|(j & [] & _)]. exact Hk.
  - cbn [fold_left]. destruct (Hj j ltac:(cbn; auto)) as [Pj Tj]. destruct (init_node_ok P t j st O Pj Tj Htt) as (st1 & E1 & O1). rewrite E1.
    destruct (IH _ st1 O1) as (st2 & E2 & O2). { intros j' Hj'. destruct (Hj j' ltac:(cbn; auto)). auto. }
    exists st2. split; [exact E2|]. eapply init_ok_weaken; [|exact O2]. intros k [Hk|(j' & [<-|Hj'] & He)]; [auto|auto|right; eauto].
Qed.
Lemma init_steps_ok : forall t, (t < T)%nat -> exists st,
  fold_left (init_step g scens) (seq 0 t) (Some ([(0%nat, quantile (scens 0%nat) (1 / 2))], [(0%nat, seq 0 (length (scens 0%nat)))])) = Some st /\
  init_ok (fun k => (k < len)%nat /\ (time_of g k <= t)%nat) st.
Proof.
  induction t as [|t IH]; intros Htt.
  - eexists. split; [reflexivity|]. split; [|split].
    + intros k [Hk Hk2]. assert (k = 0%nat) by (apply (time_zero g Hg); [exact Hk|lia]). subst. cbn. eauto.
    + intros k v E. apply get_in in E. destruct E as [E|[]]. injection E as <- <-. unfold good_value. destruct Hg as (_ & -> & _). reflexivity.
    + intros k f E. apply get_in in E. destruct E as [E|[]]. injection E as <- <-. rewrite Hrows by lia. split; [destruct N; [lia|discriminate]|]. intros c Hc. apply in_seq in Hc. lia.
  - destruct (IH ltac:(lia)) as (st & E & O). rewrite seq_S, fold_left_app, E. cbn [fold_left plus]. unfold init_step.
    destruct (init_nodes_ok t ltac:(lia) (nodes_at g t) _ st O) as (st' & E' & O').
    { intros j Hj. unfold nodes_at in Hj. apply filter_In in Hj. destruct Hj as [A B]. apply in_seq in A. apply Nat.eqb_eq in B. unfold time_of, len. split; [split; [lia|]|exact B]. fold (time_of g j). unfold time_of. lia. }
    exists st'. split; [exact E'|]. eapply init_ok_weaken; [|exact O']. intros k [Hk Hk2]. destruct (Nat.eq_dec (time_of g k) (S t)) as [Ek|Ek]; [right|left; split; [exact Hk|lia]].
    assert (k <> 0%nat) by (intros ->; destruct Hg as (_ & Z & _); lia).
    destruct (parents_one g Hg k ltac:(fold len; lia)) as (p & _ & Hin). exists p. split; [|exact Hin]. destruct Hg as (_ & _ & _ & He). destruct (He _ _ Hin) as [X Y].
    unfold nodes_at. apply filter_In. split; [apply in_seq; fold len; lia|]. apply Nat.eqb_eq. change (time_of g p = t). lia.
Qed.
Lemma init_vals_ok : (0 < T)%nat -> exists vals filters, init_vals T g scens = Some (vals, filters) /\
  forall k, (k < len)%nat -> exists v, get vals k = Some v /\ good_value k v.
Proof.
  intros HT. destruct (init_steps_ok (T - 1) ltac:(lia)) as ([vals filters] & E & O1 & O2 & _). exists vals, filters. split; [exact E|]. intros k Hk.
  destruct (O1 k) as [[v Hv] _]; [split; [exact Hk|specialize (Ht k Hk); lia]|]. exists v. split; [exact Hv|]. apply O2, Hv.
Qed.
End Init.

Lemma initial_values {V} T N (g : graph V) scens : (0 < T)%nat -> (0 < N)%nat -> (forall t, (t < T)%nat -> length (scens t) = N) -> rooted_tree g ->
  (forall k, (k < length (g_nodes g))%nat -> (time_of g k < T)%nat) ->
  exists vals filters, init_vals T g scens = Some (vals, filters) /\
    forall k, (k < length (g_nodes g))%nat -> exists v, get vals k = Some v /\
      (time_of g k = 0%nat -> v = quantile (scens 0%nat) (1 / 2)) /\
      forall t, time_of g k = S t -> forall lo hi, (forall x, In x (scens t) -> lo <= x <= hi) -> lo <= v <= hi.
Proof.
  intros HT HN Hr Hg Ht. destruct (init_vals_ok T N g scens HN Hr Hg Ht HT) as (vals & filters & E & G). exists vals, filters. split; [exact E|].
  intros k Hk. destruct (G k Hk) as (v & Hv & Gv). exists v. split; [exact Hv|]. unfold good_value in Gv. split.
  - intros E0. rewrite E0 in Gv. exact Gv.
  - intros t E0. rewrite E0 in Gv. exact Gv.
Qed.
Lemma list_max_exists (l : list R) : l <> [] -> exists m, In m l /\ forall x, In x l -> x <= m.
Proof.
  induction l as [|a l IH]; [contradiction|]. intros _. destruct l as [|b l]; [exists a; split; [cbn; auto|intros x [<-|[]]; lra]|].
  destruct (IH ltac:(discriminate)) as (m & A & B). destruct (Rle_dec a m).
  - exists m. split; [right; exact A|]. intros x [<-|Hx]; [lra|apply B, Hx].
  - exists a. split; [left; reflexivity|]. intros x [<-|Hx]; [lra|]. specialize (B x Hx). lra.
Qed.
Lemma initial_values_lag {V} T N (g : graph V) scens k t vals filters v : (0 < N)%nat -> (forall t, (t < T)%nat -> length (scens t) = N) -> rooted_tree g ->
  (forall k, (k < length (g_nodes g))%nat -> (time_of g k < T)%nat) ->
  init_vals T g scens = Some (vals, filters) -> (k < length (g_nodes g))%nat -> time_of g k = S t -> get vals k = Some v ->
  (forall x y, In x (scens t) -> In y (scens (S t)) -> x < y) -> forall y, In y (scens (S t)) -> v < y.
Proof.
  intros HN Hr Hg Ht E Hk Hkt Hv Hlt y Hy. assert (HT : (S t < T)%nat) by (rewrite <- Hkt; apply Ht, Hk).
  destruct (init_vals_ok T N g scens HN Hr Hg Ht ltac:(lia)) as (vals' & filters' & E' & G). rewrite E in E'. injection E' as <- <-.
  destruct (G k Hk) as (v' & Hv' & Gv). rewrite Hv in Hv'. injection Hv' as <-. unfold good_value in Gv. rewrite Hkt in Gv.
  assert (Hne : scens t <> []) by (intros Z; specialize (Hr t ltac:(lia)); rewrite Z in Hr; cbn in Hr; lia).
  destruct (list_max_exists (scens t) Hne) as (m & A & B). 
  destruct (list_max_exists (map Ropp (scens t))) as (m' & A' & B'); [destruct (scens t); [contradiction|discriminate]|].
  destruct (Gv (- m') m) as [_ Hm].
  - intros x Hx. split; [|apply B, Hx]. specialize (B' (- x) ltac:(apply in_map, Hx)). lra.
  - specialize (Hlt m y A Hy). lra.
Qed.
