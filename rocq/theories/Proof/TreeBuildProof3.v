From Coq Require Import List Bool Arith ZArith Reals Lra Lia Permutation Sorted.
From Verif Require Import Model.Subsample Model.Stats Model.Metrics Model.Scenred Model.TreeBuild Spec.ScenredSpec Spec.TreeBuildSpec
  Proof.SeriesProof Proof.SubsampleProof Proof.StatsProof Proof.MetricsProof Proof.ScenredProof Proof.ScenredProof2 Proof.ScenredProof3 Proof.TreeBuildProof.
Import ListNotations.
Local Open Scope R_scope.

Lemma mean_between lo hi l : l <> [] -> (forall x, In x l -> lo <= x <= hi) -> lo <= mean l <= hi.
Proof.
  intros Hne Hb. unfold mean, Rdiv. assert (P : 0 < INR (length l)) by (apply lt_0_INR; destruct l; [contradiction|cbn; lia]).
  assert (S1 : lo * INR (length l) <= Rsum l <= hi * INR (length l)).
  { clear Hne P. induction l as [|a l IH]; [cbn; lra|]. cbn [Rsum fold_right length]. rewrite S_INR. specialize (IH ltac:(intros; apply Hb; cbn; auto)). specialize (Hb a ltac:(cbn; auto)). unfold Rsum in IH. nra. }
  split; apply (Rmult_le_reg_r (INR (length l))); auto; rewrite Rmult_assoc, Rinv_l by lra; lra.
Qed.

Section Gas.
Context (T L n : nat) (idx : nat -> nat -> nat).

Lemma average_nodes t us : NoDup us -> forall S t' s,
  fold_left (fun S u => average_node L idx t u S) us S t' s =
  if (t' =? t)%nat && (s <? L)%nat && (if in_dec Nat.eq_dec (idx t s) us then true else false) then mean (map (S t) (through L idx t (idx t s))) else S t' s.
Proof.
  intros Hn. induction Hn as [|u us Hu Hn IH]; intros S t' s; [cbn; rewrite andb_false_r; reflexivity|].
  cbn [fold_left]. rewrite IH.
  destruct ((t' =? t)%nat && (s <? L)%nat) eqn:E; cbn [andb].
  2:{ unfold average_node. rewrite E. reflexivity. }
  apply andb_prop in E. destruct E as [Et Es]. apply Nat.eqb_eq in Et. subst t'.
  destruct (in_dec Nat.eq_dec (idx t s) us) as [Hin|Hin].
  - destruct (in_dec Nat.eq_dec (idx t s) (u :: us)) as [|X]; [|exfalso; apply X; cbn; auto]. f_equal. apply map_ext_in. intros s' Hs'. unfold through in Hs'. apply filter_In in Hs'. destruct Hs' as [_ E'].
    apply Nat.eqb_eq in E'. unfold average_node. replace (idx t s' =? u)%nat with false; [rewrite andb_false_r; reflexivity|]. symmetry. apply Nat.eqb_neq. intros Z. apply Hu. rewrite <- Z, E'. exact Hin.
  - unfold average_node. rewrite Nat.eqb_refl, Es. cbn [andb]. destruct (Nat.eqb_spec (idx t s) u) as [E|E].
    + destruct (in_dec Nat.eq_dec (idx t s) (u :: us)) as [|X]; [rewrite E; reflexivity|exfalso; apply X; cbn; auto].
    + destruct (in_dec Nat.eq_dec (idx t s) (u :: us)) as [[X|X]|]; [congruence|contradiction|reflexivity].
Qed.
Lemma average_step_spec S t t' s : average_step L idx S t t' s = if (t' =? t)%nat && (s <? L)%nat then mean (map (S t) (through L idx t (idx t s))) else S t' s.
Proof.
  unfold average_step. rewrite average_nodes.
  - destruct ((t' =? t)%nat && (s <? L)%nat) eqn:E; [|reflexivity]. cbn [andb]. apply andb_prop in E. destruct E as [_ Es]. apply Nat.ltb_lt in Es.
    destruct (in_dec _ _ _) as [|X]; [reflexivity|]. exfalso. apply X. apply uniq_sorted_in2. apply in_map, in_seq. lia.
  - unfold uniq_sorted. eapply Permutation_NoDup; [apply Permutation_sym, sort_by_perm|]. apply NoDup_nodup.
Qed.
Lemma average_spec S t s : average T L idx S t s = if (t <? T)%nat && (s <? L)%nat then mean (map (S t) (through L idx t (idx t s))) else S t s.
Proof.
  unfold average. assert (Hg : forall k, fold_left (average_step L idx) (seq 0 k) S t s = if (t <? k)%nat && (s <? L)%nat then mean (map (S t) (through L idx t (idx t s))) else S t s).
  { induction k as [|k IH]; [reflexivity|]. rewrite seq_S, fold_left_app. cbn [fold_left plus]. rewrite average_step_spec. destruct (Nat.eqb_spec t k) as [->|E].
    - replace (k <? Datatypes.S k)%nat with true by (symmetry; apply Nat.ltb_lt; lia). cbn [andb]. rewrite Nat.ltb_irrefl in IH. cbn [andb] in IH.
      assert (Hrow : forall s', fold_left (average_step L idx) (seq 0 k) S k s' = S k s').
      { intros s'. clear IH. assert (Hle : forall m, (m <= k)%nat -> fold_left (average_step L idx) (seq 0 m) S k s' = S k s').
        { induction m as [|m IHm]; intros Hm; [reflexivity|]. rewrite seq_S, fold_left_app. cbn [fold_left plus]. rewrite average_step_spec. replace (k =? m)%nat with false by (symmetry; apply Nat.eqb_neq; lia). cbn [andb]. apply IHm. lia. }
        apply Hle, le_n. }
      destruct (s <? L)%nat; [|apply Hrow]. f_equal. apply map_ext. exact Hrow.
    - cbn [andb]. rewrite IH. replace (t <? Datatypes.S k)%nat with (t <? k)%nat; [reflexivity|]. destruct (Nat.ltb_spec t k), (Nat.ltb_spec t (Datatypes.S k)); lia. }
  apply Hg.
Qed.
Context (Hpos : node_positions T L n idx).
Lemma average_shares S : share_nodes T L idx (average T L idx S).
Proof.
  intros t s t' s' Ht Hs Ht' Hs' E. assert (t = t') by (destruct Hpos as (_ & _ & Hp3); apply (Hp3 t s t' s'); auto). subst t'. rewrite !average_spec.
  rewrite (proj2 (Nat.ltb_lt _ _) Ht), (proj2 (Nat.ltb_lt _ _) Hs), (proj2 (Nat.ltb_lt _ _) Hs'). cbn [andb]. rewrite E. reflexivity.
Qed.
Lemma through_nonempty t s : (s < L)%nat -> through L idx t (idx t s) <> [].
Proof. intros Hs E. assert (In s (through L idx t (idx t s))) by (apply filter_In; split; [apply in_seq; lia|apply Nat.eqb_refl]). rewrite E in H. contradiction. Qed.
Lemma average_between S lo hi : (forall t s, (t < T)%nat -> (s < L)%nat -> between lo hi (S t s)) -> forall t s, (t < T)%nat -> (s < L)%nat -> between lo hi (average T L idx S t s).
Proof.
  intros Hb t s Ht Hs. rewrite average_spec. rewrite (proj2 (Nat.ltb_lt _ _) Ht), (proj2 (Nat.ltb_lt _ _) Hs). cbn [andb]. apply mean_between.
  - intros E. apply map_eq_nil in E. apply (through_nonempty t s Hs E).
  - intros x Hx. apply in_map_iff in Hx. destruct Hx as (s' & <- & Hs'). apply filter_In in Hs'. apply Hb; auto. destruct Hs' as [Hs' _]. apply in_seq in Hs'. lia.
Qed.
Lemma node_value_ok S t s : share_nodes T L idx S -> (t < T)%nat -> (s < L)%nat -> node_value T L idx S (idx t s) = Some (S t s).
Proof.
  intros Hsh Ht Hs. unfold node_value. set (l := filter _ _).
  assert (Hl : forall p, In p l <-> (fst p < T)%nat /\ (snd p < L)%nat /\ idx (fst p) (snd p) = idx t s).
  { intros [a b]. unfold l. rewrite filter_In, in_prod_iff, !in_seq, Nat.eqb_eq. cbn. intuition lia. }
  assert (Hin : In (t, s) l) by (apply Hl; auto).
  assert (Hall : forall p, In p l -> S (fst p) (snd p) = S t s) by (intros p Hp; apply Hl in Hp; destruct Hp as (A & B & C); apply Hsh; auto).
  destruct l as [|p l']; [contradiction|]. cbn [map]. rewrite (Hall p) by (cbn; auto).
  replace (forallb _ _) with true; [reflexivity|]. symmetry. apply forallb_forall. intros w Hw. apply in_map_iff in Hw. destruct Hw as (q & <- & Hq). rewrite (Hall q) by (cbn; auto).
  destruct (Req_EM_T _ _); congruence.
Qed.
Lemma update_tree_ok S : share_nodes T L idx S -> exists v, update_tree T L idx S n = Some v /\ length v = n /\ read_off T L idx S v /\
  forall x, In x v -> exists t s, (t < T)%nat /\ (s < L)%nat /\ x = S t s.
Proof.
  intros Hsh. unfold update_tree.
  assert (Hg : forall is, (forall i, In i is -> (i < n)%nat) -> exists v, values_from T L idx S is = Some v /\ length v = length is /\
    (forall k t s, (k < length is)%nat -> (t < T)%nat -> (s < L)%nat -> idx t s = nth k is 0%nat -> nth k v 0 = S t s) /\
    forall x, In x v -> exists t s, (t < T)%nat /\ (s < L)%nat /\ x = S t s).
  { induction is as [|i is IH]; intros Hi.
    - exists []. split; [reflexivity|]. split; [reflexivity|]. split; [intros k t s Hk; cbn in Hk; lia|intros x []].
    - destruct (IH ltac:(intros; apply Hi; cbn; auto)) as (v & V1 & V2 & V3 & V4). destruct Hpos as (_ & Hp & _). destruct (Hp i (Hi i ltac:(cbn; auto))) as (t & s & Ht & Hs & E).
      cbn [values_from]. rewrite <- E, (node_value_ok S t s Hsh Ht Hs), V1. exists (S t s :: v). split; [reflexivity|]. split; [cbn; congruence|]. split.
      + intros [|k] t' s' Hk Ht' Hs' E'; cbn [nth] in E' |- *; [apply Hsh; auto; rewrite E'; exact E|]. apply V3; auto. cbn in Hk. lia.
      + intros x [<-|Hx]; [eauto|apply V4, Hx]. }
  destruct (Hg (seq 0 n)) as (v & V1 & V2 & V3 & V4). { intros i Hi. apply in_seq in Hi. lia. }
  exists v. rewrite seq_length in V2. split; [exact V1|]. split; [exact V2|]. split; [|exact V4].
  intros t s Ht Hs. symmetry. assert (Hlt : (idx t s < n)%nat) by (apply Hpos; auto). apply V3; auto; [rewrite seq_length; exact Hlt|]. rewrite seq_nth by exact Hlt. reflexivity.
Qed.
Lemma decay_pos a b k kmax : 0 < a -> 0 < decay a b k kmax.
Proof. intros Ha. unfold decay, Rpower. apply Rmult_lt_0_compat; [exact Ha|apply exp_pos]. Qed.
Lemma strength_unit argsort e lambda S x s : 0 < e -> 0 <= strength T L argsort e lambda S x s <= 1.
Proof.
  intros He. unfold strength. split; [|apply Rmin_r]. apply Rmin_glb; [|lra]. left. apply Rmult_lt_0_compat; [exact He|apply exp_pos].
Qed.
Lemma gas_ok argsort kmax scens drawn tol lo hi : forall todo k rel S tv,
  share_nodes T L idx S -> (forall t s, (t < T)%nat -> (s < L)%nat -> between lo hi (S t s)) ->
  (forall t k, (t < T)%nat -> between lo hi (scens t (drawn k))) ->
  exists v S' tv', gas T L idx argsort n kmax scens drawn tol todo k rel S tv = Some (v, S', tv') /\ length v = n /\ read_off T L idx S' v /\ forall x, In x v -> between lo hi x.
Proof.
  induction todo as [|todo IH]; intros k rel S tv Hsh Hb Hsc.
  - cbn [gas]. destruct (update_tree_ok S Hsh) as (v & -> & V2 & V3 & V4). exists v, S, tv. split; [reflexivity|]. split; [exact V2|]. split; [exact V3|].
    intros x Hx. destruct (V4 x Hx) as (t & s & Ht & Hs & ->). apply Hb; auto.
  - cbn [gas]. destruct (update_tree_ok S Hsh) as (v & E & V2 & V3 & V4). rewrite E. destruct (Rltb tol rel).
    + cbv zeta. apply IH; [apply average_shares| |exact Hsc]. apply average_between. intros t s Ht Hs. unfold pull, between in *.
      match goal with |- context [strength ?a ?b ?c ?d ?e ?f ?g ?h] => pose proof (strength_unit c d e f g h (decay_pos 5 _ _ _ ltac:(lra))) as HA; set (w := strength a b c d e f g h) in * end.
      specialize (Hb t s Ht Hs). specialize (Hsc t k Ht). nra.
    + exists v, S, tv. split; [reflexivity|]. split; [exact V2|]. split; [exact V3|]. intros x Hx. destruct (V4 x Hx) as (t & s & Ht & Hs & ->). apply Hb; auto.
Qed.
End Gas.
Lemma gas_refines T L n idx argsort kmax scens drawn tol lo hi todo k rel S tv : node_positions T L n idx ->
  share_nodes T L idx S -> (forall t s, (t < T)%nat -> (s < L)%nat -> between lo hi (S t s)) ->
  (forall t k, (t < T)%nat -> between lo hi (scens t (drawn k))) ->
  exists v S' tv', gas T L idx argsort n kmax scens drawn tol todo k rel S tv = Some (v, S', tv') /\ length v = n /\ read_off T L idx S' v /\ forall x, In x v -> between lo hi x.
Proof. intros H. apply gas_ok, H. Qed.
Lemma gas_tolerance_ignored T L n idx argsort kmax scens drawn tol tol' : forall todo k S tv, tol < 1 -> tol' < 1 ->
  gas T L idx argsort n kmax scens drawn tol todo k 1 S tv = gas T L idx argsort n kmax scens drawn tol' todo k 1 S tv.
Proof.
  induction todo as [|todo IH]; intros k S tv H1 H2; [reflexivity|]. cbn [gas]. rewrite (proj2 (Rltb_spec tol 1) H1), (proj2 (Rltb_spec tol' 1) H2).
  destruct (update_tree _ _ _ _ _); [|reflexivity]. cbv zeta. apply IH; auto.
Qed.
(** The values returned are those before the last pull. *)
Lemma gas_stale argsort tol : sorts argsort -> tol < 1 ->
  exists S', gas 1 1 (fun _ _ => 0%nat) argsort 1 1 (fun _ _ => 1) (fun _ => 0%nat) tol 1 0 1 (fun _ _ => 0) [0] = Some ([1], S', [0]).
Proof.
  intros Hsort Ht. cbn [gas]. rewrite (proj2 (Rltb_spec tol 1) Ht). 
  assert (Hu : update_tree 1 1 (fun _ _ => 0%nat) (fun _ _ => 0) 1 = Some [0]) by reflexivity. rewrite Hu. cbv zeta.
  set (S1 := average _ _ _ _). assert (E : S1 0%nat 0%nat = 1).
  { unfold S1. rewrite average_spec. cbn. unfold mean, pull, strength. cbn [Rsum fold_right length INR map].
    replace (argsort (distance 1 (fun _ _ => 0) (fun _ => 1)) 1%nat 0%nat) with 0%nat by (destruct (Hsort (distance 1 (fun _ _ => 0) (fun _ => 1)) 1%nat) as [A _]; specialize (A 0%nat ltac:(lia)); lia).
    cbn [INR]. unfold decay. replace (0 / 1) with 0 by lra. rewrite Rpower_O by lra. replace (- 0 / (5 * 1)) with 0 by lra. rewrite exp_0. rewrite Rmin_right by lra. lra. }
  clearbody S1. exists S1. unfold update_tree. cbn [seq values_from]. unfold node_value. cbn. rewrite E. reflexivity.
Qed.
(** A farther scenario can be pulled more strongly than the nearest one. *)
Lemma gas_ranks argsort e lambda : sorts argsort -> 0 < e -> 0 < lambda -> e * exp (- 1 / lambda) < 1 ->
  exists S x near far, (near < 3)%nat /\ (far < 3)%nat /\ (forall s, (s < 3)%nat -> distance 1 S x near <= distance 1 S x s) /\ (forall s, (s < 3)%nat -> distance 1 S x s <= distance 1 S x far) /\
    distance 1 S x near < distance 1 S x far /\ strength 1 3 argsort e lambda S x near < strength 1 3 argsort e lambda S x far.
Proof.
  intros Hsort He Hl Hs. set (S := fun (_ s : nat) => match s with 0%nat => 2 | 1%nat => 3 | _ => 1 end). set (x := fun _ : nat => 0).
  assert (D : forall s, distance 1 S x s = S 0%nat s ^ 2) by (intros s; unfold distance, mean; cbn; unfold x; field).
  exists S, x, 2%nat, 1%nat. 
  assert (A : argsort (distance 1 S x) 3%nat 1%nat = 0%nat /\ argsort (distance 1 S x) 3%nat 2%nat = 1%nat).
  { destruct (Hsort (distance 1 S x) 3%nat) as (P1 & P2 & P3).
    pose proof (P1 0%nat ltac:(lia)) as a0. pose proof (P1 1%nat ltac:(lia)) as a1. pose proof (P1 2%nat ltac:(lia)) as a2.
    assert (n01 : argsort (distance 1 S x) 3%nat 0%nat <> argsort (distance 1 S x) 3%nat 1%nat) by (intros E; apply P2 in E; lia).
    assert (n02 : argsort (distance 1 S x) 3%nat 0%nat <> argsort (distance 1 S x) 3%nat 2%nat) by (intros E; apply P2 in E; lia).
    assert (n12 : argsort (distance 1 S x) 3%nat 1%nat <> argsort (distance 1 S x) 3%nat 2%nat) by (intros E; apply P2 in E; lia).
    pose proof (P3 0%nat 1%nat ltac:(lia)) as s01. pose proof (P3 1%nat 2%nat ltac:(lia)) as s12. rewrite !D in s01, s12.
    destruct (argsort (distance 1 S x) 3%nat 0%nat) as [|[|[|]]], (argsort (distance 1 S x) 3%nat 1%nat) as [|[|[|]]], (argsort (distance 1 S x) 3%nat 2%nat) as [|[|[|]]];
      try lia; cbn in s01, s12; try (split; reflexivity); exfalso; lra. }
  destruct A as [A1 A2]. split; [lia|]. split; [lia|]. split; [|split; [|split]].
  - intros [|[|[|]]] Hlt; rewrite !D; cbn; try lia; lra.
  - intros [|[|[|]]] Hlt; rewrite !D; cbn; try lia; lra.
  - rewrite !D. cbn. lra.
  - unfold strength. rewrite A1, A2. cbn [INR]. replace (- 0 / lambda) with 0 by (field; lra). rewrite exp_0.
    rewrite (Rmin_left (e * exp (- 1 / lambda))) by lra. apply Rmin_glb_lt; [|lra]. apply Rmult_lt_compat_l; [exact He|]. rewrite <- exp_0. apply exp_increasing.
    apply (Rmult_lt_reg_r lambda); [exact Hl|]. unfold Rdiv. rewrite Rmult_assoc, Rinv_l by lra. lra.
Qed.
Lemma diff_rate loss gradient wide eval : forall todo k go vals rate past, snd (diff_loop loss gradient wide eval todo k go vals rate past) = rate.
Proof.
  induction todo as [|todo IH]; intros k go vals rate past; [reflexivity|]. cbn [diff_loop]. destruct go; [|reflexivity]. destruct (k mod eval =? 0)%nat; [|apply IH].
  cbv zeta. replace (Rltb (loss vals) (loss vals)) with false; [apply IH|]. symmetry. destruct (Rltb (loss vals) (loss vals)) eqn:E; [|reflexivity]. apply Rltb_spec in E. lra.
Qed.
Lemma diff_tree_rate loss gradient wide eval kmax base vals rate :
  snd (diff_tree loss gradient wide eval kmax base vals rate) = rate /\ snd (fst (diff_tree loss gradient wide eval kmax base vals rate)) = base.
Proof.
  unfold diff_tree. pose proof (diff_rate loss gradient wide eval kmax 0 true vals rate (1 / 1000000)) as E.
  destruct (diff_loop _ _ _ _ _ _ _ _ _) as [v r]. cbn in *. auto.
Qed.
(** A pull moves every scenario towards the drawn one, never beyond it. *)
Lemma gas_pull_towards T L argsort e lambda x S t s : 0 < e ->
  exists c, 0 < c <= 1 /\ pull T L argsort e lambda x S t s = (1 - c) * S t s + c * x t.
Proof.
  intros He. exists (strength T L argsort e lambda S x s). split; [|unfold pull; ring]. unfold strength. pose proof (exp_pos (- INR (argsort (distance T S x) L s) / lambda)).
  split; [apply Rmin_glb_lt; nra|apply Rmin_r].
Qed.
(** Where the sorting permutation is its own inverse, nearer scenarios are pulled at least as strongly. *)
Lemma gas_nearest_involutive T L argsort e lambda S x s s' : sorts argsort -> 0 < e -> 0 < lambda -> (s < L)%nat -> (s' < L)%nat ->
  (forall i, (i < L)%nat -> argsort (distance T S x) L (argsort (distance T S x) L i) = i) ->
  distance T S x s < distance T S x s' -> strength T L argsort e lambda S x s' <= strength T L argsort e lambda S x s.
Proof.
  intros Hsort He Hl Hs Hs' Inv D. destruct (Hsort (distance T S x) L) as (P1 & P2 & P3). set (a := argsort (distance T S x) L) in *.
  assert (A : (a s < a s')%nat).
  { destruct (Nat.lt_trichotomy (a s) (a s')) as [Lt|[E|G]]; [exact Lt|apply P2 in E; try lia; subst; lra|].
    exfalso. pose proof (P3 (a s') (a s) ltac:(split; [exact G|now apply P1])) as Q. rewrite !Inv in Q by assumption. lra. }
  unfold strength. fold a. apply Rle_min_compat_r. apply Rmult_le_compat_l; [lra|]. apply lt_INR in A.
  assert (Q : - INR (a s') / lambda <= - INR (a s) / lambda) by (apply Rmult_le_compat_r; [left; now apply Rinv_0_lt_compat|lra]).
  destruct Q as [Q|Q]; [left; now apply exp_increasing|right; now rewrite Q].
Qed.
Lemma gas_nearest_two T argsort e lambda S x s s' : sorts argsort -> 0 < e -> 0 < lambda -> (s < 2)%nat -> (s' < 2)%nat ->
  distance T S x s < distance T S x s' -> strength T 2 argsort e lambda S x s' <= strength T 2 argsort e lambda S x s.
Proof.
  intros Hsort He Hl Hs Hs' D. apply gas_nearest_involutive; auto. destruct (Hsort (distance T S x) 2%nat) as (P1 & P2 & _). set (a := argsort (distance T S x) 2%nat) in *.
  pose proof (P1 0%nat ltac:(lia)). pose proof (P1 1%nat ltac:(lia)). assert (N : a 0%nat <> a 1%nat) by (intros E; apply P2 in E; lia).
  intros i Hi. destruct i as [|[|i]]; [| |lia]; destruct (a 0%nat) as [|[|]] eqn:E0, (a 1%nat) as [|[|]] eqn:E1; try lia; congruence.
Qed.
(** The refinement takes steps of gradient descent, all with the initial rate. *)
Lemma diff_loop_steps loss gradient wide eval : forall todo k go vals rate past, exists n, (n <= todo)%nat /\ fst (diff_loop loss gradient wide eval todo k go vals rate past) = descend gradient rate n vals.
Proof.
  induction todo as [|todo IH]; intros k go vals rate past; [exists 0%nat; split; [lia|reflexivity]|]. cbn [diff_loop]. destruct go; [|exists 0%nat; split; [lia|reflexivity]].
  assert (Q : Rltb (loss vals) (loss vals) = false) by (destruct (Rltb (loss vals) (loss vals)) eqn:E; [apply Rltb_spec in E; lra|reflexivity]).
  destruct (k mod eval =? 0)%nat; cbv zeta; [rewrite Q|];
  match goal with |- context [diff_loop _ _ _ _ todo ?k' ?g' ?v' ?r' ?p'] => destruct (IH k' g' v' r' p') as [n [A B]] end; exists (Datatypes.S n); (split; [lia|exact B]).
Qed.
Lemma diff_tree_descends loss gradient wide eval kmax base vals rate : exists n, (n <= kmax)%nat /\ fst (fst (diff_tree loss gradient wide eval kmax base vals rate)) = descend gradient rate n vals /\
  ((forall v, loss (map (fun p => fst p - snd p * rate) (combine v (gradient v))) <= loss v) -> loss (fst (fst (diff_tree loss gradient wide eval kmax base vals rate))) <= loss vals).
Proof.
  unfold diff_tree. destruct (diff_loop_steps loss gradient wide eval kmax 0 true vals rate (1 / 1000000)) as [n [A B]].
  destruct (diff_loop loss gradient wide eval kmax 0 true vals rate (1 / 1000000)) as [v r]. cbn [fst] in *. exists n. split; [exact A|]. split; [exact B|]. intros H. subst v.
  clear A. revert vals. induction n as [|n IH]; intros vals; cbn; [lra|]. eapply Rle_trans; [apply IH|apply H].
Qed.
