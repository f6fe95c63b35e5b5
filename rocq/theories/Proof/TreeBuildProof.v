From Coq Require Import List Bool Arith ZArith Reals Lra Lia Permutation Sorted.
From Verif Require Import Model.Subsample Model.Stats Model.Metrics Model.Scenred Model.TreeBuild Spec.MetricsSpec Spec.ScenredSpec Spec.TreeBuildSpec
  Proof.SeriesProof Proof.SubsampleProof Proof.StatsProof Proof.MetricsProof Proof.ScenredProof Proof.ScenredProof2 Proof.ScenredProof3.
Import ListNotations.
Local Open Scope R_scope.
Local Open Scope nat_scope.

Lemma count_div m i : forall D, 0 < m -> i < D -> length (filter (fun j => j / m =? i) (seq 0 (m * D))) = m.
Proof.
  intros D Hm. induction D as [|D IH]; intros Hi; [lia|].
  replace (m * S D) with (m * D + m) by lia. rewrite seq_app, filter_app, app_length. cbn [plus].
  destruct (Nat.eq_dec i D) as [->|E].
  - rewrite filter_none, filter_all; [rewrite seq_length; reflexivity| |].
    + intros j Hj. apply in_seq in Hj. apply Nat.eqb_eq. symmetry. apply (Nat.div_unique j m D (j - m * D)); lia.
    + intros j Hj. apply in_seq in Hj. apply Nat.eqb_neq. assert (j / m < D) by (apply Nat.div_lt_upper_bound; lia). lia.
  - rewrite IH by lia. rewrite filter_none; [cbn; lia|]. intros j Hj. apply in_seq in Hj. apply Nat.eqb_neq.
    replace (j / m) with D by (apply (Nat.div_unique j m D (j - m * D)); lia). lia.
Qed.
Lemma filter_flat_map {A B} (p : B -> bool) (f : A -> list B) l : filter p (flat_map f l) = flat_map (fun a => filter p (f a)) l.
Proof. induction l as [|a l IH]; [reflexivity|]. cbn. rewrite filter_app, IH. reflexivity. Qed.
Lemma flat_map_nil {A B} (f : A -> list B) l : (forall a, In a l -> f a = []) -> flat_map f l = [].
Proof. induction l as [|a l IH]; intros H; [reflexivity|]. cbn. rewrite H by (cbn; auto). apply IH. intros; apply H; cbn; auto. Qed.
Lemma flat_map_one {A B} (f : A -> list B) l a : NoDup l -> In a l -> (forall b, In b l -> b <> a -> f b = []) -> flat_map f l = f a.
Proof.
  induction l as [|b l IH]; [contradiction|]. intros Hn Hin H. inversion Hn; subst. cbn. destruct Hin as [->|Hin].
  - rewrite flat_map_nil; [apply app_nil_r|]. intros c Hc. apply H; [cbn; auto|]. intros ->. contradiction.
  - rewrite (H b) by (try (cbn; auto; fail); intros ->; contradiction). cbn. apply IH; auto. intros; apply H; cbn; auto.
Qed.
Lemma flat_map_snoc {B} (f : nat -> list B) a n : flat_map f (seq a (S n)) = flat_map f (seq a n) ++ f (a + n).
Proof. rewrite seq_S, flat_map_app. cbn. rewrite app_nil_r. reflexivity. Qed.
Lemma combine_div o c k : forall m, 0 < c \/ True -> combine (flat_map (fun p => repeat p c) (seq o m)) (seq k (m * c)) = map (fun j => (o + j / c, k + j)) (seq 0 (m * c)).
Proof.
  intros m _. destruct (Nat.eq_dec c 0) as [->|Hc].
  { rewrite Nat.mul_0_r. cbn. destruct (flat_map _ _); reflexivity. }
  induction m as [|m IH]; [reflexivity|]. replace (S m * c) with (m * c + c) by lia. rewrite flat_map_snoc, !seq_app, map_app.
  assert (Hl : length (flat_map (fun p => repeat p c) (seq o m)) = m * c).
  { clear IH. induction m as [|m IH]; [reflexivity|]. rewrite flat_map_snoc, app_length, IH, repeat_length. lia. }
  assert (Hcomb : forall (A B : Type) (a1 a2 : list A) (b1 b2 : list B), length a1 = length b1 -> combine (a1 ++ a2) (b1 ++ b2) = combine a1 b1 ++ combine a2 b2).
  { induction a1 as [|x a1 IHa]; intros a2 [|y b1] b2 H; try discriminate; [reflexivity|]. cbn. rewrite IHa by (injection H; auto). reflexivity. }
  rewrite Hcomb by (rewrite Hl, seq_length; reflexivity). rewrite IH. f_equal. cbn [plus].
  assert (Hlen : length (combine (repeat (o + m) c) (seq (k + m * c) c)) = c) by (rewrite combine_length, repeat_length, seq_length; lia).
  apply (list_eq_nth _ _ (o + m, 0)); [rewrite Hlen, map_length, seq_length; reflexivity|].
  intros i Hi. rewrite Hlen in Hi. rewrite combine_nth by (rewrite repeat_length, seq_length; reflexivity).
  rewrite seq_nth by exact Hi. rewrite (nth_indep _ _ ((fun j => (o + j / c, k + j)) 0)) by (rewrite map_length, seq_length; exact Hi).
  rewrite (map_nth (fun j => (o + j / c, k + j))), seq_nth by exact Hi. f_equal; [|lia].
  replace ((m * c + i) / c) with m by (apply (Nat.div_unique (m * c + i) c m i); lia).
  apply nth_repeat.
Qed.

Lemma skipn_cons (l : list nat) : forall t, t < length l -> skipn t l = nth t l 0 :: skipn (S t) l.
Proof. induction l as [|a l IH]; intros [|t] H; cbn in H; try lia; [reflexivity|]. cbn [skipn nth]. rewrite IH by lia. reflexivity. Qed.

Section Base.
Context (ns : list nat).
Let T := length ns.
Let d t := nth t ns 0.
Let off t := sum (firstn t ns).
Context (H1 : d 0 = 1) (Hc : forall t, S t < T -> d t <> 0 /\ d (S t) mod d t = 0).

Lemma T_pos : 0 < T. Proof. unfold T, d in *. destruct ns; [discriminate|cbn; lia]. Qed.
Lemma off_S t : t < T -> off (S t) = off t + d t.
Proof.
  intros Ht. unfold off, d. assert (Hg : forall (l : list nat) t, t < length l -> sum (firstn (S t) l) = sum (firstn t l) + nth t l 0).
  { clear. induction l as [|a l IH]; intros t Ht; [cbn in Ht; lia|]. destruct t as [|t]; [cbn; lia|]. cbn in Ht. specialize (IH t ltac:(lia)).
    change (firstn (S (S t)) (a :: l)) with (a :: firstn (S t) l). change (firstn (S t) (a :: l)) with (a :: firstn t l). cbn [sum fold_right nth]. unfold sum in IH |- *. cbn [fold_right]. rewrite IH. lia. }
  apply Hg. exact Ht.
Qed.
Lemma off_0 : off 0 = 0. Proof. reflexivity. Qed.
Lemma off_1 : off 1 = 1. Proof. rewrite off_S by apply T_pos. rewrite H1. reflexivity. Qed.
Lemma off_mono s t : s <= t -> t <= T -> off s <= off t.
Proof. induction 1 as [|t Hs IH]; [lia|]. intros Ht. rewrite off_S by lia. specialize (IH ltac:(lia)). lia. Qed.

Let times t := flat_map (fun u => repeat u (d u)) (seq 0 t).
Let edges_at u := map (fun j => (off (u - 1) + j / (d u / d (u - 1)), off u + j)) (seq 0 (d u)).
Let edges t := flat_map edges_at (seq 1 (t - 1)).

Lemma times_len t : t <= T -> length (times t) = off t.
Proof.
  induction t as [|t IH]; intros Ht; [reflexivity|]. unfold times in *. rewrite flat_map_snoc, app_length, repeat_length, IH by lia. rewrite off_S by lia. reflexivity.
Qed.
Lemma times_nth t u j : t <= T -> u < t -> j < d u -> nth (off u + j) (times t) 0 = u.
Proof.
  revert u j. induction t as [|t IH]; intros u j Ht Hu Hj; [lia|]. unfold times in *. rewrite flat_map_snoc. cbn [plus].
  pose proof (times_len t ltac:(lia)) as Hl. unfold times in Hl. destruct (Nat.eq_dec u t) as [->|E].
  - rewrite app_nth2 by lia. rewrite Hl. replace (off t + j - off t) with j by lia. rewrite (nth_indep _ 0 t) by (rewrite repeat_length; exact Hj). apply nth_repeat.
  - rewrite app_nth1; [apply IH; auto; lia|]. rewrite Hl. pose proof (off_mono (S u) t ltac:(lia) ltac:(lia)). rewrite off_S in H by lia. lia.
Qed.
Lemma decompose k : k < off T -> exists t j, t < T /\ j < d t /\ k = off t + j.
Proof.
  assert (Hg : forall t, t <= T -> k < off t -> exists u j, u < t /\ j < d u /\ k = off u + j).
  { induction t as [|t IH]; intros Ht Hk; [cbn in Hk; lia|]. rewrite off_S in Hk by lia. destruct (lt_dec k (off t)) as [L|L].
    - destruct (IH ltac:(lia) L) as (u & j & A & B & C). exists u, j. repeat split; auto; lia.
    - exists t, (k - off t). repeat split; lia. }
  intros Hk. destruct (Hg T (le_n _) Hk) as (u & j & A). exists u, j. exact A.
Qed.
Lemma recompose t j t' j' : t < T -> j < d t -> t' < T -> j' < d t' -> off t + j = off t' + j' -> t = t' /\ j = j'.
Proof.
  intros. assert (t = t') by (rewrite <- (times_nth T t j), <- (times_nth T t' j') by (auto; lia); congruence). subst. split; [reflexivity|lia].
Qed.

Lemma d_mult t : S t < T -> d (S t) = d (S t) / d t * d t /\ 0 < d t.
Proof.
  intros Ht. destruct (Hc t Ht) as [A B]. split; [|lia]. rewrite Nat.mul_comm. pose proof (Nat.div_mod (d (S t)) (d t) A). lia.
Qed.
Lemma grow_closed k : forall t, 1 <= t -> t + k = T ->
  grow (skipn t ns) t (d (t - 1)) (off t) (seq (off (t - 1)) (d (t - 1))) (times t, edges t) = Some (times T, edges T).
Proof.
  induction k as [|k IH]; intros t Ht Hk.
  - replace (skipn t ns) with (@nil nat) by (symmetry; apply skipn_all2; fold T; lia). replace t with T by lia. reflexivity.
  - rewrite skipn_cons by (fold T; lia). fold (d t). cbn [grow].
    destruct (d_mult (t - 1) ltac:(lia)) as [M1 M2]. destruct (Hc (t - 1) ltac:(lia)) as [A B]. replace (S (t - 1)) with t in * by lia.
    destruct (Nat.eqb_spec (d (t - 1)) 0); [contradiction|]. rewrite B, Nat.eqb_refl.
    assert (Hl : length (flat_map (fun p => repeat p (d t / d (t - 1))) (seq (off (t - 1)) (d (t - 1)))) = d t).
    { transitivity (d t / d (t - 1) * d (t - 1)); [|symmetry; exact M1]. generalize (d t / d (t - 1)) as c. intros c. generalize (d (t - 1)) as m. induction m as [|m IHm]; [cbn; lia|].
      rewrite flat_map_snoc, app_length, IHm, repeat_length. lia. }
    rewrite Hl. specialize (IH (S t) ltac:(lia) ltac:(lia)). replace (S t - 1) with t in IH by lia. rewrite off_S in IH by lia.
    etransitivity; [|exact IH]. f_equal. cbn [fst snd]. f_equal.
    + unfold times. rewrite flat_map_snoc. reflexivity.
    + unfold edges. replace (S t - 1) with (S (t - 1)) by lia. rewrite flat_map_snoc. replace (1 + (t - 1)) with t by lia. f_equal.
      unfold edges_at.
      pose proof (combine_div (off (t - 1)) (d t / d (t - 1)) (off t) (d (t - 1)) (or_intror I)) as E. rewrite (Nat.mul_comm (d (t - 1))), <- M1 in E. exact E.
Qed.
Lemma edges_in a b : In (a, b) (edges T) <-> exists u j, 1 <= u < T /\ j < d u /\ a = off (u - 1) + j / (d u / d (u - 1)) /\ b = off u + j.
Proof.
  unfold edges, edges_at. rewrite in_flat_map. split.
  - intros (u & Hu & Hin). apply in_seq in Hu. apply in_map_iff in Hin. destruct Hin as (j & E & Hj). apply in_seq in Hj. injection E as <- <-. exists u, j. repeat split; lia.
  - intros (u & j & Hu & Hj & -> & ->). exists u. split; [apply in_seq; lia|]. apply in_map_iff. exists j. split; [reflexivity|]. apply in_seq. lia.
Qed.
Lemma edges_snd : map snd (edges T) = seq 1 (off T - 1).
Proof.
  assert (Hg : forall t, t < T -> map snd (flat_map edges_at (seq 1 t)) = seq 1 (off (S t) - 1)).
  { induction t as [|t IH]; intros Ht.
    - cbn [seq flat_map map]. rewrite off_1. reflexivity.
    - rewrite flat_map_snoc, map_app, IH by lia. rewrite (off_S (S t)) by lia. unfold edges_at. rewrite map_map. cbn [snd].
      pose proof (off_mono 1 (S t) ltac:(lia) ltac:(lia)). rewrite off_1 in H.
      replace (off (S t) + d (S t) - 1) with ((off (S t) - 1) + d (S t)) by lia. rewrite seq_app. f_equal. cbn [plus].
      replace (1 + (off (S t) - 1)) with (off (S t)) by lia. 
      apply (list_eq_nth _ _ 0); [rewrite map_length, !seq_length; reflexivity|]. intros i Hi. rewrite map_length, seq_length in Hi.
      rewrite seq_nth by exact Hi. rewrite (nth_map_seq (fun x => off (S t) + x)) by exact Hi. lia. }
  unfold edges. pose proof T_pos. specialize (Hg (T - 1) ltac:(lia)). replace (S (T - 1)) with T in Hg by lia. exact Hg.
Qed.
Lemma base_leaves : filter (fun x => nth x (times T) 0 =? T - 1) (seq 0 (off T)) = map (fun j => off (T - 1) + j) (seq 0 (d (T - 1))).
Proof.
  pose proof T_pos as HT. replace (off T) with (off (T - 1) + d (T - 1)) by (rewrite <- off_S by lia; f_equal; lia).
  rewrite seq_app, filter_app. rewrite filter_none, filter_all.
  - cbn [app plus]. apply (list_eq_nth _ _ 0); [rewrite map_length, !seq_length; reflexivity|]. intros i Hi. rewrite seq_length in Hi.
    rewrite seq_nth by exact Hi. rewrite (nth_map_seq (fun x => off (T - 1) + x)) by exact Hi. reflexivity.
  - intros x Hx. apply in_seq in Hx. apply Nat.eqb_eq. replace x with (off (T - 1) + (x - off (T - 1))) by lia. apply times_nth; lia.
  - intros x Hx. apply in_seq in Hx. apply Nat.eqb_neq. intros E. 
    destruct (decompose x) as (t & j & A & B & C). { pose proof (off_mono (T - 1) T ltac:(lia) (le_n _)). lia. }
    rewrite C, times_nth in E by auto. subst t. lia.
Qed.
Context (Hlast : 0 < d (T - 1)).
Lemma d_pos t : t < T -> 0 < d t.
Proof. intros Ht. destruct (Nat.eq_dec t (T - 1)) as [->|E]; [exact Hlast|]. apply d_mult. lia. Qed.
Lemma d_div s t : s <= t -> t < T -> d t = d t / d s * d s.
Proof.
  intros Hst Ht. assert (Hd : exists q, d t = q * d s).
  { induction Hst as [|t Hst IH]; [exists 1; lia|]. destruct (IH ltac:(lia)) as [q Hq]. destruct (d_mult t ltac:(lia)) as [M _]. exists (d (S t) / d t * q). rewrite M at 1. rewrite Hq. lia. }
  destruct Hd as [q Hq]. pose proof (d_pos s ltac:(lia)). replace (d t / d s) with q; [exact Hq|]. rewrite Hq. symmetry. apply Nat.div_mul. lia.
Qed.
Lemma d_ratio r s t : r <= s -> s <= t -> t < T -> d t / d s * (d s / d r) = d t / d r /\ 0 < d t / d s.
Proof.
  intros Hrs Hst Ht. pose proof (d_div s t Hst Ht) as A. pose proof (d_div r s Hrs ltac:(lia)) as B. pose proof (d_div r t ltac:(lia) Ht) as C.
  pose proof (d_pos r ltac:(lia)) as Pr. pose proof (d_pos t Ht) as Pt. split; [|destruct (d t / d s); lia].
  set (x := d t / d s) in *. set (y := d s / d r) in *. set (z := d t / d r) in *. rewrite B in A. apply (Nat.mul_cancel_r _ _ (d r)); [lia|]. lia.
Qed.
Lemma parent_index t j : 1 <= t < T -> j < d t -> j / (d t / d (t - 1)) < d (t - 1).
Proof.
  intros Ht Hj. pose proof (d_div (t - 1) t ltac:(lia) ltac:(lia)) as A. destruct (d_ratio (t - 1) (t - 1) t ltac:(lia) ltac:(lia) ltac:(lia)) as [_ P].
  apply Nat.div_lt_upper_bound; lia.
Qed.

Let leaf_count := d (T - 1).
Let g : graph R := Graph (map (fun x => (nth x (times T) 0, (1 / INR (d (nth x (times T) 0%nat)))%R, 0%R)) (seq 0 (off T))) (edges T).
Lemma g_len : length (g_nodes g) = off T. Proof. cbn. rewrite map_length, seq_length. reflexivity. Qed.
Lemma g_time k : k < off T -> time_of g k = nth k (times T) 0.
Proof. intros Hk. unfold time_of. cbn [g g_nodes]. rewrite map_map. unfold n_time. cbn [fst]. rewrite (nth_map_seq (fun x => nth x (times T) 0)) by exact Hk. reflexivity. Qed.
Lemma g_prob k : k < off T -> prob_of g k = (1 / INR (d (nth k (times T) 0%nat)))%R.
Proof. intros Hk. unfold prob_of. cbn [g g_nodes]. rewrite map_map. unfold n_prob. cbn [fst snd]. rewrite (nth_map_seq (fun x => (1 / INR (d (nth x (times T) 0%nat)))%R)) by exact Hk. reflexivity. Qed.
Lemma in_range t j : t < T -> j < d t -> off t + j < off T.
Proof. intros Ht Hj. pose proof (off_mono (S t) T ltac:(lia) (le_n _)) as Hm. rewrite off_S in Hm by lia. lia. Qed.
Lemma g_time_at t j : t < T -> j < d t -> time_of g (off t + j) = t.
Proof. intros Ht Hj. rewrite g_time by (apply in_range; auto). apply times_nth; auto. Qed.
Lemma base_rooted : rooted_tree g.
Proof.
  pose proof T_pos as HT. pose proof (off_mono 1 T ltac:(lia) (le_n _)) as Ho. rewrite off_1 in Ho. split; [|split; [|split]].
  - intros E. apply (f_equal (@length _)) in E. rewrite g_len in E. cbn in E. lia.
  - change 0 with (off 0 + 0) at 1. apply g_time_at; lia.
  - rewrite g_len. cbn [g g_edges]. rewrite edges_snd. apply Permutation_refl.
  - intros a b Hin. apply edges_in in Hin. destruct Hin as (u & j & Hu & Hj & -> & ->).
    pose proof (parent_index u j Hu Hj) as Hp. split.
    + assert (off u = off (u - 1) + d (u - 1)) by (replace u with (S (u - 1)) at 1 by lia; apply off_S; lia). lia.
    + rewrite !g_time_at by lia. lia.
Qed.
Lemma base_parent t j : 1 <= t < T -> j < d t -> parents (edges T) (off t + j) = [off (t - 1) + j / (d t / d (t - 1))].
Proof.
  intros Ht Hj. destruct (parents_one g base_rooted (off t + j)) as (p & P1 & P2).
  { rewrite g_len. pose proof (off_mono 1 t ltac:(lia) ltac:(lia)) as Ho. rewrite off_1 in Ho. split; [lia|apply in_range; lia]. }
  cbn [g g_edges] in P1, P2. rewrite P1. f_equal. apply edges_in in P2. destruct P2 as (u & i & Hu & Hi & -> & E).
  destruct (recompose t j u i ltac:(lia) Hj ltac:(lia) Hi E) as [-> ->]. reflexivity.
Qed.
Lemma base_ancestors : forall t j fuel, t < T -> j < d t -> t <= fuel ->
  ancestors fuel (edges T) (off t + j) = map (fun i => off (t - 1 - i) + j / (d t / d (t - 1 - i))) (seq 0 t).
Proof.
  induction t as [|t IH]; intros j fuel Ht Hj Hf.
  - rewrite H1 in Hj. assert (j = 0) by lia. subst. change (off 0 + 0) with 0. pose proof (parents_root g base_rooted 0 (or_introl eq_refl)) as E. cbn [g g_edges] in E.
    destruct fuel; [reflexivity|]. cbn [ancestors]. rewrite E. reflexivity.
  - destruct fuel as [|fuel]; [lia|]. cbn [ancestors]. rewrite base_parent by lia. cbn [flat_map]. rewrite app_nil_r.
    replace (S t - 1) with t by lia. pose proof (parent_index (S t) j ltac:(lia) Hj) as Hp. replace (S t - 1) with t in Hp by lia.
    rewrite IH by lia. cbn [seq map]. f_equal; [rewrite Nat.sub_0_r; reflexivity|]. rewrite <- seq_shift, map_map. apply map_ext_in. intros i Hi. apply in_seq in Hi.
    replace (t - S i) with (t - 1 - i) by lia. f_equal. pose proof (d_pos (t - 1 - i) ltac:(lia)).
    destruct (d_ratio (t - 1 - i) t (S t) ltac:(lia) ltac:(lia) ltac:(lia)) as [A B]. destruct (d_ratio (t - 1 - i) (t - 1 - i) t ltac:(lia) ltac:(lia) ltac:(lia)) as [_ C].
    rewrite Nat.div_div by lia. rewrite A. reflexivity.
Qed.
Lemma base_below t i : t < T - 1 -> i < d t ->
  length (filter (fun l => existsb (Nat.eqb (off t + i)) (ancestors (off T) (edges T) l)) (map (fun j => off (T - 1) + j) (seq 0 (d (T - 1))))) = d (T - 1) / d t.
Proof.
  intros Ht Hi. pose proof T_pos as HT. rewrite filter_of_map, map_length.
  rewrite (filter_ext_in _ (fun j => j / (d (T - 1) / d t) =? i)).
  - pose proof (d_div t (T - 1) ltac:(lia) ltac:(lia)) as A. destruct (d_ratio t t (T - 1) ltac:(lia) ltac:(lia) ltac:(lia)) as [_ P].
    replace (seq 0 (d (T - 1))) with (seq 0 (d (T - 1) / d t * d t)) by (f_equal; symmetry; exact A). apply count_div; auto.
  - intros j Hj. apply in_seq in Hj. rewrite base_ancestors; [|lia|lia|].
    2: { pose proof (time_le g base_rooted (off (T - 1) + j)) as Hle. rewrite g_len in Hle. rewrite g_time_at in Hle by lia. pose proof (in_range (T - 1) j ltac:(lia) ltac:(lia)). lia. }
    destruct (Nat.eqb_spec (j / (d (T - 1) / d t)) i) as [E|E].
    + apply existsb_exists. exists (off t + i). split; [|apply Nat.eqb_refl]. apply in_map_iff. exists (T - 1 - 1 - t).
      assert (E0 : T - 1 - 1 - (T - 1 - 1 - t) = t) by lia. rewrite E0, E. split; [reflexivity|]. apply in_seq. lia.
    + destruct (existsb _ _) eqn:Ex; [|reflexivity]. exfalso. apply existsb_exists in Ex. destruct Ex as (y & Hy & Ey). apply Nat.eqb_eq in Ey. subst y.
      apply in_map_iff in Hy. destruct Hy as (k & Ek & Hk). apply in_seq in Hk. set (u := T - 1 - 1 - k) in *. assert (Hu1 : u < T - 1) by (unfold u; clear -Hk HT; lia). clearbody u. assert (Hu2 : u <= T - 1) by (clear -Hu1; lia). assert (Hu3 : T - 1 < T) by (clear -HT; lia). assert (Hu4 : t < T) by (clear -Ht; lia). assert (Hu5 : u < T) by (clear -Hu1; lia).
      assert (Hu : j / (d (T - 1) / d u) < d u).
      { pose proof (d_div u (T - 1) Hu2 Hu3) as A. destruct (d_ratio u u (T - 1) (le_n _) Hu2 Hu3) as [_ P].
        clear Ek E. apply Nat.div_lt_upper_bound; [clear -P; lia|]. rewrite <- A. clear -Hj. lia. }
      destruct (recompose u _ t i Hu5 Hu Hu4 Hi Ek) as [E1 E2]. apply E. rewrite <- E1. exact E2.
Qed.
Lemma base_is : base_tree ns = Some g.
Proof.
  pose proof T_pos as HT. assert (Hns : exists rest, ns = 1 :: rest) by (unfold d in H1; clear -H1; destruct ns as [|a l]; [discriminate|]; cbn in H1; subst; eauto).
  pose proof (grow_closed (T - 1) 1 ltac:(lia) ltac:(lia)) as G. rewrite off_1 in G. change (1 - 1) with 0 in G. rewrite H1 in G. change (off 0) with 0 in G.
  change (seq 0 1) with [0] in G. replace (times 1) with [0] in G by (unfold times; cbn [seq flat_map]; rewrite H1; reflexivity). change (edges 1) with (@nil (nat * nat)) in G.
  destruct Hns as [rest Ens]. unfold base_tree. rewrite Ens at 1. rewrite Ens in G at 1. cbn [skipn] in G. rewrite G. fold T.
  rewrite times_len by lia. cbv zeta. rewrite base_leaves. rewrite map_length, seq_length. destruct (Nat.eqb_spec (d (T - 1)) 0); [lia|].
  f_equal. unfold g. f_equal. apply map_ext_in. intros x Hx. apply in_seq in Hx. destruct (decompose x ltac:(lia)) as (t & j & A & B & C).
  rewrite C, times_nth by auto. f_equal. f_equal. pose proof (lt_0_INR _ (d_pos t A)) as Pd. pose proof (lt_0_INR _ Hlast) as Pl.
  destruct (Nat.eqb_spec t (T - 1)) as [->|E]; [cbn [INR]; reflexivity|].
  rewrite base_below by lia. pose proof (d_div t (T - 1) ltac:(lia) ltac:(lia)) as D. apply (f_equal INR) in D. rewrite mult_INR in D.
  rewrite D in Pl |- *. field. split; [lra|]. intros Z. rewrite Z in Pl. lra.
Qed.
Lemma base_counts t : t < T -> length (nodes_at_time g t) = d t.
Proof.
  intros Ht. unfold nodes_at_time. rewrite g_len. rewrite (filter_ext_in _ (fun k => nth k (times T) 0 =? t)) by (intros k Hk; apply in_seq in Hk; rewrite g_time by lia; reflexivity).
  replace (off T) with (off t + (d t + (off T - off (S t)))) by (rewrite off_S by lia; pose proof (off_mono (S t) T ltac:(lia) (le_n _)) as X; rewrite off_S in X by lia; lia).
  rewrite !seq_app, !filter_app, !app_length. rewrite filter_none, filter_all, filter_none; [rewrite seq_length; cbn; lia| | |].
  - intros x Hx. apply in_seq in Hx. apply Nat.eqb_neq. intros E. pose proof (off_mono (S t) T ltac:(lia) (le_n _)) as X. rewrite off_S in * by lia.
    destruct (decompose x ltac:(lia)) as (u & j & A & B & C). rewrite C, times_nth in E by auto. subst u. lia.
  - intros x Hx. apply in_seq in Hx. apply Nat.eqb_eq. cbn in Hx. replace x with (off t + (x - off t)) by lia. apply times_nth; lia.
  - intros x Hx. apply in_seq in Hx. apply Nat.eqb_neq. intros E. pose proof (off_mono t T ltac:(lia) (le_n _)).
    destruct (decompose x ltac:(lia)) as (u & j & A & B & C). rewrite C, times_nth in E by auto. subst u. lia.
Qed.
Lemma base_consistent : consistent T g.
Proof.
  pose proof T_pos as HT. split.
  - rewrite g_prob by (change 0 with (off 0 + 0) at 1; apply in_range; lia). change (nth 0 (times T) 0) with (nth (off 0 + 0) (times T) 0). rewrite times_nth by lia. rewrite H1. cbn. lra.
  - intros k Hk. rewrite g_len in Hk. destruct (decompose k Hk) as (t & i & A & B & ->). rewrite g_time_at by auto. rewrite g_prob by exact Hk. rewrite times_nth by auto.
    pose proof (lt_0_INR _ (d_pos t A)) as Pd. split; [apply Rdiv_lt_0_compat; lra|]. split; [exact A|]. intros Ht.
    assert (Hch : forall x, In x (children_of g (off t + i)) -> prob_of g x = (1 / INR (d (S t)))%R).
    { intros x Hx. unfold children_of in Hx. apply in_map_iff in Hx. destruct Hx as ([a b] & <- & Hin). apply filter_In in Hin. destruct Hin as [Hin E]. cbn [fst snd] in *.
      apply Nat.eqb_eq in E. subst a. cbn [g g_edges] in Hin. apply edges_in in Hin. destruct Hin as (u & j & Hu & Hj & E & ->).
      destruct (recompose t i (u - 1) _ A B ltac:(lia) (parent_index u j Hu Hj) E) as [Et _]. rewrite g_prob by (apply in_range; lia). rewrite times_nth by lia. do 3 f_equal. lia. }
    rewrite (map_ext_in _ (fun _ => (1 / INR (d (S t)))%R)) by exact Hch. rewrite total_const.
    replace (length (children_of g (off t + i))) with (d (S t) / d t).
    + pose proof (d_div t (S t) ltac:(lia) Ht) as D. apply (f_equal INR) in D. rewrite mult_INR in D. pose proof (lt_0_INR _ (d_pos (S t) Ht)) as Ps.
      rewrite D in Ps |- *. field. split; [lra|]. intros Z. rewrite Z in Ps. lra.
    + unfold children_of. rewrite map_length. cbn [g g_edges]. unfold edges. rewrite filter_flat_map.
      rewrite (flat_map_one _ _ (S t)); [|apply seq_NoDup|apply in_seq; lia|].
      * unfold edges_at. rewrite filter_of_map, map_length. cbn [fst]. replace (S t - 1) with t by lia.
        pose proof (d_div t (S t) ltac:(lia) Ht) as D. destruct (d_ratio t t (S t) ltac:(lia) ltac:(lia) ltac:(lia)) as [_ P].
        rewrite (filter_ext _ (fun j => j / (d (S t) / d t) =? i)).
        -- replace (seq 0 (d (S t))) with (seq 0 (d (S t) / d t * d t)) by (f_equal; symmetry; exact D). symmetry. apply count_div; auto.
        -- intros j. destruct (Nat.eqb_spec (off t + j / (d (S t) / d t)) (off t + i)), (Nat.eqb_spec (j / (d (S t) / d t)) i); try reflexivity; lia.
      * intros u Hu Hne. apply in_seq in Hu. unfold edges_at. rewrite filter_of_map. rewrite filter_none; [reflexivity|]. intros j Hj. apply in_seq in Hj. cbn [fst].
        apply Nat.eqb_neq. intros E. destruct (recompose (u - 1) _ t i ltac:(lia) (parent_index u j ltac:(lia) ltac:(lia)) A B E). lia.
Qed.
End Base.

Lemma grow_inv : forall rest t m k prev acc r, grow rest t m k prev acc = Some r ->
  forall i, i < length rest -> nth i (m :: rest) 0 <> 0 /\ nth (S i) (m :: rest) 0 mod nth i (m :: rest) 0 = 0.
Proof.
  induction rest as [|n rest IH]; intros t m k prev acc r H i Hi; [cbn in Hi; lia|]. cbn [grow] in H.
  destruct (Nat.eqb_spec m 0) as [|Hm]; [discriminate|]. destruct (Nat.eqb_spec (n mod m) 0) as [Hz|]; [|discriminate].
  destruct i as [|i]; [cbn [nth]; auto|]. cbn in Hi. change (nth (S i) (m :: n :: rest) 0) with (nth i (n :: rest) 0).
  change (nth (S (S i)) (m :: n :: rest) 0) with (nth (S i) (n :: rest) 0). eapply IH; [exact H|lia].
Qed.
Lemma multiples_mod ns : multiples ns -> (forall t, S t < length ns -> nth t ns 0 <> 0 /\ nth (S t) ns 0 mod nth t ns 0 = 0) /\ 0 < nth (length ns - 1) ns 0.
Proof.
  intros [H1 Hm]. assert (Hp : forall t, t < length ns -> 0 < nth t ns 0).
  { induction t as [|t IH]; intros Ht; [lia|]. destruct (Hm t Ht) as (c & Hc & ->). specialize (IH ltac:(lia)). nia. }
  split.
  - intros t Ht. pose proof (Hp t ltac:(lia)). split; [lia|]. destruct (Hm t Ht) as (c & Hc & ->). apply Nat.mod_mul. lia.
  - apply Hp. destruct ns; [discriminate|cbn; lia].
Qed.
Lemma base_tree_correct ns : multiples ns ->
  exists g, base_tree ns = Some g /\ rooted_tree g /\ consistent (length ns) g /\
    forall t, t < length ns -> length (nodes_at_time g t) = nth t ns 0 /\
      forall k, In k (nodes_at_time g t) -> prob_of g k = (1 / INR (nth t ns 0%nat))%R.
Proof.
  intros H. destruct (multiples_mod ns H) as [Hc Hl]. destruct H as [H1 _].
  eexists. split; [exact (base_is ns H1 Hc Hl)|]. split; [exact (base_rooted ns H1 Hc Hl)|]. split; [exact (base_consistent ns H1 Hc Hl)|].
  intros t Ht. split; [apply base_counts; auto|]. intros k Hk. unfold nodes_at_time in Hk. apply filter_In in Hk. destruct Hk as [A B]. apply in_seq in A. rewrite g_len in A.
  apply Nat.eqb_eq in B. rewrite g_time in B by lia. rewrite g_prob by lia. rewrite B. reflexivity.
Qed.
Lemma base_tree_domain ns g : nth 0 ns 0 = 1 -> base_tree ns = Some g -> multiples ns.
Proof.
  intros H1 Hb. unfold base_tree in Hb. destruct ns as [|m rest] eqn:Ens; [discriminate|]. rewrite <- Ens in *.
  destruct (grow rest 1 m 1 [0] ([0], [])) as [[times edges]|] eqn:Eg; [|discriminate].
  assert (Hc : forall t, S t < length ns -> nth t ns 0 <> 0 /\ nth (S t) ns 0 mod nth t ns 0 = 0).
  { intros t Ht. rewrite Ens in *. eapply grow_inv; [exact Eg|]. cbn in Ht. lia. }
  assert (Hl : 0 < nth (length ns - 1) ns 0).
  { pose proof (grow_closed ns H1 Hc (length ns - 1) 1 ltac:(lia) ltac:(rewrite Ens; cbn; lia)) as G. pose proof (off_1 ns H1) as O1. cbv zeta beta in G, O1. rewrite (O1 Hc) in G. change (1 - 1) with 0 in G. rewrite H1 in G.
    change (sum (firstn 0 ns)) with 0 in G. change (seq 0 1) with [0] in G. cbn [seq flat_map] in G. rewrite H1 in G. cbn [repeat app] in G.
    rewrite Ens in G at 1. cbn [skipn] in G. rewrite Ens in H1. cbn in H1. rewrite H1 in Eg. rewrite Eg in G. injection G as -> ->.
    assert (H1' : nth 0 ns 0 = 1) by (rewrite Ens; exact H1).
    pose proof (times_len ns H1' Hc (length ns) (le_n _)) as TL. cbv zeta beta in TL. rewrite TL in Hb.
    pose proof (base_leaves ns H1' Hc) as BL. cbv zeta beta in BL. cbv zeta in Hb. rewrite BL in Hb. rewrite map_length, seq_length in Hb.
    destruct (Nat.eqb_spec (nth (length ns - 1) ns 0) 0); [discriminate|lia]. }
  split; [exact H1|]. intros t Ht. destruct (Hc t Ht) as [A B]. exists (nth (S t) ns 0 / nth t ns 0).
  pose proof (Nat.div_mod (nth (S t) ns 0) (nth t ns 0) A) as D. split; [|lia].
  assert (0 < nth (S t) ns 0); [|destruct (nth (S t) ns 0 / nth t ns 0); lia].
  destruct (Nat.eq_dec (S t) (length ns - 1)) as [->|E]; [exact Hl|]. destruct (Hc (S t) ltac:(lia)). lia.
Qed.
(** As many counts as scenarios minus one: a step is added although the scenarios have none. *)
Lemma counts_extended n_scen ns : length ns = n_scen - 1 -> 1 <= n_scen -> length (fst (prepare_counts n_scen ns)) = S (length ns).
Proof.
  intros H H1. unfold prepare_counts. rewrite (proj2 (Nat.eqb_eq _ _) H). rewrite (proj2 (Nat.leb_le 1 n_scen) H1). reflexivity.
Qed.
Lemma counts_kept n_scen ns : length ns <> n_scen - 1 -> ns <> [] ->
  length (fst (prepare_counts n_scen ns)) = length ns /\ nth 0 (fst (prepare_counts n_scen ns)) 0 = 1 /\
  (forall t, 0 < t -> nth t (fst (prepare_counts n_scen ns)) 0 = nth t ns 0) /\
  (snd (prepare_counts n_scen ns) = true <-> nth 0 ns 0 <> 1).
Proof.
  intros H Hne. unfold prepare_counts. rewrite (proj2 (Nat.eqb_neq _ _) H). cbn [andb]. destruct ns as [|a l]; [contradiction|].
  destruct (Nat.eqb_spec a 1) as [->|E]; cbn [fst snd]; repeat split; auto; try discriminate; try (intros X; cbn in X; congruence).
  intros [|t] Ht; [lia|reflexivity].
Qed.
