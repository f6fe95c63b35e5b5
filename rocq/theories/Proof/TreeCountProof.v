(** The numbers of nodes per time. *)
From Coq Require Import List Bool Arith Reals Lra Lia Permutation.
From Verif Require Import Model.Scenred Model.TreeBuild Model.TreeLoss Spec.ScenredSpec Spec.TreeBuildSpec Proof.TreeBuildProof.
Import ListNotations.
Local Open Scope nat_scope.

Lemma count_positions l t : length (filter (fun k => nth k l 0 =? t) (seq 0 (length l))) = count_occ Nat.eq_dec l t.
Proof.
  induction l as [|a l IH]; [reflexivity|]. cbn [length seq filter]. rewrite <- seq_shift.
  assert (E : length (filter (fun k => nth k (a :: l) 0 =? t) (map S (seq 0 (length l)))) = count_occ Nat.eq_dec l t).
  { rewrite <- IH. generalize (seq 0 (length l)). intros ks. induction ks as [|k ks IHk]; [reflexivity|]. cbn [map filter]. change (nth (S k) (a :: l) 0) with (nth k l 0). destruct (nth k l 0 =? t); cbn [length]; now rewrite IHk. }
  cbn [count_occ]. change (nth 0 (a :: l) 0) with a. destruct (Nat.eqb_spec a t) as [X|X]; destruct (Nat.eq_dec a t) as [Y|Y]; cbn [length]; try congruence; now rewrite E.
Qed.
Lemma count_nodes {V} (g : graph V) t : count_occ Nat.eq_dec (map n_time (g_nodes g)) t = length (nodes_at_time g t).
Proof. unfold nodes_at_time, time_of. rewrite <- (map_length n_time (g_nodes g)). symmetry. apply count_positions. Qed.
Lemma filter_all {A} (f : A -> bool) l : (forall x, In x l -> f x = true) -> filter f l = l.
Proof. induction l as [|a l IH]; intros H; [reflexivity|]. cbn. rewrite H by now left. f_equal. apply IH. intros; apply H; now right. Qed.
Section Counts.
Context {V : Type} (g : graph V) (Hg : rooted_tree g).
Notation times := (map n_time (g_nodes g)).
Lemma times_down t : In (S t) times -> In t times.
Proof.
  destruct Hg as (_ & R & P & E). intros H. apply In_nth with (d := 0) in H. destruct H as (k & Hk & Ek). rewrite map_length in Hk. fold (time_of g k) in Ek.
  assert (K : k <> 0) by (intros ->; congruence).
  assert (I : In k (map snd (g_edges g))) by (apply (Permutation_in _ (Permutation_sym P)), in_seq; lia).
  apply in_map_iff in I. destruct I as ([a b] & B & I). cbn in B. subst b. destruct (E a k I) as [A1 A2]. replace t with (time_of g a) by lia.
  apply nth_In. rewrite map_length. lia.
Qed.
Lemma times_all t n : t <= n -> In n times -> In t times.
Proof. induction n as [|n IH]; intros H I; [now replace t with 0 by lia|]. destruct (Nat.eq_dec t (S n)) as [->|]; [exact I|]. apply IH; [lia|now apply times_down]. Qed.
Lemma max_in l : l <> [] -> In (list_max l) l.
Proof.
  induction l as [|a l IH]; [congruence|]. intros _. cbn [list_max fold_right]. fold (list_max l). destruct l as [|b l]; [left; cbn; lia|].
  destruct (Nat.max_dec a (list_max (b :: l))) as [E|E]; rewrite E; [now left|right; apply IH; discriminate].
Qed.
Lemma counts_are : get_nodes_per_time_from_tree g = map (fun t => length (nodes_at_time g t)) (seq 0 (S (list_max times))).
Proof.
  unfold get_nodes_per_time_from_tree. cbv zeta. rewrite filter_all.
  - apply map_ext. intros t. apply count_nodes.
  - intros t Ht. apply in_seq in Ht. destruct (in_dec _ _ _) as [|X]; [reflexivity|]. exfalso. apply X. apply times_all with (n := list_max times); [lia|]. apply max_in.
    destruct Hg as (H & _). destruct (g_nodes g); [congruence|discriminate].
Qed.
End Counts.
Lemma counts_sum l n : (forall t, In t l -> t < n) -> list_sum (map (count_occ Nat.eq_dec l) (seq 0 n)) = length l.
Proof.
  induction l as [|a l IH]; intros H.
  - cbn [count_occ length]. induction (seq 0 n) as [|x xs IHx]; [reflexivity|exact IHx].
  - cbn [length]. rewrite <- IH by (intros; apply H; now right). specialize (H a (or_introl eq_refl)). clear IH.
    assert (G : forall m s, list_sum (map (count_occ Nat.eq_dec (a :: l)) (seq s m)) = (if (s <=? a) && (a <? s + m) then 1 else 0) + list_sum (map (count_occ Nat.eq_dec l) (seq s m))).
    { induction m as [|m IHm]; intros s.
      - cbn [seq map list_sum fold_right]. destruct (Nat.leb_spec s a), (Nat.ltb_spec a (s + 0)); cbn; lia.
      - cbn [seq map list_sum fold_right]. fold (list_sum (map (count_occ Nat.eq_dec (a :: l)) (seq (S s) m))). fold (list_sum (map (count_occ Nat.eq_dec l) (seq (S s) m))). rewrite IHm. cbn [count_occ].
        destruct (Nat.eq_dec a s), (Nat.leb_spec (S s) a), (Nat.leb_spec s a), (Nat.ltb_spec a (S s + m)), (Nat.ltb_spec a (s + S m)); cbn [andb]; lia. }
    rewrite G. destruct (Nat.ltb_spec a (0 + n)); cbn; lia.
Qed.
Lemma nodes_per_time V (g : graph V) : rooted_tree g ->
  list_sum (get_nodes_per_time_from_tree g) = length (g_nodes g) /\
  (forall t, nth t (get_nodes_per_time_from_tree g) 0 = length (nodes_at_time g t)) /\
  forall t, t < length (get_nodes_per_time_from_tree g) <-> exists k, k < length (g_nodes g) /\ time_of g k = t.
Proof.
  intros Hg. rewrite (counts_are g Hg). set (times := map n_time (g_nodes g)). set (f := fun t => length (nodes_at_time g t)).
  assert (M : forall t, In t times -> t < S (list_max times)).
  { intros t Ht. pose proof (proj1 (list_max_le times (list_max times)) (le_n _)) as F. rewrite Forall_forall in F. specialize (F t Ht). lia. }
  assert (B : forall t, In t times <-> exists k, k < length (g_nodes g) /\ time_of g k = t).
  { intros t. unfold time_of, times. split.
    - intros H. apply In_nth with (d := 0) in H. destruct H as (k & Hk & E). rewrite map_length in Hk. now exists k.
    - intros (k & Hk & <-). apply nth_In. now rewrite map_length. }
  split; [|split].
  - rewrite (map_ext f (count_occ Nat.eq_dec times)) by (intros t; unfold f; symmetry; apply count_nodes). rewrite counts_sum by exact M. apply map_length.
  - intros t. destruct (Nat.lt_ge_cases t (S (list_max times))) as [H|H].
    + rewrite (nth_indep _ 0 (f 0)) by (rewrite map_length, seq_length; lia). rewrite map_nth, seq_nth by lia. reflexivity.
    + rewrite nth_overflow by (rewrite map_length, seq_length; lia). fold (f t). unfold f. rewrite <- count_nodes. symmetry. apply count_occ_not_In. intros X. apply M in X. lia.
  - intros t. rewrite map_length, seq_length. rewrite <- B. split; [|apply M]. intros H. apply (times_all g Hg) with (n := list_max times); [lia|]. apply max_in. unfold times. destruct Hg as (X & _). destruct (g_nodes g); [congruence|discriminate].
Qed.
Lemma counts_round_trip ns : multiples ns -> exists g, base_tree ns = Some g /\ get_nodes_per_time_from_tree g = ns.
Proof.
  intros Hm. destruct (base_tree_correct ns Hm) as (g & A & B & [_ C] & D). exists g. split; [exact A|]. destruct (nodes_per_time _ g B) as (_ & N & Ln).
  assert (P : forall t, t < length ns -> 0 < nth t ns 0).
  { destruct Hm as [H0 H1]. induction t as [|t IH]; intros Ht; [lia|]. destruct (H1 t Ht) as (c & Hc & ->). specialize (IH ltac:(lia)). nia. }
  assert (L : length (get_nodes_per_time_from_tree g) = length ns).
  { apply Nat.le_antisymm; apply Nat.nlt_ge; intros X.
    - apply Ln in X. destruct X as (k & Hk & E). destruct (C k Hk) as (_ & Y & _). lia.
    - assert (Y : length (get_nodes_per_time_from_tree g) < length (get_nodes_per_time_from_tree g)); [|lia]. apply Ln. destruct (D _ X) as [Z _]. specialize (P _ X). rewrite <- Z in P.
      destruct (nodes_at_time g (length (get_nodes_per_time_from_tree g))) as [|k ks] eqn:E; [cbn in P; lia|]. exists k. assert (I : In k (nodes_at_time g (length (get_nodes_per_time_from_tree g)))) by (rewrite E; now left).
      unfold nodes_at_time in I. apply filter_In in I. destruct I as [I1 I2]. apply in_seq in I1. apply Nat.eqb_eq in I2. split; [lia|exact I2]. }
  apply nth_ext with (d := 0) (d' := 0); [exact L|]. intros t Ht. rewrite N. apply D. now rewrite <- L.
Qed.
