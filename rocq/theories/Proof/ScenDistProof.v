(** Distances between scenarios: bounded, and what moving or scaling the data does to them. *)
From Coq Require Import List Bool Arith Reals Lra Lia.
From Verif Require Import Model.Scenred Model.ScenDist Spec.MetricsSpec Spec.ScenredSpec Spec.ScenDistSpec
  Proof.ScenredProof Proof.ScenredProof2 Proof.ScenredTolProof Proof.ScenredUnitProof.
Import ListNotations.
Local Open Scope R_scope.

Lemma sb_ext f g n : (forall i, (i < n)%nat -> f i = g i) -> sum_below f n = sum_below g n.
Proof. induction n as [|n IH]; intros H; [reflexivity|]. cbn. rewrite IH, H by (auto; intros; apply H; lia). reflexivity. Qed.
Lemma sb_le f g n : (forall i, (i < n)%nat -> f i <= g i) -> sum_below f n <= sum_below g n.
Proof. induction n as [|n IH]; intros H; cbn; [lra|]. pose proof (IH ltac:(intros; apply H; lia)). pose proof (H n ltac:(lia)). lra. Qed.
Lemma sb_const b n : sum_below (fun _ => b) n = INR n * b.
Proof. induction n as [|n IH]; [cbn; lra|]. cbn [sum_below]. rewrite IH, S_INR. lra. Qed.
Lemma sb_scale k f n : sum_below (fun i => k * f i) n = k * sum_below f n.
Proof. induction n as [|n IH]; cbn; [lra|]. rewrite IH. lra. Qed.
Lemma sb_plus f g n : sum_below (fun i => f i + g i) n = sum_below f n + sum_below g n.
Proof. induction n as [|n IH]; cbn; [lra|]. rewrite IH. lra. Qed.
Lemma sb_nonneg f n : (forall i, (i < n)%nat -> 0 <= f i) -> 0 <= sum_below f n.
Proof. intros H. rewrite <- (Rmult_0_r (INR n)), <- sb_const. apply sb_le. exact H. Qed.
Lemma sb_one f n r : (forall i, (i < n)%nat -> 0 <= f i) -> (r < n)%nat -> f r <= sum_below f n.
Proof.
  induction n as [|n IH]; intros H Hr; [lia|]. cbn. destruct (Nat.eq_dec r n) as [->|].
  - pose proof (sb_nonneg f n ltac:(intros; apply H; lia)). lra.
  - pose proof (IH ltac:(intros; apply H; lia) ltac:(lia)). pose proof (H n ltac:(lia)). lra.
Qed.
Lemma sb_two f n r c : (forall i, (i < n)%nat -> 0 <= f i) -> (r < n)%nat -> (c < n)%nat -> r <> c -> f r + f c <= sum_below f n.
Proof.
  induction n as [|n IH]; intros H Hr Hc Hrc; [lia|]. cbn. destruct (Nat.eq_dec r n) as [->|], (Nat.eq_dec c n) as [->|].
  - congruence.
  - pose proof (sb_one f n c ltac:(intros; apply H; lia) ltac:(lia)). lra.
  - pose proof (sb_one f n r ltac:(intros; apply H; lia) ltac:(lia)). lra.
  - pose proof (IH ltac:(intros; apply H; lia) ltac:(lia) ltac:(lia) Hrc). pose proof (H n ltac:(lia)). lra.
Qed.

Lemma Rabs_m1 : Rabs (-1) = 1.
Proof. rewrite Rabs_left; lra. Qed.

Section One.
Context (N : nat) (HN : (0 < N)%nat).
Let NR : 0 < INR N. Proof. apply lt_0_INR, HN. Qed.
Lemma mean_ext v w : (forall c, (c < N)%nat -> v c = w c) -> scen_mean N v = scen_mean N w.
Proof. intros H. unfold scen_mean. now rewrite (sb_ext v w N H). Qed.
Lemma std_ext v w : (forall c, (c < N)%nat -> v c = w c) -> scen_std N v = scen_std N w.
Proof.
  intros H. unfold scen_std. rewrite (mean_ext v w H). do 2 f_equal. apply sb_ext. intros i Hi. now rewrite H.
Qed.
Lemma std_nonneg v : 0 <= scen_std N v.
Proof. apply sqrt_pos. Qed.
Lemma mean_affine k d v : scen_mean N (fun c => k * v c + d) = k * scen_mean N v + d.
Proof. unfold scen_mean. rewrite sb_plus, sb_scale, sb_const. field. lra. Qed.
Lemma std_affine k d v : scen_std N (fun c => k * v c + d) = Rabs k * scen_std N v.
Proof.
  unfold scen_std. rewrite mean_affine.
  rewrite (sb_ext _ (fun c => (k * k) * ((v c - scen_mean N v) * (v c - scen_mean N v)))) by (intros; ring).
  rewrite sb_scale. replace (k * k * sum_below (fun c => (v c - scen_mean N v) * (v c - scen_mean N v)) N / INR N)
    with ((k * k) * (sum_below (fun c => (v c - scen_mean N v) * (v c - scen_mean N v)) N / INR N)) by (field; lra).
  rewrite sqrt_mult_alt by nra. f_equal. change (k * k) with (Rsqr k). apply sqrt_Rsqr_abs.
Qed.
Lemma gap_eq v r c : Rabs (normalised N v r - normalised N v c) = Rabs (v r - v c) / (scen_std N v + 1 / 1000000).
Proof.
  pose proof (std_nonneg v) as H. unfold normalised. set (s := scen_std N v + 1 / 1000000) in *. assert (Hs : 0 < s) by (unfold s; lra).
  replace ((v r - scen_mean N v) / s - (v c - scen_mean N v) / s) with ((v r - v c) * / s) by (field; lra).
  rewrite Rabs_mult, (Rabs_pos_eq (/ s)); [reflexivity|]. left. now apply Rinv_0_lt_compat.
Qed.
Lemma gap_bound v r c : (r < N)%nat -> (c < N)%nat -> Rabs (v r - v c) <= sqrt (2 * INR N) * scen_std N v.
Proof.
  intros Hr Hc. destruct (Nat.eq_dec r c) as [->|Hrc].
  { rewrite Rminus_diag_eq, Rabs_R0 by reflexivity. apply Rmult_le_pos; [apply sqrt_pos|apply std_nonneg]. }
  unfold scen_std. set (m := scen_mean N v). set (q := sum_below (fun c => (v c - m) * (v c - m)) N).
  assert (Hq : 0 <= q) by (apply sb_nonneg; intros i _; apply (Rle_0_sqr (v i - m))).
  pose proof (sb_two (fun c => (v c - m) * (v c - m)) N r c (fun i _ => Rle_0_sqr (v i - m)) Hr Hc Hrc) as H2. fold q in H2. cbn beta in H2.
  rewrite <- sqrt_mult_alt by (pose proof NR; lra). replace (2 * INR N * (q / INR N)) with (2 * q) by (field; lra).
  rewrite <- sqrt_Rsqr_abs. apply sqrt_le_1_alt. unfold Rsqr. pose proof (Rle_0_sqr ((v r - m) + (v c - m))) as Q. unfold Rsqr in Q. lra.
Qed.
Lemma gap_range v r c : (r < N)%nat -> (c < N)%nat -> 0 <= Rabs (normalised N v r - normalised N v c) <= sqrt (2 * INR N).
Proof.
  intros Hr Hc. split; [apply Rabs_pos|]. rewrite gap_eq. pose proof (gap_bound v r c Hr Hc) as H. pose proof (std_nonneg v).
  pose proof (sqrt_pos (2 * INR N)). apply (Rmult_le_reg_r (scen_std N v + 1 / 1000000)); [lra|]. unfold Rdiv at 1. rewrite Rmult_assoc, Rinv_l, Rmult_1_r by lra. nra.
Qed.
End One.

Lemma code_distance_usable T N m samples : (0 < T)%nat -> (0 < N)%nat -> moderate_size T N m -> usable_distance T N (cityblock N m samples).
Proof.
  intros HT HN Hm r c Hr Hc. unfold cityblock. replace (S (T - 1)) with T by lia. split; [split|].
  - apply sb_nonneg. intros j _. apply sb_nonneg. intros u _. apply Rabs_pos.
  - eapply Rle_lt_trans; [|exact Hm]. rewrite Rmult_assoc, <- sb_const. apply sb_le. intros j _. rewrite <- sb_const. apply sb_le. intros u _. now apply gap_range.
  - erewrite sb_ext; [|intros; erewrite sb_ext; [|intros; rewrite Rminus_diag_eq, Rabs_R0; reflexivity]; rewrite sb_const, Rmult_0_r; reflexivity].
    rewrite sb_const. ring.
Qed.

(** An affine change of all variables. *)
Lemma distance_affine T N m samples samples' k d s : (0 < N)%nat ->
  (forall u j c, (j < m)%nat -> variable samples' u j c = k * variable samples u j c + d u j) ->
  (k = 1 \/ k = -1 \/ forall u j, (u < T)%nat -> (j < m)%nat -> scen_std N (variable samples u j) = s) -> 0 <= s -> 
  in_unit T (if Req_EM_T (Rabs k) 1 then 1 else Rabs k * (s + 1 / 1000000) / (Rabs k * s + 1 / 1000000)) (cityblock N m samples) (cityblock N m samples').
Proof.
  intros HN Hv Hk Hs t r c Ht. unfold cityblock. rewrite <- sb_scale. apply sb_ext. intros j Hj. rewrite <- sb_scale. apply sb_ext. intros u Hu.
  rewrite !gap_eq. rewrite !Hv by exact Hj.
  rewrite (std_ext N (variable samples' u j) (fun c => k * variable samples u j c + d u j)) by (intros; now apply Hv).
  rewrite std_affine by exact HN. replace (k * variable samples u j r + d u j - (k * variable samples u j c + d u j)) with (k * (variable samples u j r - variable samples u j c)) by ring.
  rewrite Rabs_mult. pose proof (std_nonneg N (variable samples u j)) as Hp. pose proof (Rabs_pos k) as Ka. destruct (Req_EM_T (Rabs k) 1) as [E|E].
  - rewrite E. field. lra.
  - destruct Hk as [->|[->|Hk]]; [rewrite Rabs_R1 in E; lra|rewrite Rabs_m1 in E; lra|].
    rewrite Hk by lia. assert (0 <= Rabs k * s) by nra. field. lra.
Qed.

Lemma moved_inj d a b : moved d a = moved d b -> a = b.
Proof.
  unfold moved. intros H. assert (L : length a = length b) by (apply (f_equal (@length R)) in H; now rewrite !map_length, !seq_length in H).
  apply (nth_ext _ _ 0 0 L). intros j Hj. apply (f_equal (fun l => nth j l 0)) in H.
  rewrite !(nth_indep _ 0 (nth 0%nat a 0 + d 0%nat)) in H by (rewrite map_length, seq_length; lia).
  rewrite (map_nth (fun j => nth j a 0 + d j)) in H. rewrite seq_nth in H by lia.
  rewrite (nth_indep (map _ (seq 0 (length b))) _ (nth 0%nat b 0 + d 0%nat)) in H by (rewrite map_length, seq_length; lia).
  rewrite (map_nth (fun j => nth j b 0 + d j)) in H. rewrite seq_nth in H by lia. cbn in H. lra.
Qed.
Lemma moved_nth d v j : (j < length v)%nat -> nth j (moved d v) 0 = nth j v 0 + d j.
Proof.
  intros Hj. unfold moved. rewrite (nth_indep _ 0 (nth 0%nat v 0 + d 0%nat)) by (rewrite map_length, seq_length; lia).
  rewrite (map_nth (fun j => nth j v 0 + d j)), seq_nth by lia. reflexivity.
Qed.
Lemma multiplied_inj k a b : k <> 0 -> multiplied k a = multiplied k b -> a = b.
Proof.
  intros Hk. revert b. induction a as [|x a IH]; intros [|y b] H; try discriminate; [reflexivity|]. cbn in H. injection H as H1 H2.
  f_equal; [|now apply IH]. now apply Rmult_eq_reg_l in H1.
Qed.
Lemma multiplied_nth k v j : nth j (multiplied k v) 0 = k * nth j v 0.
Proof. unfold multiplied. rewrite <- (map_nth (Rmult k) v 0 j). now rewrite Rmult_0_r. Qed.

Lemma code_tree T N m nearest t0 ns samples n SS PP net :
  (0 < T)%nat -> (0 < N)%nat -> moderate_size T N m -> finds_smallest nearest ->
  (forall i, (0 < i < T)%nat -> (1 <= node_counts ns i)%nat) ->
  scenred_values T N m nearest t0 ns samples = ((n, SS, PP), net) ->
  exists orig assign, reduced T N n samples SS PP orig assign.
Proof.
  intros HT HN Hm Hn Hc HE.
  exact (reduction_tree _ T N _ nearest t0 ns samples n SS PP net HT HN (code_distance_usable T N m samples HT HN Hm) Hn Hc HE).
Qed.
Lemma tree_moved T N m nearest t0 ns samples d n SS PP net :
  (0 < T)%nat -> (0 < N)%nat -> moderate_size T N m -> finds_smallest nearest -> compares nearest ->
  (forall i, (0 < i < T)%nat -> (1 <= node_counts ns i)%nat) -> complete m samples ->
  scenred_values T N m nearest t0 ns samples = ((n, SS, PP), net) ->
  exists SS' PP', scenred_values T N m nearest t0 ns (fun u c => moved (d u) (samples u c)) = ((n, SS', PP'), option_map (relabelled (fun u => moved (d u))) net) /\
    forall u s, SS' u s = moved (d u) (SS u s) /\ PP' u s = PP u s.
Proof.
  intros HT HN Hm Hn Hcmp Hc Hl HE. unfold scenred_values in *.
  refine (reduction_unit _ _ (fun u => moved (d u)) 1 T N _ _ nearest t0 ns samples n SS PP net _ Rlt_0_1 _ _ _ Hn Hcmp HN HT Hc HE).
  - intros t a b. apply moved_inj.
  - now apply code_distance_usable.
  - now apply code_distance_usable.
  - pose proof (distance_affine T N m samples (fun u c => moved (d u) (samples u c)) 1 d 0 HN) as H. rewrite Rabs_R1 in H.
    destruct (Req_EM_T 1 1) as [_|]; [|congruence]. apply H; [|now left|lra].
    intros u j c Hj. unfold variable. rewrite moved_nth by (rewrite Hl; exact Hj). ring.
Qed.
Lemma tree_multiplied T N m nearest t0 ns samples k s n SS PP net :
  (0 < T)%nat -> (0 < N)%nat -> moderate_size T N m -> finds_smallest nearest -> compares nearest ->
  (forall i, (0 < i < T)%nat -> (1 <= node_counts ns i)%nat) ->
  k = -1 \/ k <> 0 /\ (forall u j, (u < T)%nat -> (j < m)%nat -> scen_std N (variable samples u j) = s) ->
  scenred_values T N m nearest t0 ns samples = ((n, SS, PP), net) ->
  exists SS' PP', scenred_values T N m nearest t0 ns (fun u c => multiplied k (samples u c)) = ((n, SS', PP'), option_map (relabelled (fun _ => multiplied k)) net) /\
    forall u s, SS' u s = multiplied k (SS u s) /\ PP' u s = PP u s.
Proof.
  intros HT HN Hm Hn Hcmp Hc Hk HE. unfold scenred_values in *.
  assert (K0 : k <> 0) by (destruct Hk as [->|[Hk _]]; [lra|exact Hk]).
  assert (V : forall u j c, (j < m)%nat -> variable (fun u c => multiplied k (samples u c)) u j c = k * variable samples u j c + (fun _ _ : nat => 0) u j)
    by (intros; unfold variable; rewrite multiplied_nth; ring).
  assert (X : exists q, 0 < q /\ in_unit T q (cityblock N m samples) (cityblock N m (fun u c => multiplied k (samples u c)))).
  { destruct Hk as [->|[_ Hs]].
    - pose proof (distance_affine T N m samples _ (-1) _ 0 HN V (or_intror (or_introl eq_refl)) (Rle_refl 0)) as H.
      destruct (Req_EM_T (Rabs (-1)) 1) as [_|E]; [|rewrite Rabs_m1 in E; lra]. exists 1. split; [lra|exact H].
    - destruct m as [|m'].
      + exists 1. split; [lra|]. intros t r c _. unfold cityblock. cbn. ring.
      + assert (S0 : 0 <= s) by (rewrite <- (Hs 0%nat 0%nat HT ltac:(lia)); apply std_nonneg).
        pose proof (distance_affine T N _ samples _ k _ s HN V (or_intror (or_intror Hs)) S0) as H.
        eexists. split; [|exact H]. destruct (Req_EM_T (Rabs k) 1); [lra|]. pose proof (Rabs_pos_lt k K0). assert (0 <= Rabs k * s) by nra. apply Rdiv_lt_0_compat; nra. }
  destruct X as (q & Hq & Hu).
  refine (reduction_unit _ _ (fun _ => multiplied k) q T N _ _ nearest t0 ns samples n SS PP net _ Hq _ _ Hu Hn Hcmp HN HT Hc HE).
  - intros t a b. now apply multiplied_inj.
  - now apply code_distance_usable.
  - now apply code_distance_usable.
Qed.

(** A unit in which more scenarios are kept. *)
Definition two_by_two (u c : nat) : list R :=
  match u with
  | O => [if (c <? 2)%nat then - (1 / 1000000) else 1 / 1000000; if Nat.even c then - (3 / 1000000) else 3 / 1000000]
  | _ => [0; 0]
  end.
Definition gapA (k : R) : R := 2 * k / (k + 1).
Definition gapB (k : R) : R := 6 * k / (3 * k + 1).
Lemma sqrt_sq x y : 0 <= y -> x = y * y -> sqrt x = y.
Proof. intros Hy ->. now apply sqrt_square. Qed.
Definition scaled_two (k : R) (smp : nat -> nat -> list R) : Prop := forall u c, smp u c = multiplied k (two_by_two u c).
Lemma two_std0 k smp : 0 < k -> scaled_two k smp -> scen_std 4 (variable smp 0 0) = k * (1 / 1000000).
Proof.
  intros Hk HS. rewrite (std_ext 4 _ (fun c => nth 0 (multiplied k (two_by_two 0 c)) 0)) by (intros; unfold variable; now rewrite HS).
  apply sqrt_sq; [lra|]. unfold scen_mean. cbn. lra.
Qed.
Lemma two_std1 k smp : 0 < k -> scaled_two k smp -> scen_std 4 (variable smp 0 1) = k * (3 / 1000000).
Proof.
  intros Hk HS. rewrite (std_ext 4 _ (fun c => nth 1 (multiplied k (two_by_two 0 c)) 0)) by (intros; unfold variable; now rewrite HS).
  apply sqrt_sq; [lra|]. unfold scen_mean. cbn. lra.
Qed.
Lemma two_later k smp j r c : scaled_two k smp -> (j < 2)%nat -> variable smp 1 j r - variable smp 1 j c = 0.
Proof. intros HS Hj. unfold variable. rewrite !HS. destruct j as [|[|]]; [cbn; lra|cbn; lra|lia]. Qed.
Definition table (k : R) (r c : nat) : R :=
  (if Bool.eqb (r <? 2)%nat (c <? 2)%nat then 0 else gapA k) + (if Bool.eqb (Nat.even r) (Nat.even c) then 0 else gapB k).
Lemma two_table k smp t r c : 0 < k -> scaled_two k smp -> (t < 2)%nat -> cityblock 4 2 smp t r c = table k r c.
Proof.
  intros Hk HS Ht. unfold cityblock, table.
  assert (E : forall j, (j < 2)%nat -> sum_below (fun u => Rabs (normalised 4 (variable smp u j) r - normalised 4 (variable smp u j) c)) (S t) =
    Rabs (variable smp 0 j r - variable smp 0 j c) / (scen_std 4 (variable smp 0 j) + 1 / 1000000)).
  { intros j Hj. destruct t as [|[|]]; [| |lia]; cbn [sum_below]; rewrite !gap_eq.
    - ring.
    - rewrite (two_later k smp j r c HS Hj), Rabs_R0. unfold Rdiv. ring. }
  rewrite (sb_ext _ _ 2 E). cbn [sum_below]. rewrite (two_std0 k), (two_std1 k) by assumption. rewrite Rplus_0_l. f_equal.
  - unfold variable. rewrite !HS. unfold multiplied, two_by_two, gapA. cbn [map nth]. destruct (r <? 2)%nat, (c <? 2)%nat; cbn [Bool.eqb].
    + rewrite Rminus_diag_eq, Rabs_R0 by reflexivity. field. lra.
    + rewrite Rabs_left by lra. field. lra.
    + rewrite Rabs_right by lra. field. lra.
    + rewrite Rminus_diag_eq, Rabs_R0 by reflexivity. field. lra.
  - unfold variable. rewrite !HS. unfold multiplied, two_by_two, gapB. cbn [map nth]. destruct (Nat.even r), (Nat.even c); cbn [Bool.eqb].
    + rewrite Rminus_diag_eq, Rabs_R0 by reflexivity. field. lra.
    + rewrite Rabs_left by lra. field. lra.
    + rewrite Rabs_right by lra. field. lra.
    + rewrite Rminus_diag_eq, Rabs_R0 by reflexivity. field. lra.
Qed.
Lemma gaps k : 0 < k -> 0 < gapA k < gapB k.
Proof.
  intros Hk. unfold gapA, gapB. split; [apply Rdiv_lt_0_compat; lra|].
  apply (Rmult_lt_reg_r ((k + 1) * (3 * k + 1))); [nra|]. field_simplify; nra.
Qed.
Definition level (k : R) : R := (3 * k + 1) / (8 * (6 * k + 4)).
Lemma level_eq k : 0 < k -> gapA k / 4 / (2 * (gapA k + gapB k)) = level k.
Proof. intros Hk. unfold gapA, gapB, level. field. repeat split; try nra. Qed.
Lemma level_up a b : 0 < a -> a < b -> level a < level b.
Proof.
  intros Ha Hb. unfold level. apply (Rmult_lt_reg_r ((8 * (6 * a + 4)) * (8 * (6 * b + 4)))); [nra|].
  replace ((3 * a + 1) / (8 * (6 * a + 4)) * (8 * (6 * a + 4) * (8 * (6 * b + 4)))) with ((3 * a + 1) * (8 * (6 * b + 4))) by (field; nra).
  replace ((3 * b + 1) / (8 * (6 * b + 4)) * (8 * (6 * a + 4) * (8 * (6 * b + 4)))) with ((3 * b + 1) * (8 * (6 * a + 4))) by (field; nra). nra.
Qed.
Lemma moderate_two : moderate_size 2 4 2.
Proof.
  unfold moderate_size. apply Rle_lt_trans with (INR 2 * INR 2 * 3); [|cbn; lra]. apply Rmult_le_compat_l; [cbn; lra|].
  rewrite <- (sqrt_square 3) by lra. apply sqrt_le_1_alt. cbn. lra.
Qed.
Lemma two_counts k smp nearest t0 n SS PP net : 0 < k -> scaled_two k smp -> finds_smallest nearest ->
  scenred_values 2 4 2 nearest t0 None smp = ((n, SS, PP), net) ->
  (0 < t0 / (3 / 2) ^ 3 <= level k -> n = 3%nat) /\ (level k < t0 / (3 / 2) ^ 3 -> (n <= 2)%nat).
Proof.
  intros Hk HS Hn HE. unfold scenred_values in HE. pose proof (gaps k Hk) as G.
  set (D := cityblock 4 2 smp) in *.
  assert (TB : forall t r c, (t < 2)%nat -> D t r c = table k r c) by (intros; now apply two_table).
  assert (Hs : separated 2 4 D).
  { intros t r c Ht Hr Hc Hrc. rewrite TB by exact Ht. unfold table. destruct r as [|[|[|[|]]]]; try lia; destruct c as [|[|[|[|]]]]; try lia; cbn; lra. }
  assert (Hc : closest_pair 2 4 D 0 2).
  { split; [lia|]. split; [lia|]. split; [lia|]. intros r c Hr Hc Hrc. rewrite !TB by lia. unfold table.
    destruct r as [|[|[|[|]]]]; try lia; destruct c as [|[|[|[|]]]]; try lia; cbn; lra. }
  assert (SU : forall c, (c < 4)%nat -> sum_over 4 (fun r => D (2 - 1)%nat r c) = 2 * (gapA k + gapB k)).
  { intros c Hc'. unfold sum_over, total. cbn [map seq fold_right]. rewrite !TB by lia. unfold table.
    destruct c as [|[|[|[|]]]]; try lia; cbn; lra. }
  assert (Hm : most_central 2 4 D 0) by (split; [lia|]; intros c Hc'; rewrite !SU by lia; lra).
  pose proof (reduction_by_tolerance _ 2 4 D nearest t0 _ n SS PP net 0 2 0 ltac:(lia) ltac:(lia)
    (code_distance_usable 2 4 2 _ ltac:(lia) ltac:(lia) moderate_two) Hs Hn Hc Hm HE) as H. cbv zeta in H.
  rewrite SU in H by lia. rewrite TB in H by lia. replace (table k 0 2) with (gapA k) in H by (unfold table; cbn; lra).
  replace (INR 4) with 4 in H by (cbn; lra). rewrite level_eq in H by exact Hk. destruct H as (_ & H1 & H2). split; [exact H1|exact H2].
Qed.
Lemma unit_matters k nearest : 0 < k -> k <> 1 -> finds_smallest nearest ->
  exists t0 samples n SS PP net n' SS' PP' net', complete 2 samples /\
    scenred_values 2 4 2 nearest t0 None samples = ((n, SS, PP), net) /\
    scenred_values 2 4 2 nearest t0 None (fun u c => multiplied k (samples u c)) = ((n', SS', PP'), net') /\
    (1 < k -> (n < n')%nat) /\ (k < 1 -> (n' < n)%nat).
Proof.
  intros Hk Hk1 Hn.
  assert (L1 : forall a, 0 < a -> 0 < level a) by (intros a Ha; unfold level; apply Rdiv_lt_0_compat; nra).
  assert (X : exists t0, 0 < t0 / (3 / 2) ^ 3 /\ (1 < k -> level 1 < t0 / (3 / 2) ^ 3 <= level k) /\ (k < 1 -> level k < t0 / (3 / 2) ^ 3 <= level 1)).
  { pose proof (L1 k Hk). pose proof (L1 1 Rlt_0_1). destruct (Rlt_dec 1 k) as [G|G].
    - exists (level k * (3 / 2) ^ 3). replace (level k * (3 / 2) ^ 3 / (3 / 2) ^ 3) with (level k) by (field; lra). pose proof (level_up 1 k ltac:(lra) G). repeat split; lra.
    - exists (level 1 * (3 / 2) ^ 3). replace (level 1 * (3 / 2) ^ 3 / (3 / 2) ^ 3) with (level 1) by (field; lra). pose proof (level_up k 1 Hk ltac:(lra)). repeat split; lra. }
  destruct X as (t0 & T0 & T1 & T2).
  destruct (scenred_values 2 4 2 nearest t0 None two_by_two) as [[[n SS] PP] net] eqn:E1.
  destruct (scenred_values 2 4 2 nearest t0 None (fun u c => multiplied k (two_by_two u c))) as [[[n' SS'] PP'] net'] eqn:E2.
  assert (S1 : scaled_two 1 two_by_two).
  { intros u c. unfold multiplied. rewrite (map_ext (Rmult 1) (fun x => x)) by (intros; ring). now rewrite map_id. }
  pose proof (two_counts 1 _ nearest t0 n SS PP net Rlt_0_1 S1 Hn E1) as [A1 A2].
  pose proof (two_counts k _ nearest t0 n' SS' PP' net' Hk (fun u c => eq_refl) Hn E2) as [B1 B2].
  exists t0, two_by_two, n, SS, PP, net, n', SS', PP', net'. split; [intros [|u] c; reflexivity|]. split; [exact E1|]. split; [exact E2|]. split; intros G.
  - specialize (T1 G). specialize (A2 (proj1 T1)). rewrite B1 by (split; [exact T0|apply T1]). lia.
  - specialize (T2 G). specialize (B2 (proj1 T2)). rewrite A1 by (split; [exact T0|apply T2]). lia.
Qed.
