From Coq Require Import List Bool Arith Reals Lia Lra.
From Verif Require Import Model.Bootstrap Spec.BootstrapSpec.
Import ListNotations.

Lemma sample_at_grid n k : (k <= n)%nat ->
  filter (fun v => (v <? n)%nat) (map (fun k => 100 + 500 * k)%nat (seq 0 k))
  = map (fun k => 100 + 500 * k)%nat (seq 0 (Nat.min k ((n + 399) / 500))).
Proof.
  intros _. induction k as [|k IH]; [reflexivity|].
  rewrite seq_S, map_app, filter_app, IH, Nat.add_0_l. cbn [map filter].
  pose proof (Nat.div_mod (n + 399) 500 ltac:(lia)) as E. pose proof (Nat.mod_upper_bound (n + 399) 500 ltac:(lia)) as B.
  destruct (Nat.ltb_spec (100 + 500 * k) n) as [H|H].
  - replace (Nat.min (S k) ((n + 399) / 500)) with (S k) by lia. replace (Nat.min k ((n + 399) / 500)) with k by lia.
    rewrite seq_S, map_app. reflexivity.
  - rewrite app_nil_r. f_equal. f_equal. lia.
Qed.

Lemma sample_at_count n : sample_at n = map (fun k => 100 + 500 * k)%nat (seq 0 ((n + 399) / 500)).
Proof.
  unfold sample_at. rewrite sample_at_grid by lia. f_equal. f_equal.
  pose proof (Nat.div_mod (n + 399) 500 ltac:(lia)) as E. pose proof (Nat.mod_upper_bound (n + 399) 500 ltac:(lia)) as B. lia.
Qed.

Lemma bootstrap_last {L V} eqb (series : list (L * V)) stat samples k : ((length samples + 399) / 500 = S k)%nat ->
  let stats := map (fun s => stat (loc eqb series s)) (firstn (100 + 500 * k) samples) in
  bootstrap eqb series stat samples = Some (mean stats, std stats).
Proof. intros E. unfold bootstrap, summary. rewrite sample_at_count, E, seq_S, !map_app, rev_app_distr. reflexivity. Qed.

Local Open Scope R_scope.
Lemma total_squares (l : list R) c : 0 <= fold_right Rplus 0 (map (fun v => (v - c) * (v - c)) l).
Proof. induction l as [|a l IH]; cbn; [lra|]. pose proof (Rle_0_sqr (a - c)) as H. unfold Rsqr in H. lra. Qed.
Lemma mean_std_correct l : l <> [] -> mean_and_std l (mean l, std l).
Proof.
  intros Hl. assert (Hn : 0 < INR (length l)) by (apply lt_0_INR; destruct l; [congruence|cbn; lia]).
  unfold mean_and_std. cbn [fst snd]. split; [unfold mean; field; lra|]. split; [apply sqrt_pos|].
  unfold std. rewrite sqrt_sqrt.
  - unfold mean at 1. rewrite map_length. field. lra.
  - unfold mean at 1. rewrite map_length. apply Rmult_le_pos; [apply total_squares|]. left. now apply Rinv_0_lt_compat.
Qed.

Lemma count_bounds n : (100 < n)%nat -> exists k, ((n + 399) / 500 = S k)%nat /\ (100 + 500 * k < n <= 600 + 500 * k)%nat.
Proof.
  intros H. pose proof (Nat.div_mod (n + 399) 500 ltac:(lia)) as E. pose proof (Nat.mod_upper_bound (n + 399) 500 ltac:(lia)) as B.
  exists ((n + 399) / 500 - 1)%nat. lia.
Qed.

Lemma bootstrap_partial {L V} (eqb : L -> L -> bool) (series : list (L * V)) (stat : list V -> R) (samples : list (list L)) :
  (100 < length samples)%nat ->
  exists k r, (100 + 500 * k < length samples <= 600 + 500 * k)%nat /\ bootstrap eqb series stat samples = Some r /\
    mean_and_std (map (fun s => stat (loc eqb series s)) (firstn (100 + 500 * k) samples)) r.
Proof.
  intros H. destruct (count_bounds _ H) as (k & E & B). exists k. eexists. split; [exact B|].
  split; [apply bootstrap_last, E|]. apply mean_std_correct.
  destruct samples as [|s samples]; [cbn in H; lia|]. replace (100 + 500 * k)%nat with (S (99 + 500 * k)) by lia. discriminate.
Qed.

Lemma bootstrap_few {L V} (eqb : L -> L -> bool) (series : list (L * V)) (stat : list V -> R) (samples : list (list L)) :
  (length samples <= 100)%nat -> bootstrap eqb series stat samples = None.
Proof.
  intros H. unfold bootstrap, summary. rewrite sample_at_count. now rewrite Nat.div_small by lia.
Qed.

Lemma bootstrap_ignores {L V} (eqb : L -> L -> bool) (series : list (L * V)) (stat : list V -> R) (samples : list (list L)) (s s' : list L) :
  bootstrap eqb series stat (samples ++ [s]) = bootstrap eqb series stat (samples ++ [s']).
Proof.
  destruct (le_lt_dec (length (samples ++ [s])) 100) as [H|H].
  - rewrite !bootstrap_few; auto. now rewrite app_length in *.
  - destruct (count_bounds _ H) as (k & E & B). rewrite (bootstrap_last _ _ _ _ k E).
    rewrite (bootstrap_last _ _ _ (samples ++ [s']) k) by (now rewrite app_length in *).
    rewrite app_length in B. cbn [length] in B. rewrite !firstn_app.
    now replace (100 + 500 * k - length samples)%nat with 0%nat by lia.
Qed.

Lemma loc_unique {L V} (eqb : L -> L -> bool) (series : list (L * V)) (s : list L) :
  (forall a b, eqb a b = true <-> a = b) -> NoDup (map fst series) -> Forall (fun l => In l (map fst series)) s ->
  Forall2 (drawn series) s (loc eqb series s).
Proof.
  intros He Hn Hs. induction Hs as [|l s Hl Hs IH]; [constructor|]. cbn.
  assert (E : exists v, In (l, v) series /\ map snd (filter (fun r => eqb l (fst r)) series) = [v]).
  { clear IH Hs. induction series as [|[l' v'] series IHs]; [destruct Hl|]. cbn in *. inversion Hn as [|? ? Hn1 Hn2]; subst.
    destruct (eqb l l') eqn:E.
    - apply He in E. subst l'. exists v'. split; [now left|]. cbn. f_equal.
      clear -Hn1 He. induction series as [|[a b] series IH]; [reflexivity|]. cbn in *. destruct (eqb l a) eqn:E.
      + apply He in E. subst a. tauto.
      + apply IH. tauto.
    - destruct Hl as [->|Hl]; [assert (eqb l l = true) by (now apply He); congruence|].
      destruct (IHs Hn2 Hl) as (v & Hv & Ev). exists v. split; [now right|exact Ev]. }
  destruct E as (v & Hv & ->). cbn. constructor; [exact Hv|exact IH].
Qed.

Lemma forall2_length {A B} (P : A -> B -> Prop) la lb : Forall2 P la lb -> length lb = length la.
Proof. induction 1; cbn; auto. Qed.
Lemma loc_length {L V} (eqb : L -> L -> bool) (series : list (L * V)) (s : list L) :
  (forall a b, eqb a b = true <-> a = b) -> NoDup (map fst series) -> Forall (fun l => In l (map fst series)) s ->
  length (loc eqb series s) = length s.
Proof. intros He Hn Hs. exact (forall2_length _ _ _ (loc_unique eqb series s He Hn Hs)). Qed.

Lemma loc_duplicates {L V} (eqb : L -> L -> bool) (series : list (L * V)) (l : L) (n c : nat) :
  length (filter (fun r => eqb l (fst r)) series) = c -> length (loc eqb series (repeat l n)) = (n * c)%nat.
Proof. intros H. induction n as [|n IH]; [reflexivity|]. cbn. rewrite app_length, map_length, H. unfold loc in IH. now rewrite IH. Qed.
