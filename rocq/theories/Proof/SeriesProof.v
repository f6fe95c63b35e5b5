From Coq Require Import List ZArith Bool Lia.
From Coq Require Import ZifyBool ZifyNat.
From Verif Require Import Model.Series Spec.TransformerSpec.
Import ListNotations.
Local Open Scope Z_scope.
Ltac Zify.zify_post_hook ::= Z.div_mod_to_equations.

(** Generic list facts. *)
Lemma nth_map_seq {A} (f : nat -> A) n i (dflt : A) :
  (i < n)%nat -> nth i (map f (seq 0 n)) dflt = f i.
Proof.
  intros Hi. rewrite nth_indep with (d' := f O) by (rewrite map_length, seq_length; lia).
  rewrite map_nth, seq_nth by lia. reflexivity.
Qed.

Lemma map_seq_nth {A} (d : list A) (dflt : A) :
  map (fun i => nth i d dflt) (seq 0 (length d)) = d.
Proof.
  induction d as [|x d IH]; [reflexivity|]. cbn [length seq map nth]. f_equal.
  rewrite <- seq_shift, map_map. exact IH.
Qed.

Lemma map_seq_ext {A} (f g : nat -> A) n :
  (forall i, (i < n)%nat -> f i = g i) -> map f (seq 0 n) = map g (seq 0 n).
Proof. intros H. apply map_ext_in. intros i Hi. apply in_seq in Hi. apply H. lia. Qed.

Lemma list_eq_nth {A} (l1 l2 : list A) (dflt : A) :
  length l1 = length l2 ->
  (forall i, (i < length l1)%nat -> nth i l1 dflt = nth i l2 dflt) -> l1 = l2.
Proof.
  intros Hl H. apply nth_ext with (d := dflt) (d' := dflt); [exact Hl|exact H].
Qed.

Lemma nth_firstn {A} (l : list A) n i (dflt : A) :
  (i < n)%nat -> nth i (firstn n l) dflt = nth i l dflt.
Proof.
  revert l i. induction n as [|n IH]; intros l i Hi; [lia|].
  destruct l as [|x l]; [reflexivity|]. destruct i as [|i]; [reflexivity|].
  cbn. apply IH. lia.
Qed.

Lemma nth_skipn {A} (l : list A) n i (dflt : A) :
  nth i (skipn n l) dflt = nth (n + i) l dflt.
Proof.
  revert l. induction n as [|n IH]; intros l; [reflexivity|].
  destruct l as [|x l]; [destruct i; reflexivity|]. cbn. apply IH.
Qed.

Lemma filter_all {A} (p : A -> bool) l : (forall x, In x l -> p x = true) -> filter p l = l.
Proof.
  induction l as [|x l IH]; intros H; [reflexivity|]. cbn.
  rewrite (H x (or_introl eq_refl)). f_equal. apply IH. intros y Hy. apply H. now right.
Qed.

Lemma filter_none {A} (p : A -> bool) l : (forall x, In x l -> p x = false) -> filter p l = [].
Proof.
  induction l as [|x l IH]; intros H; [reflexivity|]. cbn.
  rewrite (H x (or_introl eq_refl)). apply IH. intros y Hy. apply H. now right.
Qed.

(** A predicate false on the first [k] elements and true afterwards. *)
Lemma filter_threshold {A} (p : A -> bool) (l : list A) (k : nat) (dflt : A) :
  (forall j, (j < length l)%nat -> p (nth j l dflt) = (k <=? j)%nat) ->
  filter p l = skipn k l.
Proof.
  revert k. induction l as [|x l IH]; intros k H; [destruct k; reflexivity|].
  cbn [filter]. pose proof (H 0%nat ltac:(cbn; lia)) as H0. cbn in H0. rewrite H0.
  destruct k as [|k]; cbn.
  - f_equal. rewrite (IH 0%nat); [reflexivity|]. intros j Hj.
    pose proof (H (S j) ltac:(cbn; lia)) as Hs. cbn in Hs. rewrite Hs. destruct j; reflexivity.
  - apply IH. intros j Hj. pose proof (H (S j) ltac:(cbn; lia)) as Hs. exact Hs.
Qed.

Section S.
Context {V : Type}.
Implicit Types d : series V.

Lemma shift_length l d : length (shift l d) = length d.
Proof. unfold shift. now rewrite map_length, seq_length. Qed.

Lemma rolling_length idx freq mp f d : length (rolling idx freq mp f d) = length d.
Proof. unfold rolling. now rewrite map_length, seq_length. Qed.

Lemma shift_sample l d : shift l d = map (fun i => sample d (Z.of_nat i - l)) (seq 0 (length d)).
Proof. reflexivity. Qed.

Lemma sample_map_seq (g : nat -> option V) n j :
  sample (map g (seq 0 n)) j =
  if (0 <=? j) && (j <? Z.of_nat n) then g (Z.to_nat j) else None.
Proof.
  unfold sample. rewrite map_length, seq_length.
  destruct ((0 <=? j) && (j <? Z.of_nat n)) eqn:E; [|reflexivity].
  apply nth_map_seq. lia.
Qed.

Lemma samples_length d lo len : length (samples d lo len) = Z.to_nat len.
Proof. unfold samples. now rewrite map_length, seq_length. Qed.

Lemma observed_le (w : series V) : (observed w <= length w)%nat.
Proof.
  unfold observed. induction w as [|x w IH]; [reflexivity|]. cbn.
  destruct (is_some x); cbn; lia.
Qed.

Lemma observed_full (w : series V) : observed w = length w <-> forallb present w = true.
Proof.
  unfold observed. induction w as [|x w IH]; [cbn; tauto|].
  cbn. destruct x as [v|]; cbn.
  - rewrite <- IH. split; lia.
  - split; [|discriminate]. intros E.
    pose proof (observed_le w) as H. unfold observed in H. lia.
Qed.

(** The offset window on a regular index is a block of consecutive rows. *)
Lemma window_regular idx t0 dt a d i :
  regular t0 dt idx -> length d = length idx -> 0 <= a -> (i < length d)%nat ->
  window idx (a * dt) d i = skipn (Z.to_nat (Z.of_nat i + 1 - a)) (firstn (S i) d).
Proof.
  intros [Hdt Hidx] Hlen Ha Hi. unfold window.
  assert (Hcl : length (combine idx d) = length d) by (rewrite combine_length; lia).
  rewrite filter_threshold with (k := Z.to_nat (Z.of_nat i + 1 - a)) (dflt := (0, None)).
  - rewrite <- skipn_map. f_equal. rewrite <- firstn_map. f_equal.
    clear Hi Hcl. revert d Hlen. clear. induction idx as [|t idx IH]; intros [|x d] Hlen; cbn in *;
      try reflexivity; try lia. f_equal. apply IH. lia.
  - intros j Hj. rewrite firstn_length in Hj.
    rewrite nth_firstn by lia. rewrite combine_nth by lia. cbn [fst].
    rewrite !Hidx by lia.
    destruct (Nat.leb_spec (Z.to_nat (Z.of_nat i + 1 - a)) j).
    + apply Z.ltb_lt. nia.
    + apply Z.ltb_ge. nia.
Qed.

Lemma block_samples d i a :
  1 <= a -> a <= Z.of_nat i + 1 -> (i < length d)%nat ->
  skipn (Z.to_nat (Z.of_nat i + 1 - a)) (firstn (S i) d) = samples d (Z.of_nat i - a + 1) a.
Proof.
  intros Ha1 Ha Hi. apply list_eq_nth with (dflt := None).
  - rewrite samples_length, skipn_length, firstn_length. lia.
  - intros k Hk. rewrite skipn_length, firstn_length in Hk.
    rewrite nth_skipn, nth_firstn by lia.
    unfold samples. rewrite nth_map_seq by lia. unfold sample.
    destruct ((0 <=? Z.of_nat i - a + 1 + Z.of_nat k) &&
              (Z.of_nat i - a + 1 + Z.of_nat k <? Z.of_nat (length d))) eqn:E.
    + f_equal. lia.
    + lia.
Qed.

Lemma sample_none_forallb d lo len k :
  (k < Z.to_nat len)%nat -> sample d (lo + Z.of_nat k) = None ->
  forallb present (samples d lo len) = false.
Proof.
  intros Hk Hs. destruct (forallb present (samples d lo len)) eqn:E; [|reflexivity].
  rewrite forallb_forall in E. specialize (E (sample d (lo + Z.of_nat k))).
  rewrite Hs in E. cbn in E. symmetry. apply E. rewrite <- Hs. unfold samples.
  apply in_map_iff. exists k. split; [reflexivity|]. apply in_seq. lia.
Qed.

Lemma window_feature_none f d lo len k :
  (k < Z.to_nat len)%nat -> sample d (lo + Z.of_nat k) = None ->
  window_feature f d lo len = None.
Proof.
  intros Hk Hs. unfold window_feature. now rewrite (sample_none_forallb d lo len k Hk Hs).
Qed.

Lemma sample_out d j : (j < 0 \/ Z.of_nat (length d) <= j) -> sample d j = None.
Proof.
  intros H. unfold sample.
  destruct ((0 <=? j) && (j <? Z.of_nat (length d))) eqn:E; [lia|reflexivity].
Qed.

Lemma rolling_regular idx t0 dt a f d :
  regular t0 dt idx -> length d = length idx -> 1 <= a ->
  rolling idx (a * dt) a f d
  = map (fun i => window_feature f d (Z.of_nat i - a + 1) a) (seq 0 (length d)).
Proof.
  intros Hreg Hlen Ha. unfold rolling. apply map_seq_ext. intros i Hi.
  rewrite (window_regular idx t0 dt a d i Hreg Hlen) by lia.
  destruct (Z_le_gt_dec a (Z.of_nat i + 1)) as [Hai|Hai].
  - rewrite block_samples by lia. unfold window_feature.
    destruct (forallb present (samples d (Z.of_nat i - a + 1) a)) eqn:E.
    + apply observed_full in E. rewrite E, samples_length.
      destruct (Z.of_nat (Z.to_nat a) <? a) eqn:E2; [lia|reflexivity].
    + destruct (Z.of_nat (observed (samples d (Z.of_nat i - a + 1) a)) <? a) eqn:E2; [reflexivity|].
      exfalso. pose proof (observed_le (samples d (Z.of_nat i - a + 1) a)) as Hle.
      rewrite samples_length in Hle.
      assert (observed (samples d (Z.of_nat i - a + 1) a) = length (samples d (Z.of_nat i - a + 1) a)) as Hf.
      { rewrite samples_length. lia. }
      apply observed_full in Hf. congruence.
  - rewrite (window_feature_none f d _ _ 0%nat) by (try lia; apply sample_out; lia).
    match goal with |- (if ?b then _ else _) = _ => destruct b eqn:E end; [reflexivity|].
    exfalso. match type of E with Z.of_nat (observed ?w) <? _ = _ =>
      pose proof (observed_le w) as Hle end.
    rewrite skipn_length, firstn_length in Hle. lia.
Qed.

Lemma shift_rolling_regular idx t0 dt a f d l :
  regular t0 dt idx -> length d = length idx -> 1 <= a ->
  shift l (rolling idx (a * dt) a f d)
  = map (fun i => window_feature f d (Z.of_nat i - l - a + 1) a) (seq 0 (length d)).
Proof.
  intros Hreg Hlen Ha. rewrite (rolling_regular idx t0 dt a f d Hreg Hlen Ha).
  rewrite shift_sample, map_length, seq_length. apply map_seq_ext. intros i Hi.
  rewrite sample_map_seq.
  destruct ((0 <=? Z.of_nat i - l) && (Z.of_nat i - l <? Z.of_nat (length d))) eqn:E.
  - f_equal. lia.
  - symmetry. apply window_feature_none with (k := Z.to_nat (a - 1)); [lia|].
    apply sample_out. lia.
Qed.


(** Shifting a whole column of windows shifts the windows. *)
Lemma shift_windows f d l c len :
  1 <= len -> 0 <= c ->
  shift l (map (fun i => window_feature f d (Z.of_nat i - c - len + 1) len) (seq 0 (length d)))
  = map (fun i =>
           if (0 <=? Z.of_nat i - l) && (Z.of_nat i - l <? Z.of_nat (length d))
           then window_feature f d (Z.of_nat i - l - c - len + 1) len else None)
        (seq 0 (length d)).
Proof.
  intros Hlen Hc. rewrite shift_sample, map_length, seq_length.
  apply map_seq_ext. intros i Hi. rewrite sample_map_seq.
  destruct ((0 <=? Z.of_nat i - l) && (Z.of_nat i - l <? Z.of_nat (length d))) eqn:E; [|reflexivity].
  f_equal. lia.
Qed.

(** Median of constant differences. *)
Lemma diffs_regular idx t0 dt :
  regular t0 dt idx -> forall x, In x (diffs idx) -> x = dt.
Proof.
  intros [Hdt H]. revert t0 H. induction idx as [|a idx IH]; intros t0 H x Hin; [destruct Hin|].
  destruct idx as [|b idx]; [destruct Hin|].
  cbn [diffs] in Hin. destruct Hin as [<-|Hin].
  - pose proof (H 0%nat ltac:(cbn; lia)) as H0. pose proof (H 1%nat ltac:(cbn; lia)) as H1.
    cbn [nth] in H0, H1. lia.
  - apply (IH (t0 + dt)); [|exact Hin]. intros i Hi.
    pose proof (H (S i) ltac:(cbn in *; lia)) as Hs. cbn [nth] in Hs.
    cbn [nth]. rewrite Nat2Z.inj_succ in Hs. rewrite Hs. ring.
Qed.

Lemma diffs_length idx : length (diffs idx) = (length idx - 1)%nat.
Proof.
  induction idx as [|a idx IH]; [reflexivity|]. destruct idx as [|b idx]; [reflexivity|].
  cbn [diffs length] in *. lia.
Qed.

Lemma insert_in x l y : In y (insert x l) <-> y = x \/ In y l.
Proof.
  induction l as [|z l IH]; cbn; [intuition|]. destruct (x <=? z); cbn; [intuition|].
  rewrite IH. intuition.
Qed.
Lemma insert_length x l : length (insert x l) = S (length l).
Proof. induction l as [|z l IH]; cbn; [reflexivity|]. destruct (x <=? z); cbn; lia. Qed.
Lemma isort_in l y : In y (isort l) <-> In y l.
Proof. induction l as [|z l IH]; cbn; [tauto|]. rewrite insert_in, IH. intuition. Qed.
Lemma isort_length l : length (isort l) = length l.
Proof. induction l as [|z l IH]; cbn; [reflexivity|]. rewrite insert_length. lia. Qed.

Lemma median_constant l c : l <> [] -> (forall x, In x l -> x = c) -> median l = Some c.
Proof.
  intros Hne Hc. unfold median.
  assert (Hs : forall k, (k < length (isort l))%nat -> nth k (isort l) 0 = c).
  { intros k Hk. apply Hc, isort_in, nth_In. exact Hk. }
  assert (Hl : (0 < length (isort l))%nat).
  { rewrite isort_length. destruct l; [congruence|cbn; lia]. }
  pose proof (Nat.div_lt (length (isort l)) 2 ltac:(lia) ltac:(lia)) as Hdiv.
  destruct (length (isort l)) as [|n] eqn:E; [lia|].
  destruct (Nat.odd (S n)); f_equal.
  - apply Hs. lia.
  - rewrite !Hs by lia. lia.
Qed.

Lemma median_diffs_regular idx t0 dt :
  regular t0 dt idx -> (2 <= length idx)%nat -> median (diffs idx) = Some dt.
Proof.
  intros Hreg Hn. apply median_constant.
  - intros E. apply (f_equal (@length Z)) in E. rewrite diffs_length in E. cbn in E. lia.
  - apply (diffs_regular idx t0 dt Hreg).
Qed.

(** Agreement on the first m rows. *)
Definition agree (m : nat) (d1 d2 : series V) : Prop :=
  length d1 = length d2 /\ forall j, (j < m)%nat -> nth j d1 None = nth j d2 None.

Lemma agree_firstn m d1 d2 : agree m d1 d2 -> firstn m d1 = firstn m d2.
Proof.
  intros [Hl H]. apply list_eq_nth with (dflt := None).
  - rewrite !firstn_length. lia.
  - intros i Hi. rewrite firstn_length in Hi. rewrite !nth_firstn by lia. apply H. lia.
Qed.

Lemma firstn_agree m d1 d2 : length d1 = length d2 -> firstn m d1 = firstn m d2 -> agree m d1 d2.
Proof.
  intros Hl H. split; [exact Hl|]. intros j Hj.
  rewrite <- (nth_firstn d1 m j None Hj), <- (nth_firstn d2 m j None Hj). now rewrite H.
Qed.

Lemma combine_firstn {A B} n (l1 : list A) (l2 : list B) :
  firstn n (combine l1 l2) = combine (firstn n l1) (firstn n l2).
Proof.
  revert l1 l2. induction n as [|n IH]; intros [|a l1] [|b l2]; cbn; try reflexivity.
  f_equal. apply IH.
Qed.

Lemma rolling_agree idx freq mp f m d1 d2 :
  agree m d1 d2 -> agree m (rolling idx freq mp f d1) (rolling idx freq mp f d2).
Proof.
  intros Hag. destruct Hag as [Hl H]. split; [now rewrite !rolling_length|].
  intros j Hj. unfold rolling.
  destruct (Nat.lt_ge_cases j (length d1)) as [Hjl|Hjl].
  - rewrite !nth_map_seq by lia.
    assert (Hw : window idx freq d1 j = window idx freq d2 j).
    { unfold window. rewrite !combine_firstn. do 3 f_equal.
      apply agree_firstn. split; [exact Hl|]. intros k Hk. apply H. lia. }
    rewrite Hw. reflexivity.
  - rewrite !nth_overflow by (rewrite map_length, seq_length; lia). reflexivity.
Qed.

Lemma shift_agree l q m d1 d2 :
  Z.of_nat q <= l -> agree m d1 d2 -> agree (m + q) (shift l d1) (shift l d2).
Proof.
  intros Hq [Hl H]. split; [now rewrite !shift_length|].
  intros j Hj. unfold shift.
  destruct (Nat.lt_ge_cases j (length d1)) as [Hjl|Hjl].
  - rewrite !nth_map_seq by lia. rewrite <- Hl.
    destruct ((0 <=? Z.of_nat j - l) && (Z.of_nat j - l <? Z.of_nat (length d1))) eqn:E; [|reflexivity].
    apply H. lia.
  - rewrite !nth_overflow by (rewrite map_length, seq_length; lia). reflexivity.
Qed.

Lemma agree_le m m' d1 d2 : (m' <= m)%nat -> agree m d1 d2 -> agree m' d1 d2.
Proof. intros Hle [Hl H]. split; [exact Hl|]. intros j Hj. apply H. lia. Qed.
End S.
