From Coq Require Import List Ascii NArith ZArith Lia Bool.
From Coq Require Import ZifyBool ZifyNat ZifyN.
From Verif Require Import Model.Names Spec.NamesSpec.
Import ListNotations.
Local Open Scope char_scope.
Ltac Zify.zify_post_hook ::= Z.div_mod_to_equations.

Lemma digit_value_digit n : (n < 10)%N -> digit_value (digit n) = Some (Z.of_N n).
Proof.
  intros Hn.
  assert (n = 0 \/ n = 1 \/ n = 2 \/ n = 3 \/ n = 4 \/ n = 5 \/ n = 6 \/ n = 7
          \/ n = 8 \/ n = 9)%N as Hc by lia.
  repeat (destruct Hc as [Hc|Hc]; [subst n; reflexivity|]). subst n; reflexivity.
Qed.

Lemma dec_aux_app f : forall n acc rest,
  dec_aux f n (acc ++ rest) = dec_aux f n acc ++ rest.
Proof.
  induction f as [|f IH]; intros n acc rest; [reflexivity|].
  cbn [dec_aux]. destruct (n <? 10)%N; [reflexivity|].
  rewrite <- IH. reflexivity.
Qed.

Lemma size_nat_bound n : (n < 2 ^ N.of_nat (N.size_nat n))%N.
Proof.
  destruct n as [|p]; [cbn; lia|]. cbn [N.size_nat].
  assert (H : forall q, (N.pos q < 2 ^ N.of_nat (Pos.size_nat q))%N).
  { induction q as [q IH|q IH|]; cbn [Pos.size_nat].
    - rewrite Nnat.Nat2N.inj_succ, N.pow_succ_r'. lia.
    - rewrite Nnat.Nat2N.inj_succ, N.pow_succ_r'. lia.
    - cbn. lia. }
  apply H.
Qed.

Lemma dec_aux_read_units f : forall n acc tot,
  (n < 2 ^ N.of_nat f)%N ->
  read_units (dec_aux f n acc) 0 tot = read_units acc (Z.of_N n) tot.
Proof.
  induction f as [|f IH]; intros n acc tot Hn.
  - cbn in Hn. assert (n = 0%N) by lia. subst n. reflexivity.
  - cbn [dec_aux]. destruct (n <? 10)%N eqn:E.
    + cbn [read_units]. rewrite digit_value_digit by lia. f_equal; lia.
    + rewrite Nnat.Nat2N.inj_succ, N.pow_succ_r' in Hn.
      rewrite IH by lia. cbn [read_units].
      rewrite digit_value_digit by lia. f_equal; lia.
Qed.

Lemma dec_aux_read_digits f : forall n acc,
  (n < 2 ^ N.of_nat f)%N ->
  read_digits (dec_aux f n acc) 0 = read_digits acc (Z.of_N n).
Proof.
  induction f as [|f IH]; intros n acc Hn.
  - cbn in Hn. assert (n = 0%N) by lia. subst n. reflexivity.
  - cbn [dec_aux]. destruct (n <? 10)%N eqn:E.
    + cbn [read_digits]. rewrite digit_value_digit by lia. f_equal; lia.
    + rewrite Nnat.Nat2N.inj_succ, N.pow_succ_r' in Hn.
      rewrite IH by lia. cbn [read_digits].
      rewrite digit_value_digit by lia. f_equal; lia.
Qed.

Lemma zeros_read_units k rest tot :
  read_units (repeat "0" k ++ rest) 0 tot = read_units rest 0 tot.
Proof. induction k as [|k IH]; [reflexivity|]. cbn. exact IH. Qed.

Lemma zeros_read_digits k rest :
  read_digits (repeat "0" k ++ rest) 0 = read_digits rest 0.
Proof. induction k as [|k IH]; [reflexivity|]. cbn. exact IH. Qed.

Lemma pad_read_units w n rest tot :
  read_units (pad w (dec n) ++ rest) 0 tot = read_units rest (Z.of_N n) tot.
Proof.
  unfold pad. rewrite <- app_assoc, zeros_read_units.
  unfold dec. rewrite <- dec_aux_app.
  apply dec_aux_read_units, size_nat_bound.
Qed.

Lemma pad_read_digits w n :
  read_digits (pad w (dec n)) 0 = Some (Z.of_N n).
Proof.
  unfold pad. rewrite zeros_read_digits. unfold dec.
  rewrite dec_aux_read_digits by apply size_nat_bound. reflexivity.
Qed.

Lemma fmt_read_units w z rest tot :
  (0 <= z)%Z -> read_units (fmt_int w z ++ rest) 0 tot = read_units rest z tot.
Proof.
  intros Hz. unfold fmt_int. destruct (z <? 0)%Z eqn:E; [lia|].
  rewrite pad_read_units. f_equal. lia.
Qed.

Lemma read_digits_some_nominus s v : read_digits s 0 = Some v -> read_int s = Some v.
Proof.
  destruct s as [|c s]; [auto|]. intros H. unfold read_int.
  destruct c as [[] [] [] [] [] [] [] []]; try exact H. cbn in H. discriminate.
Qed.

Lemma read_units_some_nominus s v : read_units s 0 0 = Some v -> read_offset s = Some v.
Proof.
  destruct s as [|c s]; [auto|]. intros H. unfold read_offset.
  destruct c as [[] [] [] [] [] [] [] []]; try exact H. cbn in H. discriminate.
Qed.

Lemma fmt_read_int w z : read_int (fmt_int w z) = Some z.
Proof.
  unfold fmt_int. destruct (z <? 0)%Z eqn:E.
  - cbn [read_int]. rewrite pad_read_digits. cbn. f_equal. lia.
  - apply read_digits_some_nominus. rewrite pad_read_digits. f_equal. lia.
Qed.

(** Offsets. *)
Lemma cons_app (c : ascii) l : c :: l = [c] ++ l. Proof. reflexivity. Qed.

Lemma read_unit_letter c u rest num tot :
  digit_value c = None -> unit_seconds c = Some u ->
  read_units ([c] ++ rest) num tot = read_units rest 0 (tot + num * u).
Proof. intros H1 H2. cbn. rewrite H1, H2. reflexivity. Qed.

Lemma read_when b w z c u rest tot :
  (0 <= z)%Z -> b = (0 <? z)%Z ->
  digit_value c = None -> unit_seconds c = Some u ->
  read_units (when b (fmt_int w z ++ [c]) ++ rest) 0 tot
  = read_units rest 0 (tot + z * u).
Proof.
  intros Hz Hb Hd Hu. unfold when. destruct b.
  - rewrite <- app_assoc, fmt_read_units by assumption.
    apply read_unit_letter; assumption.
  - assert (z = 0%Z) by lia. subst z. cbn [app]. f_equal. lia.
Qed.

Lemma read_when_end b w z c u tot :
  (0 <= z)%Z -> b = (0 <? z)%Z ->
  digit_value c = None -> unit_seconds c = Some u ->
  read_units (when b (fmt_int w z ++ [c])) 0 tot = Some (tot + z * u)%Z.
Proof.
  intros. rewrite <- (app_nil_r (when _ _)).
  erewrite read_when by eassumption. reflexivity.
Qed.

Lemma hr_timedelta_read pd t : read_offset (hr_timedelta pd t) = Some t.
Proof.
  unfold hr_timedelta.
  set (a := Z.abs t).
  set (s := (a mod 60)%Z).
  set (d := (a / (3600 * 24))%Z).
  set (h := ((a - d * 3600 * 24) / 3600)%Z).
  set (m := ((a - d * 3600 * 24 - h * 3600) / 60)%Z).
  assert (Ha : (0 <= a)%Z) by (unfold a; lia).
  assert (Hd : (0 <= d)%Z) by (unfold d; lia).
  assert (Hh : (0 <= h)%Z) by (unfold h, d; lia).
  assert (Hm : (0 <= m)%Z) by (unfold m, h, d; lia).
  assert (Hs : (0 <= s)%Z) by (unfold s; lia).
  assert (Hsum : (d * 86400 + h * 3600 + m * 60 + s * 1 = a)%Z)
    by (unfold m, h, d, s; lia).
  match goal with
  | |- read_offset (if _ then _ :: ?x else _) = _ =>
      set (body := x);
      assert (Hb : read_units body 0 0 = Some a)
  end.
  { unfold body. destruct pd.
    - rewrite fmt_read_units by assumption.
      rewrite (read_unit_letter "d" 86400) by reflexivity.
      rewrite fmt_read_units by assumption.
      rewrite (read_unit_letter "h" 3600) by reflexivity.
      rewrite fmt_read_units by assumption.
      rewrite (read_unit_letter "m" 60) by reflexivity.
      erewrite read_when_end by (try eassumption; reflexivity).
      f_equal. rewrite <- Hsum. ring.
    - erewrite read_when with (z := d) by (try eassumption; reflexivity).
      erewrite read_when with (z := h) by (try eassumption; reflexivity).
      erewrite read_when with (z := m) by (try eassumption; reflexivity).
      erewrite read_when_end by (try eassumption; reflexivity).
      f_equal. rewrite <- Hsum. ring. }
  destruct (t <? 0)%Z eqn:E.
  - cbn [read_offset]. rewrite Hb. cbn. f_equal. unfold a. lia.
  - rewrite (read_units_some_nominus _ _ Hb). f_equal. unfold a. lia.
Qed.

(** Lag suffix. *)
Lemma digit_not_underscore n : (n < 10)%N -> digit n <> "_".
Proof.
  intros Hn.
  assert (n = 0 \/ n = 1 \/ n = 2 \/ n = 3 \/ n = 4 \/ n = 5 \/ n = 6 \/ n = 7
          \/ n = 8 \/ n = 9)%N as Hc by lia.
  repeat (destruct Hc as [Hc|Hc]; [subst n; discriminate|]). subst n; discriminate.
Qed.

Lemma dec_aux_no_underscore f : forall n acc,
  (n < 2 ^ N.of_nat f)%N -> ~ In "_" acc -> ~ In "_" (dec_aux f n acc).
Proof.
  induction f as [|f IH]; intros n acc Hn Hacc.
  - cbn in Hn. assert (n = 0%N) by lia. subst n. cbn. intros [H|H]; [discriminate|auto].
  - cbn [dec_aux]. destruct (n <? 10)%N eqn:E.
    + intros [H|H]; [|auto]. revert H. apply digit_not_underscore. lia.
    + rewrite Nnat.Nat2N.inj_succ, N.pow_succ_r' in Hn.
      apply IH; [lia|]. intros [H|H]; [|auto].
      revert H. apply digit_not_underscore. lia.
Qed.

Lemma fmt_no_underscore w z : ~ In "_" (fmt_int w z).
Proof.
  assert (H : forall w n, ~ In "_" (pad w (dec n))).
  { intros w' n Hin. unfold pad in Hin. apply in_app_or in Hin.
    destruct Hin as [Hin|Hin].
    - apply repeat_spec in Hin. discriminate.
    - revert Hin. unfold dec. apply dec_aux_no_underscore; [apply size_nat_bound|auto]. }
  unfold fmt_int. destruct (z <? 0)%Z.
  - intros [Hin|Hin]; [discriminate|]. exact (H _ _ Hin).
  - apply H.
Qed.

Lemma split_first_eq (c : ascii) : forall b1 b2 a1 a2,
  ~ In c b1 -> ~ In c b2 -> b1 ++ c :: a1 = b2 ++ c :: a2 -> b1 = b2 /\ a1 = a2.
Proof.
  induction b1 as [|x b1 IH]; intros [|y b2] a1 a2 H1 H2 E; cbn in E.
  - injection E as E. auto.
  - injection E as E1 E2. exfalso. apply H2. now left.
  - injection E as E1 E2. exfalso. apply H1. now left.
  - injection E as E1 E2. subst y.
    destruct (IH b2 a1 a2) as [-> ->]; auto.
    + intros H. apply H1. now right.
    + intros H. apply H2. now right.
Qed.

Lemma split_last_eq (c : ascii) a1 a2 b1 b2 :
  ~ In c b1 -> ~ In c b2 -> a1 ++ c :: b1 = a2 ++ c :: b2 -> a1 = a2 /\ b1 = b2.
Proof.
  intros H1 H2 E. apply (f_equal (@rev ascii)) in E.
  rewrite !rev_app_distr in E. cbn in E. rewrite <- !app_assoc in E. cbn in E.
  apply split_first_eq in E.
  - destruct E as [E1 E2]. split; apply (f_equal (@rev ascii)) in E1, E2;
      rewrite ?rev_involutive in *; assumption.
  - now rewrite <- in_rev.
  - now rewrite <- in_rev.
Qed.

Definition lag_digits (lag : Z) : text :=
  if (lag >=? 0)%Z then fmt_int 3 lag else fmt_int 4 lag.

Lemma lag_digits_read lag : read_int (lag_digits lag) = Some lag.
Proof. unfold lag_digits. destruct (lag >=? 0)%Z; apply fmt_read_int. Qed.

Lemma lag_digits_no_underscore lag : ~ In "_" (lag_digits lag).
Proof. unfold lag_digits. destruct (lag >=? 0)%Z; apply fmt_no_underscore. Qed.

Lemma lag_name_split base lag :
  lag_name base lag = (base ++ ["_"; "l"; "a"; "g"]) ++ "_" :: lag_digits lag.
Proof.
  unfold lag_name, lag_digits, lag_tag. rewrite <- !app_assoc. reflexivity.
Qed.

Lemma lag_name_inj b1 l1 b2 l2 :
  lag_name b1 l1 = lag_name b2 l2 -> b1 = b2 /\ l1 = l2.
Proof.
  rewrite !lag_name_split. intros E.
  apply split_last_eq in E; try apply lag_digits_no_underscore.
  destruct E as [Eb El]. split.
  - apply app_inv_tail in Eb. exact Eb.
  - apply (f_equal read_int) in El. rewrite !lag_digits_read in El. congruence.
Qed.

Lemma lag_name_readable base lag :
  exists suffix, lag_name base lag = base ++ lag_tag ++ suffix /\ read_int suffix = Some lag.
Proof. exists (lag_digits lag). split; [reflexivity|apply lag_digits_read]. Qed.

Lemma hr_timedelta_inj p1 t1 p2 t2 :
  hr_timedelta p1 t1 = hr_timedelta p2 t2 -> t1 = t2.
Proof.
  intros E. apply (f_equal read_offset) in E. rewrite !hr_timedelta_read in E. congruence.
Qed.
