From Coq Require Import List Ascii.
From Verif Require Import Model.Freq Spec.FreqSpec.
Import ListNotations.
Local Open Scope char_scope.

Lemma replace_char_app old new s1 s2 :
  replace_char old new (s1 ++ s2) = replace_char old new s1 ++ replace_char old new s2.
Proof. unfold replace_char. apply flat_map_app. Qed.

Lemma normalize_text_app s1 s2 :
  normalize_text (s1 ++ s2) = normalize_text s1 ++ normalize_text s2.
Proof.
  unfold normalize_text, replacements. cbn [fold_left fst snd].
  rewrite !replace_char_app. reflexivity.
Qed.

Lemma normalize_one c : normalize_text [c] = modern_spelling c.
Proof.
  destruct c as [[] [] [] [] [] [] [] []]; reflexivity.
Qed.

Lemma normalize_text_spec s :
  normalize_text s = concat (map modern_spelling s).
Proof.
  induction s as [|c s IH]; [reflexivity|].
  change (c :: s) with ([c] ++ s).
  rewrite normalize_text_app, normalize_one, IH. reflexivity.
Qed.

Lemma modern_spelling_clean c d : In d (modern_spelling c) -> ~ deprecated_letter d.
Proof.
  unfold deprecated_letter. intros Hin Hdep.
  destruct c as [[] [] [] [] [] [] [] []]; cbn in Hin, Hdep;
    repeat match goal with
           | H : _ \/ _ |- _ => destruct H
           | H : False |- _ => destruct H
           end; subst; discriminate.
Qed.

Lemma modern_spelling_fix c :
  ~ deprecated_letter c -> modern_spelling c = [c].
Proof.
  unfold deprecated_letter. intros Hn.
  destruct c as [[] [] [] [] [] [] [] []]; try reflexivity;
    exfalso; apply Hn; cbn; tauto.
Qed.

Lemma normalize_clean s d : In d (normalize_text s) -> ~ deprecated_letter d.
Proof.
  rewrite normalize_text_spec, in_concat. intros (l & Hl & Hd).
  apply in_map_iff in Hl. destruct Hl as (c & <- & _).
  eapply modern_spelling_clean; eassumption.
Qed.

Lemma normalize_fix s :
  (forall d, In d s -> ~ deprecated_letter d) -> normalize_text s = s.
Proof.
  rewrite normalize_text_spec. induction s as [|c s IH]; intros H; [reflexivity|].
  cbn. rewrite modern_spelling_fix by (apply H; now left).
  cbn. f_equal. apply IH. intros d Hd. apply H. now right.
Qed.

Lemma normalize_freq_lemma A (f : freq_arg A) :
  (forall s, f = FStr s ->
     exists s', normalize_timedelta_freq f = FStr s' /\
       s' = concat (map modern_spelling s) /\
       (forall d, In d s' -> ~ deprecated_letter d)) /\
  (forall a, f = FOther a -> normalize_timedelta_freq f = f) /\
  normalize_timedelta_freq (normalize_timedelta_freq f) = normalize_timedelta_freq f.
Proof.
  split; [|split].
  - intros s ->. exists (normalize_text s). split; [reflexivity|].
    split; [apply normalize_text_spec|]. intros d. apply normalize_clean.
  - intros a ->. reflexivity.
  - destruct f as [s|a]; [|reflexivity]. cbn. f_equal.
    apply normalize_fix. intros d. apply normalize_clean.
Qed.
