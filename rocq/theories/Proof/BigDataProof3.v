(** Which values the reduction of a column of floats keeps. *)
From Coq Require Import List ZArith Bool Arith Lia Reals Lra.
From Flocq Require Import Core Relative.
From Verif Require Import Model.BigData Model.BigDataFloat Spec.BigDataSpec Spec.BigDataFloatSpec Proof.SeriesProof Proof.BigDataProof Proof.BigDataProof2.
Import ListNotations.
Local Open Scope R_scope.
Local Instance prec24' : Prec_gt_0 24 := eq_refl.

Lemma float32_kept x : to_float32 x = x <-> single_number x.
Proof.
  unfold to_float32. split.
  - intros H. assert (G : generic_format radix2 (FLT_exp (-149) 24) x) by (rewrite <- H; apply generic_format_round; typeclasses eauto).
    apply FLT_format_generic in G; [|typeclasses eauto]. destruct G as [[m e] H1 H2 H3]. exists m, e. cbn in H2, H3.
    split; [exact H2|]. split; [exact H3|]. rewrite H1. unfold F2R. cbn [Fnum Fexp]. now rewrite bpow_powerRZ.
  - intros (m & e & H1 & H2 & ->). apply round_generic; [typeclasses eauto|]. apply generic_format_FLT.
    exists (Float radix2 m e); [|exact H1|exact H2]. unfold F2R. cbn [Fnum Fexp]. now rewrite bpow_powerRZ.
Qed.
Lemma reduce_floats_small s : (forall x, In (Some x) s -> Rabs x < float32_max) -> reduce_floats s = map (option_map to_float32) s.
Proof.
  intros H. unfold reduce_floats. destruct (known s) as [|a l] eqn:E.
  - rewrite <- (map_id s) at 1. apply map_ext_in. intros [x|] Hx; [|reflexivity]. apply known_in in Hx. rewrite E in Hx. destruct Hx.
  - assert (K : forall v, In v (a :: l) -> - float32_max < v < float32_max).
    { intros v Hv. rewrite <- E in Hv. apply known_in, H in Hv. unfold Rabs in Hv. destruct (Rcase_abs v); lra. }
    assert (G : forall l a, (forall v, In v (a :: l) -> - float32_max < v < float32_max) ->
      - float32_max < fold_left Rmin l a /\ fold_left Rmax l a < float32_max).
    { clear. induction l as [|b l IH]; intros a Ha; cbn [fold_left].
      - specialize (Ha a (or_introl eq_refl)). lra.
      - assert (- float32_max < a < float32_max) by (apply Ha; now left). assert (- float32_max < b < float32_max) by (apply Ha; right; now left). split.
        + apply IH. intros v [<-|Hv]; [unfold Rmin; destruct (Rle_dec a b); lra|]. apply Ha. right. now right.
        + apply IH. intros v [<-|Hv]; [unfold Rmax; destruct (Rle_dec a b); lra|]. apply Ha. right. now right. }
    destruct (G l a K) as [G1 G2]. destruct (Rlt_dec _ _); [|lra]. destruct (Rlt_dec _ _); [reflexivity|lra].
Qed.
Lemma reduce_floats_kept s i x : (forall x, In (Some x) s -> Rabs x < float32_max) -> nth i s None = Some x ->
  (nth i (reduce_floats s) None = Some x <-> single_number x).
Proof.
  intros Hs Hi. rewrite (reduce_floats_small s Hs). rewrite (map_nth (option_map to_float32) s None i : nth i _ None = _). rewrite Hi. cbn. rewrite <- float32_kept.
  split; [now intros [= H]|now intros ->].
Qed.
Lemma reduce_floats_again s : reduce_floats (reduce_floats s) = reduce_floats s.
Proof.
  destruct (reduce_floats_cases s) as [E|E]; rewrite E; [|now rewrite E].
  destruct (reduce_floats_cases (map (option_map to_float32) s)) as [F|F]; rewrite F; [|reflexivity].
  rewrite map_map. apply map_ext. intros [x|]; [|reflexivity]. cbn. now rewrite float32_idem.
Qed.

(** * Integers: the width chosen *)
Local Close Scope R_scope. Local Open Scope Z_scope.
Lemma reduce_ints_width b s c : s <> [] -> In c [8; 16; 32; 64] ->
  (forall v, In v s -> - 2 ^ (c - 1) < v < 2 ^ (c - 1) - 1) ->
  (forall c', In c' [8; 16; 32; 64] -> c' < c -> exists v, In v s /\ ~ (- 2 ^ (c' - 1) < v < 2 ^ (c' - 1) - 1)) ->
  fst (reduce_ints (Int b) s) = Int c.
Proof.
  intros Hs Hc H1 H2.
  assert (Y : fits c (minimum_z s) (maximum_z s) = true) by (apply fits_complete; assumption).
  assert (N : forall c', In c' [8; 16; 32; 64] -> c' < c -> fits c' (minimum_z s) (maximum_z s) = false).
  { intros c' I L. destruct (fits c' _ _) eqn:F; [|reflexivity]. exfalso. destruct (H2 c' I L) as (v & V1 & V2). apply V2. exact (fits_strict c' s F v V1). }
  unfold reduce_ints. cbn [In] in *.
  destruct Hc as [<-|[<-|[<-|[<-|[]]]]].
  - now rewrite Y.
  - rewrite (N 8), Y by (auto; lia). reflexivity.
  - rewrite (N 8), (N 16), Y by (auto; lia). reflexivity.
  - rewrite (N 8), (N 16), (N 32), Y by (auto 6; lia). reflexivity.
Qed.
Lemma serial_changes_wide cols b s c : In (Int b, s) cols -> s <> [] -> In c [8; 16; 32; 64] -> c < b ->
  (forall v, In v s -> - 2 ^ (c - 1) < v < 2 ^ (c - 1) - 1) -> ~ untouched cols (snd (reduce_serial cols)).
Proof.
  intros Hin Hs Hc Hb H1 H. unfold untouched, reduce_serial in H. cbn [snd] in H.
  assert (E : reduce_ints (Int b) s = (Int b, s)).
  { revert Hin H. clear. induction cols as [|a cols IH]; [easy|]. cbn [map]. intros [->|Hin] [= H3 H4]; [exact H3|now apply IH]. }
  assert (Y : fits c (minimum_z s) (maximum_z s) = true) by (apply fits_complete; assumption).
  apply (f_equal fst) in E. cbn [fst] in E. unfold reduce_ints in E.
  destruct (fits 8 _ _) eqn:E1; [injection E as E; cbn in Hc; lia|].
  destruct (fits 16 _ _) eqn:E2; [injection E as E; destruct Hc as [<-|Hc]; [congruence|cbn in Hc; lia]|].
  destruct (fits 32 _ _) eqn:E3; [injection E as E; destruct Hc as [<-|[<-|Hc]]; [congruence..|cbn in Hc; lia]|].
  destruct Hc as [<-|[<-|[<-|[<-|[]]]]]; [congruence..|]. rewrite Y in E. injection E as E. lia.
Qed.
