From Coq Require Import Reals List Arith Bool Lia Lra.
From Verif Require Import Model.HoltWinters Spec.HoltWintersSpec Proof.SeriesProof.
Import ListNotations.
Local Open Scope R_scope.

(** ** Chunks and causality *)
Lemma run_app p s ys zs :
  run p s (ys ++ zs) = let '(r1, s1) := run p s ys in let '(r2, s2) := run p s1 zs in (r1 ++ r2, s2).
Proof.
  revert s. induction ys as [|y ys IH]; intros s; cbn [app run].
  - now destruct (run p s zs).
  - destruct (step p s y y) as [s1 row]. rewrite IH. destruct (run p s1 ys) as [r1 s2]. destruct (run p s2 zs) as [r2 s3]. reflexivity.
Qed.
Lemma run_length p s ys : length (fst (run p s ys)) = length ys.
Proof.
  revert s. induction ys as [|y ys IH]; intros s; cbn [run]; [reflexivity|].
  destruct (step p s y y) as [s1 row]. specialize (IH s1). destruct (run p s1 ys) as [r s2]. cbn in *. now rewrite IH.
Qed.

Lemma number_or_zero x : number x -> or_zero x = x.
Proof. now intros [v ->]. Qed.
Lemma memory_keep n ys s : all_numbers s -> s <> [] -> memory n ys s = s.
Proof.
  intros H Hs. unfold memory. destruct s as [|x s]; [congruence|]. destruct (H x (or_introl eq_refl)) as [v ->]. reflexivity.
Qed.
Lemma initial_healthy p s ys : well_formed p -> healthy p s -> initial p (Some s) ys = s.
Proof.
  intros (P1 & P2 & _) (H1 & H2 & H3 & H4 & H5 & H6). unfold initial. rewrite !number_or_zero, !memory_keep by
    (assumption || (intros E; rewrite E in *; cbn in *; lia)). now destruct s.
Qed.

Lemma no_trend_wf p : well_formed p -> well_formed (no_trend p).
Proof. exact (fun H => H). Qed.

(** ** Numbers stay numbers *)
Lemma plus_number x y : number x -> number y -> number (plus x y).
Proof. intros [a ->] [b ->]. now exists (a + b). Qed.
Lemma minus_number x y : number x -> number y -> number (minus x y).
Proof. intros [a ->] [b ->]. now exists (a - b). Qed.
Lemma scale_number c x : number x -> number (scale c x).
Proof. intros [a ->]. now exists (c * a). Qed.
Lemma constrainify_number p x : number x -> number (constrainify p x).
Proof. intros [a ->]. unfold constrainify. destruct (lower p), (upper p); cbn; eexists; reflexivity. Qed.
Lemma hd_number s : all_numbers s -> (0 < length s)%nat -> number (hd None s).
Proof. destruct s as [|x s]; cbn; [lia|]. intros H _. apply H. now left. Qed.
Lemma shift_length s v : (0 < length s)%nat -> length (shift s v) = length s.
Proof. unfold shift. intros H. rewrite app_length. destruct s; cbn in *; lia. Qed.
Lemma shift_numbers s v : all_numbers s -> number v -> all_numbers (shift s v).
Proof.
  intros H Hv x Hx. unfold shift in Hx. apply in_app_or in Hx. destruct Hx as [Hx|[<-|[]]]; [|exact Hv].
  apply H. destruct s; [easy|now right].
Qed.
#[global] Hint Resolve plus_number minus_number scale_number constrainify_number hd_number shift_numbers : hw.

Lemma step_healthy p s y : well_formed p -> healthy p s -> number y ->
  healthy p (fst (step p s y y)) /\ all_numbers (snd (step p s y y)).
Proof.
  intros (P1 & P2 & _) (H1 & H2 & H3 & H4 & H5 & H6) Hy.
  assert (L1 : (0 < length (season1 s))%nat) by lia. assert (L2 : (0 < length (season2 s))%nat) by lia.
  unfold step. replace (if is_nan y then y else y) with y by now destruct (is_nan y).
  set (s1h := hd None (season1 s)). set (s2h := hd None (season2 s)).
  assert (N1 : number s1h) by (unfold s1h; auto with hw). assert (N2 : number s2h) by (unfold s2h; auto with hw).
  set (a := plus (scale (alpha p) _) _). assert (Na : number a) by (unfold a; auto 10 with hw).
  set (v1 := plus (scale (gamma1 p) _) _). assert (Nv1 : number v1) by (unfold v1; auto 10 with hw).
  set (v2 := plus (scale (gamma2 p) _) _). assert (Nv2 : number v2) by (unfold v2; auto 10 with hw).
  set (b := plus (scale (beta p) _) _). assert (Nb : number b) by (unfold b; auto 10 with hw).
  cbn [fst snd]. clearbody a v1 v2 b. split.
  - unfold healthy. cbn [level trend season1 season2]. rewrite !shift_length by assumption. auto 10 with hw.
  - intros x Hx. apply in_map_iff in Hx. destruct Hx as [i [<- _]].
    assert (M : forall q t, (0 < q)%nat -> all_numbers t -> length t = q -> number (nth (i mod q) t None)).
    { intros q t Hq Ht Hl. apply Ht, nth_In. rewrite Hl. apply Nat.mod_upper_bound. lia. }
    apply plus_number; [apply plus_number; [apply plus_number; auto with hw|]|]; apply M; try assumption;
      try (apply shift_numbers; auto with hw); rewrite shift_length by assumption; assumption.
Qed.

Lemma run_healthy p s ys : well_formed p -> healthy p s -> all_numbers ys ->
  healthy p (snd (run p s ys)) /\ Forall all_numbers (fst (run p s ys)).
Proof.
  intros Hp. revert s. induction ys as [|y ys IH]; intros s Hs Hy; cbn [run]; [split; [exact Hs|constructor]|].
  destruct (step_healthy p s y Hp Hs (Hy y (or_introl eq_refl))) as [G1 G2].
  destruct (step p s y y) as [s1 row]. cbn [fst snd] in *.
  destruct (IH s1 G1) as [I1 I2]; [intros x Hx; apply Hy; now right|].
  destruct (run p s1 ys) as [rows s2]. cbn [fst snd] in *. split; [exact I1|now constructor].
Qed.

(** Chunk invariance of [predict] for a healthy object. *)
Lemma predict_chunks p s ys zs : well_formed p -> healthy p s -> all_numbers ys ->
  exists s1 s2, predict p (Some s) ys None = (fst (predict p (Some s) ys None), Some s1) /\
    predict p (Some s) (ys ++ zs) None = (fst (predict p (Some s) ys None) ++ fst (predict p (Some s1) zs None), Some s2) /\
    snd (predict p (Some s1) zs None) = Some s2.
Proof.
  intros Hp Hs Hy. unfold predict, run_from.
  rewrite !initial_healthy by (assumption || now apply no_trend_wf).
  pose proof (run_app (no_trend p) s ys zs) as A.
  destruct (run_healthy (no_trend p) s ys Hp Hs Hy) as [H1 _].
  destruct (run (no_trend p) s ys) as [r1 s1] eqn:E1. cbn [fst snd] in *.
  exists s1. rewrite !initial_healthy by (assumption || now apply no_trend_wf).
  destruct (run (no_trend p) s1 zs) as [r2 s2] eqn:E2. exists s2. rewrite A. cbn. auto.
Qed.

(** Causality: what is predicted at the first rows does not depend on later rows. *)
Lemma predict_causal p s ys zs zs' : well_formed p -> healthy p s ->
  firstn (length ys) (fst (predict p (Some s) (ys ++ zs) None)) = firstn (length ys) (fst (predict p (Some s) (ys ++ zs') None)).
Proof.
  intros Hp Hs. unfold predict, run_from. rewrite !initial_healthy by (assumption || now apply no_trend_wf).
  rewrite !run_app. pose proof (run_length (no_trend p) s ys) as L.
  destruct (run (no_trend p) s ys) as [r1 s1]. cbn [fst] in L. destruct (run _ s1 zs) as [r2 s2]. destruct (run _ s1 zs') as [r3 s3].
  cbn [fst]. rewrite <- L, !firstn_app, Nat.sub_diag, !firstn_O. reflexivity.
Qed.

(** ** Missing observations *)
Lemma step_nan p s : snd (step p s None None) = repeat None (steps p) /\ level (fst (step p s None None)) = None.
Proof.
  unfold step. cbn [is_nan]. cbn [minus lift2 scale option_map plus]. cbn [fst snd level]. split; [|reflexivity].
  generalize 0%nat. induction (steps p) as [|n IH]; intros k; cbn [seq map repeat]; [reflexivity|]. now rewrite IH.
Qed.
Lemma step_nan_level p s y : level s = None -> snd (step p s y y) = repeat None (steps p) /\ level (fst (step p s y y)) = None.
Proof.
  intros H. unfold step. rewrite H. cbn [plus lift2 scale option_map].
  assert (E : forall x, plus x None = None) by (intros [?|]; reflexivity). change (lift2 Rplus None (trend s)) with (@None R). cbn [option_map].
  rewrite E. cbn [fst snd level]. split; [|reflexivity].
  generalize 0%nat. induction (steps p) as [|n IH]; intros k; cbn [seq map repeat]; [reflexivity|]. now rewrite IH.
Qed.
Lemma run_nan_level p s ys : level s = None -> (forall row, In row (fst (run p s ys)) -> row = repeat None (steps p)) /\ level (snd (run p s ys)) = None.
Proof.
  revert s. induction ys as [|y ys IH]; intros s H; cbn [run]; [split; [easy|exact H]|].
  destruct (step_nan_level p s y H) as [G1 G2]. destruct (step p s y y) as [s1 row]. cbn [fst snd] in *.
  destruct (IH s1 G2) as [I1 I2]. destruct (run p s1 ys) as [rows s2]. cbn [fst snd] in *. split; [|exact I2].
  intros r [<-|Hr]; [exact G1|now apply I1].
Qed.
Lemma missing_poisons p st ys zs effect :
  forall r, In r (skipn (length ys) (fst (predict p st (ys ++ None :: zs) effect))) -> forall x, In x r -> x = None.
Proof.
  unfold predict, run_from. set (s0 := initial _ _ _). rewrite run_app.
  pose proof (run_length (no_trend p) s0 ys) as L. destruct (run (no_trend p) s0 ys) as [r1 s1]. cbn [fst] in L.
  cbn [run]. destruct (step_nan (no_trend p) s1) as [G1 G2]. destruct (step (no_trend p) s1 None None) as [s2 row]. cbn [fst snd] in *.
  destruct (run_nan_level (no_trend p) s2 zs G2) as [I1 _]. destruct (run (no_trend p) s2 zs) as [rows s3]. cbn [fst] in *.
  assert (A : forall r, In r (row :: rows) -> forall x, In x r -> x = None).
  { intros r Hr x Hx. assert (r = repeat None (steps (no_trend p))) by (destruct Hr as [<-|Hr]; [exact G1|now apply I1]). subst r. now apply repeat_spec in Hx. }
  destruct effect as [e|]; cbn [fst].
  - intros r Hr x Hx. rewrite skipn_map in Hr. apply in_map_iff in Hr. destruct Hr as [[r0 e0] [<- Hr]]. cbn [fst snd] in Hx.
    assert (Hr0 : In r0 (row :: rows)).
    { assert (K : forall (l : list (list num)) (e : list (list num)) n, In (r0, e0) (skipn n (combine l e)) -> In r0 (skipn n l)).
      { clear. induction l as [|a l IH]; intros e n H; [now rewrite skipn_nil in H|]. destruct e as [|b e]; [now rewrite skipn_nil in H|].
        destruct n as [|n]; [|cbn in *; now apply (IH e)]. cbn [combine skipn] in *. change (In (r0, e0) (combine (a :: l) (b :: e))) in H. now apply in_combine_l in H. }
      apply K in Hr. unfold num in *. rewrite skipn_app, <- L, Nat.sub_diag, skipn_all in Hr. exact Hr. }
    apply in_map_iff in Hx. destruct Hx as [[a b] [<- Hab]]. cbn [fst snd]. apply in_combine_l in Hab. rewrite (A r0 Hr0 a Hab). reflexivity.
  - unfold num in *. rewrite skipn_app, <- L, Nat.sub_diag, skipn_all. exact A.
Qed.

Lemma complete_series_numbers p s ys : well_formed p -> healthy p s -> all_numbers ys ->
  Forall all_numbers (fst (predict p (Some s) ys None)) /\
  (exists s', snd (predict p (Some s) ys None) = Some s' /\ healthy p s') /\ length (fst (predict p (Some s) ys None)) = length ys.
Proof.
  intros Hp Hs Hy. unfold predict, run_from. rewrite initial_healthy by (assumption || now apply no_trend_wf).
  destruct (run_healthy (no_trend p) s ys Hp Hs Hy) as [H1 H2]. pose proof (run_length (no_trend p) s ys) as L.
  destruct (run (no_trend p) s ys) as [r s']. cbn in *. split; [exact H2|]. split; [|exact L]. now exists s'.
Qed.


(** ** Seasonal values within the constraints *)
Lemma constrainify_within p x : well_formed p -> within p (constrainify p x).
Proof.
  intros (_ & _ & Hb). unfold constrainify, within. destruct x as [v|]; [|destruct (lower p), (upper p); exact I].
  destruct (lower p) as [l|] eqn:El, (upper p) as [u|] eqn:Eu; cbn [option_map]; split; intros w [= <-].
  - specialize (Hb l u eq_refl eq_refl). pose proof (Rmax_l l v). unfold Rmin. destruct (Rle_dec _ _); lra.
  - apply Rmin_l.
  - apply Rmax_l.
  - apply Rmin_l.
Qed.
Lemma constrainify_inside p v : within p (Some v) -> constrainify p (Some v) = Some v.
Proof.
  unfold within, constrainify. intros [H1 H2]. destruct (lower p) as [l|], (upper p) as [u|]; cbn [option_map]; try reflexivity; f_equal.
  - rewrite Rmax_right by now apply H1. apply Rmin_right. now apply H2.
  - rewrite Rmax_right by now apply H1. reflexivity.
  - apply Rmin_right. now apply H2.
Qed.
Lemma shift_within p s v : Forall (within p) s -> within p v -> Forall (within p) (shift s v).
Proof. intros H Hv. unfold shift. apply Forall_app. split; [|now constructor]. destruct H; [constructor|assumption]. Qed.
Lemma run_within p s ys : well_formed p -> Forall (within p) (season1 s) -> Forall (within p) (season2 s) ->
  Forall (within p) (season1 (snd (run p s ys))) /\ Forall (within p) (season2 (snd (run p s ys))).
Proof.
  intros Hp. revert s. induction ys as [|y ys IH]; intros s H1 H2; cbn [run]; [now split|].
  assert (G : Forall (within p) (season1 (fst (step p s y y))) /\ Forall (within p) (season2 (fst (step p s y y)))).
  { unfold step. cbn [fst season1 season2]. split; apply shift_within; try assumption; now apply constrainify_within. }
  destruct (step p s y y) as [s1 row]. cbn [fst] in G. specialize (IH s1 (proj1 G) (proj2 G)).
  destruct (run p s1 ys) as [rows s2]. exact IH.
Qed.
(** After a full period nothing unconstrained is left, whatever the start. *)
Lemma run_within_after p s ys : well_formed p -> length (season1 s) = period1 p -> length (season2 s) = period2 p ->
  (period1 p <= length ys)%nat -> (period2 p <= length ys)%nat ->
  Forall (within p) (season1 (snd (run p s ys))) /\ Forall (within p) (season2 (snd (run p s ys))).
Proof.
  intros Hp L1 L2 G1 G2.
  enough (K : forall ys s, (0 < length (season1 s))%nat -> (0 < length (season2 s))%nat ->
     (let r := snd (run p s ys) in
     Forall (within p) (skipn (length (season1 s) - length ys) (season1 r)) /\ length (season1 r) = length (season1 s) /\
     Forall (within p) (skipn (length (season2 s) - length ys) (season2 r)) /\ length (season2 r) = length (season2 s))).
  { destruct Hp as (P1 & P2 & Hp). specialize (K ys s). cbn zeta in K. destruct K as (K1 & _ & K2 & _); [lia|lia|].
    replace (length (season1 s) - length ys)%nat with 0%nat in K1 by lia. replace (length (season2 s) - length ys)%nat with 0%nat in K2 by lia. now split. }
  clear - Hp. intros ys. induction ys as [|y ys IH] using rev_ind; intros s Q1 Q2; cbn zeta.
  - cbn [run snd length]. rewrite !Nat.sub_0_r, !skipn_all. repeat split; constructor.
  - rewrite run_app. destruct (IH s Q1 Q2) as (I1 & I2 & I3 & I4). clear IH. destruct (run p s ys) as [r s1]. cbn [snd] in *. cbn [run].
    assert (G : forall z q v n, length q = n -> (0 < n)%nat -> within p v -> Forall (within p) (skipn (n - z) q) ->
              Forall (within p) (skipn (n - (z + 1)) (shift q v))).
    { intros z q v n Hq Hn Hv H. unfold shift. destruct q as [|x q]; [cbn in Hq; lia|]. cbn [tl].
      rewrite skipn_app. apply Forall_app. split.
      - destruct (n - z)%nat as [|m] eqn:E.
        + replace (n - (z + 1))%nat with 0%nat by lia. cbn [skipn] in *. now inversion H.
        + replace (n - (z + 1))%nat with m by lia. exact H.
      - apply Forall_forall. intros w Hw. assert (In w [v]). { rewrite <- (firstn_skipn (n - (z + 1) - length q) [v]). apply in_or_app. now right. } destruct H0 as [<-|[]]. exact Hv. }
    unfold step. cbn [snd season1 season2 length app]. rewrite app_length. cbn [length].
    repeat split.
    + apply G; [exact I2|exact Q1|now apply constrainify_within|exact I1].
    + rewrite shift_length; lia.
    + apply G; [exact I4|exact Q2|now apply constrainify_within|exact I3].
    + rewrite shift_length; lia.
Qed.

(** ** Hankel windows *)
Lemma hankel_windows {V} (x : list V) n d : (n <= length x)%nat -> length (hankel x n) = (length x - n + 1)%nat /\
  forall w, (w < length x - n + 1)%nat -> length (nth w (hankel x n) []) = n /\
  forall i, (i < n)%nat -> nth i (nth w (hankel x n) []) d = nth (w + i) x d.
Proof.
  intros Hn. unfold hankel. rewrite map_length, seq_length. split; [lia|]. intros w Hw.
  rewrite (nth_map_seq (fun w => firstn n (skipn w x))) by lia. cbn [Nat.add]. split.
  - rewrite firstn_length, skipn_length. lia.
  - intros i Hi. rewrite nth_firstn by exact Hi. apply nth_skipn.
Qed.

Lemma fit_alignment p st ys d : (1 <= steps p)%nat -> (steps p < length ys)%nat ->
  exists target rows st', fit_rows p st ys = (target, rows, st') /\
    length target = (length ys - steps p)%nat /\ length rows = (length ys - steps p)%nat /\
    forall t i, (t < length ys - steps p)%nat -> (i < steps p)%nat ->
      nth i (nth t target []) d = nth (t + 1 + i) ys d /\
      nth t rows [] = nth t (fst (run_from p st ys)) [].
Proof.
  intros H1 H2. unfold fit_rows. pose proof (run_length p (initial p st ys) ys) as L. fold (run_from p st ys) in L.
  destruct (run_from p st ys) as [rows s]. cbn [fst] in L.
  eexists _, _, _. split; [reflexivity|].
  destruct (hankel_windows (skipn 1 ys) (steps p) d) as [K1 K2]; [rewrite skipn_length; lia|]. rewrite skipn_length in *.
  split; [rewrite K1; lia|]. split; [rewrite firstn_length, K1; lia|].
  intros t i Ht Hi. split.
  - destruct (K2 t) as [_ K]; [lia|]. rewrite K by exact Hi. rewrite nth_skipn. f_equal. lia.
  - cbn [fst]. apply nth_firstn. rewrite K1. lia.
Qed.

(** ** Exactly seasonal series *)
Lemma rotated_hd q t : q <> [] -> hd None (rotated q t) = Some (nth (t mod length q) q 0).
Proof. intros H. unfold rotated. destruct q as [|x q]; [congruence|]. cbn [length seq map hd]. now rewrite Nat.add_0_r. Qed.
Lemma rotated_shift q t : q <> [] -> shift (rotated q t) (Some (nth (t mod length q) q 0)) = rotated q (S t).
Proof.
  intros H. unfold shift, rotated. destruct (length q) as [|n] eqn:E; [destruct q; [congruence|discriminate]|].
  rewrite (seq_S n 0) at 2. rewrite map_app. cbn [seq map tl Nat.add]. f_equal.
  - rewrite <- seq_shift, map_map. apply map_ext. intros i. do 3 f_equal. lia.
  - replace (S (t + n))%nat with (t + 1 * S n)%nat by lia. now rewrite Nat.mod_add by lia.
Qed.
Lemma rotated_nth q t i : q <> [] -> nth (i mod length q) (rotated q t) None = Some (nth ((t + i) mod length q) q 0).
Proof.
  intros H. assert (length q <> 0)%nat by (destruct q; [congruence|discriminate]). unfold rotated.
  pose proof (Nat.mod_upper_bound i (length q) H0).
  rewrite (nth_map_seq (fun i => Some (nth ((t + i) mod length q) q 0))) by lia. cbn [Nat.add]. now rewrite Nat.add_mod_idemp_r.
Qed.

Lemma step_seasonal p a q1 q2 t : q1 <> [] -> q2 <> [] -> period1 p = length q1 -> period2 p = length q2 ->
  (forall v, In v q1 -> within p (Some v)) -> (forall v, In v q2 -> within p (Some v)) ->
  step p (State (Some a) (Some 0) (rotated q1 t) (rotated q2 t)) (Some (seasonal a q1 q2 t)) (Some (seasonal a q1 q2 t))
  = (State (Some a) (Some 0) (rotated q1 (S t)) (rotated q2 (S t)), map (fun i => Some (seasonal a q1 q2 (t + 1 + i))) (seq 0 (steps p))).
Proof.
  intros N1 N2 P1 P2 W1 W2. unfold step. cbn [is_nan level trend season1 season2]. rewrite !rotated_hd by assumption.
  set (v1 := nth (t mod length q1) q1 0). set (v2 := nth (t mod length q2) q2 0).
  assert (I1 : In v1 q1) by (apply nth_In, Nat.mod_upper_bound; destruct q1; [congruence|discriminate]).
  assert (I2 : In v2 q2) by (apply nth_In, Nat.mod_upper_bound; destruct q2; [congruence|discriminate]).
  cbn [minus lift2 scale option_map plus].
  assert (Ea : alpha p * (seasonal a q1 q2 t - v1 - v2) + (1 - alpha p) * (a + 0) = a) by (unfold seasonal; fold v1 v2; ring).
  rewrite Ea.
  assert (E1 : gamma1 p * (seasonal a q1 q2 t - a - v2) + (1 - gamma1 p) * v1 = v1) by (unfold seasonal; fold v1 v2; ring).
  assert (E2 : gamma2 p * (seasonal a q1 q2 t - a - v1) + (1 - gamma2 p) * v2 = v2) by (unfold seasonal; fold v1 v2; ring).
  assert (Eb : beta p * (a - a) + (1 - beta p) * 0 = 0) by ring.
  rewrite E1, E2, Eb. rewrite !constrainify_inside by auto. unfold v1 at 1 2, v2 at 1 2. rewrite !rotated_shift by assumption. f_equal.
  apply map_ext. intros i. rewrite P1, P2, !rotated_nth by assumption. unfold plus, scale. cbn [lift2 option_map]. unfold seasonal. f_equal.
  replace (S t + i)%nat with (t + 1 + i)%nat by lia. ring.
Qed.

Lemma seasonal_exact p a q1 q2 t n : q1 <> [] -> q2 <> [] -> period1 p = length q1 -> period2 p = length q2 ->
  (forall v, In v q1 -> within p (Some v)) -> (forall v, In v q2 -> within p (Some v)) ->
  run p (State (Some a) (Some 0) (rotated q1 t) (rotated q2 t)) (map (fun j => Some (seasonal a q1 q2 (t + j))) (seq 0 n))
  = (map (fun j => map (fun i => Some (seasonal a q1 q2 (t + j + 1 + i))) (seq 0 (steps p))) (seq 0 n),
     State (Some a) (Some 0) (rotated q1 (t + n)) (rotated q2 (t + n))).
Proof.
  intros N1 N2 P1 P2 W1 W2. revert t. induction n as [|n IH]; intros t; [cbn; now rewrite Nat.add_0_r|].
  cbn [seq map run]. rewrite Nat.add_0_r, step_seasonal by assumption.
  rewrite <- seq_shift, !map_map.
  rewrite (map_ext _ (fun j => Some (seasonal a q1 q2 (S t + j)))) by (intros j; do 2 f_equal; lia). rewrite IH.
  replace (S t + n)%nat with (t + S n)%nat by lia. f_equal. f_equal. apply map_ext. intros j. apply map_ext. intros i. do 2 f_equal. lia.
Qed.
