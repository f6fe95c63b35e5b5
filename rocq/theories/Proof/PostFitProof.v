(** Proofs about the steps after training. *)
From Coq Require Import List ZArith Bool Arith Reals Lra Lia Sorted Permutation.
From Verif Require Import Model.Series Model.Subsample Model.Stats Model.Quantiles Model.PostFit
  Spec.SubsampleSpec Spec.StatsSpec Spec.QuantilesSpec Spec.PostFitSpec
  Proof.SubsampleProof Proof.StatsProof Proof.QuantilesProof.
Import ListNotations.
Local Open Scope R_scope.

Lemma how_many_shift (P Q : R -> Prop) (f : nat -> R) (c : R) g n :
  (forall e, Q (e - c) <-> P e) -> how_many Q (map (fun i => f i - c) g) n -> how_many P (map f g) n.
Proof.
  intros H (a & b & Hp & Ha & Hb & Hn).
  exists (map (fun e => e + c) a), (map (fun e => e + c) b). split; [|split; [|split]].
  - rewrite <- map_app. apply (Permutation_map (fun e => e + c)) in Hp. rewrite map_map in Hp.
    rewrite <- Hp. erewrite map_ext; [reflexivity|]. intros i. cbn. lra.
  - apply Forall_map. eapply Forall_impl; [|exact Ha]. intros e He. cbn. apply H. now replace (e + c - c) with e by lra.
  - apply Forall_map. eapply Forall_impl; [|exact Hb]. intros e He Hc. cbn in Hc. apply He. apply H in Hc.
    now replace (e + c - c) with e in Hc by lra.
  - now rewrite map_length.
Qed.

Lemma errors_cell y preds i j n steps :
  shaped n steps y -> shaped n steps preds -> (i < n)%nat -> (j < steps)%nat ->
  nth j (nth i (errors y preds) []) 0 = cell y i j - cell preds i j.
Proof.
  intros [Hy Fy] [Hp Fp] Hi Hj. unfold errors.
  rewrite (map2_nth (map2 Rminus) y preds i [] [] []) by lia.
  rewrite Forall_forall in Fy, Fp.
  assert (L1 : length (nth i y []) = steps) by (apply Fy, nth_In; lia).
  assert (L2 : length (nth i preds []) = steps) by (apply Fp, nth_In; lia).
  rewrite (map2_nth Rminus _ _ j 0 0 0) by lia. reflexivity.
Qed.

Lemma flat_map_filter {A B} (f : A -> B) (P : A -> bool) (Q : A -> list B) l :
  (forall a, Q a = if P a then [f a] else []) -> flat_map Q l = map f (filter P l).
Proof.
  intros H. induction l as [|a l IH]; cbn; [reflexivity|]. rewrite H, IH. destruct (P a); reflexivity.
Qed.

(** The pool of errors of the calibration rows. *)
Lemma pool_rows hours errs h j g : length hours = length errs ->
  calibration_rows hours h g -> pool hours errs h j (map (fun i => nth j (nth i errs []) 0) g).
Proof.
  intros Hl [[F ->]|[F ->]]; [left|right]; split; try exact F.
  - unfold hour_errors. rewrite Hl. symmetry. apply flat_map_filter. intros i.
    destruct (Z.eq_dec (nth i hours 0%Z) h) as [E|E].
    + apply Z.eqb_eq in E. now rewrite E.
    + apply Z.eqb_neq in E. now rewrite E.
  - unfold step_errors. rewrite Hl. clear. apply nth_ext with (d := 0) (d' := 0); [now rewrite !map_length, seq_length|].
    intros n Hn. rewrite map_length, seq_length in Hn.
    rewrite (nth_indep (map _ errs) 0 ((fun r => nth j r 0) [])) by (rewrite map_length; lia). rewrite (map_nth (fun r => nth j r 0)).
    rewrite (nth_indep (map _ (seq _ _)) 0 ((fun i => nth j (nth i errs []) 0) 0%nat)) by (rewrite map_length, seq_length; lia).
    rewrite (map_nth (fun i => nth j (nth i errs []) 0)), seq_nth by lia. reflexivity.
Qed.

Lemma full_day_dec hours : full_day hours \/ ~ full_day hours.
Proof.
  destruct (forallb (fun h => existsb (Z.eqb (Z.of_nat h)) hours) (seq 0 24)) eqn:E.
  - left. intros h Hh. rewrite forallb_forall in E. specialize (E (Z.to_nat h)). rewrite Z2Nat.id in E by lia.
    assert (In (Z.to_nat h) (seq 0 24)) by (apply in_seq; lia). apply E in H. apply existsb_exists in H.
    destruct H as (h' & Hin & He). apply Z.eqb_eq in He. now subst.
  - right. intros F. enough (forallb (fun h => existsb (Z.eqb (Z.of_nat h)) hours) (seq 0 24) = true) by congruence.
    apply forallb_forall. intros h Hh. apply in_seq in Hh. apply existsb_exists. exists (Z.of_nat h). split; [apply F; lia|apply Z.eqb_refl].
Qed.

Lemma prefit_ok_spec hours : prefit_ok hours = true <-> full_day hours.
Proof.
  unfold prefit_ok. rewrite forallb_forall. split.
  - intros E h Hh. specialize (E (Z.to_nat h)). rewrite Z2Nat.id in E by lia.
    assert (In (Z.to_nat h) (seq 0 24)) by (apply in_seq; lia). apply E in H. apply existsb_exists in H.
    destruct H as (h' & Hin & He). apply Z.eqb_eq in He. now subst.
  - intros F h Hh. apply in_seq in Hh. apply existsb_exists. exists (Z.of_nat h). split; [apply F; lia|apply Z.eqb_refl].
Qed.

(** The quantiles cover the calibration rows. *)
Lemma calibrated_tables steps qs hours ys preds d :
  length hours = length ys -> in_day hours -> ys <> [] -> Forall (fun q => 0 <= q <= 1) qs ->
  shaped (length hours) steps ys -> shaped (length hours) steps preds ->
  d = estimate_err_distr true steps qs hours (errors ys preds) ->
  exists q, predict_quantiles d steps (length qs) hours preds = Some q /\
    forall h g j k m m', calibration_rows hours h g -> g <> [] -> (j < steps)%nat -> (k < length qs)%nat ->
      how_many (fun e => e <= 0) (residuals ys q g j k) m ->
      how_many (fun e => 0 <= e) (residuals ys q g j k) m' ->
      nth k qs 0 * INR (length g - 1) < INR m /\ (1 - nth k qs 0) * INR (length g - 1) < INR m'.
Proof.
  intros Hl Hd Hy Hq Sy Sp ->.
  assert (He : length (errors ys preds) = length hours).
  { unfold errors. rewrite map2_length by (destruct Sy, Sp; lia). destruct Sy; lia. }
  assert (Hne : errors ys preds <> []).
  { intros E. rewrite E in He. destruct ys; [congruence|cbn in *; lia]. }
  destruct (predicted_quantiles_correct steps qs hours (errors ys preds) hours preds ltac:(lia) Hd Hne Hq
              ltac:(destruct Sp; lia) Hd Sp) as (q & Eq & _ & _ & Hcell).
  exists q. split; [exact Eq|]. intros h g j k m m' Hg Hgne Hj Hk Hm Hm'.
  set (errs := errors ys preds) in *. set (l := map (fun i => nth j (nth i errs []) 0) g).
  assert (Hpool : forall i, In i g -> (i < length hours)%nat /\ pool hours errs (nth i hours 0%Z) j l).
  { intros i Hi. pose proof (pool_rows hours errs h j g ltac:(lia) Hg) as Hp.
    destruct Hg as [[F ->]|[F ->]].
    - apply filter_In in Hi. destruct Hi as [Hi E]. apply in_seq in Hi. apply Z.eqb_eq in E. split; [lia|]. now rewrite E.
    - apply in_seq in Hi. split; [lia|]. destruct Hp as [[F' _]|[_ E]]; [now exfalso|]. right. now split. }
  set (p := nth k qs 0). set (c := quantile l p).
  assert (Er : residuals ys q g j k = map (fun i => nth j (nth i errs []) 0 - c) g).
  { unfold residuals. apply map_ext_in. intros i Hi. destruct (Hpool i Hi) as [Hi' P].
    assert (Hip : (i < length preds)%nat) by (destruct Sp; lia).
    destruct (Hcell i j Hip Hj) as [Hc _]. rewrite (Hc k l Hk P).
    unfold errs. rewrite (errors_cell ys preds i j (length hours) steps Sy Sp Hi' Hj). unfold c, p. lra. }
  rewrite Er in Hm, Hm'.
  assert (Hlg : length l = length g) by (unfold l; now rewrite map_length).
  assert (Hlne : l <> []) by (destruct g; [congruence|discriminate]).
  assert (Hp01 : 0 <= p <= 1) by (rewrite Forall_forall in Hq; apply Hq, nth_In; exact Hk).
  rewrite <- Hlg. apply (quantile_coverage l p m m' Hlne Hp01).
  - apply (how_many_shift (fun x => x <= quantile l p) (fun e => e <= 0) (fun i => nth j (nth i errs []) 0) c g m); [|exact Hm]. intros e. unfold c. lra.
  - apply (how_many_shift (fun x => quantile l p <= x) (fun e => 0 <= e) (fun i => nth j (nth i errs []) 0) c g m'); [|exact Hm']. intros e. unfold c. lra.
Qed.

(** What the subsampling returns, whatever the limit. *)
Lemma subsample_any (X : Type) g cap (d0 : sample X) x (y : list (list R)) :
  honest g -> length y = length x ->
  exists pos, maybe_subsample g cap (map sm_time x) (map sm_time x) (Some (map sm_hour x)) d0 [] x y
              = Some (rows d0 x pos, rows [] y pos) /\
    NoDup pos /\ (forall p, In p pos -> (p < length x)%nat) /\
    length pos = match cap with Some m => Nat.min m (length x) | None => length x end.
Proof.
  intros Hg Hy.
  assert (All : forall A (d : A) (l : list A), length l = length x -> rows d l (seq 0 (length x)) = l).
  { intros A d l El. rewrite <- El. unfold rows. apply nth_ext with (d := d) (d' := d); [now rewrite map_length, seq_length|].
    intros n Hn. rewrite map_length, seq_length in Hn. rewrite (nth_indep _ d (nth 0 l d)) by (rewrite map_length, seq_length; lia).
    rewrite (map_nth (fun p => nth p l d)), seq_nth by lia. reflexivity. }
  assert (Same : (cap = None \/ exists m, cap = Some m /\ (length x <= m)%nat) ->
     exists pos, maybe_subsample g cap (map sm_time x) (map sm_time x) (Some (map sm_hour x)) d0 [] x y
              = Some (rows d0 x pos, rows [] y pos) /\
    NoDup pos /\ (forall p, In p pos -> (p < length x)%nat) /\
    length pos = match cap with Some m => Nat.min m (length x) | None => length x end).
  { intros Hc. exists (seq 0 (length x)).
    rewrite (subsample_unchanged (sample X) (list R) g cap (map sm_time x) (map sm_time x) (Some (map sm_hour x)) d0 [] x y Hc).
    rewrite (All _ d0 x eq_refl), (All _ [] y Hy). split; [reflexivity|]. split; [apply seq_NoDup|]. split.
    - intros p Hp. apply in_seq in Hp. lia.
    - rewrite seq_length. destruct Hc as [->|(m & -> & Hm)]; [reflexivity|lia]. }
  destruct cap as [m|]; [|now apply Same; left].
  destruct (le_lt_dec (length x) m) as [Hm|Hm]; [apply Same; right; now exists m|].
  destruct (subsample_exact (sample X) (list R) g m (map sm_time x) (Some (map sm_hour x)) d0 [] x y Hg
              ltac:(now rewrite map_length) ltac:(now rewrite map_length)
              ltac:(intros hs [= <-]; now rewrite !map_length) Hm) as (pos & (L & N & B & _) & E & _).
  exists pos. repeat split; try assumption. lia.
Qed.

Lemma rows_map2_shaped (X : Type) (f : sample X -> list R -> list R) (d0 : sample X) x y pos steps :
  length y = length x -> (forall r v, In (r, v) (combine x y) -> length (f r v) = steps) ->
  (forall p, In p pos -> (p < length x)%nat) -> shaped (length pos) steps (rows [] (map2 f x y) pos).
Proof.
  intros Hl Hs Hp. split; [unfold rows; apply map_length|]. apply Forall_map, Forall_forall. intros p Hin.
  specialize (Hp p Hin). rewrite (map2_nth f x y p d0 [] []) by lia. apply Hs.
  rewrite <- (combine_nth x y p d0 []) by lia. apply nth_In. rewrite combine_length. lia.
Qed.

Lemma post_fit_calibrated (X : Type) :
  forall (gen : Z -> rng) scengen_state random_state cap prefit steps qs (denorm : sample X -> list R -> list R)
    (model : sample X -> list R) d0 x y xs ys d,
  (forall s, honest (gen s)) -> length y = length x -> x <> [] -> cap <> Some 0%nat -> in_day (map sm_hour x) ->
  Forall (fun q => 0 <= q <= 1) qs ->
  (forall r, In r x -> length (denorm r (model r)) = steps) ->
  (forall r v, In (r, v) (combine x y) -> length (denorm r v) = steps) ->
  post_fit gen scengen_state random_state cap prefit true steps qs denorm model d0 x (map sm_time x) y = Some (xs, ys, d) ->
  (exists pos, xs = rows d0 x pos /\ ys = rows [] (map2 denorm x y) pos /\
     NoDup pos /\ (forall p, In p pos -> (p < length x)%nat) /\
     length pos = match cap with Some m => Nat.min m (length x) | None => length x end) /\
  exists q, forecast_quantiles d steps qs denorm model xs = Some q /\
    forall h g j k m m', calibration_rows (map sm_hour xs) h g -> g <> [] -> (j < steps)%nat -> (k < length qs)%nat ->
      how_many (fun e => e <= 0) (residuals ys q g j k) m ->
      how_many (fun e => 0 <= e) (residuals ys q g j k) m' ->
      nth k qs 0 * INR (length g - 1) < INR m /\ (1 - nth k qs 0) * INR (length g - 1) < INR m'.
Proof.
  intros gen ss rs cap prefit steps qs denorm model d0 x y xs ys d Hg Hy Hx Hc Hd Hq Hm Hv E.
  unfold post_fit in E.
  destruct (subsample_any X (gen (subsample_seed ss rs)) cap d0 x (map2 denorm x y) (Hg _)
              ltac:(rewrite map2_length; lia)) as (pos & Es & N & B & L).
  rewrite Es in E. clear Es. destruct (prefit && negb _); [discriminate|].
  apply (f_equal (fun o => match o with Some z => z | None => (xs, ys, d) end)) in E.
  assert (Exs : rows d0 x pos = xs) by exact (f_equal (fun z => fst (fst z)) E).
  assert (Eys : rows [] (map2 denorm x y) pos = ys) by exact (f_equal (fun z => snd (fst z)) E).
  pose proof (f_equal snd E) as Ed. cbn [snd] in Ed. rewrite Exs, Eys in Ed. clear E.
  split; [exists pos; repeat split; auto|].
  assert (Hin : forall r, In r xs -> In r x).
  { intros r Hr. rewrite <- Exs in Hr. apply in_map_iff in Hr. destruct Hr as (p & <- & Hp). apply nth_In, B, Hp. }
  assert (Lx : length xs = length pos) by (rewrite <- Exs; apply map_length).
  assert (Sy : shaped (length pos) steps ys) by (rewrite <- Eys; now apply (rows_map2_shaped X denorm d0)).
  apply (calibrated_tables steps qs (map sm_hour xs) ys (predict denorm model xs) d).
  - rewrite map_length. destruct Sy. lia.
  - intros h Hh. apply in_map_iff in Hh. destruct Hh as (r & <- & Hr). apply Hd, in_map, Hin, Hr.
  - intros En. destruct Sy as [Ly _]. rewrite En in Ly. cbn in Ly.
    assert (length x <> 0%nat) by (destruct x; [congruence|cbn; lia]).
    destruct cap as [[|m]|]; [congruence|lia|lia].
  - exact Hq.
  - rewrite map_length, Lx. exact Sy.
  - split; [unfold predict; now rewrite !map_length|]. apply Forall_map, Forall_forall. intros r Hr. apply Hm, Hin, Hr.
  - now symmetry.
Qed.

(** Fitting succeeds unless trees are pre-computed and an hour is missing. *)
Lemma post_fit_succeeds (X : Type) :
  forall (gen : Z -> rng) scengen_state random_state cap conditional steps qs (denorm : sample X -> list R -> list R)
    (model : sample X -> list R) d0 x y,
  (forall s, honest (gen s)) -> length y = length x ->
  exists r, post_fit gen scengen_state random_state cap false conditional steps qs denorm model d0 x (map sm_time x) y = Some r.
Proof.
  intros gen ss rs cap cond steps qs denorm model d0 x y Hg Hy. unfold post_fit.
  destruct (subsample_any X (gen (subsample_seed ss rs)) cap d0 x (map2 denorm x y) (Hg _)
              ltac:(rewrite map2_length; lia)) as (pos & -> & _). eexists. reflexivity.
Qed.

Lemma prefit_all_hours (X : Type) :
  forall (gen : Z -> rng) scengen_state random_state conditional steps qs (denorm : sample X -> list R -> list R)
    (model : sample X -> list R) d0 x y,
  length y = length x ->
  ((exists r, post_fit gen scengen_state random_state None true conditional steps qs denorm model d0 x (map sm_time x) y = Some r)
   <-> full_day (map sm_hour x)).
Proof.
  intros gen ss rs cond steps qs denorm model d0 x y Hy. unfold post_fit. cbn [maybe_subsample andb].
  rewrite <- prefit_ok_spec. destruct (prefit_ok (map sm_hour x)) eqn:E; cbn [negb]; split; intros H; try reflexivity; try discriminate.
  - eexists; reflexivity.
  - destruct H as [r [=]].
Qed.

(** Two rows per hour, one of which may be dropped: the last hour is lost. *)
Definition two_days : list (sample unit) :=
  map (fun i => Sample (Z.of_nat i) (Z.of_nat i mod 24)%Z tt) (seq 0 48).
Lemma prefit_starved :
  exists (gen : Z -> rng) cap (x : list (sample unit)) y,
    (forall s, honest (gen s)) /\ length y = length x /\ (24 <= cap)%nat /\
    full_day (map sm_hour x) /\ (forall h, (0 <= h < 24)%Z -> available (map sm_hour x) h = 2%nat) /\
    forall scengen_state random_state conditional steps qs denorm model d0,
      post_fit gen scengen_state random_state (Some cap) true conditional steps qs denorm model d0 x (map sm_time x) y = None.
Proof.
  exists (fun _ => greedy), 24%nat, two_days, (map (fun _ => []) two_days).
  split; [intros _; apply greedy_honest|]. split; [now rewrite map_length|]. split; [lia|]. split; [|split].
  - apply prefit_ok_spec. vm_compute. reflexivity.
  - intros h Hh. assert (E : forallb (fun h => (available (map sm_hour two_days) (Z.of_nat h) =? 2)%nat) (seq 0 24) = true) by (vm_compute; reflexivity).
    rewrite forallb_forall in E. specialize (E (Z.to_nat h)). rewrite Z2Nat.id in E by lia. apply Nat.eqb_eq, E, in_seq. lia.
  - intros ss rs cond steps qs denorm model d0. unfold post_fit, maybe_subsample.
    replace (length two_days <=? 24)%nat with false by (vm_compute; reflexivity).
    destruct (list_eq_dec Z.eq_dec (map sm_time two_days) (map sm_time two_days)) as [_|C]; [|congruence].
    set (pos := subsample_stratified _ _ _ _). vm_compute in pos.
    replace (prefit_ok _) with false; [reflexivity|]. vm_compute. reflexivity.
Qed.

(** Seeds. *)
Lemma post_fit_seed (X : Type) :
  forall (gen : Z -> rng) cap prefit conditional steps qs (denorm : sample X -> list R -> list R)
    (model : sample X -> list R) d0 x ytimes y,
  (forall s r r', post_fit gen (Some s) r cap prefit conditional steps qs denorm model d0 x ytimes y
                  = post_fit gen (Some s) r' cap prefit conditional steps qs denorm model d0 x ytimes y) /\
  (forall s r, post_fit gen (Some s) r cap prefit conditional steps qs denorm model d0 x ytimes y
               = post_fit gen None (Some s) cap prefit conditional steps qs denorm model d0 x ytimes y) /\
  post_fit gen None None cap prefit conditional steps qs denorm model d0 x ytimes y
  = post_fit gen (Some 0%Z) None cap prefit conditional steps qs denorm model d0 x ytimes y /\
  (forall gen' s r, (forall z, s = Some z -> gen z = gen' z) -> (s = None -> forall z, r = Some z -> gen z = gen' z) ->
     (s = None -> r = None -> gen 0%Z = gen' 0%Z) ->
     post_fit gen s r cap prefit conditional steps qs denorm model d0 x ytimes y
     = post_fit gen' s r cap prefit conditional steps qs denorm model d0 x ytimes y).
Proof.
  intros. unfold post_fit, subsample_seed. repeat split; try reflexivity.
  intros gen' [s|] [r|] H1 H2 H3; [rewrite (H1 s)|rewrite (H1 s)|rewrite (H2 eq_refl r)|rewrite H3]; reflexivity.
Qed.
