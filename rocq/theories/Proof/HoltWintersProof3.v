(** Proofs for Holt-Winters: forecasts with the trend held, models in any order. *)
From Coq Require Import Reals List Arith Bool Lia Lra.
From Verif Require Import Model.HoltWinters Spec.HoltWintersSpec Proof.HoltWintersProof Proof.HoltWintersProof2.
Import ListNotations.
Local Open Scope R_scope.

Lemma step_trend_held p s y : beta p = 0 -> number (level s) -> number (trend s) -> number (level (fst (step p s y y))) ->
  trend (fst (step p s y y)) = trend s.
Proof.
  intros Hb [l Hl] [t Ht] [a Ha]. unfold step in *. cbn [fst snd level trend] in *. rewrite Ha, Hl, Ht, Hb. cbn. f_equal. ring.
Qed.
Lemma run_trend_held p s ys : well_formed p -> beta p = 0 -> healthy p s -> all_numbers ys -> trend (snd (run p s ys)) = trend s.
Proof.
  intros Hp Hb. revert s. induction ys as [|y ys IH]; intros s Hs Hy; cbn [run]; [reflexivity|].
  destruct (step_healthy p s y Hp Hs (Hy y (or_introl eq_refl))) as [G1 G2].
  pose proof (step_trend_held p s y Hb (proj1 Hs) (proj1 (proj2 Hs)) (proj1 G1)) as T.
  destruct (step p s y y) as [s1 row]. cbn [fst snd] in *.
  specialize (IH s1 G1 (fun x Hx => Hy x (or_intror Hx))). destruct (run p s1 ys) as [rows s2]. cbn [fst snd] in *. congruence.
Qed.
Lemma predict_trend_held p s ys effect : well_formed p -> healthy p s -> all_numbers ys ->
  exists s', snd (predict p (Some s) ys effect) = Some s' /\ healthy p s' /\ trend s' = trend s.
Proof.
  intros Hp Hs Hy. unfold predict, run_from. rewrite initial_healthy by (assumption || now apply no_trend_wf).
  pose proof (run_trend_held (no_trend p) s ys (no_trend_wf p Hp) eq_refl Hs Hy) as T.
  destruct (run_healthy (no_trend p) s ys Hp Hs Hy) as [H1 _].
  destruct (run (no_trend p) s ys) as [r s']. cbn [fst snd] in *. now exists s'.
Qed.

Lemma trend_dropped_exactly p l t a b r1 r2 y ys : well_formed p -> (0 < steps p)%nat ->
  healthy p (State (Some l) (Some t) (Some a :: r1) (Some b :: r2)) ->
  let s := State (Some l) (Some t) (Some a :: r1) (Some b :: r2) in
  (hd [] (fst (predict p (Some s) (Some y :: ys) None)) = hd [] (fst (run_from p (Some s) (Some y :: ys))) <->
   beta p = 0 \/ alpha p = 0 \/ y = l + t + a + b).
Proof.
  intros Hp Hn Hs s. unfold predict, run_from. rewrite !initial_healthy by (assumption || now apply no_trend_wf).
  cbn [run].
  destruct (step_healthy p s (Some y) Hp Hs (ex_intro _ y eq_refl)) as [G _].
  assert (Hs' : healthy (no_trend p) s) by exact Hs.
  destruct (step_healthy (no_trend p) s (Some y) (no_trend_wf p Hp) Hs' (ex_intro _ y eq_refl)) as [G' _].
  set (A := alpha p * (y - a - b) + (1 - alpha p) * (l + t)).
  set (B := beta p * (A - l) + (1 - beta p) * t).
  set (m1 := shift (Some a :: r1) (constrainify p (Some (gamma1 p * (y - A - b) + (1 - gamma1 p) * a)))).
  set (m2 := shift (Some b :: r2) (constrainify p (Some (gamma2 p * (y - A - a) + (1 - gamma2 p) * b)))).
  set (row := fun bb => map (fun i => plus (plus (plus (Some A) (scale (INR (S i)) (Some bb))) (nth (i mod period1 p) m1 None)) (nth (i mod period2 p) m2 None)) (seq 0 (steps p))).
  assert (E1 : step p s (Some y) (Some y) = (State (Some A) (Some B) m1 m2, row B)) by reflexivity.
  assert (E2 : step (no_trend p) s (Some y) (Some y) = (State (Some A) (Some (0 * (A - l) + (1 - 0) * t)) m1 m2, row (0 * (A - l) + (1 - 0) * t))) by reflexivity.
  rewrite E1 in *. rewrite E2 in *. cbn [fst] in G.
  destruct (run p (State (Some A) (Some B) m1 m2) ys) as [q1 w1].
  destruct (run (no_trend p) _ ys) as [q2 w2]. cbn [fst snd hd].
  replace (0 * (A - l) + (1 - 0) * t) with t by ring.
  assert (K : row t = row B <-> t = B).
  { split; [|intros Q; now rewrite Q]. unfold row. destruct (steps p) as [|n]; [lia|]. cbn [seq map]. intros K. injection K as K _.
    destruct Hp as (P1 & P2 & _). rewrite !Nat.mod_0_l in K by lia.
    destruct G as (_ & _ & N1 & N2 & L1 & L2). cbn [season1 season2] in *.
    assert (M : forall m q, all_numbers m -> length m = q -> (0 < q)%nat -> exists v, nth 0 m None = Some v).
    { intros m q Hm Hl Hq. apply Hm, nth_In. lia. }
    destruct (M _ _ N1 L1 P1) as [v1 V1]. destruct (M _ _ N2 L2 P2) as [v2 V2]. rewrite V1, V2 in K. cbn in K. injection K as K. lra. }
  rewrite K. clear. unfold B, A. split.
  - intros H. assert (Z : beta p * (alpha p * (y - (l + t + a + b))) = 0) by (rewrite <- (Rminus_diag_eq _ _ H) at 1; nra).
    apply Rmult_integral in Z. destruct Z as [Z|Z]; [now left|]. apply Rmult_integral in Z. destruct Z; [now right; left|right; right; lra].
  - intros [Q | [Q | Q]]; rewrite Q; ring.
Qed.

(** Models in any order. *)
Lemma assign_any_order {V} (ms : list (nat * list V)) k (out : list V) d : Forall (fun m => length (snd m) = fst m) ms ->
  Forall (fun m => (fst m <= length out)%nat) ms ->
  exists r, assign ms fst k out = Some r /\
    forall i, nth i r d = match last_crossing k ms i with Some m => nth i (snd m) d | None => nth i out d end.
Proof.
  intros Hl. revert k out. induction ms as [|m ms IH]; intros k out Ho; cbn [assign].
  - exists out. split; reflexivity.
  - inversion Hl as [|? ? Hl1 Hl2]; subst. inversion Ho as [|? ? Ho1 Ho2]; subst.
    replace ((k <? fst m)%nat && (length out <? fst m)%nat) with false.
    2:{ symmetry. apply andb_false_iff. right. now apply Nat.ltb_ge. }
    set (out' := firstn k out ++ _).
    assert (Lo : (length out <= length out')%nat) by (unfold out'; rewrite !app_length, !firstn_length, !skipn_length; lia).
    destruct (IH Hl2 (fst m) out') as [r [G1 G2]]. { eapply Forall_impl; [|exact Ho2]. cbn. intros. lia. }
    exists r. split; [exact G1|]. intros i. rewrite G2. cbn [last_crossing]. destruct (last_crossing (fst m) ms i); [reflexivity|].
    unfold out'. rewrite write_nth by auto. now destruct ((k <=? i)%nat && (i <? fst m)%nat).
Qed.
Lemma multi_any_order {V} n_sa (zero : V) (ms : list (nat * list V)) : Forall (fun m => length (snd m) = fst m) ms ->
  Forall (fun m => (fst m <= n_sa)%nat) ms ->
  exists r, multi_row n_sa zero ms = Some r /\ length r = n_sa /\
    forall i, nth i r zero = match last_crossing 0 ms i with Some m => nth i (snd m) zero | None => zero end.
Proof.
  intros Hl Ho. unfold multi_row. destruct (assign_any_order ms 0 (repeat zero n_sa) zero Hl) as (r & R1 & R2); [now rewrite repeat_length|].
  exists r. split; [exact R1|]. split; [apply assign_length in R1; [|exact Hl]; now rewrite repeat_length in R1|].
  intros i. rewrite R2. destruct (last_crossing 0 ms i); [reflexivity|]. apply nth_repeat.
Qed.
Lemma multi_three_unsorted {V} n_sa (zero : V) (m1 m2 m3 : nat * list V) r i :
  Forall (fun m => length (snd m) = fst m /\ (fst m <= n_sa)%nat) [m1; m2; m3] ->
  (fst m2 <= i)%nat -> (i < fst m1)%nat -> (i < fst m3)%nat -> multi_row n_sa zero [m1; m2; m3] = Some r ->
  first_reaching [m1; m2; m3] i = Some m1 /\ nth i r zero = nth i (snd m3) zero.
Proof.
  intros H H2 H1 H3 Er. split; [unfold first_reaching; cbn [find]; destruct (Nat.ltb_spec i (fst m1)); [reflexivity|lia]|].
  destruct (multi_any_order n_sa zero [m1; m2; m3]) as (r' & R1 & _ & R3).
  - eapply Forall_impl; [|exact H]. cbn. intuition.
  - eapply Forall_impl; [|exact H]. cbn. intuition.
  - rewrite Er in R1. injection R1 as <-. rewrite R3. cbn [last_crossing].
    destruct (Nat.leb_spec (fst m2) i); [|lia]. destruct (Nat.ltb_spec i (fst m3)); [reflexivity|lia].
Qed.
