From Coq Require Import Reals List Arith Bool Lia Lra FunctionalExtensionality.
From Verif Require Import Proof.FeedForwardProof.
From Verif Require Import Model.Names Model.Encoder Model.Stats Model.Optimize Model.LatentOpt Proof.StatsProof Proof.OptimizeProof.
Import ListNotations.
Local Open Scope R_scope.

Section L.
Context {S C E P : Type} (encode : C -> E) (decode : E -> C) (pred : E -> P).
Context (objective : P -> C -> R) (distance : E -> E -> R) (descent : (E -> R) -> S -> E -> S * E).
Let obj (e : E) : R := objective (pred e) (decode e).
Lemma penalised_zero : penalised encode decode pred objective distance 0 = obj.
Proof. extensionality e. unfold penalised, obj. lra. Qed.
Lemma trail_length step n : forall sy : S * E, length (trail step n sy) = n.
Proof. induction n as [|n IH]; intros sy; cbn; auto. Qed.
Lemma updates_iter (step : S -> E -> S * E) n : forall sy, updates step n sy = Nat.iter n (fun p => step (fst p) (snd p)) sy.
Proof.
  induction n as [|n IH]; intros sy; [reflexivity|]. cbn [updates]. rewrite IH. clear IH.
  change (Nat.iter (Datatypes.S n) (fun p => step (fst p) (snd p)) sy) with (let f := fun p : S * E => step (fst p) (snd p) in f (Nat.iter n f sy)). cbv zeta.
  induction n as [|n IH]; [reflexivity|]. cbn [Nat.iter nat_rect]. unfold Nat.iter in *. cbn [nat_rect]. rewrite IH. reflexivity.
Qed.
Lemma trail_nth step d n : forall (sy : S * E) j, (j < n)%nat -> nth j (trail step n sy) d = snd (updates step j sy).
Proof.
  induction n as [|n IH]; intros sy j H; [lia|]. destruct j as [|j]; cbn; [reflexivity|]. apply IH. lia.
Qed.
Lemma latent_rounds_plain n tol s0 : forall e old h done last,
  option_map fst (latent_rounds encode decode pred objective distance descent n tol s0 0 e old h done last) =
  rounds (descent obj) obj n tol s0 e old done last.
Proof.
  induction n as [|n IH]; intros e old h done last; cbn [latent_rounds rounds]; [destruct last; reflexivity|].
  unfold latent_iterate. rewrite penalised_zero. destruct (iterate (descent obj) obj s0 e) as [e' v].
  destruct (Rltb (rel_improvement old v) tol); [reflexivity|]. apply IH.
Qed.
Lemma latent_minimise_plain init n_iter tol c :
  option_map fst (latent_minimise encode decode pred objective distance descent init n_iter tol c) =
  minimise (descent obj) obj init n_iter tol (encode c).
Proof.
  unfold latent_minimise, minimise, latent_iterate. rewrite penalised_zero.
  destruct (iterate (descent obj) obj (init (encode c)) (encode c)) as [e' v]. apply latent_rounds_plain.
Qed.
(** The starts of the rounds. *)
Fixpoint start (step : S -> E -> S * E) (s0 : S) (e : E) (i : nat) : E :=
  match i with O => e | Datatypes.S i' => snd (updates step 10 (s0, start step s0 e i')) end.
Definition recorded step s0 e0 (h : list E) (m : nat) : Prop :=
  length h = (10 * m)%nat /\ forall i j d, (i < m)%nat -> (j < 10)%nat -> nth (10 * i + j) h d = snd (updates step j (s0, start step s0 e0 i)).
Lemma recorded_next step s0 e0 h m : recorded step s0 e0 h m ->
  recorded step s0 e0 (h ++ trail step 10 (s0, start step s0 e0 m)) (Datatypes.S m).
Proof.
  intros [L H]. split; [rewrite app_length, trail_length; lia|]. intros i j d Hi Hj. destruct (Nat.eq_dec i m) as [->|N].
  - rewrite app_nth2 by lia. replace (10 * m + j - length h)%nat with j by lia. apply trail_nth. assumption.
  - rewrite app_nth1 by lia. apply H; lia.
Qed.
Lemma iterate_end (step : S -> E -> S * E) (o : E -> R) s0 e : fst (iterate step o s0 e) = snd (updates step 10 (s0, e)).
Proof. unfold iterate. cbn [fst]. rewrite (updates_add step 9 1). reflexivity. Qed.
Lemma latent_rounds_history n tol s0 e0 : forall e old h done last r,
  recorded (descent obj) s0 e0 h (Datatypes.S done) -> e = start (descent obj) s0 e0 (Datatypes.S done) ->
  latent_rounds encode decode pred objective distance descent n tol s0 0 e old h done last = Some r ->
  let '(e', v, k, h') := r in
  e' = start (descent obj) s0 e0 (Datatypes.S k) /\ (recorded (descent obj) s0 e0 h' k \/ recorded (descent obj) s0 e0 h' (Datatypes.S k) /\ k = (done + n)%nat).
Proof.
  induction n as [|n IH]; intros e old h done last r Rc Ee; cbn [latent_rounds].
  - destruct last; [|discriminate]. intros [= <-]. split; [assumption|]. right. split; [assumption|lia].
  - unfold latent_iterate. rewrite penalised_zero. pose proof (iterate_end (descent obj) obj s0 e) as Ie.
    destruct (iterate (descent obj) obj s0 e) as [e' v]. cbn [fst] in Ie.
    assert (e' = start (descent obj) s0 e0 (Datatypes.S (Datatypes.S done))) as Es by (cbn [start]; rewrite Ie, Ee; reflexivity).
    destruct (Rltb (rel_improvement old v) tol).
    + intros [= <-]. split; [assumption|]. left. assumption.
    + intros H. eapply IH in H; [|rewrite Ee; apply recorded_next; assumption|assumption].
      destruct r as [[[? ?] k] h']. destruct H as [A [B|[B B']]]; (split; [assumption|]); [left|right]; auto. split; [assumption|lia].
Qed.
End L.

(** The penalty plays no role. *)
Lemma latent_no_penalty {S C E P} (encode : C -> E) (decode : E -> C) (pred : E -> P) (objective : P -> C -> R)
  (distance distance' : E -> E -> R) (descent : (E -> R) -> S -> E -> S * E) (init : E -> S) (n_iter : nat) (tol : R) (c : C) :
  latent_minimise encode decode pred objective distance descent init n_iter tol c =
  latent_minimise encode decode pred objective distance' descent init n_iter tol c.
Proof.
  unfold latent_minimise, latent_iterate. rewrite (penalised_zero encode decode pred objective distance), (penalised_zero encode decode pred objective distance').
  destruct (iterate _ _ _ _) as [e v]. generalize (n_iter / 10)%nat as n.
  set (h := trail _ 10 _). clearbody h. generalize (@None R) as last. generalize 0%nat as done. revert h. revert e v.
  enough (forall n e v (h : list E) done last s0,
    latent_rounds encode decode pred objective distance descent n tol s0 0 e v h done last =
    latent_rounds encode decode pred objective distance' descent n tol s0 0 e v h done last) as K by (intros; apply K).
  induction n as [|n IH]; intros e v h done last s0; [reflexivity|]. cbn [latent_rounds]. unfold latent_iterate.
  rewrite (penalised_zero encode decode pred objective distance), (penalised_zero encode decode pred objective distance').
  destruct (iterate _ _ _ _) as [e' v']. destruct (Rltb _ _); [reflexivity|]. apply IH.
Qed.
Lemma latent_value {S C E P} (encode : C -> E) (decode : E -> C) (pred : E -> P) (objective : P -> C -> R)
  (distance : E -> E -> R) (descent : (E -> R) -> S -> E -> S * E) (init : E -> S) (n_iter : nat) (tol : R) (c : C) e v k h :
  latent_minimise encode decode pred objective distance descent init n_iter tol c = Some (e, v, k, h) ->
  (1 <= k <= n_iter / 10)%nat /\
  exists s before, e = snd (descent (fun e => objective (pred e) (decode e)) s before) /\ v = objective (pred before) (decode before) /\
    (encode (decode before) = before -> v = objective (forecast encode pred (decode before)) (decode before)) /\
    (encode (decode e) = e -> e = before -> v = objective (forecast encode pred (decode e)) (decode e)).
Proof.
  intros H. pose proof (latent_minimise_plain encode decode pred objective distance descent init n_iter tol c) as K. rewrite H in K. cbn [option_map fst] in K. symmetry in K.
  split; [apply (optimize_rounds _ _ _ _ _ _ _ _ _ K)|]. apply optimize_value in K as (s & b & A & B). exists s, b. repeat split; auto.
  - intros Q. unfold forecast. rewrite Q. assumption.
  - intros Q1 Q2. unfold forecast. rewrite Q1. rewrite Q2. assumption.
Qed.
Lemma latent_descends {S C E P} (encode : C -> E) (decode : E -> C) (pred : E -> P) (objective : P -> C -> R)
  (distance : E -> E -> R) (descent : (E -> R) -> S -> E -> S * E) (init : E -> S) (n_iter : nat) (tol : R) (c : C) e v k h :
  let value := fun e => objective (pred e) (decode e) in
  (forall s z, value (snd (descent value s z)) <= value z) -> (forall x, encode (decode x) = x) -> decode (encode c) = c ->
  latent_minimise encode decode pred objective distance descent init n_iter tol c = Some (e, v, k, h) ->
  objective (forecast encode pred (decode e)) (decode e) <= v <= objective (forecast encode pred c) c.
Proof.
  intros value D Q Qc H. pose proof (latent_minimise_plain encode decode pred objective distance descent init n_iter tol c) as K. rewrite H in K. cbn [option_map fst] in K. symmetry in K.
  apply optimize_descends in K; [|exact D]. unfold forecast. rewrite Q. rewrite Qc in K. exact K.
Qed.
Lemma latent_total {S C E P} (encode : C -> E) (decode : E -> C) (pred : E -> P) (objective : P -> C -> R)
  (distance : E -> E -> R) (descent : (E -> R) -> S -> E -> S * E) (init : E -> S) (n_iter : nat) (tol : R) (c : C) :
  latent_minimise encode decode pred objective distance descent init n_iter tol c <> None <-> (10 <= n_iter)%nat.
Proof.
  pose proof (latent_minimise_plain encode decode pred objective distance descent init n_iter tol c) as K. split; intros H.
  - destruct (Nat.lt_ge_cases n_iter 10) as [L|L]; [|assumption]. rewrite optimize_few in K by assumption.
    destruct (latent_minimise _ _ _ _ _ _ _ _ _ _); [discriminate|contradiction].
  - destruct (optimize_total (descent (fun e => objective (pred e) (decode e))) (fun e => objective (pred e) (decode e)) init n_iter tol (encode c) H) as [r Er].
    rewrite Er in K. destruct (latent_minimise _ _ _ _ _ _ _ _ _ _); [discriminate|discriminate K].
Qed.
(** An update changes the embedding by a tenth of the derivative. *)
Lemma latent_gap : exists (encode decode pred : R -> R) (objective : R -> R -> R),
  (forall a b, a <= b -> decode a <= decode b) /\
  forall grad n_iter tol distance, (10 <= n_iter)%nat ->
    (forall (f : R -> R) y l, derivable_pt_lim f y l -> grad f y = l) ->
    exists e v k h, latent_minimise encode decode pred objective distance (fun f => vanilla (grad f)) (fun _ => tt) n_iter tol 1 = Some (e, v, k, h) /\
      v = 0 /\ objective (forecast encode pred 1) 1 = 0 /\ objective (forecast encode pred (decode e)) (decode e) = 1 / 4.
Proof.
  exists (fun c => c), (fun e => e / 2), (fun e => e), (fun p _ => (p - 1) * (p - 1)). split; [intros; lra|].
  intros grad n_iter tol distance L G.
  pose (obj := fun e : R => (e - 1) * (e - 1)).
  assert (grad obj 1 = 0) as G0.
  { apply G. replace 0 with ((1 - 0) * (1 - 1) + (1 - 1) * (1 - 0)) by lra.
    apply (derivable_pt_lim_mult (fun e => e - 1) (fun e => e - 1)); apply (derivable_pt_lim_minus id (fct_cte 1));
      solve [apply derivable_pt_lim_id | apply derivable_pt_lim_const]. }
  assert (forall n, updates (vanilla (grad obj)) n (tt, 1) = (tt, 1)) as U.
  { induction n as [|n IH]; [reflexivity|]. cbn [updates fst snd]. unfold vanilla at 2. rewrite G0. replace (1 - 0 * (1 / 10)) with 1 by lra. exact IH. }
  assert (iterate (vanilla (grad obj)) obj tt 1 = (1, 0)) as I.
  { unfold iterate. rewrite U. cbn [fst snd vanilla]. rewrite G0. unfold obj. f_equal; lra. }
  pose proof (latent_minimise_plain (fun c => c) (fun e => e / 2) (fun e => e) (fun p _ => (p - 1) * (p - 1)) distance (fun f => vanilla (grad f)) (fun _ => tt) n_iter tol 1) as K.
  change (fun e : R => (e - 1) * (e - 1)) with obj in K.
  assert (exists k, minimise (vanilla (grad obj)) obj (fun _ => tt) n_iter tol 1 = Some (1, 0, k)) as [k M].
  { unfold minimise. rewrite I.
    assert (1 <= n_iter / 10)%nat as N by (apply Nat.div_le_lower_bound; lia). destruct (n_iter / 10)%nat as [|n]; [lia|]. clear N.
    enough (forall n done last, last = Some 0 \/ (0 < n)%nat -> exists k, rounds (vanilla (grad obj)) obj n tol tt 1 0 done last = Some (1, 0, k)) as F
      by (apply F; right; lia).
    clear n. induction n as [|n IH]; intros done last H; cbn [rounds].
    - destruct H as [->|H]; [eauto|lia].
    - rewrite I. destruct (Rltb _ _); [eauto|]. apply IH. left. reflexivity. }
  set (m := latent_minimise _ _ _ _ _ _ _ _ _ _) in K. assert (option_map fst m = Some (1, 0, k)) as K' by (rewrite K; exact M). clear K M.
  destruct m as [[[[e v] k'] h]|] eqn:Em; [|discriminate]. injection K' as -> -> ->. exists 1, 0, k, h. split; [exact Em|]. unfold forecast.
  repeat split; lra.
Qed.
Lemma latent_history {S C E P} (encode : C -> E) (decode : E -> C) (pred : E -> P) (objective : P -> C -> R)
  (distance : E -> E -> R) (descent : (E -> R) -> S -> E -> S * E) (init : E -> S) (n_iter : nat) (tol : R) (c : C) e v k h :
  latent_minimise encode decode pred objective distance descent init n_iter tol c = Some (e, v, k, h) ->
  let update := fun p => descent (fun e => objective (pred e) (decode e)) (fst p) (snd p) in
  exists start : nat -> E,
    start 0%nat = encode c /\ (forall i, start (Datatypes.S i) = snd (Nat.iter 10 update (init (encode c), start i))) /\
    e = start (k + 1)%nat /\
    (length h = (10 * k)%nat \/ (length h = 10 * (k + 1) /\ k = n_iter / 10)%nat) /\
    forall i j d, (10 * i + j < length h)%nat -> (j < 10)%nat ->
      nth (10 * i + j) h d = snd (Nat.iter j update (init (encode c), start i)).
Proof.
  unfold latent_minimise. cbv zeta. unfold latent_iterate at 1. rewrite penalised_zero.
  set (obj := fun e => objective (pred e) (decode e)). set (s0 := init (encode c)). pose proof (iterate_end (descent obj) obj s0 (encode c)) as Ie.
  destruct (iterate (descent obj) obj s0 (encode c)) as [e1 v1]. cbn [fst] in Ie. intros H.
  apply (latent_rounds_history encode decode pred objective distance descent (n_iter / 10) tol s0 (encode c)) in H.
  2: { apply (recorded_next encode decode pred objective distance descent (descent obj) s0 (encode c) [] 0). split; [reflexivity|]. intros; lia. }
  2: exact Ie.
  destruct H as [A B]. exists (start (descent obj) s0 (encode c)). split; [reflexivity|]. split.
  { intros i. cbn [start]. rewrite updates_iter. reflexivity. }
  split; [rewrite Nat.add_1_r; exact A|].
  assert (forall m, recorded (descent obj) s0 (encode c) h m -> forall i j d, (10 * i + j < length h)%nat -> (j < 10)%nat ->
    nth (10 * i + j) h d = snd (Nat.iter j (fun p => descent obj (fst p) (snd p)) (s0, start (descent obj) s0 (encode c) i))) as N.
  { intros m [L Hn] i j d Hi Hj. rewrite Hn by lia. rewrite updates_iter. reflexivity. }
  destruct B as [B|[B Ek]].
  - split; [left; apply B|]. apply (N _ B).
  - split; [right; split; [destruct B as [B _]; rewrite B; f_equal; lia|exact Ek]|]. apply (N _ B).
Qed.
(** The last round is not recorded when it stops the loop. *)
Lemma latent_history_short {S C E P} (encode : C -> E) (decode : E -> C) (pred : E -> P) (value : R)
  (distance : E -> E -> R) (descent : (E -> R) -> S -> E -> S * E) (init : E -> S) (n_iter : nat) (tol : R) (c : C) :
  0 < tol -> (10 <= n_iter)%nat ->
  exists e h, latent_minimise encode decode pred (fun _ _ => value) distance descent init n_iter tol c = Some (e, value, 1%nat, h) /\ length h = 10%nat.
Proof.
  intros T L. unfold latent_minimise, latent_iterate. rewrite penalised_zero. unfold iterate at 1. cbv zeta.
  assert (1 <= n_iter / 10)%nat as N by (apply Nat.div_le_lower_bound; lia). destruct (n_iter / 10)%nat as [|n]; [lia|].
  cbn [latent_rounds]. unfold latent_iterate. rewrite penalised_zero. unfold iterate. cbv zeta.
  replace (rel_improvement value value) with 0.
  - replace (Rltb 0 tol) with true by (symmetry; apply Rltb_spec; assumption). eexists. eexists. split; [reflexivity|]. apply trail_length.
  - unfold rel_improvement. unfold Rminus. rewrite Rplus_opp_r. unfold Rdiv. rewrite Rmult_0_l. reflexivity.
Qed.
(** The frame. *)
Lemma latent_keeps {S E P} (normalized vars : list text) (mu sd : text -> R)
    (encode : list R -> list R -> E) (decode : list R -> E -> list R) (pred : list R -> E -> P)
    (objective : P -> list R -> R) (distance : E -> E -> R) (descent : (E -> R) -> S -> E -> S * E) (init : E -> S)
    (n_iter : nat) (tol : R) (r : row) y_opt r' v :
  (forall n, In n normalized -> sd n <> 0) ->
  latent_optimize normalized vars mu sd encode decode pred objective distance descent init n_iter tol r = Some (y_opt, r', v) ->
  map fst r' = map fst r /\ forall n, ~ In n vars -> lookup n r' = lookup n r.
Proof. intros Sd H. exact (optimize_keeps _ _ _ _ _ _ _ _ _ Sd H). Qed.

Lemma latent_written {S E P} (normalized vars : list text) (mu sd : text -> R)
    (encode : list R -> list R -> E) (decode : list R -> E -> list R) (pred : list R -> E -> P)
    (objective : P -> list R -> R) (distance : E -> E -> R) (descent : (E -> R) -> S -> E -> S * E) (init : E -> S)
    (n_iter : nat) (tol : R) (r : row) y_opt r' v :
  (forall n, In n normalized -> sd n <> 0) -> NoDup vars -> (forall x e, length (decode x e) = length vars) ->
  latent_optimize normalized vars mu sd encode decode pred objective distance descent init n_iter tol r = Some (y_opt, r', v) ->
  pick vars r' = Some y_opt /\
  exists x c e k h,
    pick (others vars r) (scaled normalized mu sd r) = Some x /\ pick vars (scaled normalized mu sd r) = Some c /\
    latent_minimise (encode x) (decode x) (pred x) objective distance descent init n_iter tol c = Some (e, v, k, h) /\
    pick (others vars r) (scaled normalized mu sd r') = Some x /\ pick vars (scaled normalized mu sd r') = Some (decode x e).
Proof.
  intros Sd Nd Len H. unfold latent_optimize in H.
  set (solve := fun x c => match latent_minimise (encode x) (decode x) (pred x) objective distance descent init n_iter tol c with
                           | Some (e, v, k, _) => Some (decode x e, v, k) | None => None end) in H.
  set (solve' := fun x c => if (length c =? length vars)%nat then solve x c else None).
  assert (H' : optimize normalized vars mu sd solve' r = Some (y_opt, r', v)).
  { unfold optimize in *. destruct (pick (others vars r) (scaled normalized mu sd r)) as [x|]; [|discriminate].
    destruct (pick vars (scaled normalized mu sd r)) as [c|] eqn:C; [|discriminate].
    replace (solve' x c) with (solve x c); [exact H|]. unfold solve'.
    unfold pick in C. apply all_some_len in C. rewrite map_length in C. rewrite C, Nat.eqb_refl. reflexivity. }
  apply optimize_consistent in H' as (A & x & c & c' & k & X & C & Sv & X' & C'); [|exact Sd|exact Nd|].
  - split; [exact A|]. unfold solve', solve in Sv. destruct (length c =? length vars)%nat; [|discriminate].
    destruct (latent_minimise _ _ _ _ _ _ _ _ _ _) as [[[[e v'] k'] h]|] eqn:L; [|discriminate]. injection Sv as <- <- <-.
    exists x, c, e, k', h. repeat split; assumption.
  - intros x c c' w k Q0. unfold solve', solve in Q0. destruct (Nat.eqb_spec (length c) (length vars)) as [Q|]; [|discriminate].
    destruct (latent_minimise _ _ _ _ _ _ _ _ _ _) as [[[[e v'] k'] h]|]; [|discriminate]. injection Q0 as <- _ _. rewrite Len, Q. reflexivity.
Qed.
