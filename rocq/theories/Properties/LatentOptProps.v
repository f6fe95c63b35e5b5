(** Optimisation of the controls in the latent space: C182, C183. *)
From Coq Require Import Reals String List Arith Bool Lia Lra.
From Verif Require Import Model.Names Model.Encoder Model.Stats Model.Optimize Model.LatentOpt Spec.OptimizeSpec Proof.LatentOptProof.
Import ListNotations.
Local Open Scope R_scope.

(** C182 *)
Theorem C182_value_partial :
  forall (S C E P : Type) (encode : C -> E) (decode : E -> C) (pred : E -> P) (objective : P -> C -> R)
  (distance : E -> E -> R) (descent : (E -> R) -> S -> E -> S * E) (init : E -> S) (n_iter : nat) (tol : R) (c : C) e v k h,
  latent_minimise encode decode pred objective distance descent init n_iter tol c = Some (e, v, k, h) ->
  (1 <= k <= n_iter / 10)%nat /\
  exists s before, e = snd (descent (fun e => objective (pred e) (decode e)) s before) /\ v = objective (pred before) (decode before) /\
    (encode (decode before) = before -> v = objective (forecast encode pred (decode before)) (decode before)) /\
    (encode (decode e) = e -> e = before -> v = objective (forecast encode pred (decode e)) (decode e)).
Proof. exact (@latent_value). Qed.
Print Assumptions C182_value_partial.
Theorem C182_descends_partial :
  forall (S C E P : Type) (encode : C -> E) (decode : E -> C) (pred : E -> P) (objective : P -> C -> R)
  (distance : E -> E -> R) (descent : (E -> R) -> S -> E -> S * E) (init : E -> S) (n_iter : nat) (tol : R) (c : C) e v k h,
  let value := fun e => objective (pred e) (decode e) in
  (forall s z, value (snd (descent value s z)) <= value z) -> (forall x, encode (decode x) = x) -> decode (encode c) = c ->
  latent_minimise encode decode pred objective distance descent init n_iter tol c = Some (e, v, k, h) ->
  objective (forecast encode pred (decode e)) (decode e) <= v <= objective (forecast encode pred c) c.
Proof. exact (@latent_descends). Qed.
Print Assumptions C182_descends_partial.
Theorem C182_total_partial :
  forall (S C E P : Type) (encode : C -> E) (decode : E -> C) (pred : E -> P) (objective : P -> C -> R)
  (distance : E -> E -> R) (descent : (E -> R) -> S -> E -> S * E) (init : E -> S) (n_iter : nat) (tol : R) (c : C),
  latent_minimise encode decode pred objective distance descent init n_iter tol c <> None <-> (10 <= n_iter)%nat.
Proof. exact (@latent_total). Qed.
Print Assumptions C182_total_partial.
Theorem C182_frame_partial :
  forall (S E P : Type) (normalized vars : list text) (mu sd : text -> R)
    (encode : list R -> list R -> E) (decode : list R -> E -> list R) (pred : list R -> E -> P)
    (objective : P -> list R -> R) (distance : E -> E -> R) (descent : (E -> R) -> S -> E -> S * E) (init : E -> S)
    (n_iter : nat) (tol : R) (r : row) y_opt r' v,
  (forall n, In n normalized -> sd n <> 0) ->
  latent_optimize normalized vars mu sd encode decode pred objective distance descent init n_iter tol r = Some (y_opt, r', v) ->
  map fst r' = map fst r /\ forall n, ~ In n vars -> lookup n r' = lookup n r.
Proof. exact (@latent_keeps). Qed.
Print Assumptions C182_frame_partial.
Theorem C182_written_partial :
  forall (S E P : Type) (normalized vars : list text) (mu sd : text -> R)
    (encode : list R -> list R -> E) (decode : list R -> E -> list R) (pred : list R -> E -> P)
    (objective : P -> list R -> R) (distance : E -> E -> R) (descent : (E -> R) -> S -> E -> S * E) (init : E -> S)
    (n_iter : nat) (tol : R) (r : row) y_opt r' v,
  (forall n, In n normalized -> sd n <> 0) -> NoDup vars -> (forall x e, length (decode x e) = length vars) ->
  latent_optimize normalized vars mu sd encode decode pred objective distance descent init n_iter tol r = Some (y_opt, r', v) ->
  pick vars r' = Some y_opt /\
  exists x c e k h,
    pick (others vars r) (scaled normalized mu sd r) = Some x /\ pick vars (scaled normalized mu sd r) = Some c /\
    latent_minimise (encode x) (decode x) (pred x) objective distance descent init n_iter tol c = Some (e, v, k, h) /\
    pick (others vars r) (scaled normalized mu sd r') = Some x /\ pick vars (scaled normalized mu sd r') = Some (decode x e).
Proof. exact (@latent_written). Qed.
Print Assumptions C182_written_partial.
Theorem C182_gap_refuted : exists (encode decode pred : R -> R) (objective : R -> R -> R),
  (forall a b, a <= b -> decode a <= decode b) /\
  forall grad n_iter tol distance, (10 <= n_iter)%nat ->
    (forall (f : R -> R) y l, derivable_pt_lim f y l -> grad f y = l) ->
    exists e v k h, latent_minimise encode decode pred objective distance (fun f => vanilla (grad f)) (fun _ => tt) n_iter tol 1 = Some (e, v, k, h) /\
      v = 0 /\ objective (forecast encode pred 1) 1 = 0 /\ objective (forecast encode pred (decode e)) (decode e) = 1 / 4.
Proof. exact (@latent_gap). Qed.
Print Assumptions C182_gap_refuted.
Theorem C182_penalty_refuted :
  forall (S C E P : Type) (encode : C -> E) (decode : E -> C) (pred : E -> P) (objective : P -> C -> R)
  (distance distance' : E -> E -> R) (descent : (E -> R) -> S -> E -> S * E) (init : E -> S) (n_iter : nat) (tol : R) (c : C),
  latent_minimise encode decode pred objective distance descent init n_iter tol c =
  latent_minimise encode decode pred objective distance' descent init n_iter tol c.
Proof. exact (@latent_no_penalty). Qed.
Print Assumptions C182_penalty_refuted.
(** Controls and embeddings coincide, the forecast is twice the embedding, and an update halves it. *)
Example C182_case : let value := fun e : R => Rsqr (2 * e) in
  (forall (s : unit) z, value (snd (s, z / 2)) <= value z) /\ (forall x : R, (fun y => y) ((fun y => y) x) = x) /\
  exists e v k h, latent_minimise (fun c : R => c) (fun e => e) (fun e => 2 * e) (fun p _ => Rsqr p) (fun _ _ => 0) (fun _ (s : unit) z => (s, z / 2)) (fun _ => tt) 20 (1 / 10) 1
    = Some (e, v, k, h) /\ e <> 1.
Proof.
  cbv zeta. split; [|split; [reflexivity|]].
  - intros s z. cbn [snd]. unfold Rsqr. pose proof (Rle_0_sqr z). unfold Rsqr in *. nra.
  - pose proof (latent_total (fun c : R => c) (fun e => e) (fun e => 2 * e) (fun p _ => Rsqr p) (fun _ _ => 0) (fun _ (s : unit) z => (s, z / 2)) (fun _ => tt) 20 (1 / 10) 1) as T.
    destruct (latent_minimise _ _ _ _ _ _ _ _ _ _) as [[[[e v] k] h]|] eqn:E; [|exfalso; apply (proj2 T); [lia|reflexivity]].
    exists e, v, k, h. split; [reflexivity|]. clear T. apply latent_history in E as (start & S0 & Sn & -> & _). cbv zeta in Sn.
    assert (forall n z, snd (Nat.iter n (fun p : unit * R => (fst p, snd p / 2)) (tt, z)) = z / 2 ^ n) as I.
    { induction n as [|n IH]; intros z; [cbn; lra|]. cbn [Nat.iter nat_rect]. cbn [snd]. unfold Nat.iter in IH. rewrite IH. cbn [pow]. field. apply pow_nonzero. lra. }
    assert (forall i, start i = 1 / (2 ^ 10) ^ i) as St.
    { induction i as [|i IH]; [rewrite S0; cbn; lra|]. rewrite Sn, I, IH. cbn [pow]. field. repeat split; try apply pow_nonzero; lra. }
    rewrite St, Nat.add_1_r. intros C. assert (1 <= (2 ^ 10) ^ k) as G by (apply pow_R1_Rle; lra).
    assert ((2 ^ 10) ^ Datatypes.S k = 1) as C' by (rewrite <- (Rinv_inv ((2 ^ 10) ^ Datatypes.S k)); unfold Rdiv in C; rewrite Rmult_1_l in C; rewrite C; lra).
    cbn [pow] in C', G. nra.
Qed.

(** C183 *)
Theorem C183_history_partial :
  forall (S C E P : Type) (encode : C -> E) (decode : E -> C) (pred : E -> P) (objective : P -> C -> R)
  (distance : E -> E -> R) (descent : (E -> R) -> S -> E -> S * E) (init : E -> S) (n_iter : nat) (tol : R) (c : C) e v k h,
  latent_minimise encode decode pred objective distance descent init n_iter tol c = Some (e, v, k, h) ->
  let update := fun p => descent (fun e => objective (pred e) (decode e)) (fst p) (snd p) in
  exists start : nat -> E,
    start 0%nat = encode c /\ (forall i, start (Datatypes.S i) = snd (Nat.iter 10 update (init (encode c), start i))) /\
    e = start (k + 1)%nat /\
    (length h = (10 * k)%nat \/ (length h = 10 * (k + 1) /\ k = n_iter / 10)%nat) /\
    forall i j d, (10 * i + j < length h)%nat -> (j < 10)%nat ->
      nth (10 * i + j) h d = snd (Nat.iter j update (init (encode c), start i)).
Proof. exact (@latent_history). Qed.
Print Assumptions C183_history_partial.
Theorem C183_short_refuted :
  forall (S C E P : Type) (encode : C -> E) (decode : E -> C) (pred : E -> P) (value : R)
  (distance : E -> E -> R) (descent : (E -> R) -> S -> E -> S * E) (init : E -> S) (n_iter : nat) (tol : R) (c : C),
  0 < tol -> (10 <= n_iter)%nat ->
  exists e h, latent_minimise encode decode pred (fun _ _ => value) distance descent init n_iter tol c = Some (e, value, 1%nat, h) /\ length h = 10%nat.
Proof. exact (@latent_history_short). Qed.
Print Assumptions C183_short_refuted.
Example C183_case : 0 < 1 / 10 /\ (10 <= 200)%nat.
Proof. split; [lra|lia]. Qed.
