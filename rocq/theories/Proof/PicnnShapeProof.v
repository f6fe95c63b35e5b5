From Coq Require Import List Arith Bool Reals Lia Lra.
From Verif Require Import Model.Picnn Model.Scaling Model.PicnnShape Spec.PicnnShapeSpec.
Import ListNotations.

Lemma broadcast_same a : broadcast a a = Some a.
Proof. unfold broadcast. now rewrite Nat.eqb_refl. Qed.
Lemma broadcast_ok a b : compatible a b <-> exists c, broadcast a b = Some c.
Proof.
  unfold broadcast, compatible. destruct (Nat.eqb_spec a b); [split; [eauto|auto]|]. destruct (Nat.eqb_spec a 1); [split; [eauto|auto]|].
  destruct (Nat.eqb_spec b 1); [split; [eauto|auto]|]. split; [intros [H|[H|H]]; contradiction|intros [c H]; discriminate].
Qed.
Lemma broadcast_none a b : ~ compatible a b -> broadcast a b = None.
Proof. intros H. destruct (broadcast a b) eqn:E; [|reflexivity]. exfalso. apply H, broadcast_ok. eauto. Qed.

Lemma bounded_fit out lo hi : proper_bounds lo hi out -> lo <> Unset -> bounded out lo hi = Some out.
Proof.
  intros [[-> _]|[[-> | ->] [-> | ->]]] H; try congruence; unfold bounded; cbn; rewrite ?broadcast_same; cbn; rewrite ?broadcast_same; reflexivity.
Qed.
Lemma layer_last m out l y z : compatible z l -> broadcast (if m_augment m then y + y else y) (m_y m) <> None ->
  proper_bounds (m_min m) (m_max m) out -> layer m out l true y z = Some out.
Proof.
  intros Hz Hy Hb. apply broadcast_ok in Hz. destruct Hz as [c Hz]. unfold layer. rewrite Hz.
  destruct (broadcast _ (m_y m)); [|congruence]. destruct (m_min m) eqn:E; [reflexivity| |]; apply bounded_fit; try assumption; discriminate.
Qed.
Lemma layer_hidden m out l y z : compatible z l -> broadcast (if m_augment m then y + y else y) (m_y m) <> None -> layer m out l false y z = Some out.
Proof.
  intros Hz Hy. apply broadcast_ok in Hz. destruct Hz as [c Hz]. unfold layer. rewrite Hz. now destruct (broadcast _ (m_y m)).
Qed.
Lemma layers_ok m h out l y : compatible h l -> broadcast (if m_augment m then y + y else y) (m_y m) <> None ->
  proper_bounds (m_min m) (m_max m) out -> forall n z, 0 < n -> compatible z l -> layers m n h out l y z = Some out.
Proof.
  intros Hh Hy Hb. induction n as [|n IH]; intros z Hn Hz; [lia|]. destruct n as [|n]; [now apply layer_last|].
  cbn [layers]. rewrite layer_hidden by assumption. apply IH; [lia|exact Hh].
Qed.
Lemma layers_bad m h out l y z n : 0 < n -> ~ compatible z l -> layers m n h out l y z = None.
Proof.
  intros Hn Hz. assert (L : forall f p, layer m f l p y z = None) by (intros; unfold layer; now rewrite (broadcast_none _ _ Hz)).
  destruct n as [|[|n]]; [lia|apply L|]. cbn [layers]. now rewrite L.
Qed.
Lemma layers_bad_controls m h out l y z n : 0 < n -> ~ compatible (if m_augment m then y + y else y) (m_y m) -> layers m n h out l y z = None.
Proof.
  intros Hn Hz. assert (L : forall f p, layer m f l p y z = None).
  { intros; unfold layer; rewrite (broadcast_none _ _ Hz). now destruct (broadcast z l). }
  destruct n as [|[|n]]; [lia|apply L|]. cbn [layers]. now rewrite L.
Qed.
Lemma controls_ok k s : plain k -> (k = RecStable -> augment s = false) -> n_hidden_y s = (if augment s then 2 * vars s else vars s) ->
  broadcast (if m_augment (set_arch k s) then vars s + vars s else vars s) (m_y (set_arch k s)) <> None.
Proof.
  intros Hk Hr Hy. replace (m_y (set_arch k s)) with (n_hidden_y s) by (destruct k; reflexivity). rewrite Hy.
  replace (2 * vars s) with (vars s + vars s) by lia.
  destruct Hk as [-> |[-> | ->]]; cbn; destruct (augment s); rewrite ?broadcast_same; try discriminate. now specialize (Hr eq_refl).
Qed.

Lemma forecasts_shape (k : network) (x out l nl v : nat) (aug ln : bool) (lo hi : bound) :
  plain k -> (k = RecStable -> aug = false) -> 0 < nl -> proper_bounds lo hi out ->
  outputs k (construct x out (Some l) nl v aug ln false lo hi) = Some out /\
  (compatible out l -> outputs k (construct x out (Some l) nl v aug ln true lo hi) = Some (out + out)).
Proof.
  intros Hk Hr Hn Hb.
  assert (A : forall p, layers (set_arch k (construct x out (Some l) nl v aug ln p lo hi)) nl l out l v l = Some out).
  { intros p. apply layers_ok; try assumption; try (now left).
    - apply (controls_ok k (construct x out (Some l) nl v aug ln p lo hi)); try assumption; reflexivity.
    - destruct k; exact Hb. }
  split; [|intros Hc]; (replace (outputs k) with (fun s => call (set_arch k s) (vars s)) by (destruct Hk as [-> |[-> | ->]]; reflexivity)); cbv beta; unfold call.
  - replace (m_latent _) with (Some l) by (destruct k; reflexivity). cbn [vars construct].
    replace (m_layers _) with nl by (destruct k; reflexivity). replace (m_out _) with out by (destruct k; reflexivity).
    rewrite A. destruct k; reflexivity.
  - replace (m_latent _) with (Some l) by (destruct k; reflexivity). cbn [vars construct].
    replace (m_layers _) with nl by (destruct k; reflexivity). replace (m_out _) with out by (destruct k; reflexivity).
    rewrite A. replace (m_prob _) with true by (destruct k; reflexivity).
    replace (m_structured _) with false by (destruct Hk as [-> |[-> | ->]]; reflexivity).
    rewrite layers_ok; try assumption; try reflexivity.
    + apply (controls_ok k (construct x out (Some l) nl v aug ln true lo hi)); try assumption; reflexivity.
    + destruct k; exact Hb.
Qed.

Lemma wide_refuted (k : network) (x out l nl v : nat) (aug ln : bool) (lo hi : bound) :
  plain k -> 0 < nl -> out <> l -> out <> 1 -> l <> 1 -> outputs k (construct x out (Some l) nl v aug ln true lo hi) = None.
Proof.
  intros Hk Hn H1 H2 H3. set (s := construct x out (Some l) nl v aug ln true lo hi).
  replace (outputs k s) with (call (set_arch k s) (vars s)) by (destruct Hk as [-> |[-> | ->]]; reflexivity). unfold call.
  replace (m_latent _) with (Some l) by (destruct k; reflexivity). replace (m_layers _) with nl by (destruct k; reflexivity).
  replace (m_prob _) with true by (destruct k; reflexivity). replace (m_structured _) with false by (destruct Hk as [-> |[-> | ->]]; reflexivity).
  replace (m_out _) with out by (destruct k; reflexivity).
  rewrite (layers_bad _ out out l) by (try exact Hn; unfold compatible; lia). now destruct (layers _ _ _ _ _ _ _).
Qed.

Lemma structured_shape (x out l nl v : nat) (aug ln : bool) (lo hi : bound) :
  0 < nl -> (lo = Unset /\ hi = Unset \/ lo = Scalar /\ hi = Scalar) ->
  outputs Structured (construct x out (Some l) nl v aug ln false lo hi) = Some out /\
  outputs Structured (construct x out (Some l) nl v aug ln true lo hi) = Some (out + 1).
Proof.
  intros Hn Hb.
  assert (P : forall n, proper_bounds lo hi n) by (intros n; unfold proper_bounds; intuition).
  assert (Y : forall p, broadcast (if m_augment (set_arch Structured (construct x out (Some l) nl v aug ln p lo hi)) then v + v else v)
     (m_y (set_arch Structured (construct x out (Some l) nl v aug ln p lo hi))) <> None).
  { intros p. cbn [set_arch construct m_augment m_y augment n_hidden_y]. replace (2 * v) with (v + v) by lia. destruct aug; rewrite broadcast_same; discriminate. }
  unfold outputs, call. cbn [set_arch construct m_latent m_layers m_out m_prob m_structured n_latent n_layers n_out prob vars].
  split.
  - change nl with (nl) at 1. rewrite layers_ok; [reflexivity|now left|apply Y|apply P|exact Hn|now left].
  - rewrite layers_ok; [|now left|apply Y|apply P|exact Hn|now left].
    rewrite layers_ok; [reflexivity|unfold compatible; lia|apply Y|apply P|exact Hn|unfold compatible; lia].
Qed.

Lemma layers_vector m h out l y lo : compatible h l -> broadcast (if m_augment m then y + y else y) (m_y m) <> None ->
  m_min m = Vector lo -> (m_max m = Vector lo \/ m_max m = Scalar) -> out = 1 -> forall n z, 0 < n -> compatible z l -> layers m n h out l y z = Some lo.
Proof.
  intros Hh Hy Hm HM ->. induction n as [|n IH]; intros z Hn Hz; [lia|].
  assert (B : bounded 1 (Vector lo) (m_max m) = Some lo).
  { unfold bounded. destruct HM as [-> | ->]; cbn; rewrite ?broadcast_same; cbn; unfold broadcast;
      destruct (Nat.eqb_spec 1 lo) as [<-|]; cbn; rewrite ?Nat.eqb_refl; reflexivity. }
  assert (C : exists c, broadcast z l = Some c) by now apply broadcast_ok. destruct C as [c C].
  destruct n as [|n].
  - cbn [layers]. unfold layer. rewrite C, Hm. destruct (broadcast _ (m_y m)); [exact B|congruence].
  - cbn [layers]. rewrite layer_hidden by assumption. apply IH; [lia|exact Hh].
Qed.
Lemma structured_vector (x out l nl v : nat) (aug ln : bool) :
  0 < nl -> outputs Structured (construct x out (Some l) nl v aug ln true (Vector out) (Vector out)) = Some (out + out).
Proof.
  intros Hn.
  assert (Y : broadcast (if m_augment (set_arch Structured (construct x out (Some l) nl v aug ln true (Vector out) (Vector out))) then v + v else v)
     (m_y (set_arch Structured (construct x out (Some l) nl v aug ln true (Vector out) (Vector out)))) <> None).
  { cbn [set_arch construct m_augment m_y augment n_hidden_y]. replace (2 * v) with (v + v) by lia. destruct aug; rewrite broadcast_same; discriminate. }
  unfold outputs, call. cbn [set_arch construct m_latent m_layers m_out m_prob m_structured n_latent n_layers n_out prob vars].
  rewrite layers_ok; [|now left|exact Y|unfold proper_bounds; cbn; auto|exact Hn|now left].
  rewrite (layers_vector _ _ _ _ _ out); [reflexivity|unfold compatible; lia|exact Y|reflexivity|now left|reflexivity|exact Hn|unfold compatible; lia].
Qed.

Lemma quasi_shape (x out l nl v : nat) (aug ln pr : bool) (lo hi : bound) :
  0 < nl -> proper_bounds lo hi out ->
  (compatible out l -> outputs QuasiConvex (construct x out (Some l) nl v aug ln pr lo hi) = Some out) /\
  (~ compatible out l -> outputs QuasiConvex (construct x out (Some l) nl v aug ln pr lo hi) = None).
Proof.
  intros Hn Hb. unfold outputs, call_quasi.
  cbn [set_arch construct m_latent m_layers m_out m_prob m_structured n_latent n_layers n_out prob vars].
  destruct nl as [|nl]; [lia|]. split; intros Hc.
  - rewrite layers_ok; [apply broadcast_same|exact Hc| |exact Hb|exact Hn|exact Hc].
    cbn [set_arch construct m_augment m_y augment n_hidden_y]. replace (2 * v) with (v + v) by lia. destruct aug; rewrite broadcast_same; discriminate.
  - now rewrite layers_bad.
Qed.
Lemma quasi_half (x out l nl v : nat) (aug ln : bool) (lo hi : bound) : 0 < nl -> 0 < out -> proper_bounds lo hi out ->
  outputs QuasiConvex (construct x out (Some l) nl v aug ln true lo hi) <> Some (out + out).
Proof.
  intros Hn Ho Hb E. destruct (quasi_shape x out l nl v aug ln true lo hi Hn Hb) as [A B].
  destruct (broadcast out l) eqn:C.
  - rewrite A in E; [injection E; lia|apply broadcast_ok; eauto].
  - rewrite B in E; [discriminate|]. intros H. apply broadcast_ok in H. destruct H. congruence.
Qed.

(** One bound without the other. *)
Lemma layers_min_alone m h out l y : m_min m <> Unset -> m_max m = Unset -> forall n z, 0 < n -> layers m n h out l y z = None.
Proof.
  intros H1 H2. assert (B : forall f, bounded f (m_min m) (m_max m) = None) by (intros; unfold bounded; rewrite H2; now destruct (m_min m)).
  assert (L : forall f z, layer m f l true y z = None).
  { intros f z. unfold layer. destruct (broadcast z l); [|reflexivity]. destruct (broadcast _ _); [|reflexivity]. destruct (m_min m) eqn:E; [congruence| |]; rewrite B; reflexivity. }
  induction n as [|n IH]; intros z Hn; [lia|]. destruct n as [|n]; [apply L|]. cbn [layers]. destruct (layer m h l false y z); [|reflexivity]. apply IH. lia.
Qed.
Lemma min_alone (k : network) (x out nl v : nat) (latent : option nat) (aug ln pr : bool) (lo : bound) :
  0 < nl -> lo <> Unset -> outputs k (construct x out latent nl v aug ln pr lo Unset) = None.
Proof.
  intros Hn Hl. set (s := construct x out latent nl v aug ln pr lo Unset).
  assert (L : forall h o l y z, layers (set_arch k s) nl h o l y z = None) by (intros; apply layers_min_alone; [destruct k; exact Hl|destruct k; reflexivity|exact Hn]).
  assert (E : m_layers (set_arch k s) = nl) by (destruct k; reflexivity).
  unfold outputs. destruct k; unfold call, call_quasi; rewrite E; destruct (m_latent _); try reflexivity; try (rewrite L; reflexivity).
  destruct nl; [reflexivity|]. now rewrite L.
Qed.

(** Augmented controls. *)
Lemma stable_augment (x out nl v : nat) (latent : option nat) (ln pr : bool) (lo hi : bound) :
  0 < nl -> 2 <= v -> outputs RecStable (construct x out latent nl v true ln pr lo hi) = None.
Proof.
  intros Hn Hv. unfold outputs, call. cbn [set_arch construct m_latent m_layers n_latent n_layers vars n_out prob].
  destruct latent as [l|]; [|reflexivity]. cbn [m_out]. rewrite layers_bad_controls; [reflexivity|exact Hn|].
  cbn [m_augment m_y n_hidden_y construct]. unfold compatible. lia.
Qed.
Lemma set_params_augment (k : network) (x out nl v : nat) (latent : option nat) (ln pr : bool) (lo hi : bound) :
  k <> RecStable -> 0 < nl -> 2 <= v -> outputs k (set_augment true (construct x out latent nl v false ln pr lo hi)) = None.
Proof.
  intros Hk Hn Hv. set (s := set_augment true (construct x out latent nl v false ln pr lo hi)).
  assert (L : forall h o l z, layers (set_arch k s) nl h o l v z = None).
  { intros. apply layers_bad_controls; [exact Hn|]. destruct k; try congruence; cbn; unfold compatible; lia. }
  assert (E : m_layers (set_arch k s) = nl) by (destruct k; reflexivity).
  unfold outputs. destruct k; unfold call, call_quasi; rewrite E; destruct (m_latent _); try reflexivity; try (change (vars s) with v; rewrite L; reflexivity).
  destruct nl; [reflexivity|]. change (vars s) with v. now rewrite L.
Qed.
Lemma layer_norm_ignored (k : network) (s : settings) :
  set_arch k (set_layer_norm true s) = set_arch k (set_layer_norm false s) /\ m_layer_norm (set_arch k s) = false.
Proof. split; destruct k; reflexivity. Qed.

(** Networks with embedded controls. *)
Lemma latent_shape (s : latent_settings) (x out nl v e ne nd : nat) (latent : option nat) (aug ln : bool) (lo hi : bound) :
  base s = construct x out latent nl v aug ln false lo hi -> n_embeddings s = e -> n_encoder s = ne -> n_decoder s = nd ->
  0 < nl -> 0 < ne -> 0 < nd -> (lo = Unset /\ hi = Unset \/ lo = Scalar /\ hi = Scalar) ->
  call_latent s = Some (out, e, v).
Proof.
  intros Eb <- <- <- Hn H1 H2 Hb. assert (P : forall n, proper_bounds lo hi n) by (intros n; unfold proper_bounds; intuition).
  assert (K : forall m y, m_latent m <> None -> 0 < m_layers m -> m_prob m = false -> m_min m = lo -> m_max m = hi ->
    broadcast (if m_augment m then y + y else y) (m_y m) <> None -> call m y = Some (m_out m)).
  { intros m y El En Ep Ei Ea Hy. unfold call. destruct (m_latent m) as [l|]; [|congruence]. rewrite Ep.
    rewrite layers_ok; [reflexivity|now left|exact Hy|rewrite Ei, Ea; apply P|exact En|now left]. }
  assert (D : forall (a : bool) n, broadcast (if a then n + n else n) (if a then 2 * n else n) <> None).
  { intros a n. replace (2 * n) with (n + n) by lia. destruct a; rewrite broadcast_same; discriminate. }
  unfold call_latent. rewrite Eb. cbn [vars construct].
  rewrite (K (encoder s) v); [|discriminate|exact H1|cbn; now rewrite Eb..|cbn [encoder m_augment m_y]; rewrite Eb; apply D].
  cbn [encoder m_out].
  rewrite (K (predictor s) (n_embeddings s)); [|discriminate|cbn; now rewrite Eb|cbn; now rewrite Eb..|
    cbn [predictor m_augment m_y]; rewrite Eb; cbn [augment construct]; rewrite (Nat.mul_comm _ 2); apply D].
  rewrite (K (decoder s) (n_embeddings s)); [|discriminate|exact H2|cbn; now rewrite Eb..|
    cbn [decoder m_augment m_y]; rewrite Eb; cbn [augment construct]; rewrite (Nat.mul_comm _ 2); apply D].
  cbn. rewrite Eb. reflexivity.
Qed.
Lemma layers_len m h out l y : (m_min m = Unset) -> forall n z r, 0 < n -> layers m n h out l y z = Some r -> r = out.
Proof.
  intros Hm. induction n as [|n IH]; intros z r Hn E; [lia|]. destruct n as [|n].
  - cbn [layers] in E. unfold layer in E. rewrite Hm in E. destruct (broadcast z l); [|discriminate]. destruct (broadcast _ _); congruence.
  - cbn [layers] in E. destruct (layer m h l false y z); [|discriminate]. apply (IH n0); [lia|exact E].
Qed.
Lemma latent_probabilistic (s : latent_settings) (x out nl v : nat) (latent : option nat) (aug ln : bool) :
  base s = construct x out latent nl v aug ln true Unset Unset -> 0 < nl -> 0 < n_encoder s -> 2 <= n_embeddings s -> call_latent s = None.
Proof.
  intros Eb Hn He Hm. unfold call_latent. destruct (call (encoder s) (vars (base s))) as [e|] eqn:E; [|reflexivity].
  assert (Le : e = n_embeddings s + n_embeddings s).
  { unfold call in E. cbn [encoder m_latent] in E. set (m := encoder s) in *.
    change (m_layers m) with (n_encoder s) in E. change (m_out m) with (n_embeddings s) in E.
    replace (m_prob m) with true in E by (cbn; now rewrite Eb). replace (m_structured m) with false in E by reflexivity.
    assert (U : m_min m = Unset) by (cbn; now rewrite Eb).
    destruct (layers m (n_encoder s) _ _ _ _ _) eqn:E1 in E; [|discriminate].
    destruct (layers m (n_encoder s) _ _ _ _ _) eqn:E2 in E; [|discriminate].
    apply layers_len in E1; [|exact U|exact He]. apply layers_len in E2; [|exact U|exact He]. injection E. lia. }
  assert (Ep : call (predictor s) e = None); [|now rewrite Ep].
  unfold call. cbn [predictor m_latent]. rewrite layers_bad_controls; [reflexivity|cbn; rewrite Eb; exact Hn|].
  cbn. rewrite Eb. cbn -[Nat.mul]. unfold compatible. destruct aug; lia.
Qed.
Lemma latent_vector (s : latent_settings) (x out nl v : nat) (latent : option nat) (aug ln : bool) :
  base s = construct x out latent nl v aug ln false (Vector out) (Vector out) -> 0 < n_encoder s ->
  ~ compatible out (n_embeddings s) -> call_latent s = None.
Proof.
  intros Eb He Hm. unfold call_latent. assert (E : call (encoder s) (vars (base s)) = None); [|now rewrite E].
  unfold call. cbn [encoder m_latent]. set (m := encoder s). change (m_layers m) with (n_encoder s).
  assert (U : m_min m = Vector out) by (cbn; now rewrite Eb). assert (W : m_max m = Vector out) by (cbn; now rewrite Eb).
  assert (B : bounded (n_embeddings s) (Vector out) (Vector out) = None).
  { unfold bounded. rewrite broadcast_same. cbn. rewrite broadcast_none; [reflexivity|]. unfold compatible in *. intuition. }
  assert (L : forall n h l y z, 0 < n -> layers m n h (n_embeddings s) l y z = None).
  { induction n as [|n IH]; intros h l y z Hn; [lia|]. destruct n as [|n].
    - cbn [layers]. unfold layer. rewrite U, W, B. destruct (broadcast z l); [|reflexivity]. now destruct (broadcast _ _).
    - cbn [layers]. destruct (layer m h l false y z); [|reflexivity]. apply IH. lia. }
  change (m_out m) with (n_embeddings s). rewrite L by exact He. reflexivity.
Qed.

Local Open Scope R_scope.
Lemma sigmoid_range z : 0 < sigmoid z < 1.
Proof.
  unfold sigmoid. pose proof (exp_pos (- z)). split; [apply Rdiv_lt_0_compat; lra|].
  apply (Rmult_lt_reg_r (1 + exp (- z))); [lra|]. unfold Rdiv. rewrite Rmult_assoc, Rinv_l; lra.
Qed.
Lemma squash_within (lo hi z : R) : lo <= hi -> exists v, squash (Some lo) (Some hi) z = Some v /\ lo <= v <= hi.
Proof.
  intros H. eexists. split; [reflexivity|]. pose proof (sigmoid_range z) as [A B].
  assert (0 <= sigmoid z * (hi - lo)) by (apply Rmult_le_pos; lra).
  assert (sigmoid z * (hi - lo) <= 1 * (hi - lo)) by (apply Rmult_le_compat_r; lra). lra.
Qed.
Lemma forecast_within (lo hi z mu sd : R) : lo <= hi -> 0 < sd ->
  (exists v, forecast false (mu, sd) (Some lo) (Some hi) z = Some v /\ lo <= v <= hi) /\
  (exists v, forecast true (mu, sd) (Some lo) (Some hi) z = Some v /\ lo * sd + mu <= v <= hi * sd + mu).
Proof.
  intros H Hs. destruct (squash_within lo hi z H) as (v & E & Hv). unfold forecast. rewrite E. cbn [option_map]. split; eexists; (split; [reflexivity|]).
  - exact Hv.
  - unfold inverse. cbn [fst snd]. split; apply Rplus_le_compat_r, Rmult_le_compat_r; lra.
Qed.
Lemma forecast_outside (column : list R) (lo hi z : R) : lo <= hi -> 0 < col_scale column ->
  hi < lo * col_scale column + col_mean column ->
  exists v, forecast true (fit_column true column) (Some lo) (Some hi) z = Some v /\ hi < v.
Proof.
  intros H Hs Hh. destruct (forecast_within lo hi z (col_mean column) (col_scale column) H Hs) as [_ (v & E & Hv)].
  exists v. split; [exact E|lra].
Qed.
Lemma max_alone (hi : R) : exists z v, squash None (Some hi) z = Some v /\ hi < v.
Proof. exists (hi + 1), (hi + 1). split; [reflexivity|lra]. Qed.

(** C176 *)
Lemma default_widths (s : latent_settings) : n_latent (base s) = None ->
  (m_out (encoder s) = n_embeddings s /\ m_out (decoder s) = vars (base s) /\ m_out (predictor s) = n_out (base s)) /\
  m_latent (encoder s) = Some (m_out (encoder s)) /\ m_latent (decoder s) = Some (m_out (decoder s)) /\ m_latent (predictor s) = Some (m_out (predictor s)).
Proof. unfold encoder, decoder, predictor. intros ->. cbn. auto. Qed.
Lemma given_widths (s : latent_settings) (l : nat) : n_latent (base s) = Some l ->
  m_latent (encoder s) = Some l /\ m_latent (decoder s) = Some l /\ m_latent (predictor s) = Some l.
Proof. unfold encoder, decoder, predictor. intros ->. cbn. auto. Qed.
(** C174 *)
Lemma min_alone_raises (normalize : bool) (sc : R * R) (lo z : R) : forecast normalize sc (Some lo) None z = None.
Proof. reflexivity. Qed.
