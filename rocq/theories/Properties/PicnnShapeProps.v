(** Widths, bounds and options of the convex networks: C173 - C176. *)
From Coq Require Import List Arith Bool Reals Lia Lra.
From Verif Require Import Model.Picnn Model.Scaling Model.PicnnShape Spec.PicnnShapeSpec Proof.ScalingProof Proof.PicnnShapeProof.
Import ListNotations.

(** C173 *)
Theorem C173_forecasts_partial :
  forall (k : network) (x out l nl v : nat) (aug ln : bool) (lo hi : bound),
  plain k -> (k = RecStable -> aug = false) -> 0 < nl -> proper_bounds lo hi out ->
  outputs k (construct x out (Some l) nl v aug ln false lo hi) = Some out /\
  (compatible out l -> outputs k (construct x out (Some l) nl v aug ln true lo hi) = Some (out + out)).
Proof. exact (@forecasts_shape). Qed.
Print Assumptions C173_forecasts_partial.
Theorem C173_structured_partial :
  forall (x out l nl v : nat) (aug ln : bool) (lo hi : bound),
  0 < nl -> (lo = Unset /\ hi = Unset \/ lo = Scalar /\ hi = Scalar) ->
  outputs Structured (construct x out (Some l) nl v aug ln false lo hi) = Some out /\
  outputs Structured (construct x out (Some l) nl v aug ln true lo hi) = Some (out + 1).
Proof. exact (@structured_shape). Qed.
Print Assumptions C173_structured_partial.
Theorem C173_quasi_partial :
  forall (x out l nl v : nat) (aug ln pr : bool) (lo hi : bound),
  0 < nl -> proper_bounds lo hi out ->
  (compatible out l -> outputs QuasiConvex (construct x out (Some l) nl v aug ln pr lo hi) = Some out) /\
  (~ compatible out l -> outputs QuasiConvex (construct x out (Some l) nl v aug ln pr lo hi) = None).
Proof. exact (@quasi_shape). Qed.
Print Assumptions C173_quasi_partial.
Theorem C173_wide_refuted :
  forall (k : network) (x out l nl v : nat) (aug ln : bool) (lo hi : bound),
  plain k -> 0 < nl -> out <> l -> out <> 1 -> l <> 1 -> outputs k (construct x out (Some l) nl v aug ln true lo hi) = None.
Proof. exact (@wide_refuted). Qed.
Print Assumptions C173_wide_refuted.
Theorem C173_quasi_refuted :
  forall (x out l nl v : nat) (aug ln : bool) (lo hi : bound), 0 < nl -> 0 < out -> proper_bounds lo hi out ->
  outputs QuasiConvex (construct x out (Some l) nl v aug ln true lo hi) <> Some (out + out).
Proof. exact (@quasi_half). Qed.
Print Assumptions C173_quasi_refuted.
Example C173_case :
  outputs Convex (construct 100 24 (Some 1) 3 5 true false true Unset Unset) = Some 48 /\
  outputs Convex (construct 100 24 (Some 8) 3 5 true false true Unset Unset) = None /\
  outputs Structured (construct 100 24 (Some 8) 3 5 true false true Scalar Scalar) = Some 25 /\
  outputs QuasiConvex (construct 100 24 (Some 1) 3 5 false false true Unset Unset) = Some 24 /\
  plain Convex /\ proper_bounds Unset Unset 24 /\ compatible 24 1.
Proof. repeat split; try reflexivity; unfold plain, proper_bounds, compatible; auto. Qed.

(** C175 *)
Theorem C175_stable_refuted :
  forall (x out nl v : nat) (latent : option nat) (ln pr : bool) (lo hi : bound),
  0 < nl -> 2 <= v -> outputs RecStable (construct x out latent nl v true ln pr lo hi) = None.
Proof. exact (@stable_augment). Qed.
Print Assumptions C175_stable_refuted.
Theorem C175_set_params_refuted :
  forall (k : network) (x out nl v : nat) (latent : option nat) (ln pr : bool) (lo hi : bound),
  k <> RecStable -> 0 < nl -> 2 <= v -> outputs k (set_augment true (construct x out latent nl v false ln pr lo hi)) = None.
Proof. exact (@set_params_augment). Qed.
Print Assumptions C175_set_params_refuted.
Theorem C175_layer_norm_refuted :
  forall (k : network) (s : settings),
  set_arch k (set_layer_norm true s) = set_arch k (set_layer_norm false s) /\ m_layer_norm (set_arch k s) = false.
Proof. exact (@layer_norm_ignored). Qed.
Print Assumptions C175_layer_norm_refuted.
Example C175_case : outputs RecStable (construct 100 24 (Some 1) 3 5 false false false Unset Unset) = Some 24 /\
  outputs RecStable (construct 100 24 (Some 1) 3 5 true false false Unset Unset) = None /\
  outputs Convex (construct 100 24 (Some 1) 3 5 true false false Unset Unset) = Some 24 /\
  outputs Convex (set_augment true (construct 100 24 (Some 1) 3 5 false false false Unset Unset)) = None.
Proof. repeat split. Qed.

(** C176 *)
Theorem C176_lengths_partial :
  forall (s : latent_settings) (x out nl v e ne nd : nat) (latent : option nat) (aug ln : bool) (lo hi : bound),
  base s = construct x out latent nl v aug ln false lo hi -> n_embeddings s = e -> n_encoder s = ne -> n_decoder s = nd ->
  0 < nl -> 0 < ne -> 0 < nd -> (lo = Unset /\ hi = Unset \/ lo = Scalar /\ hi = Scalar) ->
  call_latent s = Some (out, e, v).
Proof. exact (@latent_shape). Qed.
Print Assumptions C176_lengths_partial.
Theorem C176_default_widths_partial :
  forall (s : latent_settings), n_latent (base s) = None ->
  (m_out (encoder s) = n_embeddings s /\ m_out (decoder s) = vars (base s) /\ m_out (predictor s) = n_out (base s)) /\
  m_latent (encoder s) = Some (m_out (encoder s)) /\ m_latent (decoder s) = Some (m_out (decoder s)) /\ m_latent (predictor s) = Some (m_out (predictor s)).
Proof. exact (@default_widths). Qed.
Print Assumptions C176_default_widths_partial.
Theorem C176_given_widths_partial :
  forall (s : latent_settings) (l : nat), n_latent (base s) = Some l ->
  m_latent (encoder s) = Some l /\ m_latent (decoder s) = Some l /\ m_latent (predictor s) = Some l.
Proof. exact (@given_widths). Qed.
Print Assumptions C176_given_widths_partial.
Theorem C176_probabilistic_refuted :
  forall (s : latent_settings) (x out nl v : nat) (latent : option nat) (aug ln : bool),
  base s = construct x out latent nl v aug ln true Unset Unset -> 0 < nl -> 0 < n_encoder s -> 2 <= n_embeddings s -> call_latent s = None.
Proof. exact (@latent_probabilistic). Qed.
Print Assumptions C176_probabilistic_refuted.
Theorem C176_bounds_refuted :
  forall (s : latent_settings) (x out nl v : nat) (latent : option nat) (aug ln : bool),
  base s = construct x out latent nl v aug ln false (Vector out) (Vector out) -> 0 < n_encoder s ->
  ~ compatible out (n_embeddings s) -> call_latent s = None.
Proof. exact (@latent_vector). Qed.
Print Assumptions C176_bounds_refuted.
Example C176_case : let s p lo := LatentSettings (construct 100 24 None 3 5 true false p lo lo) 10 3 3 in
  call_latent (s false Unset) = Some (24, 10, 5) /\ call_latent (s true Unset) = None /\ call_latent (s false (Vector 24)) = None.
Proof. repeat split. Qed.

(** C174 *)
Theorem C174_structured_refuted :
  forall (x out l nl v : nat) (aug ln : bool),
  0 < nl -> outputs Structured (construct x out (Some l) nl v aug ln true (Vector out) (Vector out)) = Some (out + out).
Proof. exact (@structured_vector). Qed.
Print Assumptions C174_structured_refuted.
Theorem C174_min_alone_refuted :
  forall (k : network) (x out nl v : nat) (latent : option nat) (aug ln pr : bool) (lo : bound),
  0 < nl -> lo <> Unset -> outputs k (construct x out latent nl v aug ln pr lo Unset) = None.
Proof. exact (@min_alone). Qed.
Print Assumptions C174_min_alone_refuted.
Example C174_lengths_case : outputs Structured (construct 100 24 (Some 1) 3 5 false false true (Vector 24) (Vector 24)) = Some 48.
Proof. reflexivity. Qed.
Local Open Scope R_scope.
Theorem C174_within_partial :
  forall (lo hi z mu sd : R), lo <= hi -> 0 < sd ->
  (exists v, forecast false (mu, sd) (Some lo) (Some hi) z = Some v /\ lo <= v <= hi) /\
  (exists v, forecast true (mu, sd) (Some lo) (Some hi) z = Some v /\ lo * sd + mu <= v <= hi * sd + mu).
Proof. exact (@forecast_within). Qed.
Print Assumptions C174_within_partial.
Theorem C174_units_refuted :
  forall (column : list R) (lo hi z : R), lo <= hi -> 0 < col_scale column ->
  hi < lo * col_scale column + col_mean column ->
  exists v, forecast true (fit_column true column) (Some lo) (Some hi) z = Some v /\ hi < v.
Proof. exact (@forecast_outside). Qed.
Print Assumptions C174_units_refuted.
Theorem C174_max_alone_refuted :
  forall (hi : R), exists z v, squash None (Some hi) z = Some v /\ hi < v.
Proof. exact (@max_alone). Qed.
Print Assumptions C174_max_alone_refuted.
Theorem C174_min_alone_raises_refuted :
  forall (normalize : bool) (sc : R * R) (lo z : R), forecast normalize sc (Some lo) None z = None.
Proof. exact (@min_alone_raises). Qed.
Print Assumptions C174_min_alone_raises_refuted.
(** Targets 10 and 12, asked to be between 10 and 12. *)
Example C174_case : col_scale [10; 12] = 1 /\ col_mean [10; 12] = 11 /\ 12 < 10 * col_scale [10; 12] + col_mean [10; 12].
Proof.
  assert (M : col_mean [10; 12] = 11) by (unfold col_mean; cbn; lra).
  assert (W : col_var [10; 12] = 1) by (unfold col_var; rewrite M; unfold col_mean; cbn; lra).
  assert (E : col_scale [10; 12] = 1) by (unfold col_scale; rewrite W; destruct (Req_EM_T 1 0); [reflexivity|apply sqrt_1]).
  rewrite E, M. repeat split; lra.
Qed.
