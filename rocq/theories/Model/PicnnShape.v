(** Model of the widths of the convex networks (neural_models/ICNN.py, layers.py): which modules the constructors and
    [set_arch] build from their options, and the lengths of the vectors that the modules compute for one sample.
    [None] = an exception (two lengths that cannot be broadcast, or None in arithmetic). Widths are positive. *)
From Coq Require Import List Arith Bool Reals.
From Verif Require Import Model.Picnn Model.Scaling.
Import ListNotations.

(** Element-wise operations on vectors of lengths [a] and [b]. Used by [layer], layers.py:151-172. *)
Definition broadcast (a b : nat) : option nat :=
  if a =? b then Some a else if a =? 1 then Some b else if b =? 1 then Some a else None.
(** z_min or z_max: not given, a number, or a vector. Used by [layer], layers.py:171-172. *)
Inductive bound := Unset | Scalar | Vector (n : nat).
(** [z op bound], layers.py:172; a bound that is not given is None. *)
Definition with_bound (z : nat) (b : bound) : option nat :=
  match b with Unset => None | Scalar => Some z | Vector n => broadcast z n end.
(** layers.py:172: sigmoid(z) * (z_max - z_min) + z_min. A difference of bounds has the length of a vector among them. *)
Definition bounded (z : nat) (z_min z_max : bound) : option nat :=
  let diff := match z_min, z_max with
              | Unset, _ | _, Unset => None
              | Scalar, b => Some b | b, Scalar => Some b
              | Vector m, Vector n => option_map Vector (broadcast m n) end in
  match diff with
  | None => None
  | Some d => match with_bound z d with None => None | Some l => with_bound l z_min end
  end.

(** The activations that set_arch chooses from: PICNN_module's defaults (relu, identity) or sigmoid, ICNN.py:123-124, 501-502. *)
Inductive activation := Relu | Identity | Sigmoid | Softplus.
(** The fields of PICNN_module and of PartiallyIQCNN_module, ICNN.py:117-131, 231-244. *)
Record module := Module { m_layers : nat; m_x : nat; m_y : nat; m_out : nat; m_latent : option nat;
  m_act : activation; m_rec : activation; m_augment : bool; m_layer_norm : bool; m_prob : bool; m_structured : bool;
  m_min : bound; m_max : bound }.

(** layers.py:145-173: the length of [z] after a layer, from those of the controls and of [z]. The kernels of the dense
    layers adapt to their inputs; [u] only meets dense layers. *)
Definition layer (m : module) (features_out features_latent : nat) (prediction : bool) (y z : nat) : option nat :=
  let y := if m_augment m then y + y else y in
  match broadcast z features_latent, broadcast y (m_y m) with
  | Some _, Some _ =>
      if prediction then match m_min m with Unset => Some features_out | _ => bounded features_out (m_min m) (m_max m) end
      else Some features_out
  | _, _ => None
  end.
(** A loop over the layers; [hidden] and [out] are the widths of the layers but the last, and of the last. ICNN.py:136-146, 151-160. *)
Fixpoint layers (m : module) (n : nat) (hidden out latent : nat) (y z : nat) : option nat :=
  match n with
  | 0 => Some z
  | 1 => layer m out latent true y z
  | S n' => match layer m hidden latent false y z with None => None | Some z' => layers m n' hidden out latent y z' end
  end.
(** ICNN.py:133-164: the length of the output. jnp.ones(None) raises. *)
Definition call (m : module) (y : nat) : option nat :=
  match m_latent m with
  | None => None
  | Some l =>
      match layers m (m_layers m) l (m_out m) l y l with
      | None => None
      | Some z =>
          if m_prob m then
            let sigma_len := if m_structured m then 1 else m_out m in
            match layers m (m_layers m) sigma_len sigma_len l y sigma_len with
            | None => None
            | Some sigma => Some (z + sigma)
            end
          else Some z
      end
  end.
(** ICNN.py:246-267: the directional derivative has the length of the function, the feed-forward network has [m_out] outputs
    (and at least one layer, base_nn.py:106); a probabilistic network transforms the second half in place. *)
Definition call_quasi (m : module) (y : nat) : option nat :=
  match m_latent m, m_layers m with
  | None, _ | _, 0 => None
  | Some l, n => match layers m n (m_out m) (m_out m) l y (m_out m) with None => None | Some z => broadcast z (m_out m) end
  end.

(** The options of the constructors that concern the module; [vars] is the number of optimization_vars. ICNN.py:288-321. *)
Record settings := Settings { n_hidden_x : nat; n_out : nat; n_latent : option nat; n_layers : nat; vars : nat;
  augment : bool; layer_norm : bool; prob : bool; z_min : bound; z_max : bound; n_hidden_y : nat }.
(** ICNN.py:298-314 *)
Definition construct (x out : nat) (latent : option nat) (nl vars : nat) (aug ln pr : bool) (lo hi : bound) : settings :=
  Settings x out latent nl vars aug ln pr lo hi (if aug then 2 * vars else vars).
(** The networks, ICNN.py:273-650. *)
Inductive network := Convex | QuasiConvex | SigmoidConvex | RecStable | Structured.
(** set_arch, ICNN.py:323-330 (PICNN), 459-466 (PIQCNN), 495-503 (PIQCNNSigmoid), 527-534 (RecStablePICNN),
    565-573 (StructuredPICNN). *)
Definition set_arch (k : network) (s : settings) : module :=
  match k with
  | Convex => Module (n_layers s) (n_hidden_x s) (n_hidden_y s) (n_out s) (n_latent s) Relu Identity (augment s) false (prob s) false (z_min s) (z_max s)
  | QuasiConvex => Module (n_layers s) (n_hidden_x s) (n_hidden_y s) (n_out s) (n_latent s) Softplus Identity (augment s) false (prob s) false (z_min s) (z_max s)
  | SigmoidConvex => Module (n_layers s) (n_hidden_x s) (n_hidden_y s) (n_out s) (n_latent s) Sigmoid Sigmoid (augment s) false (prob s) false (z_min s) (z_max s)
  | RecStable => Module (n_layers s) (n_hidden_x s) (n_hidden_y s) (n_out s) (n_latent s) Relu Identity false false (prob s) false (z_min s) (z_max s)
  | Structured => Module (n_layers s) (n_hidden_x s) (n_hidden_y s) (n_out s) (n_latent s) Sigmoid Sigmoid (augment s) false (prob s) true (z_min s) (z_max s)
  end.
(** The length of the network's output for one row: set_arch and model.apply(pars, x, y), ICNN.py:19-20. *)
Definition outputs (k : network) (s : settings) : option nat :=
  match k with QuasiConvex => call_quasi (set_arch k s) (vars s) | _ => call (set_arch k s) (vars s) end.
(** set_params(augment_ctrl_inputs=b), base_nn.py:309-311: the attribute is set and set_arch runs; n_hidden_y is an attribute
    computed by the constructor. *)
Definition set_augment (b : bool) (s : settings) : settings :=
  Settings (n_hidden_x s) (n_out s) (n_latent s) (n_layers s) (vars s) b (layer_norm s) (prob s) (z_min s) (z_max s) (n_hidden_y s).
(** set_params(layer_normalization=b), base_nn.py:309-311. *)
Definition set_layer_norm (b : bool) (s : settings) : settings :=
  Settings (n_hidden_x s) (n_out s) (n_latent s) (n_layers s) (vars s) (augment s) b (prob s) (z_min s) (z_max s) (n_hidden_y s).

(** The options of LatentStructuredPICNN beyond those of PICNN, ICNN.py:665-672. *)
Record latent_settings := LatentSettings { base : settings; n_embeddings : nat; n_encoder : nat; n_decoder : nat }.
(** ICNN.py:190, 196-199: the encoder, the decoder and the predictor, from set_arch 679-686 (n_control = vars). *)
Definition encoder (s : latent_settings) : module :=
  let b := base s in
  Module (n_encoder s) (n_hidden_x b) (n_hidden_y b) (n_embeddings s)
    (Some (match n_latent b with Some l => l | None => n_embeddings s end)) Relu Identity (augment b) false (prob b) false (z_min b) (z_max b).
(** ICNN.py:191, 195, 201-204 *)
Definition decoder (s : latent_settings) : module :=
  let b := base s in
  Module (n_decoder s) (n_hidden_x b) (if augment b then n_embeddings s * 2 else n_embeddings s) (vars b)
    (Some (match n_latent b with Some l => l | None => vars b end)) Relu Relu (augment b) false (prob b) false (z_min b) (z_max b).
(** ICNN.py:192, 195, 207-210 *)
Definition predictor (s : latent_settings) : module :=
  let b := base s in
  Module (n_layers b) (n_hidden_x b) (if augment b then n_embeddings s * 2 else n_embeddings s) (n_out b)
    (Some (match n_latent b with Some l => l | None => n_out b end)) Relu Identity (augment b) false (prob b) false (z_min b) (z_max b).
(** ICNN.py:212-219: the lengths of the forecasts, of the embedding and of the reconstructed controls. *)
Definition call_latent (s : latent_settings) : option (nat * nat * nat) :=
  match call (encoder s) (vars (base s)) with
  | None => None
  | Some e => match call (predictor s) e, call (decoder s) e with
              | Some z, Some c => Some (z, e, c)
              | _, _ => None
              end
  end.

Local Open Scope R_scope.
(** One output of the last layer, layers.py:171-173. *)
Definition squash (lo hi : option R) (z : R) : option R :=
  match lo, hi with
  | None, _ => Some z
  | Some _, None => None
  | Some a, Some b => Some (sigmoid z * (b - a) + a)
  end.
(** One forecast of a network that is not probabilistic, base_nn.py:466-482: [sc] is the scaler of the target, used if
    [normalize] (normalize_target, true by default). *)
Definition forecast (normalize : bool) (sc : R * R) (lo hi : option R) (z : R) : option R :=
  option_map (fun v => if normalize then inverse sc v else v) (squash lo hi z).
