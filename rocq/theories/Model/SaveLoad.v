(** Model of saving and loading neural forecasters (neural_models/base_nn.py:222-319) and of copying the stateful
    forecasters (fast_adaptive_models.py:256-260, 415-419, 583-587). An object is the dictionary of what [getattr]
    returns for its attributes. [None] = an exception. *)
From Coq Require Import String List Arith Bool.
From Verif Require Import Model.Names Model.Encoder Model.Quantiles.
Import ListNotations.

(** Class-level attributes that are neither callable nor private, by class (264-275): base_nn.py:194-221, 526-528,
    ICNN.py:274-287, 543-546 and 651-656, INN.py:114-120. Inherited names are included. The runtime objects are not
    class-level. [online_tree_reduction], a property of ScenarioGenerator, and the private names of scikit-learn's
    BaseEstimator are left out. *)
Inductive kind := Dense_ | FeedForward | Lstm_ | Convex | Latent | Causal.
(** Used by [class_names], base_nn.py:277-307. *)
Definition base_names : list text := map txt ["input_scaler"; "target_scaler"; "learning_rate"; "batch_size"; "load_path";
  "n_out"; "n_layers"; "n_hidden_x"; "pars"; "n_epochs"; "savepath_tr_plots"; "stats_step"; "rel_tol";
  "unnormalized_inputs"; "to_be_normalized"; "target_columns"; "iterate"; "normalize_target"; "stopping_rounds";
  "subtract_mean_when_normalizing"; "causal_df"; "reproject"; "rec_stable"; "monotone"; "probabilistic";
  "probabilistic_loss_kind"; "val_ratio"; "nodes_at_step"]%string.
(** Used by [class_names], base_nn.py:277-307. *)
Definition convex_names : list text := map txt ["inverter_learning_rate"; "n_hidden_y"; "optimization_vars"; "init_type";
  "augment_ctrl_inputs"; "layer_normalization"; "distribution"; "z_min"; "z_max"; "n_latent"; "inverter_class"]%string.
(** Used by [save], base_nn.py:277-307. *)
Definition class_names (k : kind) : list text :=
  base_names ++ match k with
  | Dense_ | Lstm_ => []
  | FeedForward => map txt ["split_heads"; "selector"; "skip_connection"]%string
  | Convex => convex_names
  | Latent => convex_names ++ map txt ["objective_fun"; "encoder_neurons"; "decoder_neurons"; "n_embeddings"]%string
  | Causal => map txt ["distribution"; "end_to_end"; "n_prediction_layers"; "n_hidden_y"; "names_exogenous";
                       "n_exogenous"; "scaling_factor"]%string
  end.
(** base_nn.py:281-290 *)
Definition runtime : list text := map txt ["optimizer"; "inverter_optimizer"; "model"; "loss_fn"; "train_step";
  "predict_batch"; "predict_batch_training"]%string.
(** The attributes [predict] depends on: 466-522 and [set_arch], which rebuilds the network from attributes (329-336,
    538-545, 553-560; ICNN.py:323-341, 352-367, 679-691; INN.py:143-165, 190-224). *)
Definition read_by_predict (k : kind) : list text :=
  map txt ["pars"; "input_scaler"; "target_scaler"; "unnormalized_inputs"; "target_columns"; "normalize_target";
           "probabilistic"; "n_layers"; "n_hidden_x"; "n_out"]%string ++
  match k with
  | Dense_ | Lstm_ => []
  | FeedForward => map txt ["split_heads"; "selector"; "skip_connection"]%string
  | Convex => map txt ["n_hidden_y"; "optimization_vars"; "n_latent"; "init_type"; "augment_ctrl_inputs"; "z_min"; "z_max"]%string
  | Latent => map txt ["n_hidden_y"; "optimization_vars"; "n_latent"; "init_type"; "augment_ctrl_inputs"; "z_min"; "z_max";
                       "n_embeddings"; "n_encoder_layers"; "n_decoder_layers"]%string
  | Causal => map txt ["end_to_end"; "n_prediction_layers"; "n_hidden_y"; "names_exogenous"; "n_exogenous"; "scaling_factor"]%string
  end.

Section Objects.
Context {V D O : Type}.
(** A value: [err_distr] is a dictionary by hour, [bool]s are tests of line base_nn.py:490. *)
Inductive value := Val (v : V) | Flag (b : bool) | ByHour (t : list (nat * D)).
(** Used by [save], base_nn.py:277-307. *)
Definition object := list (text * value).
Context (picklable : value -> bool).
(** base_nn.py:277-307: one entry per class-level name that is not a runtime object and can be pickled. *)
Definition save (k : kind) (o : object) : object :=
  flat_map (fun n => match lookup n o with
    | Some v => if negb (member runtime n) && picklable v then [(n, v)] else []
    | None => [] end) (class_names k).
(** base_nn.py:313-319: assigning attributes one by one; the last assignment of a name wins. *)
Definition set_attr (o d : object) : object := rev d ++ o.
(** 230-255: [args] are the attributes the constructor sets from its arguments; the error distribution starts empty
    (forecaster.py:74). *)
Definition construct (args : object) : object := (txt "err_distr", ByHour []) :: args.
(** With [construct], forecaster.py:74. *)
Definition restore (args saved : object) : object := set_attr (construct args) saved.
(** base_nn.py:466-485 with the network rebuilt by [set_arch]: [f] stands for the network, the scaling and the inputs. *)
Definition predict (k : kind) (f : list (option value) -> O) (o : object) : O :=
  f (map (fun n => lookup n o) (read_by_predict k)).
(** Used by [quantiles], base_nn.py:487-506. *)
Fixpoint at_hour (h : nat) (t : list (nat * D)) : option D :=
  match t with [] => None | (h', d) :: t' => if h =? h' then Some d else at_hour h t' end.
(** base_nn.py:487-506: the quantiles of one row are computed from its prediction and [gauss], or from the empirical errors at
    the hour of the row. *)
Definition quantiles {Q} (k : kind) (f : list (option value) -> O) (gauss : O -> option value -> Q) (add : O -> D -> Q)
    (hours : list nat) (o : object) : option (list Q) :=
  match lookup (txt "probabilistic") o with
  | Some (Flag true) => Some (map (fun _ => gauss (predict k f o) (lookup (txt "q_vect") o)) hours)
  | _ => all_some (map (fun h => match lookup (txt "err_distr") o with
           | Some (ByHour t) => option_map (add (predict k f o)) (at_hour h t)
           | _ => None end) hours)
  end.
End Objects.
Arguments value : clear implicits.
Arguments object : clear implicits.

(** fast_adaptive_models.py: [__getstate__] gives [self.states]; [__setstate__] updates [self.states] in place. *)
Section States.
Context {S : Type}.
(** fast_adaptive_models.py:256-260. *)
Inductive attribute := Other | States (s : list (text * S)).
(** fast_adaptive_models.py:256-260. *)
Definition instance := list (text * attribute).
(** fast_adaptive_models.py:256-257. *)
Definition getstate (o : instance) : option (list (text * S)) :=
  match lookup (txt "states") o with Some (States s) => Some s | _ => None end.
(** fast_adaptive_models.py:259-260. *)
Definition setstate (o : instance) (new : list (text * S)) : option instance :=
  match lookup (txt "states") o with
  | Some (States s) => Some ((txt "states", States (rev new ++ s)) :: o)
  | _ => None                                        (* AttributeError *)
  end.
(** [pickle.loads(pickle.dumps(o))] and [copy.deepcopy(o)]: a blank instance, then [__setstate__].
    fast_adaptive_models.py:256-260. *)
Definition copied (o : instance) : option instance :=
  match getstate o with Some s => setstate [] s | None => None end.
End States.
Arguments attribute : clear implicits.
Arguments instance : clear implicits.
