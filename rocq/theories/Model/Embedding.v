(** Model of the losses and of the default forecasts of CausalInvertibleNN (neural_models/INN.py:17-50, 113-166, 178-231) for
    batches of rows, and of its constructor. Exact arithmetic; [None] is a value that is not a finite number, or an
    exception. *)
From Coq Require Import String Reals List Arith Bool.
From Verif Require Import Model.Subsample Model.Quantiles Model.Losses Model.Invertible Model.FkConfig.
Import ListNotations.
Local Open Scope R_scope.

(** INN.py:17-21: the loss of end_to_end='none'; [targets] is an argument of the function. *)
Definition default_loss (width : nat) (model : list R -> list R) (inputs targets : list (list R)) : R :=
  embedding_penalty (transpose width (map model inputs)).
(** jnp.roll(_, 1, axis=1), INN.py:34. *)
Definition roll (row : list R) : list R := match row with [] => [] | a :: _ => last row a :: removelast row end.
(** jnp.mean of the squares of a difference of tables, INN.py:33-36. *)
Definition mean_squares (a b : list (list R)) : R := jmean (concat (map2 (map2 (fun u v => (u - v) * (u - v))) a b)).
(** INN.py:23-36: [embedded] are the embeddings of the targets, [predicted] those forecast. *)
Definition quasi_loss (embedded predicted : list (list R)) : option R :=
  if Req_EM_T (mean_squares embedded (map roll embedded)) 0 then None
  else Some (mean_squares embedded predicted / mean_squares embedded (map roll embedded)).
(** INN.py:27-31: the embeddings of the targets, for a row without exogenous inputs. *)
Definition target_embedding (ls : list layer) (x target : list R) : list R :=
  last_of (length target) (module_predict ls (skipn (length target) x ++ target)).
(** INN.py:39-50 for a batch. *)
Definition full_batch_loss (ls : list layer) (predictor : list R -> list R) (inputs targets : list (list R)) : option R :=
  match all_some (map (fun x => decode_future ls x (predictor x)) inputs) with
  | Some hats => Some (mean_squares targets hats)
  | None => None
  end.
(** INN.py:216-224 with end_to_end='none': the embedding of the row is put in a frame with a column per target. *)
Definition default_predict (ls : list layer) (n_targets : nat) (x : list R) : option (list R) :=
  let y := module_predict ls x in if (length y =? n_targets)%nat then Some y else None.

(** ** The constructor *)
Local Open Scope string_scope.
(** The arguments used here. INN.py:121-128. *)
Record inn_args := InnArgs { in_inputs : nat; in_out : nat; in_hidden_y : nat; in_prediction_layers : nat; in_exogenous : nat; in_layers : nat }.
(** INN.py:130-141 with base_nn.py:232-252: the attributes of the object; [others] are those the base classes set. [None] =
    AssertionError. *)
Definition inn_create (others : dict) (a : inn_args) : option dict :=
  if (in_out a + in_exogenous a <=? in_inputs a)%nat then
    Some (update
      [("n_prediction_layers", VNat (in_prediction_layers a)); ("num_embedding_layers", VNat (in_hidden_y a));
       ("n_exogenous", VNat (in_exogenous a)); ("n_hidden_x", VNat (in_inputs a)); ("n_out", VNat (in_out a)); ("n_layers", VNat (in_layers a))]
      others)
  else None.
(** INN.py:114-120: the values of the class, for attributes that the object does not have. *)
Definition inn_class : dict := [("n_prediction_layers", VNat 3); ("n_hidden_y", VNat 200); ("n_exogenous", VNat 0)].
(** Reading an attribute. INN.py:143-151. *)
Definition attribute (k : string) (object : dict) : option val := match get k object with Some v => Some v | None => get k inn_class end.
(** INN.py:145-151, 87-88: sizes of the layers of the network that forecasts the embeddings. *)
Definition predictor_sizes (object : dict) : option (list nat) :=
  match attribute "n_prediction_layers" object, attribute "n_hidden_y" object, attribute "n_out" object with
  | Some (VNat (S p)), Some (VNat w), Some (VNat n) => Some (repeat w p ++ [n])%list
  | _, _, _ => None
  end.
(** base_nn.py:309-311: set_params, any number of times. *)
Definition reconfigure (object : dict) (news : list dict) : dict := fold_left set_params news object.
