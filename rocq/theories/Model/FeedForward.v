(** Model of the feed-forward network (neural_models/base_nn.py:95-146) for one row of inputs, of the scaling around it
    (base_nn.py:466-485, 508-522) and of which data the quantile forecasts of the networks accept (base_nn.py:466-522,
    561-563; INN.py:190-231). Exact arithmetic. LayerNorm is an arbitrary function per layer. *)
From Coq Require Import List ZArith Arith Bool Reals.
From Verif Require Import Model.Subsample Model.Quantiles Model.Scaling.
Import ListNotations.
Local Open Scope R_scope.

(** A dense layer: weights and bias of each output. base_nn.py:115, 121, 128-129, 144. *)
Definition layer := list (list R * R).
(** Names of the dense layers: 'dense_i', 'dense_-1', 'subnet_in_k', 'subnet_out_k'. base_nn.py:115, 121, 128-129, 144. *)
Inductive name := Hidden (i : nat) | Skip | SubIn (k : nat) | SubOut (k : nat).
(** nn.relu, base_nn.py:122, 128. *)
Definition relu (v : R) : R := Rmax v 0.
(** Scalar product, base_nn.py:121. *)
Definition dot (u v : list R) : R := fold_right Rplus 0 (map2 Rmult u v).
(** nn.Dense(features): [None] = the parameters do not have the shape of the layer. base_nn.py:115, 121, 128-129, 144. *)
Definition dense (features : nat) (p : layer) (x : list R) : option (list R) :=
  if (length p =? features)%nat && forallb (fun wb => (length (fst wb) =? length x)%nat) p
  then Some (map (fun wb => dot (fst wb) x + snd wb) p) else None.

(** The argument n_layers: a number of layers, or the sizes of the layers. base_nn.py:96. *)
Inductive depth := Count (n : nat) | Sizes (l : list nat).
(** The arguments of the network. base_nn.py:96-101. Positions in [selector] count from the end when negative. *)
Record options := Options {
  o_layers : depth; o_out : option nat; o_neurons : option nat; o_split : bool; o_selector : option (list Z); o_skip : bool }.
(** base_nn.py:104-109; [None] = an exception: no layer to overwrite, or a size that is not given. *)
Definition layer_sizes (o : options) : option (list nat) :=
  match o_layers o with
  | Sizes l => Some l
  | Count O => None
  | Count (S n) => match o_neurons o, o_out o with Some k, Some m => Some (repeat k n ++ [m]) | _, _ => None end
  end.

Section Network.
(** The parameters of the dense layers, LayerNorm of each layer (base_nn.py:123), and what jax returns for a position
    outside the inputs (base_nn.py:113). *)
Context (par : name -> layer) (norm : nat -> list R -> list R) (outside : list R -> Z -> R).

(** [x[selector]], base_nn.py:113. *)
Definition select_one (x : list R) (k : Z) : R :=
  let k' := if (k <? 0)%Z then (k + Z.of_nat (length x))%Z else k in
  if ((0 <=? k') && (k' <? Z.of_nat (length x)))%Z then nth (Z.to_nat k') x 0 else outside x k.
(** base_nn.py:111-117: what is added to the outputs; zero is a number and adds to any vector. *)
Definition shortcut (o : options) (sizes : list nat) (x : list R) : option (list R) :=
  match o_selector o with
  | Some s => Some (map (select_one x) s)
  | None =>
      if o_skip o then match sizes with [] => None | _ => dense (last sizes O) (par Skip) x end
      else Some [0]
  end.
(** base_nn.py:119-123: the layers but the last. *)
Fixpoint trunk (i : nat) (sizes : list nat) (x : list R) : option (list R) :=
  match sizes with
  | n :: rest =>
      match rest with
      | [] => Some x
      | _ => match dense n (par (Hidden i)) x with Some h => trunk (S i) rest (norm i (map relu h)) | None => None end
      end
  | [] => Some x
  end.
(** base_nn.py:128-129: one of the heads; [width] is layers[max(-2, -len)]. *)
Definition head (width : nat) (x : list R) (k : nat) : option R :=
  match dense width (par (SubIn k)) x with
  | Some h => match dense 1 (par (SubOut k)) (map relu h) with Some [v] => Some v | _ => None end
  | None => None
  end.
(** The last but one of the sizes, or the only one. base_nn.py:128. *)
Definition head_width (sizes : list nat) : nat := match rev sizes with _ :: n :: _ => n | [n] => n | [] => O end.
(** base_nn.py:125-144: the last layer; hstack of no heads raises. *)
Definition last_layer (o : options) (sizes : list nat) (x : list R) : option (list R) :=
  if o_split o then
    match (match o_out o with Some n => n | None => last sizes O end) with
    | O => None
    | S n => all_some (map (head (head_width sizes) x) (seq 0 (S n)))
    end
  else dense (last sizes O) (par (Hidden (length sizes - 1))) x.
(** [x + y]: equal lengths, or one of them of length one. base_nn.py:146. *)
Definition add (a b : list R) : option (list R) :=
  if (length a =? length b)%nat then Some (map2 Rplus a b)
  else match a, b with
       | _, [y] => Some (map (fun v => v + y) a)
       | [v], _ => Some (map (fun y => v + y) b)
       | _, _ => None
       end.
(** base_nn.py:102-146. Without any layer the inputs are the outputs. *)
Definition forward (o : options) (x : list R) : option (list R) :=
  match layer_sizes o with
  | None => None
  | Some sizes =>
      match shortcut o sizes x with
      | None => None
      | Some y =>
          match sizes with
          | [] => add x y
          | _ =>
              match trunk O sizes x with
              | None => None
              | Some h => match last_layer o sizes h with Some z => add z y | None => None end
              end
          end
      end
  end.
(** NN.predict (base_nn.py:466-485) for a network that is not probabilistic: scalers of the inputs and of the targets, with
    normalize_target; one row. *)
Definition predict_row (sx : list (R * R)) (sy : option (list (R * R))) (o : options) (row : list R) : option (list R) :=
  match forward o (transform_row sx row) with
  | None => None
  | Some z => Some (match sy with Some s => inverse_row s z | None => z end)
  end.
End Network.

(** ** Data accepted by the quantile forecasts *)
(** A frame, a table of numbers, the same with a third axis, or a pair of tables. base_nn.py:487-506. *)
Inductive data := Frame | Table | Cube | Pair.
(** The networks by what they do with their inputs: NN and FFNN, LSTMNN, PICNN and its variants but the structured ones,
    CausalInvertibleNN. base_nn.py:337-338, 561-563; ICNN.py:352-367; INN.py:190-231. *)
Inductive kind := Dense | Recurrent | Convex | Invertible.
(** check_inputs, base_nn.py:337-338, 561-563: np.atleast_3d turns anything into an array. *)
Definition check_inputs (k : kind) (d : data) : data := match k with Recurrent => Cube | _ => d end.
(** [predict] reads .columns, .values and .index of its argument: it raises for an array. base_nn.py:466-467, 482-485,
    508-522. *)
Definition predicts (d : data) : bool := match d with Frame => true | _ => false end.
(** The compiled network takes arrays: a table for dense networks, a third axis for recurrent ones, and a pair of tables
    for convex ones. base_nn.py:493-495, ICNN.py:19-20. *)
Definition batches (k : kind) (d : data) : bool :=
  match k, d with Dense, Table => true | Recurrent, Cube => true | Convex, Pair => true | _, _ => false end.
(** predict_quantiles: whether it returns. base_nn.py:487-506; INN.py:226-231 has no check and ignores the options. *)
Definition quantiles_return (k : kind) (probabilistic normalize : bool) (d : data) : bool :=
  match k with
  | Invertible => predicts d
  | _ =>
      let d' := check_inputs k d in
      if probabilistic then (if normalize then predicts d' else batches k d') else predicts d'
  end.
