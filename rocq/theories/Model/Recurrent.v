(** Model of the recurrent networks: LSTMModule and LSTMNN for one row of inputs (neural_models/base_nn.py:148-188, 547-573),
    and the keras network of LSTM_Forecaster for one sample (neural_models/LSTM_bidir.py:23-47). Exact arithmetic, no
    missing values. *)
From Coq Require Import List ZArith Arith Bool Reals.
From Verif Require Import Model.Subsample Model.Scaling Model.FeedForward.
Import ListNotations.
Local Open Scope R_scope.

(** A gate of a unit: the weights of the inputs, those of the outputs of the previous time, and the bias. nn.LSTMCell,
    base_nn.py:166, and keras LSTM, LSTM_bidir.py:25. *)
Record gate := Gate { g_in : list R; g_back : list R; g_bias : R }.
(** The input, forget and output gates of a unit and its candidate value. base_nn.py:166, LSTM_bidir.py:25. *)
Record neuron := Neuron { n_input : gate; n_forget : gate; n_cand : gate; n_output : gate }.
(** The logistic function, by default the activation of the gates. base_nn.py:166, LSTM_bidir.py:25. *)
Definition sigmoid (v : R) : R := / (1 + exp (- v)).
(** The argument of the activation of a gate. base_nn.py:166, LSTM_bidir.py:25. *)
Definition drive (g : gate) (x h : list R) : R := dot (g_in g) x + (dot (g_back g) h + g_bias g).
(** Whether the weights have the shape of the inputs and of the layer. base_nn.py:166, 180. *)
Definition fits (width n : nat) (p : list neuron) : bool :=
  (length p =? n)%nat &&
  forallb (fun u => forallb (fun g => (length (g_in g) =? width)%nat && (length (g_back g) =? n)%nat)
                      [n_input u; n_forget u; n_cand u; n_output u]) p.
(** One time of one unit: the new memory and the new output. base_nn.py:166, LSTM_bidir.py:25. *)
Definition neuron_step (x h : list R) (u : neuron) (c : R) : R * R :=
  let c' := sigmoid (drive (n_forget u) x h) * c + sigmoid (drive (n_input u) x h) * tanh (drive (n_cand u) x h) in
  (c', sigmoid (drive (n_output u) x h) * tanh c').
(** nn.scan over the times: the outputs at each time. base_nn.py:165-171, 179, 185. *)
Fixpoint scan (p : list neuron) (c h : list R) (xs : list (list R)) : list (list R) :=
  match xs with
  | [] => []
  | x :: xs' => let s := map2 (neuron_step x h) p c in map snd s :: scan p (map fst s) (map snd s) xs'
  end.
(** A layer started with memory and outputs zero, which is what initialize_carry returns. [None]: the weights do not have
    the shape of the layer. base_nn.py:177-179, 183-185. *)
Definition lstm (n : nat) (p : list neuron) (xs : list (list R)) : option (list (list R)) :=
  if forallb (fun x => fits (length x) n p) xs then Some (scan p (repeat 0 n) (repeat 0 n) xs) else None.

(** The layers, the last one followed by a dense layer on its last output. [None] also: no layers (the result is not a
    table) or no times (186). base_nn.py:173-188. *)
Fixpoint layers_from (cells : nat -> list neuron) (out : layer) (i : nat) (sizes : list nat) (xs : list (list R)) : option (list R) :=
  match sizes with
  | [] => None
  | n :: rest =>
      match lstm n (cells i) xs with
      | None => None
      | Some hs =>
          match rest with
          | [] => match rev hs with [] => None | h :: _ => dense n out h end
          | _ => layers_from cells out (S i) rest hs
          end
      end
  end.
(** base_nn.py:155-162: the sizes of the layers, as in the feed-forward network. *)
Definition recurrent_sizes (d : depth) (neurons out : option nat) : option (list nat) :=
  layer_sizes (Options d out neurons false None false).
(** np.atleast_3d and vmap: the times of a row are its columns, with one value each. base_nn.py:561-563, 539. *)
Definition as_times (row : list R) : list (list R) := map (fun v => [v]) row.
(** LSTMNN.predict for one row, base_nn.py:466-485, 553-563, not probabilistic. *)
Definition predict_row (cells : nat -> list neuron) (out : layer) (d : depth) (neurons n_out : option nat)
    (sx : list (R * R)) (sy : option (list (R * R))) (row : list R) : option (list R) :=
  match recurrent_sizes d neurons n_out with
  | None => None
  | Some sizes =>
      match layers_from cells out O sizes (as_times (transform_row sx row)) with
      | None => None
      | Some z => Some (match sy with Some s => inverse_row s z | None => z end)
      end
  end.

(** The parameters of the keras network. LSTM_bidir.py:24-39. *)
Record keras := Keras { k_forth : list neuron; k_back : list neuron; k_hidden1 : layer; k_hidden2 : layer; k_seq : layer; k_exog : layer }.
(** LSTM_bidir.py:25: the last output reading forwards, then the one reading backwards. *)
Definition both_ways (n : nat) (k : keras) (window : list R) : option (list R) :=
  match lstm n (k_forth k) (as_times window), lstm n (k_back k) (as_times (rev window)) with
  | Some a, Some b => Some (last a (repeat 0 n) ++ last b (repeat 0 n))
  | _, _ => None
  end.
(** LSTM_bidir.py:28-30: the two dense layers of the other columns. *)
Definition dense_path (k : keras) (e : list R) : option (list R) :=
  match dense 64 (k_hidden1 k) e with
  | Some a => match dense 32 (k_hidden2 k) (map relu a) with Some b => Some (map relu b) | None => None end
  | None => None
  end.
(** LSTM_bidir.py:23-41: the layer [merged] (33) is not an input of the outputs. [history] is lstm_history. *)
Definition network (history horizon : nat) (k : keras) (s : list R * list R) : option (list R) :=
  if (length (fst s) =? history)%nat then
    match both_ways 64 k (fst s), dense_path k (snd s) with
    | Some a, Some b =>
        match dense horizon (k_seq k) a, dense horizon (k_exog k) b with
        | Some u, Some v => Some (map2 Rplus u v)
        | _, _ => None
        end
    | _, _ => None
    end
  else None.
