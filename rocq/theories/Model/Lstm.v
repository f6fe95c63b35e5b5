(** Model of neural_models/LSTM_bidir.py 49-125: the samples given to the network and the frame of predictions.
    A frame is given by its index, its target column and its other columns by row. The scalers and the network are
    functions; [None] = AssertionError. *)
From Coq Require Import List Arith Bool.
Import ListNotations.

Section Lstm.
Context {T V E : Type}.
(** Used by [samples], LSTM_bidir.py:50-73. *)
Record frame := Frame { labels : list T; target : list V; exog : list E }.
(** [sliding_window_view(l, window_shape=h)]. Used by [samples], LSTM_bidir.py:50-73. *)
Definition windows {A} (h : nat) (l : list A) : list (list A) := map (fun i => firstn h (skipn i l)) (seq 0 (length l + 1 - h)).
(** LSTM_bidir.py:50-73: one sample is (window, exogenous row, targets). *)
Definition samples (h p : nat) (sv : V -> V) (se : E -> E) (f : frame) : option (list (list V * E * list V)) :=
  let n := length (labels f) in
  if h + p <=? n then
    let t := map sv (target f) in
    let total := n - h - p + 1 in
    let x_seq := firstn total (windows h t) in
    let x_exog := firstn (n - p - (h - 1)) (skipn (h - 1) (map se (exog f))) in
    let y := map (fun i => firstn p (skipn (i + h) t)) (seq 0 total) in
    Some (combine (combine x_seq x_exog) y)
  else None.
(** LSTM_bidir.py:76-79: [split] is [int((1 - val_split) * total)]. *)
Definition train_part {A} (split : nat) (l : list A) : list A := firstn split l.
(** With [train_part], LSTM_bidir.py:76-79. *)
Definition val_part {A} (split : nat) (l : list A) : list A := skipn split l.
(** LSTM_bidir.py:102-125: rows of (label, forecasts); [model] is the fitted network on one sample. *)
Definition predict (h : nat) (sv uv : V -> V) (se : E -> E) (model : list V * E -> list V) (f : frame) : option (list (T * list V)) :=
  let n := length (labels f) in
  if h <=? n then
    let total := n - h in
    let x_seq := firstn total (windows h (map sv (target f))) in
    let x_exog := skipn (h - 1) (map se (exog f)) in
    Some (combine (skipn h (labels f)) (map (fun s => map uv (model s)) (combine x_seq (firstn total x_exog))))
  else None.
End Lstm.
Arguments frame : clear implicits.
