(** Model of LatentStructuredPICNN.optimize (neural_models/ICNN.py:694-775) for a frame of one row. The networks, the
    objective and the optimiser are functions; reals instead of floats. [None] = an exception. *)
From Coq Require Import Reals List Arith Bool.
From Verif Require Import Model.Names Model.Stats Model.Optimize.
Import ListNotations.
Local Open Scope R_scope.

Section Latent.
(** States of the optimiser, controls, embeddings and forecasts. The other inputs are fixed during a call (ICNN.py:697-698). *)
Context {S C E P : Type}.
(** ICNN.py:220-228, 417-433: the three networks. *)
Context (encode : C -> E) (decode : E -> C) (pred : E -> P).
(** The user's objective, the mean square of a difference of embeddings (706), and one update of the optimiser for an objective
    (the gradient is inside, ICNN.py:727-731). *)
Context (objective : P -> C -> R) (distance : E -> E -> R) (descent : (E -> R) -> S -> E -> S * E).
(** ICNN.py:210-218 with mode 'prediction': the forecast for some controls. *)
Definition forecast (c : C) : P := pred (encode c).
(** ICNN.py:700-712. *)
Definition penalised (weight : R) (e : E) : R := objective (pred e) (decode e) + weight * distance (encode (decode e)) e.
(** ICNN.py:721, 724: the embeddings before every update. *)
Fixpoint trail (step : S -> E -> S * E) (n : nat) (sy : S * E) : list E :=
  match n with O => [] | Datatypes.S n' => snd sy :: trail step n' (step (fst sy) (snd sy)) end.
(** ICNN.py:720-733: ten updates; the embedding, the value before the last of them, the history and the multiplier, which is
    returned as it came (its update is commented out, 726). *)
Definition latent_iterate (s0 : S) (e : E) (lagrangian : R) : E * R * list E * R :=
  let step := descent (penalised lagrangian) in
  let '(e', v) := iterate step (penalised lagrangian) s0 e in (e', v, trail step 10 (s0, e), lagrangian).
(** ICNN.py:748-759: the rounds; the histories of a round are kept only if the loop goes on. *)
Fixpoint latent_rounds (n : nat) (rel_tol : R) (s0 : S) (lagrangian : R) (e : E) (old : R) (history : list E) (done : nat) (last : option R)
  : option (E * R * nat * list E) :=
  match n with
  | O => match last with Some v => Some (e, v, done, history) | None => None end
  | Datatypes.S n' =>
      let '(e', v, h, l) := latent_iterate s0 e lagrangian in
      if Rltb (rel_improvement old v) rel_tol then Some (e', v, Datatypes.S done, history)
      else latent_rounds n' rel_tol s0 l e' v (history ++ h) (Datatypes.S done) (Some v)
  end.
(** ICNN.py:736-763: the final embedding, the value, the number of rounds and the recorded embeddings (ctrl_history); sol_history are
    their forecasts (745, 759). *)
Definition latent_minimise (init : E -> S) (n_iter : nat) (rel_tol : R) (c : C) : option (E * R * nat * list E) :=
  let e0 := encode c in
  let s0 := init e0 in
  let '(e1, v1, h1, _) := latent_iterate s0 e0 0 in
  latent_rounds (n_iter / 10) rel_tol s0 0 e1 v1 h1 0 None.
End Latent.

(** ICNN.py:694-775 without the histories: the controls written to the frame are the decoded ones (766, 769-775). *)
Definition latent_optimize {S E P} (normalized vars : list text) (mu sd : text -> R)
    (encode : list R -> list R -> E) (decode : list R -> E -> list R) (pred : list R -> E -> P)
    (objective : P -> list R -> R) (distance : E -> E -> R) (descent : (E -> R) -> S -> E -> S * E) (init : E -> S)
    (n_iter : nat) (rel_tol : R) (r : row) : option (list R * row * R) :=
  optimize normalized vars mu sd
    (fun x c => match latent_minimise (encode x) (decode x) (pred x) objective distance descent init n_iter rel_tol c with
                | Some (e, v, k, _) => Some (decode x e, v, k)
                | None => None
                end) r.
