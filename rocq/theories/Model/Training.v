(** Model of neural_models/base_nn.py 341-440 (NN.fit): mini-batches, early stopping and the parameters kept. *)
From Coq Require Import Reals List Arith Bool.
From Verif Require Import Model.Stats Model.HoltWinters.
Import ListNotations.

(** base_nn.py:360-361: [None] = ZeroDivisionError. *)
Definition batch_len (given : option nat) (n : nat) : nat := match given with Some b => b | None => n / 10 end.
(** Used by [epoch_batches], base_nn.py:382-387. *)
Definition num_batches (given : option nat) (n : nat) : option nat := match batch_len given n with O => None | b => Some (n / b)%nat end.
(** base_nn.py:382-387: [perm] is the draw without replacement of all training rows. *)
Definition epoch_batches (given : option nat) (perm : list nat) : option (list (list nat)) :=
  option_map (fun nb => map (fun i => firstn (batch_len given (length perm)) (skipn (i * batch_len given (length perm)) perm)) (seq 0 nb)) (num_batches given (length perm)).

Section Loop.
Context {P O : Type}.
(** [step pars opt rows]: one optimiser step followed by the reprojection (389-391). [loss k pars]: the validation loss
    at iteration [k], whatever validation rows were drawn (397-400); [None] = NaN. *)
Context (step : P -> O -> list nat -> P * O) (loss : nat -> P -> num).
Context (stats_step rounds : nat) (tol : R).

(** [kept] is [self.pars], [old] is [old_pars]. [evals] holds the evaluations, newest first: [val_loss] without its
    leading infinity, each beside the parameters it was computed for. Used by [loop], base_nn.py:383-434. *)
Record state := State { pars : P; opt : O; kept : option P; old : option P; iter : nat; evals : list (P * num) }.
(** [a / |d| < tol] with numpy's division by zero. Used by [stop], base_nn.py:427-429. *)
Definition ratio_below (a d : R) : bool := if Req_EM_T d 0 then Rltb a 0 else Rltb (a / Rabs d) tol.
(** [np.min] fails to match any entry when a loss is NaN (base_nn.py:428: IndexError, [None]); otherwise the distance to the last minimum. *)
Fixpoint reals (l : list num) : option (list R) :=
  match l with [] => Some [] | None :: _ => None | Some x :: l' => option_map (cons x) (reals l') end.
(** Used by [stop], base_nn.py:427-429. *)
Fixpoint since_best (l : list R) : nat := match l with [] => 0 | x :: l' => if forallb (fun y => Rleb x y) l' then 0 else S (since_best l') end.
(** base_nn.py:427-429 *)
Definition stop (k : nat) (ls : list num) : option bool :=
  match reals ls with
  | None => None
  | Some rs => match rs with
    | cur :: prev :: _ => Some (ratio_below (prev - cur) (prev + / 10 ^ 6)%R || ((rounds <? k) && (rounds <? since_best rs)))
    | _ => Some false
    end
  end.
(** base_nn.py:383-434; the flag tells whether the loop was left by [break]. *)
Fixpoint loop (bs : list (list nat)) (s : state) : option (bool * state) :=
  match bs with
  | [] => Some (false, s)
  | b :: bs' =>
    let (p, o) := step (pars s) (opt s) b in
    if (0 <? iter s) && (iter s mod stats_step =? 0) then
      let s' := State p o (Some p) (kept s) (iter s) ((p, loss (iter s) p) :: evals s) in
      if 2 <=? length (evals s') then
        match stop (iter s) (map snd (evals s')) with
        | None => None
        | Some true => Some (true, s')
        | Some false => loop bs' (State p o (Some p) (kept s) (S (iter s)) (evals s'))
        end
      else loop bs' (State p o (Some p) (kept s) (S (iter s)) (evals s'))
    else loop bs' (State p o (kept s) (old s) (S (iter s)) (evals s))
  end.
(** base_nn.py:435-438 *)
Definition chosen (s : state) : option P :=
  match map snd (evals s) with
  | Some cur :: Some prev :: _ => if Rltb prev cur then old s else Some (pars s)
  | _ => Some (pars s)
  end.
(** All epochs' batches in order. Used by [fit], base_nn.py:373-374. *)
Fixpoint all_batches (given : option nat) (perms : list (list nat)) : option (list (list nat)) :=
  match perms with
  | [] => Some []
  | p :: ps => match epoch_batches given p, all_batches given ps with Some a, Some b => Some (a ++ b) | _, _ => None end
  end.
(** [before] is [self.pars] before the call, [n] the number of training rows; [init] the fresh parameters and
    optimiser state (base_nn.py:373-374). A zero [stats_step] is a ZeroDivisionError at the first batch. *)
Definition fit (given : option nat) (n : nat) (perms : list (list nat)) (before : option P) (init : P * O) : option (bool * state) :=
  match num_batches given n, all_batches given perms with
  | Some _, Some [] => Some (false, State (fst init) (snd init) before None 0 [])
  | Some _, Some bs => if stats_step =? 0 then None else loop bs (State (fst init) (snd init) before None 0 [])
  | _, _ => None
  end.
End Loop.
Arguments State {P O}. Arguments pars {P O}. Arguments opt {P O}. Arguments kept {P O}. Arguments old {P O}. Arguments iter {P O}. Arguments evals {P O}.
