(** Model of trainer.py: get_score_key 17-21, cross_validate 23-72, optuna_objective 75-108 and the search
    (hyperpar_optimizer 111-159). Dictionaries are lists of named entries in insertion order; [None] = an exception. *)
From Coq Require Import Reals String List Arith Bool.
From Verif Require Import Model.Names Model.Encoder Model.Quantiles Model.FourierEs.
Import ListNotations.
Local Open Scope R_scope.

(** A callable, or a dictionary of callables by name. [S] is the type of scorers.
    Used by [get_score_key], trainer.py:17-21. *)
Inductive scoring (S : Type) := Single (s : S) | Several (d : list (text * S)).
Arguments Single {S}. Arguments Several {S}.
(** Used by [get_score_key], trainer.py:17-21. *)
Definition keys {A} (d : list (text * A)) : list text := map fst d.
(** Used by [get_score_key], trainer.py:17-21. *)
Definition test_ (n : text) : text := txt "test_" ++ n.
(** Used by [get_score_key], trainer.py:17-21. *)
Definition test_score : text := txt "test_score".
(** trainer.py:17-21; [None]: [list({})[0]] or an empty result dictionary. *)
Definition get_score_key {S A} (results : list (text * A)) (sc : scoring S) (given : option text) : option text :=
  let fallback := match sc with
    | Several d => match d with [] => None | (n, _) :: _ => Some (test_ n) end
    | Single _ => match rev (keys results) with [] => None | k :: _ => Some k end
    end in
  match fallback with
  | None => None
  | Some f => let f' := if member (keys results) test_score then test_score else f in
              Some (match given with Some k => k | None => f' end)
  end.
(** Used by [cv_full], trainer.py:42-48. *)
Definition mean (l : list R) : R := rsum (fun i => nth i l 0) (length l) / INR (length l).
(** [cross_validate] of scikit-learn: [run train test scorer] fits a fresh clone on the training rows of the fold and
    scores it on its test rows. Entries [fit_time], [score_time] (times taken are shown as 0), and one per scorer.
    Used by [cv_full], trainer.py:42-48. *)
Definition sklearn_cv {S F} (run : F -> S -> R) (folds : list F) (sc : scoring S) : list (text * list R) :=
  [(txt "fit_time", map (fun _ => 0) folds); (txt "score_time", map (fun _ => 0) folds)] ++
  match sc with
  | Single s => [(test_score, map (fun f => run f s) folds)]
  | Several d => map (fun e => (test_ (fst e), map (fun f => run f (snd e)) folds)) d
  end.
(** trainer.py:42-48 *)
Definition cv_full {S F} (run : F -> S -> R) (folds : list F) (sc : scoring S) (given : option text) : option R :=
  let results := sklearn_cv run folds sc in
  match get_score_key results sc given with Some k => option_map mean (lookup k results) | None => None end.
(** trainer.py:58-64: one fold; [run] is [None] when the rows cannot be selected. *)
Definition cv_random {S F} (run : F -> S -> option R) (fold : F) (sc : scoring S) (given : option text) : option R :=
  match (match sc with
         | Single s => option_map (fun v => [(test_score, [v])]) (run fold s)
         | Several d => all_some (map (fun e => option_map (fun v => (fst e, [v])) (run fold (snd e))) d)
         end) with
  | Some results => match get_score_key results sc given with Some k => option_map mean (lookup k results) | None => None end
  | None => None
  end.

(** trainer.py:59: [x.loc[idx]] for the rows of a fold: a mask over the rows or positions from scikit-learn's KFold, read as labels. *)
Inductive selector := Mask (m : list bool) | Positions (p : list nat).
(** With [selector], trainer.py:59. *)
Definition loc {L A} (label_of : nat -> option L) (eqb : L -> L -> bool) (frame : list (L * A)) (s : selector) : option (list A) :=
  match s with
  | Mask m => if (length m =? length frame)%nat then Some (map snd (map fst (filter snd (combine frame m)))) else None
  | Positions p =>
      all_some (map (fun i => match label_of i with
        | Some l => option_map snd (find (fun e => eqb l (fst e)) frame)
        | None => None end) p)
  end.
(** The rows scikit-learn's own cross validation uses for the same fold (_safe_indexing: by position). trainer.py:59. *)
Definition by_position {L A} (frame : list (L * A)) (s : selector) : option (list A) :=
  match s with
  | Mask m => if (length m =? length frame)%nat then Some (map snd (map fst (filter snd (combine frame m)))) else None
  | Positions p => all_some (map (fun i => option_map snd (nth_error frame i)) p)
  end.

(** trainer.py:94-108: unknown names are refused; [score_of] is the score of the model with the parameters set. *)
Definition objective {P} (allowed : list text) (score_of : list (text * P) -> option R) (params : list (text * P)) : option R :=
  if forallb (member allowed) (keys params) then score_of params else None.
(** trainer.py:157: [best] is the position the study reports for the values. *)
Definition search {P} (allowed : list text) (score_of : list (text * P) -> option R) (best : list R -> nat) (trials : list (list (text * P))) : option (list (text * P) * R) :=
  match all_some (map (objective allowed score_of) trials) with
  | Some values => match nth_error trials (best values), nth_error values (best values) with Some p, Some v => Some (p, v) | _, _ => None end
  | None => None
  end.
