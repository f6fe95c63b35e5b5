(** Model of the scenarios of reconciled forecasts (reconciliation/reconciliation.py). A row
    (all series and steps) is a value of type [V]. *)
From Coq Require Import List Arith Bool.
Import ListNotations.

Section Scen.
Context {V : Type} (add : V -> V -> V).
(** Selection of rows by a boolean mask; [None] = IndexError, lengths differ.
    Used by [hour_scenarios], reconciliation.py:253-265. *)
Fixpoint masked {A} (mask : list bool) (l : list A) : option (list A) :=
  match mask, l with
  | [], [] => Some []
  | b :: mask', a :: l' => option_map (fun r => if b then a :: r else r) (masked mask' l')
  | _, _ => None
  end.
(** reconciliation.py:253-265: the hours of the rows of training errors select both the
    forecasts and the errors. [draw h s j] = the row drawn for scenario [s] and the [j]-th
    forecast of hour [h]. Rows come with their position in the forecast; sorting by time is
    omitted. *)
Definition hour_scenarios (train_hours : list nat) (errs y : list V) (n_scen : nat) (draw : nat -> nat -> nat -> nat) (d : V) (h : nat)
  : option (list (nat * list V)) :=
  let mask := map (Nat.eqb h) train_hours in
  match masked mask (combine (seq 0 (length y)) y), masked mask errs with
  | Some yh, Some eh =>
      Some (map (fun p => (fst (snd p), map (fun s => add (snd (snd p)) (nth (draw h s (fst p)) eh d)) (seq 0 n_scen)))
             (combine (seq 0 (length yh)) yh))
  | _, _ => None
  end.
(** reconciliation.py:252-267, all hours of the day in turn. [None] also: no scenario is requested (259, the ValueError of
    concatenating nothing). *)
Definition predict_scenarios (train_hours : list nat) (errs y : list V) (n_scen : nat) (draw : nat -> nat -> nat -> nat) (d : V)
  : option (list (nat * list V)) :=
  if n_scen =? 0 then None else
  fold_right (fun h acc => match hour_scenarios train_hours errs y n_scen draw d h, acc with Some a, Some b => Some (a ++ b) | _, _ => None end)
    (Some []) (seq 0 24).
End Scen.

Section Draws.
Context {V : Type} (add : V -> V -> V).
(** [method] of get_scenarios. Used by [get_scenarios], reconciliation.py:352-371. *)
Inductive draw_method := Unconditional | Conditional | OtherMethod.
(** What get_scenarios returns: an array, by row of the forecasts and scenario, or the number 0.
    Used by [get_scenarios], reconciliation.py:366-371. *)
Inductive drawn := Rows (rows : list (list V)) | ZeroNumber.
(** reconciliation.py:358-361: the errors of an hour. *)
Definition errors_at (h : nat) (train_hours : list nat) (errs : list V) : list V :=
  map snd (filter (fun p => Nat.eqb h (fst p)) (combine train_hours errs)).
(** reconciliation.py:358-364: the position of row [i] among the rows of its hour. *)
Definition place (test_hours : list nat) (i : nat) : nat :=
  length (filter (Nat.eqb (nth i test_hours 0)) (firstn i test_hours)).
(** reconciliation.py:352-371. Hours are below 24. [draw h s j]: the error drawn for scenario [s] and the [j]-th row of
    hour [h]. [None]: no scenarios are stacked (363), no errors to draw from (364), or NotImplementedError (370). *)
Definition get_scenarios (m : draw_method) (train_hours : list nat) (errs : list V) (test_hours : list nat) (y : list V) (n_scen : nat)
    (draw : nat -> nat -> nat -> nat) (d : V) : option drawn :=
  match m with
  | Unconditional =>
      if Nat.eqb n_scen 0 || existsb (fun h => match errors_at h train_hours errs with [] => true | _ => false end) test_hours then None
      else Some (Rows (map (fun i =>
             let h := nth i test_hours 0 in
             map (fun s => add (nth i y d) (nth (draw h s (place test_hours i)) (errors_at h train_hours errs) d)) (seq 0 n_scen))
             (seq 0 (length test_hours))))
  | Conditional => Some ZeroNumber
  | OtherMethod => None
  end.
End Draws.
