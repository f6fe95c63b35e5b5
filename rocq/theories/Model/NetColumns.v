(** Model of how the neural forecasters turn the columns of a frame into network inputs (neural_models/base_nn.py:341-346, 508-522,
    neural_models/ICNN.py:352-367, neural_models/INN.py:168-177, 179-195) for a frame of one row without repeated names. *)
From Coq Require Import Reals List Arith ZArith Bool.
From Verif Require Import Model.Names Model.Encoder Model.Quantiles Model.Optimize.
Import ListNotations.

(** The settings that matter: unnormalized_inputs and the names the scaler was fitted with. base_nn.py:207-208, 243. *)
Record net := Net { n_unnorm : option (list text); n_scaler : option (list text) }.
(** base_nn.py:342-343, 511-512 *)
Definition to_be_normalized (unnorm : option (list text)) (cols : list text) : list text :=
  match unnorm with Some u => filter (fun c => negb (member u c)) cols | None => cols end.
(** base_nn.py:341-346: without columns to normalise the old scaler, if any, stays. *)
Definition fit_scaler (n : net) (cols : list text) : net :=
  match to_be_normalized (n_unnorm n) cols with
  | [] => n
  | l => Net (n_unnorm n) (Some l)
  end.
(** The scaler refuses names other than those of its training, or in another order (scikit-learn's check of feature names).
    base_nn.py:513, ICNN.py:355. *)
Definition scaler_accepts (trained names : list text) : bool :=
  if list_eq_dec (list_eq_dec Ascii.ascii_dec) names trained then true else false.
(** base_nn.py:508-522: the values of the network, in the order of the frame. [mu] and [sd] are those of the scaler by name;
    [None] = an exception. *)
Definition base_inputs (n : net) (mu sd : text -> R) (r : row) : option (list R) :=
  match n_scaler n with
  | None => Some (map snd r)
  | Some trained =>
      let t := to_be_normalized (n_unnorm n) (map fst r) in
      if scaler_accepts trained t then Some (map snd (scaled t mu sd r)) else None
  end.
(** ICNN.py:352-359: inputs and controls; there is no test for a missing scaler. *)
Definition convex_inputs (n : net) (vars : list text) (mu sd : text -> R) (r : row) : option (list R * list R) :=
  match n_scaler n with
  | None => None
  | Some trained =>
      let t := to_be_normalized (n_unnorm n) (map fst r) in
      if scaler_accepts trained t
      then match pick (others vars r) (scaled t mu sd r), pick vars (scaled t mu sd r) with
           | Some x, Some y => Some (x, y)
           | _, _ => None
           end
      else None
  end.
(** INN.py:174-177: the exogenous columns first; a missing one raises. *)
Definition reorder (exogenous : list text) (r : row) : option row :=
  match exogenous with
  | [] => Some r
  | _ => match pick exogenous r with
         | Some v => Some (combine exogenous v ++ filter (fun e => negb (member exogenous (fst e))) r)
         | None => None
         end
  end.
(** INN.py:179-190: every input is declared unnormalised before the scaler is fitted. *)
Definition invertible_fit (n : net) (exogenous : list text) (r : row) : option net :=
  match reorder exogenous r with
  | Some r' => Some (fit_scaler (Net (Some (map fst r)) (n_scaler n)) (map fst r'))
  | None => None
  end.
(** INN.py:191-196 *)
Definition invertible_inputs (n : net) (exogenous : list text) (mu sd : text -> R) (r : row) : option (list R) :=
  match reorder exogenous r with Some r' => base_inputs n mu sd r' | None => None end.
(** INN.py:168-172: the rows of the frame ([f] inverts one row), with a new index 0, 1, .. (no scaler, see [invertible_fit]). *)
Definition invert_frame {V} (f : V -> V) (frame : list (Z * V)) : list (Z * V) :=
  combine (map Z.of_nat (seq 0 (length frame))) (map (fun e => f (snd e)) frame).
