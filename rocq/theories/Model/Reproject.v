(** Model of neural_models/neural_utils.py 28-47 (reproject_weights, _reproject). *)
From Coq Require Import Reals String List Arith Bool.
From Verif Require Import Model.Names Model.Encoder Model.Quantiles.
Import ListNotations.
Local Open Scope R_scope.

(** Used by [group], base_nn.py:389-391. *)
Record dense := Dense { kernel : list (list R); bias : list R }.
(** A layer holds dense maps; a module holds layers. Dictionaries are lists with distinct names.
    Used by [node], base_nn.py:389-391. *)
Definition group := list (text * dense).
(** Used by [tree], base_nn.py:389-391. *)
Inductive node := Flat (g : group) | Nested (l : list (text * group)).
(** Used by [reproject], base_nn.py:389-391. *)
Definition tree := list (text * node).

(** Used by [contains], neural_utils.py:40-47. *)
Fixpoint starts (s t : text) : bool :=
  match s, t with [], _ => true | a :: s', b :: t' => if Ascii.ascii_dec a b then starts s' t' else false | _, [] => false end.
(** [s in t] for strings. Used by [reproject_group], neural_utils.py:40-47. *)
Fixpoint contains (s t : text) : bool := starts s t || match t with [] => false | _ :: t' => contains s t' end.
(** Used by [reproject_node], neural_utils.py:28-38. *)
Definition picnn_tag : text := txt "PICNNLayer".
(** Used by [reproject_group], neural_utils.py:40-47. *)
Definition monotone_tag : text := txt "monotone".
(** Used by [reproject_group], neural_utils.py:40-47. *)
Definition k_wz : text := txt "wz".
(** Used by [reproject_group], neural_utils.py:40-47. *)
Definition k_wy : text := txt "wy".

(** [jnp.maximum(0, kernel)]. Used by [project_keys], neural_utils.py:40-47. *)
Definition project (d : dense) : dense := Dense (map (map (Rmax 0)) (kernel d)) (bias d).
(** Used by [reproject_group], neural_utils.py:40-47. *)
Definition names {A} (l : list (text * A)) : list text := map fst l.
(** Used by [reproject_group], neural_utils.py:40-47. *)
Definition project_keys (p : text -> bool) (g : group) : group := map (fun e => (fst e, if p (fst e) then project (snd e) else snd e)) g.
(** neural_utils.py:40-47; [None] = KeyError *)
Definition reproject_group (rec_stable monotone : bool) (name : text) (g : group) : option group :=
  if contains monotone_tag name || monotone then Some (project_keys (fun k => same k k_wz || same k k_wy) g)
  else if member (names g) k_wz
       then let g' := project_keys (fun k => same k k_wz) g in
            if rec_stable then (if member (names g') k_wy then Some (project_keys (fun k => same k k_wy) g') else None) else Some g'
       else None.
(** neural_utils.py:28-38 *)
Definition reproject_node (rec_stable monotone : bool) (name : text) (n : node) : option node :=
  if contains picnn_tag name then
    let mono := monotone || contains monotone_tag name in
    match n with
    | Flat g => if member (names g) k_wz then option_map Flat (reproject_group rec_stable mono name g)
                else match g with [] => Some (Flat g) | _ => None end
    | Nested l => if member (names l) k_wz then None
                  else option_map Nested (all_some (map (fun e => option_map (pair (fst e)) (reproject_group rec_stable mono (fst e) (snd e))) l))
    end
  else Some n.
(** Used by [training], base_nn.py:389-391. *)
Definition reproject (rec_stable monotone : bool) (t : tree) : option tree :=
  all_some (map (fun e => option_map (pair (fst e)) (reproject_node rec_stable monotone (fst e) (snd e))) t).
(** base_nn.py:389-391: parameters after each optimisation step; [update] is the optimiser (any function of the step). *)
Fixpoint training (rec_stable monotone : bool) (update : nat -> tree -> tree) (p : tree) (steps : nat) : option tree :=
  match steps with
  | O => Some p
  | S k => match training rec_stable monotone update p k with Some q => reproject rec_stable monotone (update k q) | None => None end
  end.
