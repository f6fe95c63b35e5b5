(** Columns of the frames passed to the neural forecasters: C184 - C186. *)
From Coq Require Import Reals String List Arith ZArith Bool Lia Lra.
From Verif Require Import Model.Names Model.Encoder Model.SaveLoad Model.Quantiles Model.Optimize Model.NetColumns Spec.NetColumnsSpec Proof.NetColumnsProof.
Import ListNotations.

(** C184 *)
Theorem C184_trained_partial :
  forall (unnorm : option (list text)) (cols : list text) (mu sd : text -> R) (r : row),
  map fst r = cols ->
  exists l, base_inputs (fit_scaler (Net unnorm None) cols) mu sd r = Some l /\ length l = length r /\
    forall i c v, nth_error r i = Some (c, v) ->
      ((match unnorm with Some u => In c u | None => False end) -> nth_error l i = Some v) /\
      ((match unnorm with Some u => ~ In c u | None => True end) -> nth_error l i = Some ((v - mu c) / sd c)%R).
Proof. exact (@trained_columns). Qed.
Print Assumptions C184_trained_partial.
Theorem C184_refused_partial :
  forall (cols : list text) (mu sd : text -> R) (r : row), cols <> [] -> map fst r <> cols ->
  base_inputs (fit_scaler (Net None None) cols) mu sd r = None.
Proof. exact (@other_columns_refused). Qed.
Print Assumptions C184_refused_partial.
Theorem C184_swapped_refuted :
  forall (u p q : list text) (a b : text) (rp rq : row) (va vb : R) (mu sd : text -> R),
  In a u -> In b u -> map fst rp = p -> map fst rq = q -> va <> vb ->
  exists l l', base_inputs (fit_scaler (Net (Some u) None) (p ++ a :: b :: q)) mu sd (rp ++ (a, va) :: (b, vb) :: rq) = Some l /\
    base_inputs (fit_scaler (Net (Some u) None) (p ++ a :: b :: q)) mu sd (rp ++ (b, vb) :: (a, va) :: rq) = Some l' /\ l <> l'.
Proof. exact (@swapped_columns). Qed.
Print Assumptions C184_swapped_refuted.
Theorem C184_stale_refuted :
  forall (names cols : list text) (mu sd : text -> R) (r : row), names <> [] -> map fst r = cols ->
  base_inputs (fit_scaler (Net (Some cols) (Some names)) cols) mu sd r = None /\
  exists l, base_inputs (fit_scaler (Net (Some cols) None) cols) mu sd r = Some l.
Proof. exact (@stale_scaler). Qed.
Print Assumptions C184_stale_refuted.
Example C184_case : let n := fit_scaler (Net (Some [txt "hour"; txt "day"]) None) [txt "load"; txt "hour"; txt "day"] in
  base_inputs n (fun _ => 1%R) (fun _ => 2%R) [(txt "load", 5%R); (txt "hour", 7%R); (txt "day", 3%R)] = Some [((5 - 1) / 2)%R; 7%R; 3%R] /\
  base_inputs n (fun _ => 1%R) (fun _ => 2%R) [(txt "load", 5%R); (txt "day", 3%R); (txt "hour", 7%R)] = Some [((5 - 1) / 2)%R; 3%R; 7%R] /\
  base_inputs n (fun _ => 1%R) (fun _ => 2%R) [(txt "hour", 5%R); (txt "day", 3%R)] = None.
Proof. repeat split. Qed.

(** C185 *)
Theorem C185_controls_partial :
  forall (n : net) (u vars : list text) (mu sd : text -> R) (r r' o : row),
  n_unnorm n = Some u -> (forall c, In c vars -> In c u) ->
  rest vars r o -> rest vars r' o ->
  (forall c, In c vars -> lookup c r = lookup c r') ->
  convex_inputs n vars mu sd r = convex_inputs n vars mu sd r'.
Proof. exact (@controls_anywhere). Qed.
Print Assumptions C185_controls_partial.
Theorem C185_unscaled_refuted :
  forall (cols vars : list text) (mu sd : text -> R) (r : row),
  convex_inputs (fit_scaler (Net (Some cols) None) cols) vars mu sd r = None.
Proof. exact (@convex_unscaled). Qed.
Print Assumptions C185_unscaled_refuted.
Example C185_case : let vars := [txt "price"] in
  rest vars [(txt "load", 5%R); (txt "price", 2%R); (txt "day", 3%R)] [(txt "load", 5%R); (txt "day", 3%R)] /\
  rest vars [(txt "price", 2%R); (txt "load", 5%R); (txt "day", 3%R)] [(txt "load", 5%R); (txt "day", 3%R)] /\
  convex_inputs (fit_scaler (Net (Some vars) None) [txt "load"; txt "price"; txt "day"]) vars (fun _ => 1%R) (fun _ => 2%R)
    [(txt "load", 5%R); (txt "price", 2%R); (txt "day", 3%R)] = Some ([((5 - 1) / 2)%R; ((3 - 1) / 2)%R], [2%R]).
Proof.
  cbv zeta. split; [|split; [|reflexivity]].
  - apply rest_keep; [intros [C|[]]; discriminate|]. apply rest_drop; [left; reflexivity|]. apply rest_keep; [intros [C|[]]; discriminate|constructor].
  - apply rest_drop; [left; reflexivity|]. apply rest_keep; [intros [C|[]]; discriminate|]. apply rest_keep; [intros [C|[]]; discriminate|constructor].
Qed.

(** C186 *)
Theorem C186_exogenous_partial :
  forall (n : net) (exogenous : list text) (mu sd : text -> R) (r r' o : row),
  exogenous <> [] ->
  rest exogenous r o -> rest exogenous r' o ->
  (forall c, In c exogenous -> lookup c r = lookup c r') ->
  invertible_inputs n exogenous mu sd r = invertible_inputs n exogenous mu sd r'.
Proof. exact (@exogenous_anywhere). Qed.
Print Assumptions C186_exogenous_partial.
Theorem C186_unscaled_partial :
  forall (exogenous : list text) (r : row) n u, 
  NoDup (map fst r) -> invertible_fit (Net u None) exogenous r = Some n -> n_scaler n = None.
Proof. exact (@invertible_unscaled). Qed.
Print Assumptions C186_unscaled_partial.
Theorem C186_order_refuted :
  forall (u : option (list text)) (a b : text) (va vb : R) (mu sd : text -> R), a <> b -> va <> vb ->
  exists n l l', invertible_fit (Net u None) [] [(a, va); (b, vb)] = Some n /\
    invertible_inputs n [] mu sd [(a, va); (b, vb)] = Some l /\ invertible_inputs n [] mu sd [(b, vb); (a, va)] = Some l' /\ l <> l'.
Proof. exact (@endogenous_order). Qed.
Print Assumptions C186_order_refuted.
Theorem C186_index_refuted :
  forall (V : Type) (f : V -> V) (frame : list (Z * V)),
  map snd (invert_frame f frame) = map (fun e => f (snd e)) frame /\
  map fst (invert_frame f frame) = map Z.of_nat (seq 0 (length frame)).
Proof. exact (@inverted_index). Qed.
Print Assumptions C186_index_refuted.
Example C186_case : reorder [txt "day"] [(txt "load", 5%R); (txt "hour", 7%R); (txt "day", 3%R)] = Some [(txt "day", 3%R); (txt "load", 5%R); (txt "hour", 7%R)] /\
  reorder [txt "week"] [(txt "load", 5%R)] = None /\ txt "load" <> txt "hour" /\
  map fst (invert_frame (fun v : R => v) [(3600%Z, 5%R); (7200%Z, 6%R)]) = [0%Z; 1%Z].
Proof. repeat split. discriminate. Qed.
