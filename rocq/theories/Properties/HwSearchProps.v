(** Holt-Winters: re-initialising the states, and the random search of its parameters: C199, C200. *)
From Coq Require Import List Arith Bool Reals Lia Lra.
From Verif Require Import Model.HoltWinters Model.HwSearch Spec.HoltWintersSpec Spec.HwSearchSpec Proof.HoltWintersProof Proof.HoltWintersProof2 Proof.HwSearchProof Proof.HwSearchProof2.
Import ListNotations.
Local Open Scope R_scope.

(** C199 *)
Theorem C199_forecasts_partial :
  forall (p : params) (s : state) (d : R) (ys zs : list num), well_formed p -> unconstrained p -> healthy p s -> all_numbers ys -> all_numbers zs ->
  fst (predict p (reinit p (Some s) ys) zs None) = fst (predict p (reinit p (Some (moved d s)) ys) zs None) /\
  fst (predict p (Some s) zs None) = fst (predict p (Some (moved d s)) zs None).
Proof. exact (@moved_same_forecasts). Qed.
Print Assumptions C199_forecasts_partial.
Theorem C199_state_refuted :
  forall (p : params) (s : state) (d : R) (ys : list num), well_formed p -> unconstrained p -> healthy p s -> all_numbers ys -> d <> 0 ->
  exists s' s'', reinit p (Some s) ys = Some s' /\ reinit p (Some (moved d s)) ys = Some s'' /\ s'' = moved d s' /\ s'' <> s'.
Proof. exact (@reinit_keeps_past). Qed.
Print Assumptions C199_state_refuted.
Theorem C199_forecasts_refuted : exists p s s' ys zs, well_formed p /\ healthy p s /\ healthy p s' /\ all_numbers ys /\ all_numbers zs /\
  (Nat.max (period1 p) (period2 p) <= length ys)%nat /\ zs <> [] /\
  forall r r', In r (fst (predict p (reinit p (Some s) ys) zs None)) -> In r' (fst (predict p (reinit p (Some s') ys) zs None)) -> r <> r'.
Proof. exact (@reinit_past_forecasts). Qed.
Print Assumptions C199_forecasts_refuted.
(** C200 *)
Theorem C200_score :
  forall (x y : list (list R)), length x = length y -> (forall i, length (nth i x []) = length (nth i y [])) ->
  rmse (map (map Some) x) (map (map Some) y) = Some (mean_error x y).
Proof. exact (@search_rmse_correct). Qed.
Print Assumptions C200_score.
Theorem C200_least_partial :
  forall (p : params) (s : state) (ys : list num) (target : list (list R)) (ts : list (R * R * R)), well_formed p -> healthy p s -> all_numbers ys ->
  targets p ys target -> ts <> [] -> exists i t rows s', rand_search p (Some s) ys (map (map Some) target) ts = Some (t, rows, Some s') /\ nth_error ts i = Some t /\
  (forall j u, nth_error ts j = Some u -> exists v w, trial_error p (restarted (i + 2) p s ys) ys target t v /\ trial_error p (restarted (j + 2) p s ys) ys target u w /\ v <= w) /\
  run_from (tried p (beta p) t) (restarted (length ts + 1) p s ys) ys = (rows, s').
Proof. exact (@search_least_error). Qed.
Print Assumptions C200_least_partial.
Theorem C200_wrong_refuted : exists p s ys target worse better rows s', well_formed p /\ healthy p s /\ all_numbers ys /\ targets p ys target /\
  rand_search p (Some s) ys (map (map Some) target) [worse; better] = Some (worse, map (map Some) rows, Some s') /\
  (forall n, exists v w, trial_error p (restarted n p s ys) ys target better v /\ trial_error p (restarted n p s ys) ys target worse w /\ v < w) /\
  ~ trial_error p (restarted 2 p s ys) ys target worse (mean_error rows target).
Proof. exact (@search_wrong_error). Qed.
Print Assumptions C200_wrong_refuted.
Theorem C200_missing_refuted :
  forall (p : params) (st : stored) (ys : list num) (target : list (list num)) (t : R * R * R) (ts : list (R * R * R)), In None ys ->
  (0 < steps p)%nat -> length target = length ys -> Forall (fun r => length r = steps p) target ->
  exists rows s, rand_search p st ys target (t :: ts) = Some (t, rows, s).
Proof. exact (@search_missing). Qed.
Print Assumptions C200_missing_refuted.
Theorem C200_first_missing_refuted :
  forall (p : params) (s : state) (ys : list num) (target : list (list R)) (ts : list (R * R * R)) (i : nat) (t : R * R * R),
  targets p ys target -> nth_error ts i = Some t -> trial_misses p (restarted (i + 2) p s ys) ys t ->
  (forall j u, (j < i)%nat -> nth_error ts j = Some u -> ~ trial_misses p (restarted (j + 2) p s ys) ys u) ->
  exists rows s', rand_search p (Some s) ys (map (map Some) target) ts = Some (t, rows, s').
Proof. exact (@search_first_missing). Qed.
Print Assumptions C200_first_missing_refuted.
(** A model with periods 2 and 3, a state of it, and a series. *)
Definition weekly : params := Params (/ 2) (/ 10) (/ 3) (/ 4) None None 2 3 2.
Definition learnt : state := State (Some 5) (Some 1) [Some 2; Some (-2)] [Some 1; Some 0; Some (-1)].
Lemma numbers l : all_numbers (map Some l).
Proof. intros x I. apply in_map_iff in I as [v [<- _]]. now exists v. Qed.
Example C199_case : well_formed weekly /\ unconstrained weekly /\ healthy weekly learnt /\ all_numbers (map Some [4; 7; 5]) /\ moved 3 learnt <> learnt.
Proof.
  split; [split; [cbn; lia|split; [cbn; lia|discriminate]]|]. split; [split; reflexivity|]. split.
  - repeat split; try (eexists; reflexivity); [apply (numbers [2; -2])|apply (numbers [1; 0; -1])].
  - split; [apply numbers|]. intros E. injection E. intros. lra.
Qed.
Example C200_case : all_numbers (map Some [4; 7; 5]) /\ targets weekly (map Some [4; 7; 5]) [[7; 5]; [5; 6]; [6; 4]] /\ [(/ 2, / 3, / 4); (/ 5, 0, 1)] <> ([] : list trial).
Proof. split; [apply numbers|]. split; [repeat constructor|discriminate]. Qed.
Example C200_score_case : rmse (map (map Some) [[1; 2]; [4; 4]]) (map (map Some) [[1; 2]; [1; 1]]) = Some (3 / 2).
Proof.
  rewrite C200_score; [|reflexivity|intros [|[|[|i]]]; reflexivity]. f_equal. unfold mean_error, row_error. cbn [length seq map nth fold_right INR].
  replace (((1 - 1) * (1 - 1) + ((2 - 2) * (2 - 2) + 0)) / (1 + 1)) with 0 by field. replace (((4 - 1) * (4 - 1) + ((4 - 1) * (4 - 1) + 0)) / (1 + 1)) with (3 * 3) by field.
  rewrite sqrt_0, sqrt_square by lra. field.
Qed.
(** With a missing value the first of two trials is kept, whichever they are. *)
Example C200_missing_case : forall t u, exists rows s, rand_search weekly (Some learnt) [Some 4; None; Some 5] (map (map Some) [[7; 5]; [5; 6]; [6; 4]]) [t; u] = Some (t, rows, s).
Proof. intros t u. apply C200_missing_refuted; [right; left; reflexivity|cbn; lia|reflexivity|repeat constructor]. Qed.
