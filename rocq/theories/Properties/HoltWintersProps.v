(** Holt-Winters models: C39, C40, C41, C42, C86, C87, C88. *)
From Coq Require Import Reals List Arith Bool Lia Lra.
From Verif Require Import Model.HoltWinters Spec.HoltWintersSpec Proof.HoltWintersProof Proof.HoltWintersProof2 Proof.HoltWintersProof3.
Import ListNotations.
Local Open Scope R_scope.

Example healthy_case : well_formed (Params (1/2) 0 (1/4) (1/4) (Some 0) None 2 3 2) /\
  healthy (Params (1/2) 0 (1/4) (1/4) (Some 0) None 2 3 2) (State (Some 1) (Some 0) [Some 1; Some 2] [Some 0; Some 0; Some 3]).
Proof.
  split; [repeat split; cbn; try lia; discriminate|]. unfold healthy, all_numbers, number. cbn.
  repeat split; eauto; intros x H; repeat (destruct H as [<-|H]; [eauto|]); destruct H.
Qed.

(** C39 *)
Theorem C39_chunks_partial :
  forall p s ys zs, well_formed p -> healthy p s -> all_numbers ys ->
  exists s1 s2, predict p (Some s) ys None = (fst (predict p (Some s) ys None), Some s1) /\
    predict p (Some s) (ys ++ zs) None = (fst (predict p (Some s) ys None) ++ fst (predict p (Some s1) zs None), Some s2) /\
    snd (predict p (Some s1) zs None) = Some s2.
Proof. exact (@predict_chunks). Qed.
Print Assumptions C39_chunks_partial.
Theorem C39_causal_partial :
  forall p s ys zs zs', well_formed p -> healthy p s ->
  firstn (length ys) (fst (predict p (Some s) (ys ++ zs) None)) = firstn (length ys) (fst (predict p (Some s) (ys ++ zs') None)).
Proof. exact (@predict_causal). Qed.
Print Assumptions C39_causal_partial.
Theorem C39_after_missing_refuted : exists p s s' ys ys', well_formed p /\ healthy p s /\
  snd (predict p (Some s) [None] None) = Some s' /\ all_numbers ys /\ all_numbers ys' /\ length ys = length ys' /\ hd None ys = hd None ys' /\
  nth 0 (fst (predict p (Some s') ys None)) [] <> nth 0 (fst (predict p (Some s') ys' None)) [].
Proof. exact (@after_missing_not_causal). Qed.
Print Assumptions C39_after_missing_refuted.
(** C40 *)
Theorem C40_complete_series_partial :
  forall p s ys, well_formed p -> healthy p s -> all_numbers ys ->
  Forall all_numbers (fst (predict p (Some s) ys None)) /\
  (exists s', snd (predict p (Some s) ys None) = Some s' /\ healthy p s') /\ length (fst (predict p (Some s) ys None)) = length ys.
Proof. exact (@complete_series_numbers). Qed.
Print Assumptions C40_complete_series_partial.
Theorem C40_missing_poisons_refuted :
  forall p st ys zs effect,
  forall r, In r (skipn (length ys) (fst (predict p st (ys ++ None :: zs) effect))) -> forall x, In x r -> x = None.
Proof. exact (@missing_poisons). Qed.
Print Assumptions C40_missing_poisons_refuted.
Example C40_case : fst (predict (Params (1/2) 0 0 0 None None 1 1 1) (Some (State (Some 4) (Some 0) [Some 0] [Some 0])) [Some 2; None; Some 2] None)
  = [[Some 3]; [None]; [None]].
Proof. cbn. do 3 f_equal. lra. Qed.

(** C41 *)
Theorem C41_first_reaching_partial :
  forall (V : Type) n_sa (zero : V) (ms : list (nat * list V)), Forall (fun m => length (snd m) = fst m) ms ->
  increasing (map fst ms) -> Forall (fun m => (fst m <= n_sa)%nat) ms ->
  exists r, multi_row n_sa zero ms = Some r /\ length r = n_sa /\
    forall i, (i < n_sa)%nat -> nth i r zero = match first_reaching ms i with Some m => nth i (snd m) zero | None => zero end.
Proof. exact (@multi_first_reaching). Qed.
Print Assumptions C41_first_reaching_partial.
Theorem C41_errors_single_model_partial :
  forall (V : Type) n_sa q (zero : V) m, length (snd m) = fst m -> (fst m <= n_sa)%nat ->
  exists r, multi_errors n_sa q zero [m] = Some r /\ forall i, (i < fst m)%nat -> nth i r zero = nth i (snd m) zero.
Proof. exact (@multi_errors_single). Qed.
Print Assumptions C41_errors_single_model_partial.
Theorem C41_errors_unfilled_refuted :
  forall (V : Type) n_sa q (zero : V) m ms r i, Forall (fun m => length (snd m) = fst m) (m :: ms) ->
  multi_errors n_sa q zero (m :: ms) = Some r -> (fst m <= i < q)%nat -> nth i r zero = zero.
Proof. exact (@multi_errors_unfilled). Qed.
Print Assumptions C41_errors_unfilled_refuted.
Theorem C41_any_order :
  forall (V : Type) n_sa (zero : V) (ms : list (nat * list V)), Forall (fun m => length (snd m) = fst m) ms ->
  Forall (fun m => (fst m <= n_sa)%nat) ms ->
  exists r, multi_row n_sa zero ms = Some r /\ length r = n_sa /\
    forall i, nth i r zero = match last_crossing 0 ms i with Some m => nth i (snd m) zero | None => zero end.
Proof. exact (@multi_any_order). Qed.
Print Assumptions C41_any_order.
Theorem C41_unsorted_refuted :
  forall (V : Type) n_sa (zero : V) (m1 m2 m3 : nat * list V) r i,
  Forall (fun m => length (snd m) = fst m /\ (fst m <= n_sa)%nat) [m1; m2; m3] ->
  (fst m2 <= i)%nat -> (i < fst m1)%nat -> (i < fst m3)%nat -> multi_row n_sa zero [m1; m2; m3] = Some r ->
  first_reaching [m1; m2; m3] i = Some m1 /\ nth i r zero = nth i (snd m3) zero.
Proof. exact (@multi_three_unsorted). Qed.
Print Assumptions C41_unsorted_refuted.
Example C41_unsorted_case : exists (ms : list (nat * list nat)) r i m, Forall (fun m => length (snd m) = fst m) ms /\
  Forall (fun m => (fst m <= 3)%nat) ms /\ multi_row 3 0%nat ms = Some r /\ first_reaching ms i = Some m /\ (i < 3)%nat /\ nth i r 0%nat <> nth i (snd m) 0%nat.
Proof. exact multi_unsorted_refuted. Qed.
Example C41_case : let ms := [(1, [10]); (3, [30; 31; 32])]%nat in
  Forall (fun m : nat * list nat => length (snd m) = fst m) ms /\ increasing (map fst ms) /\ multi_row 3 0%nat ms = Some [10; 31; 32]%nat /\
  multi_errors 3 2 0%nat ms = Some [10; 0; 32]%nat.
Proof. cbn. split; [repeat constructor|]. repeat split; lia. Qed.

(** C42 *)
Theorem C42_seasonal_values_within :
  forall p s ys, well_formed p -> Forall (within p) (season1 s) -> Forall (within p) (season2 s) ->
  Forall (within p) (season1 (snd (run p s ys))) /\ Forall (within p) (season2 (snd (run p s ys))).
Proof. exact (@run_within). Qed.
Print Assumptions C42_seasonal_values_within.
Theorem C42_within_after_a_period :
  forall p s ys, well_formed p -> length (season1 s) = period1 p -> length (season2 s) = period2 p ->
  (period1 p <= length ys)%nat -> (period2 p <= length ys)%nat ->
  Forall (within p) (season1 (snd (run p s ys))) /\ Forall (within p) (season2 (snd (run p s ys))).
Proof. exact (@run_within_after). Qed.
Print Assumptions C42_within_after_a_period.
Theorem C42_unchanged_inside :
  forall p v, within p (Some v) -> constrainify p (Some v) = Some v.
Proof. exact (@constrainify_inside). Qed.
Print Assumptions C42_unchanged_inside.
Theorem C42_windows :
  forall (V : Type) (x : list V) n d, (n <= length x)%nat -> length (hankel x n) = (length x - n + 1)%nat /\
  forall w, (w < length x - n + 1)%nat -> length (nth w (hankel x n) []) = n /\
  forall i, (i < n)%nat -> nth i (nth w (hankel x n) []) d = nth (w + i) x d.
Proof. exact (@hankel_windows). Qed.
Print Assumptions C42_windows.
Theorem C42_residuals_aligned :
  forall p st ys d, (1 <= steps p)%nat -> (steps p < length ys)%nat ->
  exists target rows st', fit_rows p st ys = (target, rows, st') /\
    length target = (length ys - steps p)%nat /\ length rows = (length ys - steps p)%nat /\
    forall t i, (t < length ys - steps p)%nat -> (i < steps p)%nat ->
      nth i (nth t target []) d = nth (t + 1 + i) ys d /\
      nth t rows [] = nth t (fst (run_from p st ys)) [].
Proof. exact (@fit_alignment). Qed.
Print Assumptions C42_residuals_aligned.
Example C42_case : hankel [1; 2; 3; 4] 2 = [[1; 2]; [2; 3]; [3; 4]] /\
  constrainify (Params 0 0 0 0 (Some 0) (Some 1) 1 1 1) (Some 5) = Some 1.
Proof. split; [reflexivity|]. cbn. unfold Rmin, Rmax. f_equal. destruct (Rle_dec 0 5); [|lra]. destruct (Rle_dec 1 5); lra. Qed.

(** C86 *)
Theorem C86_seasonal_series_exact :
  forall p a q1 q2 t n, q1 <> [] -> q2 <> [] -> period1 p = length q1 -> period2 p = length q2 ->
  (forall v, In v q1 -> within p (Some v)) -> (forall v, In v q2 -> within p (Some v)) ->
  run p (State (Some a) (Some 0) (rotated q1 t) (rotated q2 t)) (map (fun j => Some (seasonal a q1 q2 (t + j))) (seq 0 n))
  = (map (fun j => map (fun i => Some (seasonal a q1 q2 (t + j + 1 + i))) (seq 0 (steps p))) (seq 0 n),
     State (Some a) (Some 0) (rotated q1 (t + n)) (rotated q2 (t + n))).
Proof. exact (@seasonal_exact). Qed.
Print Assumptions C86_seasonal_series_exact.
Example C86_case : forall j, seasonal 1 [2; 3] [0; 5; 7] (6 + j) = seasonal 1 [2; 3] [0; 5; 7] j /\ seasonal 1 [2; 3] [0; 5; 7] 1 = 9.
Proof.
  intros j. split; [|unfold seasonal; cbn; lra]. unfold seasonal. cbn [length].
  replace (6 + j)%nat with (j + 3 * 2)%nat by lia. rewrite Nat.mod_add by lia. replace (j + 3 * 2)%nat with (j + 2 * 3)%nat by lia. now rewrite Nat.mod_add by lia.
Qed.

(** C87 *)
Theorem C87_parallel_best_partial :
  forall (T N : Type) (score : list N -> T -> R) names ts, ts <> [] ->
  exists i t, nth_error ts i = Some t /\ tune true score (Some names) ts = Some t /\
    (forall u, In u ts -> score names t <= score names u) /\
    (forall j u, (j < i)%nat -> nth_error ts j = Some u -> score names t < score names u).
Proof. exact (@tune_parallel_best). Qed.
Print Assumptions C87_parallel_best_partial.
Theorem C87_serial_fails_refuted :
  forall (T N : Type) (score : list N -> T -> R) targets t u ts, tune false score targets (t :: u :: ts) = None.
Proof. exact (@tune_serial_fails). Qed.
Print Assumptions C87_serial_fails_refuted.
Theorem C87_serial_one_partial :
  forall (T N : Type) (score : list N -> T -> R) names t, tune false score (Some names) [t] = Some t.
Proof. exact (@tune_serial_one). Qed.
Print Assumptions C87_serial_one_partial.
(** C88 *)
Theorem C88_no_trend_partial :
  forall p st ys, beta p = 0 -> fst (predict p st ys None) = fst (run_from p st ys).
Proof. exact (@predict_same_recursion). Qed.
Print Assumptions C88_no_trend_partial.
Theorem C88_trend_dropped_refuted :
  forall p l t a b r1 r2 y ys, well_formed p -> (0 < steps p)%nat ->
  healthy p (State (Some l) (Some t) (Some a :: r1) (Some b :: r2)) ->
  let s := State (Some l) (Some t) (Some a :: r1) (Some b :: r2) in
  (hd [] (fst (predict p (Some s) (Some y :: ys) None)) = hd [] (fst (run_from p (Some s) (Some y :: ys))) <->
   beta p = 0 \/ alpha p = 0 \/ y = l + t + a + b).
Proof. exact (@trend_dropped_exactly). Qed.
Print Assumptions C88_trend_dropped_refuted.
Theorem C88_trend_held_refuted :
  forall p s ys effect, well_formed p -> healthy p s -> all_numbers ys ->
  exists s', snd (predict p (Some s) ys effect) = Some s' /\ healthy p s' /\ trend s' = trend s.
Proof. exact (@predict_trend_held). Qed.
Print Assumptions C88_trend_held_refuted.
Example C88_dropped_case : exists p s ys, well_formed p /\ healthy p s /\ all_numbers ys /\
  fst (predict p (Some s) ys None) <> fst (run_from p (Some s) ys).
Proof. exact predict_other_recursion. Qed.
Theorem C88_refit_keeps_state_refuted : exists p ys zs, well_formed p /\ all_numbers ys /\ all_numbers zs /\
  (steps p < length ys)%nat /\ (steps p < length zs)%nat /\
  snd (fit_rows p None zs) <> snd (fit_rows p (snd (fit_rows p None ys)) zs).
Proof. exact (@refit_keeps_state). Qed.
Print Assumptions C88_refit_keeps_state_refuted.