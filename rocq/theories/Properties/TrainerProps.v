(** The recurrent forecaster and the hyper-parameter search: C58, C60, C105. *)
From Coq Require Import Reals String List Arith Bool Lia Lra.
From Verif Require Import Model.Names Model.Encoder Model.Lstm Model.Trainer Spec.LstmSpec Spec.TrainerSpec Proof.LstmProof Proof.TrainerProof.
Import ListNotations.

(** C58 *)
Theorem C58_samples_aligned :
  forall (T V E : Type) (sv : V -> V) (se : E -> E) h p (f : frame T V E) n, 1 <= h -> 1 <= p -> h + p <= n -> rows n f ->
  exists ss, samples h p sv se f = Some ss /\ length ss = n - h - p + 1 /\
  forall i w e y, nth_error ss i = Some (w, e, y) -> slice i h (map sv (target f)) w /\ nth_error (map se (exog f)) (i + h - 1) = Some e /\ slice (i + h) p (map sv (target f)) y.
Proof. exact (@lstm_samples). Qed.
Print Assumptions C58_samples_aligned.
Theorem C58_predictions_aligned :
  forall (T V E : Type) (sv uv : V -> V) (se : E -> E) (model : list V * E -> list V) h (f : frame T V E) n, 1 <= h -> h <= n -> rows n f ->
  exists ps, predict h sv uv se model f = Some ps /\ length ps = n - h /\
  forall r lab fc, nth_error ps r = Some (lab, fc) -> nth_error (labels f) (h + r) = Some lab /\
    exists w e, fc = map uv (model (w, e)) /\ slice r h (map sv (target f)) w /\ nth_error (map se (exog f)) (h + r - 1) = Some e.
Proof. exact (@lstm_predictions). Qed.
Print Assumptions C58_predictions_aligned.
Theorem C58_exact_network_exact_forecast :
  forall (T V E : Type) (sv uv : V -> V) (se : E -> E) (model : list V * E -> list V) h p (f : frame T V E) n ss ps r lab fc, 1 <= h -> 1 <= p -> h + p <= n -> rows n f ->
  (forall v, uv (sv v) = v) -> samples h p sv se f = Some ss -> (forall w e y, In (w, e, y) ss -> model (w, e) = y) ->
  predict h sv uv se model f = Some ps -> nth_error ps r = Some (lab, fc) -> h + r + p <= n -> slice (h + r) p (target f) fc.
Proof. exact (@lstm_exact). Qed.
Print Assumptions C58_exact_network_exact_forecast.
Theorem C58_only_past_rows :
  forall (T V E : Type) (sv uv : V -> V) (se : E -> E) (model : list V * E -> list V) h (f g : frame T V E) n m pf pg r a b, 1 <= h -> rows n f -> rows m g -> agree_before (h + r) f g ->
  predict h sv uv se model f = Some pf -> predict h sv uv se model g = Some pg -> nth_error pf r = Some a -> nth_error pg r = Some b -> snd a = snd b.
Proof. exact (@lstm_causal). Qed.
Print Assumptions C58_only_past_rows.
Theorem C58_split_overlap_refuted :
  forall (T V E : Type) (sv : V -> V) (se : E -> E) h p (f : frame T V E) n ss split, 1 <= h -> 2 <= p -> h + p <= n -> rows n f -> samples h p sv se f = Some ss -> 0 < split < length ss ->
  exists i k s s' j j' v, nth_error (train_part split ss) i = Some s /\ nth_error (val_part split ss) k = Some s' /\ i + j = split + k + j' /\
    nth_error (snd s) j = Some v /\ nth_error (snd s') j' = Some v.
Proof. exact (@lstm_split_overlap). Qed.
Print Assumptions C58_split_overlap_refuted.
Definition five : frame nat nat nat := Frame [100; 101; 102; 103; 104] [10; 11; 12; 13; 14] [0; 1; 2; 3; 4].
Example C58_case : rows 5 five /\
  samples 2 2 (fun v => v) (fun e => e) five = Some [([10; 11], 1, [12; 13]); ([11; 12], 2, [13; 14])] /\
  predict 2 (fun v => v) (fun v => v) (fun e => e) (fun s => [snd s; length (fst s)]) five = Some [(102, [1; 2]); (103, [2; 2]); (104, [3; 2])].
Proof. repeat split. Qed.

(** C105 *)
Theorem C105_last_row_unused_refuted :
  forall (T V E : Type) (sv uv : V -> V) (se : E -> E) (model : list V * E -> list V) h (f : frame T V E) n t v v' e e', 1 <= h -> rows n f ->
  predict h sv uv se model (add_row f t v e) = predict h sv uv se model (add_row f t v' e').
Proof. exact (@lstm_last_row_unused). Qed.
Print Assumptions C105_last_row_unused_refuted.
Theorem C105_history_only_refuted :
  forall (T V E : Type) (sv uv : V -> V) (se : E -> E) (model : list V * E -> list V) h (f : frame T V E), 1 <= h -> rows h f -> predict h sv uv se model f = Some [].
Proof. exact (@lstm_exact_history). Qed.
Print Assumptions C105_history_only_refuted.
Example C105_case : rows 2 (Frame [100; 101] [10; 11] [0; 1]) /\ rows 5 five /\
  (forall v e, predict 2 (fun v => v) (fun v => v) (fun e => e) (fun s => fst s) (add_row five 105 v e)
     = Some [(102, [10; 11]); (103, [11; 12]); (104, [12; 13]); (105, [13; 14])]).
Proof. repeat split. Qed.

(** C60 *)
Local Open Scope R_scope.
Theorem C60_score_is_mean :
  forall (S F : Type) (run : F -> S -> R) folds s, folds <> [] -> exists m, cv_full run folds (Single s) None = Some m /\ is_mean (map (fun f => run f s) folds) m.
Proof. exact (@cv_single). Qed.
Print Assumptions C60_score_is_mean.
Theorem C60_named_score_is_mean :
  forall (S F : Type) (run : F -> S -> R) folds n s d, folds <> [] -> ~ In (txt "score") (keys ((n, s) :: d)) ->
  exists m, cv_full run folds (Several ((n, s) :: d)) None = Some m /\ is_mean (map (fun f => run f s) folds) m.
Proof. exact (@cv_several). Qed.
Print Assumptions C60_named_score_is_mean.
Theorem C60_search_best_partial :
  forall (P : Type) allowed (score_of : list (text * P) -> option R) best trials, reports_minimum best -> trials <> [] ->
  (forall p, In p trials -> Forall (fun k => In k allowed) (keys p)) -> (forall p, In p trials -> exists v, score_of p = Some v) ->
  exists p v, search allowed score_of best trials = Some (p, v) /\ In p trials /\ score_of p = Some v /\ forall q w, In q trials -> score_of q = Some w -> v <= w.
Proof. exact (@search_best). Qed.
Print Assumptions C60_search_best_partial.
Theorem C60_unknown_name_refused :
  forall (P : Type) allowed (score_of : list (text * P) -> option R) best trials p k, In p trials -> In k (keys p) -> ~ In k allowed -> search allowed score_of best trials = None.
Proof. exact (@search_unknown_name). Qed.
Print Assumptions C60_unknown_name_refused.
Theorem C60_random_fold_single :
  forall (S F : Type) (run : F -> S -> option R) fold s v, run fold s = Some v -> cv_random run fold (Single s) None = Some v.
Proof. exact (@cv_random_single). Qed.
Print Assumptions C60_random_fold_single.
Theorem C60_random_fold_masks :
  forall (L A : Type) (label_of : nat -> option L) eqb (frame : list (L * A)) m, loc label_of eqb frame (Mask m) = by_position frame (Mask m).
Proof. exact (@mask_same). Qed.
Print Assumptions C60_random_fold_masks.
Theorem C60_random_fold_range_index_partial :
  forall (A : Type) (rows : list A) p, Forall (fun i => (i < length rows)%nat) p ->
  let frame := combine (seq 0 (length rows)) rows in loc (fun k => Some k) Nat.eqb frame (Positions p) = by_position frame (Positions p).
Proof. exact (@range_labels). Qed.
Print Assumptions C60_random_fold_range_index_partial.
Theorem C60_random_fold_names_refuted :
  forall (S F : Type) (run : F -> S -> option R) fold n s d, ~ In (test_ n) (keys ((n, s) :: d)) -> ~ In test_score (keys ((n, s) :: d)) ->
  cv_random run fold (Several ((n, s) :: d)) None = None.
Proof. exact (@cv_random_dict). Qed.
Print Assumptions C60_random_fold_names_refuted.
Theorem C60_random_fold_datetime_refuted :
  forall (L A : Type) (label_of : nat -> option L) eqb (frame : list (L * A)) i p, (forall k, label_of k = None) -> loc label_of eqb frame (Positions (i :: p)) = None.
Proof. exact (@datetime_positions). Qed.
Print Assumptions C60_random_fold_datetime_refuted.
Theorem C60_random_fold_labels_refuted : exists (frame : list (nat * nat)) p r, NoDup (map fst frame) /\ by_position frame (Positions p) = Some r /\
  exists r', loc (fun k => Some k) Nat.eqb frame (Positions p) = Some r' /\ r' <> r.
Proof. exact (@integer_labels_wrong). Qed.
Print Assumptions C60_random_fold_labels_refuted.
(** Two trials on three folds; the second has the smaller mean. *)
Example C60_case : exists v, search [txt "alpha"] (fun p => cv_full (fun (f : R) (s : R) => s * f * match p with [(_, a)] => a | _ => 0 end) [1; 2; 3] (Single 1) None)
    (fun l => if Rle_dec (nth 0 l 0) (nth 1 l 0) then 0%nat else 1%nat) [[(txt "alpha", 5)]; [(txt "alpha", 4)]] = Some ([(txt "alpha", 4)], v) /\ v = 8.
Proof.
  eexists. split.
  - unfold search, objective, cv_full. cbn -[Rdiv]. unfold mean. cbn -[Rdiv INR].
    destruct (Rle_dec _ _) as [H|H]; [exfalso; cbn in H; lra|]. reflexivity.
  - cbn. lra.
Qed.
Example C60_contract : forall a b : R, exists v, nth_error [a; b] ((fun l => if Rle_dec (nth 0 l 0) (nth 1 l 0) then 0%nat else 1%nat) [a; b]) = Some v /\ Forall (Rle v) [a; b].
Proof.
  intros a b. cbn. destruct (Rle_dec a b); eexists; (split; [reflexivity|]); (apply Forall_cons; [|apply Forall_cons; [|apply Forall_nil]]); lra.
Qed.
