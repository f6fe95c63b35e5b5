(** Errors and season of the persistence benchmarks after fitting: C158 - C160. *)
From Coq Require Import String Reals List Arith ZArith Bool Lia Lra.
From Verif Require Import Model.Subsample Model.HoltWinters Model.Benchmarks Model.FkConfig Model.BenchFit Spec.BenchFitSpec Proof.StatsProof Proof.BenchFitProof Proof.FkConfigProof2.
Import ListNotations.
Local Open Scope R_scope.

(** C158 *)
Theorem C158_whole_frame_partial :
  forall (s n_sa : nat) (y x : list R) (rows : list (list R)) (i h : nat),
  (1 <= n_sa)%nat -> (1 <= s <= length y)%nat -> seasonal_forecast None s n_sa y x = Some rows ->
  (i < length x)%nat -> (h < n_sa)%nat -> entry rows i h = value_at (y ++ x) (length y + i + h - s).
Proof. exact (@seasonal_after_fit). Qed.
Print Assumptions C158_whole_frame_partial.
Theorem C158_stale_refuted :
  forall (r : R) (s n_sa : nat) (y x : list R) (rows : list (list R)) (i h : nat),
  (1 <= n_sa)%nat -> (1 <= s)%nat -> (s + n_val (length y) r <= length y)%nat ->
  seasonal_forecast (Some r) s n_sa y x = Some rows -> (i < length x)%nat -> (h < n_sa)%nat -> (i + h < s)%nat ->
  entry rows i h = value_at (y ++ x) (length y + i + h - s - n_val (length y) r).
Proof. exact (@seasonal_after_split). Qed.
Print Assumptions C158_stale_refuted.
Example C158_case : n_val 4 (1 / 2) = 2%nat /\ seasonal_forecast (Some (1 / 2)) 2 1 [1; 2; 3; 4] [5; 6] = Some [[1]; [2]] /\
  seasonal_forecast None 2 1 [1; 2; 3; 4] [5; 6] = Some [[3]; [4]].
Proof.
  assert (N : n_val 4 (1 / 2) = 2%nat) by (apply floor_eq; cbn; lra). split; [assumption|]. split; [|reflexivity].
  unfold seasonal_forecast, fitted_state, training_part, train_val_split. cbn [length]. rewrite N. reflexivity.
Qed.

(** C159 *)
Theorem C159_persistent_partial :
  forall (ratio : option R) (n_sa : nat) (positions : nat -> list nat) (y : list R) (j h : nat),
  (1 <= n_sa)%nat -> chooses positions ->
  let o := offset ratio (length y) in
  let kept := positions (length y - o - n_sa)%nat in
  (j < length kept)%nat -> (h < n_sa)%nat ->
  entry (persistent_errors ratio n_sa positions y) j h =
  value_at y (o + nth j kept 0%nat + 1 + h) - value_at y (o + nth j kept 0%nat).
Proof. exact (@persistent_errors_values). Qed.
Print Assumptions C159_persistent_partial.
Theorem C159_validation_partial :
  forall (r : R) (s n_sa : nat) (y : list R) (errs : list (list R)) (i h : nat),
  (1 <= n_sa)%nat -> let o := (length y - n_val (length y) r)%nat in (1 <= s <= o)%nat ->
  seasonal_errors (Some r) s n_sa every_row y = Some errs -> (o + i + n_sa < length y)%nat -> (h < n_sa)%nat ->
  (h <= s)%nat /\ entry errs i h = value_at y (o + i + 1 + h) - value_at y (o + i + h - s).
Proof. exact (@seasonal_errors_split). Qed.
Print Assumptions C159_validation_partial.
Theorem C159_whole_frame_refuted :
  forall (s n_sa : nat) (y : list R) (errs : list (list R)) (i h : nat),
  (1 <= n_sa)%nat -> (1 <= s < length y)%nat -> seasonal_errors None s n_sa every_row y = Some errs ->
  (i + n_sa < length y)%nat -> (h < n_sa)%nat -> (i + h < s)%nat ->
  (i < length y - s + i + h)%nat /\ entry errs i h = value_at y (i + 1 + h) - value_at y (length y - s + i + h).
Proof. exact (@seasonal_errors_whole). Qed.
Print Assumptions C159_whole_frame_refuted.
Example C159_case : seasonal_errors None 2 1 every_row [1; 2; 4; 8] = Some [[2 - 4]; [4 - 8]; [8 - 1]] /\
  persistent_errors None 2 every_row [1; 2; 4; 8] = [[2 - 1; 4 - 1]; [4 - 2; 8 - 2]] /\ chooses every_row.
Proof. repeat split. intros n i H. apply in_seq in H. lia. Qed.

(** C160 *)
Theorem C160_persistent_partial :
  forall (ratio : option R) (n_sa : nat) (positions : nat -> list nat) (y : list R) (j h : nat),
  (1 <= n_sa)%nat -> chooses positions ->
  let kept := positions (length y - offset ratio (length y) - n_sa)%nat in
  (j < length kept)%nat -> (h < n_sa)%nat ->
  entry (persistent_errors ratio n_sa positions y) j h = entry (persistent_errors ratio n_sa every_row y) (nth j kept 0%nat) h.
Proof. exact (@persistent_capped). Qed.
Print Assumptions C160_persistent_partial.
Theorem C160_smoothing_refuses_partial :
  forall (d : dict) (k : string) (v : val), k = "max_scengen_rows"%string \/ k = "scengen_random_state"%string -> get k d = Some v -> fourier_es d = None.
Proof. exact (@es_refuses). Qed.
Print Assumptions C160_smoothing_refuses_partial.
Theorem C160_seasonal_refuted : exists (positions : nat -> list nat) (y : list R) (errs capped : list (list R)),
  chooses positions /\ (forall n, NoDup (positions n)) /\
  seasonal_errors (Some (3 / 4)) 1 1 every_row y = Some errs /\ seasonal_errors (Some (3 / 4)) 1 1 positions y = Some capped /\
  positions 5%nat = [0; 2]%nat /\ entry capped 1 0 <> entry errs 2 0.
Proof. exact (@seasonal_capped_refuted). Qed.
Print Assumptions C160_seasonal_refuted.
Example C160_case : chooses (fun n => firstn 3 (seq 0 n)).
Proof. intros n i H. assert (In i (seq 0 n)) by (rewrite <- (firstn_skipn 3); apply in_or_app; left; assumption). apply in_seq in H0. lia. Qed.
