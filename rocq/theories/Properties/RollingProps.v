(** Rolling forecasts of the statsmodels wrapper: C123, C124; their quantiles: C134. *)
From Coq Require Import List ZArith Arith Reals Lia Lra.
From Verif Require Import Model.Stats Model.Rolling Spec.RollingSpec Proof.RollingProof Proof.RollingProof2.
Import ListNotations.

(** C123 *)
Theorem C123_causal :
  forall (M V : Type) (lib : library M V) (m : M) (n i : nat) (rows rows' : list (Z * V)),
  (i < length rows)%nat -> (i < length rows')%nat -> firstn i rows = firstn i rows' ->
  nth i (get_forecasts lib m n rows) [] = nth i (get_forecasts lib m n rows') [].
Proof. exact (@forecasts_causal). Qed.
Print Assumptions C123_causal.
Theorem C123_split :
  forall (M V : Type) (lib : library M V) (m : M) (n : nat) (rows : list (Z * V)),
  exists m', forall rest, get_forecasts lib m n (rows ++ rest) = get_forecasts lib m n rows ++ get_forecasts lib m' n rest.
Proof. exact (@forecasts_split). Qed.
Print Assumptions C123_split.
Example C123_case : exists (lib : library (list Z) Z),
  get_forecasts lib [7%Z] 2 [(0, 5); (1, 9)]%Z = [[7; 7]; [5; 5]]%Z /\
  nth 1 (get_forecasts lib [7%Z] 2 [(0, 5); (1, 9)]%Z) [] = nth 1 (get_forecasts lib [7%Z] 2 [(0, 5); (1, 4); (2, 2)]%Z) [].
Proof. exists (Library (list Z) Z (fun m n => repeat (hd 0%Z m) n) (fun m _ v => Some (v :: m)) (fun m _ v => [v])). split; reflexivity. Qed.

(** C124 *)
Theorem C124_shifted_refuted :
  forall (M V : Type) (lib : library M V) (truth : Z -> V) (clock : M -> Z) (m : M) (start : Z) (len n i k : nat) (d : V),
  clairvoyant lib truth clock -> (0 < i < len)%nat -> (k < n)%nat ->
  nth k (nth i (get_forecasts lib m n (observed truth start len)) []) d = truth (start + Z.of_nat (i + k))%Z.
Proof. exact (@shifted_rows). Qed.
Print Assumptions C124_shifted_refuted.
Theorem C124_first_row_refuted :
  forall (M V : Type) (lib : library M V) (truth : Z -> V) (clock : M -> Z) (m : M) (start : Z) (len n k : nat) (d : V),
  clairvoyant lib truth clock -> (0 < len)%nat -> (k < n)%nat ->
  nth k (nth 0 (get_forecasts lib m n (observed truth start len)) []) d = truth (clock m + Z.of_nat k)%Z.
Proof. exact (@first_row). Qed.
Print Assumptions C124_first_row_refuted.
Theorem C124_exactly_partial :
  forall (M V : Type) (lib : library M V) (truth : Z -> V) (clock : M -> Z) (m : M) (start : Z) (len n i k : nat) (d : V),
  clairvoyant lib truth clock -> (0 < i < len)%nat -> (k < n)%nat ->
  let row := (start + Z.of_nat i)%Z in
  nth k (nth i (get_forecasts lib m n (observed truth start len)) []) d = truth (row + Z.of_nat (k + 1))%Z <->
  truth (row + Z.of_nat k)%Z = truth (row + Z.of_nat k + 1)%Z.
Proof. exact (@right_exactly_if). Qed.
Print Assumptions C124_exactly_partial.
Theorem C124_next_row_partial :
  forall (M V : Type) (lib : library M V) (truth : Z -> V) (clock : M -> Z) (m : M) (start : Z) (len n i k : nat) (d : V),
  clairvoyant lib truth clock -> (S i < len)%nat -> (k < n)%nat ->
  nth k (nth (S i) (get_forecasts lib m n (observed truth start len)) []) d
  = truth (start + Z.of_nat i + Z.of_nat (k + 1))%Z.
Proof. exact (@right_one_row_lower). Qed.
Print Assumptions C124_next_row_partial.
Local Open Scope R_scope.
Theorem C124_residuals_refuted :
  forall (M : Type) (lib : library M R) (truth : Z -> R) (clock : M -> Z) (m : M) (start : Z) (len n i k : nat),
  clairvoyant lib truth clock -> (0 < i < len - n)%nat -> (k < n)%nat ->
  nth k (nth i (residuals lib m n (observed truth start len)) []) 0
  = truth (start + Z.of_nat (i + k) + 1)%Z - truth (start + Z.of_nat (i + k))%Z.
Proof. exact (@residual_cell). Qed.
Print Assumptions C124_residuals_refuted.
Example C124_case : let truth := fun t : Z => (t * t)%Z in exists lib : library Z Z,
  clairvoyant lib truth (fun c => c) /\
  get_forecasts lib 5%Z 2 (observed truth 1 4) = [[25; 36]; [4; 9]; [9; 16]; [16; 25]]%Z.
Proof.
  intros truth.
  exists (Library Z Z (fun c n => map (fun k => truth (c + Z.of_nat k)%Z) (seq 0 n))
           (fun c t _ => if (t =? c)%Z then Some (c + 1)%Z else None) (fun _ t _ => (t + 1)%Z)).
  split; [|reflexivity]. constructor; cbn; [reflexivity| |reflexivity].
  intros m t v m'. destruct (Z.eqb_spec t m) as [->|]; [|discriminate]. intros [= <-]. reflexivity.
Qed.

(** C134, for the wrapped models *)
Theorem C134_wrapped_ordered_partial :
  forall (M : Type) (lib : library M R) (m : M) (n k i : nat) (rows later : list (Z * R)) (q q' : R),
  (0 < n < length rows)%nat -> 0 <= q -> q <= q' -> q' <= 1 -> (i < length later)%nat ->
  nth i (predict_quantile lib m n rows k q later) 0 <= nth i (predict_quantile lib m n rows k q' later) 0.
Proof. exact (@rolling_ordered). Qed.
Print Assumptions C134_wrapped_ordered_partial.
Theorem C134_wrapped_cover_partial :
  forall (M : Type) (lib : library M R) (m : M) (n k : nat) (rows : list (Z * R)) (q : R),
  (forall m', length (lib_forecast lib m' n) = n) -> (0 < n < length rows)%nat -> (k < n)%nat -> 0 <= q <= 1 ->
  let forecast t := nth t (predict_quantile lib m n rows k q rows) 0 in
  let observation t := nth (t + 1 + k) (map snd rows) 0 in
  let N := (length rows - n)%nat in
  q * INR (N - 1) < INR (length (filter (fun t => Rleb (observation t) (forecast t)) (seq 0 N))) /\
  (1 - q) * INR (N - 1) < INR (length (filter (fun t => Rleb (forecast t) (observation t)) (seq 0 N))).
Proof. exact (@rolling_cover). Qed.
Print Assumptions C134_wrapped_cover_partial.
(** The last value seen, repeated: a library for which the hypotheses hold. *)
Example C134_wrapped_case : exists lib : library R R, (forall m, length (lib_forecast lib m 2) = 2%nat) /\
  predict_quantile lib 4 2 [(0%Z, 1); (1%Z, 5); (2%Z, 6)] 0 (1 / 2) [(3%Z, 9)] = [5].
Proof.
  exists (Library R R (fun m n => repeat m n) (fun _ _ v => Some v) (fun _ _ v => v)). split; [intros m; apply repeat_length|].
  unfold predict_quantile. cbn [get_forecasts map lib_forecast repeat nth]. f_equal. unfold error_quantile.
  replace (map _ _) with [1]; [rewrite Proof.QuantilesProof.quantile_single by lra; lra|].
  cbn. f_equal. lra.
Qed.
