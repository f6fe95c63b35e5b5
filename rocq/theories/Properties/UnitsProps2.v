(** Fourier_es and FK: C205 (rows and causality), C206 (units), C207 (offsets). *)
From Coq Require Import List ZArith Reals Arith Lia Lra Bool.
From Verif Require Import Model.FourierEs Model.FourierKalman Spec.FourierSpec Spec.UnitsSpec Proof.FourierProof Proof.FourierProof2 Proof.FourierProof3.
Import ListNotations.
Local Open Scope R_scope.

(** C205 *)
Theorem C205_fourier_rows : forall p st y fit,
  length (fst (frun p st y fit)) = length y /\ (forall row, In row (fst (frun p st y fit)) -> length row = fsa p).
Proof. exact (@fourier_rows). Qed.
Print Assumptions C205_fourier_rows.
Theorem C205_fourier_causal : forall p st y k fit, fst (frun p st (firstn k y) fit) = firstn k (fst (frun p st y fit)).
Proof. exact (@fourier_causal). Qed.
Print Assumptions C205_fourier_causal.
Theorem C205_fk_rows :
  forall (X C : Type), forall (o : ops X C) m n_sa omega f y fit, (forall i x, length (synthesise o i x) = n_sa) ->
  length (fst (krun o m n_sa omega f y fit)) = length y /\ (forall row, In row (fst (krun o m n_sa omega f y fit)) -> length row = n_sa).
Proof. exact (@fk_rows). Qed.
Print Assumptions C205_fk_rows.
Theorem C205_fk_causal :
  forall (X C : Type), forall (o : ops X C) m n_sa omega f y k fit,
  fst (krun o m n_sa omega f (firstn k y) fit) = firstn k (fst (krun o m n_sa omega f y fit)).
Proof. exact (@fk_causal). Qed.
Print Assumptions C205_fk_causal.
Theorem C205_fk_row :
  forall (X C : Type), forall (o : ops X C) m n_sa omega f y v fit, (0 < n_sa)%nat -> (0 < length (kw (fk_state f)))%nat ->
  (forall i x, length (synthesise o i x) = n_sa) ->
  exists signal eps before,
    length signal = n_sa /\ eps = omega * (v - nth 0 signal 0) + (1 - omega) * before /\
    (y = [] -> before = keps (fk_state f)) /\
    (fit = true -> keps (fk_state (snd (krun o m n_sa omega f (y ++ [v]) fit))) = eps) /\
    (forall h, (h < n_sa)%nat -> nth h (nth (length y) (fst (krun o m n_sa omega f (y ++ [v]) fit)) []) 0
       = nth h signal 0 + eps * (INR (n_sa - h) / INR n_sa) ^ 2).
Proof. exact (@fk_row). Qed.
Print Assumptions C205_fk_row.
(** A filter that goes half way to the last value: operations that meet the hypotheses. *)
Example C205_case :
  let o := Ops R R (fun x P Q Rm z => ((x + z) / 2, P)) (fun _ => 1) (fun q => q) (fun _ w => last w 0) (fun _ x => [x; x]) 0 in
  (forall i x, length (synthesise o i x) = 2%nat) /\
  fst (krun o 1 2 (1 / 2) (Fk (KState 0 1 1 1 0 0 [0]) []) [4; 8] false) = [[2 + 1; 2 + 1 / 4]; [5 + 2; 5 + 1 / 2]].
Proof. split; [reflexivity|]. unfold krun. cbn. f_equal; [f_equal; [lra|f_equal; lra]|f_equal; f_equal; [lra|f_equal; lra]]. Qed.

(** C206 *)
Theorem C206_fourier : forall c p st y fit,
  frun p (fourier_in c st) (map (Rmult c) y) fit = (map (map (Rmult c)) (fst (frun p st y fit)), fourier_in c (snd (frun p st y fit))).
Proof. exact (@fourier_units). Qed.
Print Assumptions C206_fourier.
Theorem C206_fourier_fresh : forall c p y z,
  fst (frun p (snd (frun p (fresh p) (map (Rmult c) y) true)) (map (Rmult c) z) false) = map (map (Rmult c)) (fst (frun p (snd (frun p (fresh p) y true)) z false)).
Proof. exact (@fourier_units_fresh). Qed.
Print Assumptions C206_fourier_fresh.
(** C206, C207: FK under any change v -> k v + d of the data. *)
Theorem C206_fk :
  forall (X C : Type), forall (o : ops X C) m n_sa omega k d f obj obj' y fit, (0 < m)%nat -> (0 < n_sa)%nat ->
  follows o m n_sa k d f -> length (kw (fk_state obj)) = m -> fk_state obj' = fk_changed k d f (fk_state obj) ->
  fst (krun o m n_sa omega obj' (map (fun v => k * v + d) y) fit) = map (map (fun v => k * v + d)) (fst (krun o m n_sa omega obj y fit)) /\
  fk_state (snd (krun o m n_sa omega obj' (map (fun v => k * v + d) y) fit)) = fk_changed k d f (fk_state (snd (krun o m n_sa omega obj y fit))).
Proof. exact (@fk_follows). Qed.
Print Assumptions C206_fk.
Example C206_case : forall k d,
  let o := Ops R R (fun x P Q Rm z => ((x + z) / 2, P)) (fun _ => 1) (fun q => q) (fun _ w => last w 0) (fun _ x => [x; x]) 0 in
  follows o 1 2 k d (fun x => k * x + d).
Proof.
  intros k d o. constructor; try reflexivity.
  - intros x P Q Rm z. cbn. f_equal. field.
  - intros i [|a [|b w]] H; try discriminate. reflexivity.
Qed.

(** C207 *)
Theorem C207_offset_partial : forall d p st y fit, proper p -> fourier_shaped p st -> y <> [] ->
  frun p (fourier_moved d p st) (map (fun v => v + d) y) fit
  = (map (map (fun v => v + d)) (fst (frun p st y fit)), fourier_moved d p (snd (frun p st y fit))).
Proof. exact (@fourier_offset). Qed.
Print Assumptions C207_offset_partial.
Theorem C207_fresh_refuted : forall omega alpha v d, omega <> 0 -> d <> 0 ->
  fst (frun (FParams 1 1 1 0 alpha omega) (fresh (FParams 1 1 1 0 alpha omega)) [v + d] true)
  <> map (map (fun w => w + d)) (fst (frun (FParams 1 1 1 0 alpha omega) (fresh (FParams 1 1 1 0 alpha omega)) [v] true)).
Proof. exact (@fourier_fresh_offset). Qed.
Print Assumptions C207_fresh_refuted.
Theorem C207_constant_refuted : forall omega alpha v,
  fst (frun (FParams 1 1 1 0 alpha omega) (fresh (FParams 1 1 1 0 alpha omega)) [v] true) = [[(1 + omega) * v]].
Proof. exact (@fourier_fresh_double). Qed.
Print Assumptions C207_constant_refuted.
(** Windows of three values, one harmonic, no coefficients yet. *)
Example C207_case : let p := FParams 3 2 3 1 (1 / 2) (1 / 2) in proper p /\ fourier_shaped p (FStored None 0 20 [20; 21; 22]).
Proof. cbn. unfold proper, fourier_shaped. cbn. repeat split; try lia. discriminate. Qed.
