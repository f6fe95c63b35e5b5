(** Feed-forward networks: outputs, heads, shortcuts and quantile forecasts: C161 - C165, C187. *)
From Coq Require Import List ZArith Arith Bool Reals Lia Lra.
From Verif Require Import Model.Subsample Model.Quantiles Model.Scaling Model.FeedForward Spec.FeedForwardSpec Proof.FeedForwardProof Proof.FeedForwardProof2.
Import ListNotations.
Local Open Scope R_scope.

(** C161 *)
Theorem C161_number_of_outputs_partial :
  forall (par : name -> layer) (norm : nat -> list R -> list R) (outside : list R -> Z -> R) (o : options) (n : nat) (x out : list R),
  o_layers o = Count n -> (forall s, o_selector o = Some s -> o_out o = Some (length s)) ->
  forward par norm outside o x = Some out -> o_out o = Some (length out).
Proof. exact (@outputs_as_asked). Qed.
Print Assumptions C161_number_of_outputs_partial.
Theorem C161_sizes_refuted :
  forall (par : name -> layer) (norm : nat -> list R -> list R) (outside : list R -> Z -> R) (o : options) (l : list nat) (n : option nat) (x : list R),
  o_layers o = Sizes l -> o_split o = false ->
  forward par norm outside (with_out n o) x = forward par norm outside o x /\
  (l <> [] -> o_selector o = None -> forall out, forward par norm outside o x = Some out -> length out = last l O).
Proof. exact (@outputs_from_sizes). Qed.
Print Assumptions C161_sizes_refuted.
Theorem C161_selector_refuted :
  forall (par : name -> layer) (norm : nat -> list R -> list R) (outside : list R -> Z -> R) (o : options) (n : nat) (s : list Z) (x out : list R),
  o_layers o = Count n -> o_out o = Some 1%nat -> o_selector o = Some s -> forward par norm outside o x = Some out -> length out = length s.
Proof. exact (@outputs_from_selector). Qed.
Print Assumptions C161_selector_refuted.
Definition net (_ : name) : layer := [([1; 2], 3); ([0; 1], 1)].
Definition net1 (_ : name) : layer := [([1; 2], 3)].
Definition same_norm (_ : nat) (x : list R) : list R := x.
Definition no_row (_ : list R) (_ : Z) : R := 0.
Example C161_case :
  forward net same_norm no_row (Options (Count 1) (Some 2%nat) (Some 4%nat) false None false) [5; 7] = Some [1 * 5 + 2 * 7 + 3; 0 * 5 + 1 * 7 + 1] /\
  (exists out, forward net same_norm no_row (Options (Sizes [2%nat]) (Some 9%nat) None false None false) [5; 7] = Some out /\ length out = 2%nat) /\
  (exists out, forward net1 same_norm no_row (Options (Count 1) (Some 1%nat) (Some 4%nat) false (Some [0; -1; 1]%Z) false) [5; 7] = Some out /\ length out = 3%nat).
Proof.
  split; [|split].
  - cbn. f_equal. f_equal; [|f_equal]; ring.
  - eexists. split; reflexivity.
  - eexists. split; reflexivity.
Qed.

(** C162 *)
Theorem C162_heads_independent :
  forall (par par' : name -> layer) (norm : nat -> list R -> list R) (outside : list R -> Z -> R) (o : options) (n k : nat) (x out out' : list R),
  o_split o = true -> o_out o = Some n -> (k < n)%nat -> same_but_other_heads k par par' ->
  forward par norm outside o x = Some out -> forward par' norm outside o x = Some out' -> nth k out 0 = nth k out' 0.
Proof. exact (@heads_independent). Qed.
Print Assumptions C162_heads_independent.
Definition heads (b : R) (nm : name) : layer :=
  match nm with SubIn k => [([1; 0], b * INR k); ([0; 1], 0)] | SubOut _ => [([1; 1], 0)] | _ => [([1; 2], 3); ([0; 1], 1)] end.
Example C162_case : let o := Options (Count 2) (Some 2%nat) (Some 2%nat) true None true in
  (exists out, forward (heads 0) same_norm no_row o [5; 7] = Some out) /\ (exists out, forward (heads 1) same_norm no_row o [5; 7] = Some out) /\
  same_but_other_heads 0 (heads 0) (heads 1) /\ heads 0 (SubIn 1) <> heads 1 (SubIn 1).
Proof.
  split; [eexists; reflexivity|]. split; [eexists; reflexivity|]. split.
  - repeat split. cbn. rewrite !Rmult_0_r. reflexivity.
  - intros H. apply (f_equal (fun l : layer => snd (nth 0 l ([], 0)))) in H. cbn in H. lra.
Qed.

(** C163 *)
Theorem C163_selector_partial :
  forall (par : name -> layer) (norm : nat -> list R -> list R) (outside : list R -> Z -> R) (o : options) (n : nat) (s : list nat) (skip : bool) (x out : list R),
  o_layers o = Count n -> o_out o = Some (length s) -> Forall (fun k => (k < length x)%nat) s ->
  forward par norm outside (with_shortcuts (Some (positions s)) skip o) x = Some out ->
  exists z, forward par norm outside (with_shortcuts None false o) x = Some z /\
    length z = length s /\ length out = length s /\ forall i, (i < length s)%nat -> nth i out 0 = nth i z 0 + nth (nth i s O) x 0.
Proof. exact (@selector_adds). Qed.
Print Assumptions C163_selector_partial.
Theorem C163_from_the_end_partial :
  forall (par : name -> layer) (norm : nat -> list R -> list R) (outside : list R -> Z -> R) (o : options) (s : list nat) (skip : bool) (x : list R),
  Forall (fun k => (k < length x)%nat) s ->
  forward par norm outside (with_shortcuts (Some (from_the_end s)) skip o) x
  = forward par norm outside (with_shortcuts (Some (positions (map (fun k => (length x - S k)%nat) s))) skip o) x.
Proof. exact (@selector_from_end). Qed.
Print Assumptions C163_from_the_end_partial.
Theorem C163_skip_refuted :
  forall (par : name -> layer) (norm : nat -> list R -> list R) (outside : list R -> Z -> R) (o : options) (s : list Z) (x : list R) (l : layer),
  forward (fun nm => match nm with Skip => l | _ => par nm end) norm outside (with_shortcuts (Some s) true o) x
  = forward par norm outside (with_shortcuts (Some s) false o) x.
Proof. exact (@selector_hides_skip). Qed.
Print Assumptions C163_skip_refuted.
Example C163_case : let o := Options (Count 1) (Some 2%nat) (Some 4%nat) false None false in
  forward net same_norm no_row (with_shortcuts (Some (positions [1; 0]%nat)) false o) [5; 7] = Some [1 * 5 + 2 * 7 + 3 + 7; 0 * 5 + 1 * 7 + 1 + 5].
Proof. cbn. change (Pos.to_nat 1) with 1%nat. cbn. f_equal. f_equal; [|f_equal]; ring. Qed.

(** C164 *)
Theorem C164_centred_partial :
  forall (par : name -> layer) (norm : nat -> list R -> list R) (outside : list R -> Z -> R) (o : options) (n : nat) (s : list nat)
    (xs ys : list (list R)) (row out : list R),
  o_layers o = Count n -> o_split o = false -> o_out o = Some (length s) -> o_selector o = Some (positions s) ->
  Forall (fun k => (k < length row)%nat) s -> zero_layer (par (Hidden (n - 1))) -> ys <> [] ->
  (forall i, (i < length s)%nat -> column (nth i s O) xs = column i ys) ->
  predict_row par norm outside (fit_table true (length row) xs) (Some (fit_table true (length s) ys)) o row = Some out ->
  length out = length s /\ forall i, (i < length s)%nat -> nth i out 0 = nth (nth i s O) row 0.
Proof. exact (@zero_centred). Qed.
Print Assumptions C164_centred_partial.
Theorem C164_default_refuted :
  forall (par : name -> layer) (norm : nat -> list R -> list R) (outside : list R -> Z -> R) (o : options) (n : nat) (s : list nat)
    (xs ys : list (list R)) (row out : list R),
  o_layers o = Count n -> o_split o = false -> o_out o = Some (length s) -> o_selector o = Some (positions s) ->
  Forall (fun k => (k < length row)%nat) s -> zero_layer (par (Hidden (n - 1))) -> ys <> [] ->
  (forall i, (i < length s)%nat -> column (nth i s O) xs = column i ys) ->
  predict_row par norm outside (fit_table false (length row) xs) (Some (fit_table true (length s) ys)) o row = Some out ->
  length out = length s /\ forall i, (i < length s)%nat -> nth i out 0 = nth (nth i s O) row 0 + col_mean (column i ys).
Proof. exact (@zero_default). Qed.
Print Assumptions C164_default_refuted.
Example C164_case : let o := Options (Count 1) (Some 1%nat) (Some 4%nat) false (Some (positions [0%nat])) false in
  let zero := fun _ : name => [([0], 0)] in
  zero_layer (zero (Hidden 0)) /\ col_mean (column 0 [[1]; [3]]) = 2 /\
  exists out, predict_row zero same_norm no_row (fit_table false 1 [[1]; [3]]) (Some (fit_table true 1 [[1]; [3]])) o [10] = Some out.
Proof.
  split; [|split].
  - intros w b [H|[]]. injection H as <- <-. split; [reflexivity|]. repeat constructor.
  - unfold col_mean, column. cbn. lra.
  - eexists. unfold predict_row. cbn -[Rmult Rplus col_scale col_mean]. reflexivity.
Qed.

(** C165 *)
Theorem C165_frames_partial :
  forall (k : kind) (probabilistic : bool), k <> Recurrent -> quantiles_return k probabilistic true Frame = true.
Proof. exact (@quantiles_dense). Qed.
Print Assumptions C165_frames_partial.
Theorem C165_arrays_partial :
  forall (k : kind) (d : data), k <> Invertible ->
  quantiles_return k true false d = true <-> (k = Dense /\ d = Table) \/ k = Recurrent \/ (k = Convex /\ d = Pair).
Proof. exact (@unnormalised_arrays). Qed.
Print Assumptions C165_arrays_partial.
Theorem C165_recurrent_refuted :
  forall (probabilistic : bool) (d : data), quantiles_return Recurrent probabilistic true d = false.
Proof. exact (@quantiles_recurrent). Qed.
Print Assumptions C165_recurrent_refuted.
Theorem C165_unnormalised_refuted :
  forall (k : kind), k <> Invertible -> k <> Recurrent -> quantiles_return k true false Frame = false.
Proof. exact (@quantiles_raw). Qed.
Print Assumptions C165_unnormalised_refuted.
Example C165_case : quantiles_return Dense true true Frame = true /\ quantiles_return Dense true false Table = true /\ quantiles_return Recurrent true false Frame = true.
Proof. repeat split. Qed.

(** C187 *)
Theorem C187_dense :
  forall (par : name -> layer) (norm : nat -> list R -> list R) (outside : list R -> Z -> R) (o : options) (n : nat) (x out : list R),
  has_layers o (S n) -> o_split o = false -> o_selector o = None -> o_skip o = false -> forward par norm outside o x = Some out ->
  exists h, hidden_values par norm n x h /\ out = affine (par (Hidden n)) (h n).
Proof. exact (@network_values). Qed.
Print Assumptions C187_dense.
Theorem C187_heads :
  forall (par : name -> layer) (norm : nat -> list R -> list R) (outside : list R -> Z -> R) (o : options) (n m neurons : nat) (x out : list R),
  o_layers o = Count (S n) -> o_out o = Some m -> o_neurons o = Some neurons ->
  o_split o = true -> o_selector o = None -> o_skip o = false -> forward par norm outside o x = Some out ->
  exists h, hidden_values par norm n x h /\ length out = m /\
    forall k, (k < m)%nat -> affine (par (SubOut k)) (map positive_part (affine (par (SubIn k)) (h n))) = [nth k out 0] /\
      length (par (SubIn k)) = match n with O => m | _ => neurons end.
Proof. exact (@heads_values). Qed.
Print Assumptions C187_heads.
Example C187_case : let o := Options (Count 2) (Some 2%nat) (Some 2%nat) false None false in
  has_layers o 2 /\ exists out, forward net same_norm no_row o [5; 7] = Some out /\
  out = affine (net (Hidden 1)) (map positive_part (affine (net (Hidden 0)) [5; 7])).
Proof.
  split; [reflexivity|]. destruct (forward net same_norm no_row _ [5; 7]) as [out|] eqn:F; [|discriminate]. exists out. split; [reflexivity|].
  apply (network_values _ _ _ _ 1%nat) in F; [|reflexivity..]. destruct F as (h & [H0 H1] & ->). rewrite H1 by lia. rewrite H0. reflexivity.
Qed.
Example C187_case_heads : let o := Options (Count 2) (Some 2%nat) (Some 2%nat) true None false in
  exists out, forward (heads 0) same_norm no_row o [5; 7] = Some out.
Proof. eexists. reflexivity. Qed.
