(** Losses, forecasts and constructor of the invertible forecaster: C166 - C168. *)
From Coq Require Import String Reals List Arith Bool Lia Lra.
From Verif Require Import Model.Subsample Model.Quantiles Model.Losses Model.Activations Model.FourierEs Model.Invertible Model.FkConfig Model.Embedding
  Spec.InvertibleSpec Spec.LossSpec Spec.EmbeddingSpec Proof.EmbeddingProof Proof.EmbeddingProof2.
Import ListNotations.
Local Open Scope R_scope.

(** C166 *)
Theorem C166_end_to_end_partial :
  forall (n : nat) (ls : list layer) (predictor : list R -> list R) (inputs targets : list (list R)),
  wide n ls -> ls <> [] -> Forall2 (fun x t => length (predictor x) = length t /\ (length t <= n)%nat) inputs targets ->
  full_batch_loss ls predictor inputs targets = Some 0 <-> Forall2 (fun x t => decode_future ls x (predictor x) = Some t) inputs targets.
Proof. exact (@full_batch_exact). Qed.
Print Assumptions C166_end_to_end_partial.
Theorem C166_default_loss_partial :
  forall (width : nat) (model : list R -> list R) (inputs targets : list (list R)), (0 < width)%nat ->
  (forall j, (j < width)%nat -> exists x, In x inputs /\ nth j (model x) 0 <> 0) ->
  0 <= default_loss width model inputs targets /\
  (default_loss width model inputs targets = 0 <->
   forall j, (j < width)%nat -> average (map (fun x => nth j (model x) 0) inputs) = 0 /\ variance (map (fun x => nth j (model x) 0) inputs) = 1).
Proof. exact (@default_loss_zero). Qed.
Print Assumptions C166_default_loss_partial.
Theorem C166_default_loss_refuted :
  forall (P : Type) (train : (P -> R) -> P) (width : nat) (model : P -> list R -> list R) (inputs targets targets' : list (list R)),
  train (fun p => default_loss width (model p) inputs targets) = train (fun p => default_loss width (model p) inputs targets').
Proof. exact (@default_ignores_targets). Qed.
Print Assumptions C166_default_loss_refuted.
Theorem C166_default_forecast_refuted :
  forall (n : nat) (ls : list layer) (n_targets : nat) (x : list R), wide n ls -> length x = n ->
  default_predict ls n_targets x <> None <-> n_targets = n.
Proof. exact (@default_needs_as_many). Qed.
Print Assumptions C166_default_forecast_refuted.
Lemma tanh_zero : tanh 0 = 0.
Proof. unfold tanh, sinh, cosh. rewrite Ropp_0, exp_0. field. Qed.
Example C166_case : let ls := [Layer 2 [] [] 1 1 Identity true] in
  wide 2 ls /\ full_batch_loss ls (fun x => [nth 1 x 0 + 1]) [[4; 5]; [7; 8]] [[6]; [9]] = Some 0 /\ default_predict ls 1 [4; 5] = None.
Proof.
  split; [repeat constructor|]. split; [|reflexivity].
  apply (full_batch_exact 2); [repeat constructor|discriminate|repeat constructor|].
  repeat constructor; unfold decode_future, module_predict, module_invert, layer_predict, layer_invert, affine; cbn -[tanh Rdiv];
  unfold Invertible.kernel, lower; cbn -[tanh Rdiv Rinv]; rewrite ?tanh_zero; do 2 f_equal; field.
Qed.

(** C167 *)
Theorem C167_several_targets_partial :
  forall (embedded predicted : list (list R)) (row : list R), In row embedded -> varies row -> same_shape embedded predicted ->
  exists v, quasi_loss embedded predicted = Some v /\ 0 <= v /\ (v = 0 <-> predicted = embedded).
Proof. exact (@quasi_defined). Qed.
Print Assumptions C167_several_targets_partial.
Theorem C167_target_partial :
  forall (ls : list layer) (series : list R) (t n k : nat), (k <= n)%nat ->
  target_embedding ls (stretch series t n) (stretch series (t + n) k) = last_of k (module_predict ls (stretch series (t + k) n)).
Proof. exact (@advanced_window). Qed.
Print Assumptions C167_target_partial.
Theorem C167_single_target_refuted :
  forall (embedded predicted : list (list R)), Forall (fun r => length r = 1%nat) embedded -> quasi_loss embedded predicted = None.
Proof. exact (@quasi_single). Qed.
Print Assumptions C167_single_target_refuted.
Example C167_case : quasi_loss [[1; 2]] [[1; 3]] = Some (1 / 2) /\ varies [1; 2].
Proof.
  split.
  - unfold quasi_loss, mean_squares, jmean. cbn. destruct (Req_EM_T _ 0) as [E|E]; [exfalso; lra|]. f_equal. field.
  - exists 1, 2. cbn. repeat split; auto. lra.
Qed.

(** C168 *)
Theorem C168_default_partial :
  forall (others : dict) (a : inn_args) (object : dict) (p : nat),
  get "n_hidden_y" others = None -> get "n_prediction_layers" others = None -> get "n_out" others = None ->
  in_prediction_layers a = S p -> in_hidden_y a = 200%nat -> inn_create others a = Some object ->
  predictor_sizes object = Some (repeat (in_hidden_y a) p ++ [in_out a])%list.
Proof. exact (@hidden_y_default). Qed.
Print Assumptions C168_default_partial.
Theorem C168_accepted_partial :
  forall (others : dict) (a : inn_args), inn_create others a <> None <-> (in_out a + in_exogenous a <= in_inputs a)%nat.
Proof. exact (@inn_accepts). Qed.
Print Assumptions C168_accepted_partial.
Theorem C168_width_refuted :
  forall (others : dict) (a : inn_args) (object : dict) (news : list dict) (sizes : list nat),
  get "n_hidden_y" others = None -> inn_create others a = Some object -> predictor_sizes (reconfigure object news) = Some sizes ->
  exists (depth out : nat), sizes = (repeat 200%nat depth ++ [out])%list.
Proof. exact (@hidden_y_ignored). Qed.
Print Assumptions C168_width_refuted.
Example C168_case : let a := InnArgs 5 2 64 3 1 4 in
  match inn_create [("batch_size"%string, VNat 100)] a with
  | Some object => predictor_sizes (reconfigure object [[("n_hidden_y"%string, VNat 32)]]) = Some [200; 200; 2]%nat
  | None => False
  end.
Proof. reflexivity. Qed.
