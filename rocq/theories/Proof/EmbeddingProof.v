From Coq Require Import String Reals List Arith Bool Lia Lra.
From Verif Require Import Model.Subsample Model.Quantiles Model.Losses Model.Invertible Model.FkConfig Model.Embedding
  Spec.InvertibleSpec Spec.EmbeddingSpec Proof.QuantilesProof Proof.InvertibleProof Proof.FkConfigProof Proof.FeedForwardProof.
Import ListNotations.
Local Open Scope R_scope.

Definition sq (u v : R) : R := (u - v) * (u - v).
Lemma jmean_nonneg l : Forall (fun v => 0 <= v) l -> 0 <= jmean l.
Proof.
  intros F. unfold jmean. destruct l as [|a l]; [cbn; unfold Rdiv; lra|].
  apply Rmult_le_pos; [|apply Rlt_le, Rinv_0_lt_compat, lt_0_INR; cbn; lia]. clear -F. induction F; cbn [fold_right]; lra.
Qed.
Lemma jmean_zero l : Forall (fun v => 0 <= v) l -> jmean l = 0 -> Forall (fun v => v = 0) l.
Proof.
  intros F Z. destruct l as [|a l]; [constructor|]. unfold jmean in Z.
  assert (P : 0 < INR (length (a :: l))) by (apply lt_0_INR; cbn; lia).
  assert (S0 : fold_right Rplus 0 (a :: l) = 0).
  { unfold Rdiv in Z. apply Rmult_integral in Z. destruct Z as [Z|Z]; [assumption|]. apply Rinv_neq_0_compat in Z; [contradiction|lra]. }
  clear Z P. revert S0. generalize (a :: l) as m, F. clear. intros m F. induction F as [|v m V F IH]; [constructor|]. cbn [fold_right].
  assert (0 <= fold_right Rplus 0 m) by (clear -F; induction F; cbn [fold_right]; lra). intros S0. constructor; [lra|]. apply IH. lra.
Qed.
Lemma jmean_of_zeros l : Forall (fun v => v = 0) l -> jmean l = 0.
Proof. intros F. unfold jmean. replace (fold_right Rplus 0 l) with 0; [unfold Rdiv; lra|]. induction F as [|v l E F IH]; [reflexivity|]. cbn [fold_right]. lra. Qed.
Lemma squares_nonneg a b : Forall (fun v => 0 <= v) (concat (map2 (map2 sq) a b)).
Proof.
  apply Forall_concat. unfold Subsample.map2. rewrite Forall_map. apply Forall_forall. intros [r s] _. rewrite Forall_map. apply Forall_forall. intros [u v] _. unfold sq. cbn. apply Rle_0_sqr.
Qed.
Lemma row_zero r s : length r = length s -> Forall (fun v => v = 0) (map2 sq r s) -> r = s.
Proof.
  revert s. induction r as [|u r IH]; intros [|v s] L; try discriminate; [reflexivity|]. rewrite map2_cons. intros F. inversion F as [|? ? E F' ]; subst.
  injection L as L. unfold sq in E. f_equal; [apply Rsqr_0_uniq in E; lra|]. apply IH; assumption.
Qed.
Lemma mean_squares_nonneg a b : 0 <= mean_squares a b.
Proof. apply jmean_nonneg, squares_nonneg. Qed.
Lemma mean_squares_zero a b : same_shape a b -> mean_squares a b = 0 -> a = b.
Proof.
  intros Sh Z. apply jmean_zero in Z; [|apply squares_nonneg]. change (Forall (fun v => v = 0) (concat (map2 (map2 sq) a b))) in Z. revert Z.
  induction Sh as [|r s a b L Sh IH]; [reflexivity|]. rewrite map2_cons. cbn [concat]. intros Z. apply Forall_app in Z. destruct Z as [Z1 Z2]. f_equal; [apply row_zero; assumption|auto].
Qed.
Lemma mean_squares_self a : mean_squares a a = 0.
Proof.
  apply jmean_of_zeros. apply Forall_concat. unfold Subsample.map2. rewrite Forall_map. apply Forall_forall. intros [r s] I.
  assert (E : r = s) by (clear -I; induction a as [|x a IH]; [contradiction|]; cbn in I; destruct I as [I|I]; [congruence|auto]). subst s.
  rewrite Forall_map. apply Forall_forall. intros [u v] I'. assert (E : u = v) by (clear -I'; induction r as [|x r IH]; [contradiction|]; cbn in I'; destruct I' as [I|I]; [congruence|auto]). subst. cbn. lra.
Qed.

(** C166 *)
Lemma default_ignores_targets (P : Type) (train : (P -> R) -> P) (width : nat) (model : P -> list R -> list R) (inputs targets targets' : list (list R)) :
  train (fun p => default_loss width (model p) inputs targets) = train (fun p => default_loss width (model p) inputs targets').
Proof. reflexivity. Qed.
Lemma module_length n ls x : wide n ls -> length x = n -> length (module_predict ls x) = n.
Proof.
  intros W. revert x. induction W as [|l ls E W IH]; intros x L; [assumption|]. cbn. apply IH. rewrite layer_length. assumption.
Qed.
Lemma default_needs_as_many (n : nat) (ls : list layer) (n_targets : nat) (x : list R) : wide n ls -> length x = n ->
  default_predict ls n_targets x <> None <-> n_targets = n.
Proof.
  intros W L. unfold default_predict. rewrite (module_length n) by assumption. destruct (Nat.eqb_spec n n_targets); split; intros H; try congruence.
Qed.
Lemma decode_length n ls predictor x (target y : list R) : wide n ls -> ls <> [] -> length (predictor x) = length target -> (length target <= n)%nat ->
  decode_future ls x (predictor x) = Some y -> length y = length target.
Proof.
  intros W Hne Hp Hn E. unfold decode_future in E. destruct (module_invert ls _) as [z|] eqn:Z; [|discriminate]. cbn in E. injection E as <-.
  rewrite Hp. rewrite last_of_length; [reflexivity|]. destruct ls as [|l ls]; [congruence|]. cbn in Z. destruct (module_invert ls _) as [z'|]; [|discriminate].
  apply layer_invert_length in Z. inversion W; subst. lia.
Qed.
Lemma full_batch_exact (n : nat) (ls : list layer) (predictor : list R -> list R) (inputs targets : list (list R)) :
  wide n ls -> ls <> [] -> Forall2 (fun x t => length (predictor x) = length t /\ (length t <= n)%nat) inputs targets ->
  full_batch_loss ls predictor inputs targets = Some 0 <-> Forall2 (fun x t => decode_future ls x (predictor x) = Some t) inputs targets.
Proof.
  intros W Ne F. unfold full_batch_loss. split.
  - destruct (all_some _) as [hats|] eqn:E; [|discriminate]. intros Z. injection Z as Z.
    assert (F2 : Forall2 (fun x h => decode_future ls x (predictor x) = Some h) inputs hats).
    { clear -E. revert hats E. induction inputs as [|x inputs IH]; intros hats; cbn [map all_some]; [intros H; injection H as <-; constructor|].
      destruct (decode_future ls x (predictor x)) as [h|] eqn:D; [|discriminate]. destruct (all_some _) as [hs|]; [|discriminate]. intros H. injection H as <-. constructor; [assumption|]. apply IH. reflexivity. }
    assert (Q : targets = hats); [|subst; assumption]. apply mean_squares_zero; [|assumption].
    clear Z E. revert hats F2. induction F as [|x t inputs targets [L1 L2] F IH]; intros hats F2; inversion F2; subst; constructor; [|apply IH; assumption].
    symmetry. eapply decode_length; eauto.
  - intros F2. assert (E : all_some (map (fun x => decode_future ls x (predictor x)) inputs) = Some targets).
    { clear F. induction F2 as [|x t inputs targets D F2 IH]; [reflexivity|]. cbn [map all_some]. rewrite D, IH. reflexivity. }
    rewrite E, mean_squares_self. reflexivity.
Qed.

(** C167 *)
Lemma roll_length row : length (roll row) = length row.
Proof.
  destruct row as [|a row]; [reflexivity|]. cbn [roll length]. f_equal. 
  destruct (@exists_last _ (a :: row)) as (l & b & E); [discriminate|]. rewrite E. rewrite removelast_app by discriminate. cbn. rewrite app_nil_r.
  apply (f_equal (@length R)) in E. rewrite app_length in E. cbn in E. lia.
Qed.
Lemma quasi_single (embedded predicted : list (list R)) : Forall (fun r => length r = 1%nat) embedded -> quasi_loss embedded predicted = None.
Proof.
  intros F. unfold quasi_loss. assert (E : map roll embedded = embedded).
  { induction F as [|r e L F IH]; [reflexivity|]. cbn. rewrite IH. destruct r as [|v [|? ?]]; try discriminate. reflexivity. }
  rewrite E, mean_squares_self. destruct (Req_EM_T 0 0); [reflexivity|congruence].
Qed.
Lemma roll_shift row i : (S i < length row)%nat -> nth (S i) (roll row) 0 = nth i row 0.
Proof.
  intros L. destruct row as [|a row]; [cbn in L; lia|]. unfold roll. change (nth i (removelast (a :: row)) 0 = nth i (a :: row) 0).
  destruct (@exists_last _ (a :: row)) as (l & b & E); [discriminate|]. rewrite E in *. rewrite removelast_app by discriminate. cbn [removelast]. rewrite app_nil_r.
  rewrite app_length in L. cbn in L. rewrite app_nth1 by lia. reflexivity.
Qed.
Lemma roll_fixed row : roll row = row -> forall i, (i < length row)%nat -> nth i row 0 = nth 0 row 0.
Proof.
  intros E i. induction i as [|i IH]; intros L; [reflexivity|]. rewrite <- IH by lia. rewrite <- (roll_shift row i L). rewrite E. reflexivity.
Qed.
Lemma quasi_defined (embedded predicted : list (list R)) (row : list R) : In row embedded -> varies row -> same_shape embedded predicted ->
  exists v, quasi_loss embedded predicted = Some v /\ 0 <= v /\ (v = 0 <-> predicted = embedded).
Proof.
  intros I (u & v & Iu & Iv & Nuv) Sh. assert (Sr : same_shape embedded (map roll embedded)).
  { clear. unfold same_shape. induction embedded as [|r e IH]; constructor; [symmetry; apply roll_length|assumption]. }
  assert (D : mean_squares embedded (map roll embedded) <> 0).
  { intros Z. apply mean_squares_zero in Z; [|assumption]. assert (E : roll row = row).
    { clear -Z I. induction embedded as [|r e IH]; [contradiction|]. cbn in Z. injection Z as Z1 Z2. destruct I as [->|I]; [symmetry; assumption|auto]. }
    apply Nuv. apply (In_nth _ _ 0) in Iu, Iv. destruct Iu as (i & Li & <-), Iv as (j & Lj & <-). rewrite (roll_fixed _ E i Li), (roll_fixed _ E j Lj). reflexivity. }
  pose proof (mean_squares_nonneg embedded (map roll embedded)) as P. pose proof (mean_squares_nonneg embedded predicted) as Q.
  unfold quasi_loss. destruct (Req_EM_T _ 0); [contradiction|]. eexists. split; [reflexivity|]. split.
  - apply Rmult_le_pos; [assumption|]. apply Rlt_le, Rinv_0_lt_compat. lra.
  - split.
    + intros Z. unfold Rdiv in Z. apply Rmult_integral in Z. destruct Z as [Z|Z]; [|apply Rinv_neq_0_compat in Z; [contradiction|assumption]].
      symmetry. apply mean_squares_zero; assumption.
    + intros ->. rewrite mean_squares_self. unfold Rdiv. lra.
Qed.

(** C168 *)
Local Open Scope string_scope.
Lemma get_set_params k attrs new : get k attrs = None -> get k (set_params attrs new) = None.
Proof.
  unfold set_params. induction attrs as [|[k' v] attrs IH]; cbn; [reflexivity|]. destruct (String.eqb k k'); [discriminate|]. assumption.
Qed.
Lemma hidden_y_ignored (others : dict) (a : inn_args) (object : dict) (news : list dict) (sizes : list nat) :
  get "n_hidden_y" others = None -> inn_create others a = Some object -> predictor_sizes (reconfigure object news) = Some sizes ->
  exists (depth out : nat), sizes = (repeat 200%nat depth ++ [out])%list.
Proof.
  intros O C P. assert (G : get "n_hidden_y" object = None).
  { unfold inn_create in C. destruct (_ <=? _)%nat; [|discriminate]. injection C as <-. rewrite get_update_none by assumption. reflexivity. }
  assert (G' : get "n_hidden_y" (reconfigure object news) = None).
  { unfold reconfigure. clear -G. revert object G. induction news as [|n news IH]; intros object G; [assumption|]. cbn. apply IH. apply get_set_params. assumption. }
  unfold predictor_sizes, attribute in P. rewrite G' in P. cbn [get inn_class String.eqb] in P.
  destruct (match get "n_prediction_layers" _ with Some _ => _ | None => _ end) as [[[|p]| | | |]|]; try discriminate.
  cbn in P. destruct (match get "n_out" _ with Some _ => _ | None => _ end) as [[n| | | |]|]; try discriminate. injection P as <-. eauto.
Qed.
Lemma hidden_y_default (others : dict) (a : inn_args) (object : dict) (p : nat) :
  get "n_hidden_y" others = None -> get "n_prediction_layers" others = None -> get "n_out" others = None ->
  in_prediction_layers a = S p -> in_hidden_y a = 200%nat -> inn_create others a = Some object ->
  predictor_sizes object = Some (repeat (in_hidden_y a) p ++ [in_out a])%list.
Proof.
  intros O1 O2 O3 Ip Ih C. unfold inn_create in C. destruct (_ <=? _)%nat; [|discriminate]. injection C as <-.
  unfold predictor_sizes, attribute. rewrite !get_update_none by assumption. cbn -[Nat.sub repeat]. rewrite Ip, Ih. reflexivity.
Qed.
