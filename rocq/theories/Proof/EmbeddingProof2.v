From Coq Require Import String Reals List Arith Bool Lia Lra.
From Verif Require Import Model.Subsample Model.Quantiles Model.Losses Model.Invertible Model.FkConfig Model.Embedding
  Spec.InvertibleSpec Spec.LossSpec Spec.EmbeddingSpec Proof.SeriesProof Proof.LossProof.
Import ListNotations.
Local Open Scope R_scope.

(** C167 *)
Lemma stretch_split s t n k : (k <= n)%nat -> stretch s t n = stretch s t k ++ stretch s (t + k) (n - k).
Proof.
  intros H. unfold stretch. replace n with (k + (n - k))%nat at 1 by lia. rewrite seq_app, map_app. f_equal. cbn.
  generalize (n - k)%nat as m. intros m. clear H. replace k with (k + 0)%nat at 1 by lia. generalize 0%nat as a.
  induction m as [|m IH]; intros a; [reflexivity|]. cbn [seq map]. f_equal; [f_equal; lia|]. rewrite <- IH. do 2 f_equal. lia.
Qed.
Lemma advanced_window (ls : list layer) (series : list R) (t n k : nat) : (k <= n)%nat ->
  target_embedding ls (stretch series t n) (stretch series (t + n) k) = last_of k (module_predict ls (stretch series (t + k) n)).
Proof.
  intros H. unfold target_embedding.
  assert (L : forall a b, length (stretch series a b) = b) by (intros; unfold stretch; rewrite map_length, seq_length; reflexivity).
  rewrite L, (stretch_split series t n k) by assumption. rewrite skipn_app, skipn_all2 by (rewrite L; lia). rewrite L, Nat.sub_diag. cbn [app skipn].
  rewrite (stretch_split series (t + k) n (n - k)) by lia.
  replace (t + k + (n - k))%nat with (t + n)%nat by lia. replace (n - (n - k))%nat with k by lia. reflexivity.
Qed.
(** C168 *)
Lemma inn_accepts (others : dict) (a : inn_args) : inn_create others a <> None <-> (in_out a + in_exogenous a <= in_inputs a)%nat.
Proof. unfold inn_create. destruct (Nat.leb_spec (in_out a + in_exogenous a) (in_inputs a)); split; intros; try lia; congruence. Qed.
(** C166 *)
Lemma default_loss_zero (width : nat) (model : list R -> list R) (inputs targets : list (list R)) : (0 < width)%nat ->
  (forall j, (j < width)%nat -> exists x, In x inputs /\ nth j (model x) 0 <> 0) ->
  0 <= default_loss width model inputs targets /\
  (default_loss width model inputs targets = 0 <->
   forall j, (j < width)%nat -> average (map (fun x => nth j (model x) 0) inputs) = 0 /\ variance (map (fun x => nth j (model x) 0) inputs) = 1).
Proof.
  intros W H. unfold default_loss.
  assert (E : transpose width (map model inputs) = map (fun j => map (fun x => nth j (model x) 0) inputs) (seq 0 width)).
  { unfold transpose. apply map_ext. intros j. rewrite map_map. reflexivity. }
  destruct (embedding_nonneg (transpose width (map model inputs))) as [A B].
  - rewrite E. destruct width; [lia|discriminate].
  - intros c I. rewrite E in I. apply in_map_iff in I. destruct I as (j & <- & J). apply in_seq in J. destruct (H j) as (x & X & V); [lia|].
    exists (nth j (model x) 0). split; [apply in_map_iff; eauto|assumption].
  - split; [assumption|]. rewrite B, E. split; intros C.
    + intros j J. apply C. apply in_map_iff. exists j. split; [reflexivity|]. apply in_seq. lia.
    + intros c I. apply in_map_iff in I. destruct I as (j & <- & J). apply in_seq in J. apply C. lia.
Qed.
