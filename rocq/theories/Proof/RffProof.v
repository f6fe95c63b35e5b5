From Coq Require Import List ZArith Bool Arith Reals Lia Lra.
From Verif Require Import Model.Series Model.Subsample Model.Scaling Model.Rff Spec.ScalingSpec Proof.SeriesProof Proof.QuantilesProof Proof.SubsampleProof Proof.ScalingProof.
Import ListNotations.
Local Open Scope R_scope.

Lemma weights_kept {M : Type} (apply : M -> list R -> list R) (learn : list (list R) -> list (list R) -> M) (dim : nat)
    (dw dw1 dw2 : nat -> list (list R)) (db db1 db2 : nat -> list R) (r : regressor M) (x y x' : list (list R)) :
  let r' := rff_fit dw db learn dim r x y in
  rff_predict dw1 db1 apply dim r' x' = rff_predict dw2 db2 apply dim r' x' /\
  rff_fit dw1 db1 learn dim r' x y = r' /\
  rff_predict dw1 db1 apply dim r' x' <> None.
Proof.
  unfold rff_fit, rff_predict, set_weight. cbn. repeat split. discriminate.
Qed.

Lemma given_weights {M : Type} (learn : list (list R) -> list (list R) -> M) (dim : nat)
    (dw1 dw2 : nat -> list (list R)) (db1 db2 : nat -> list R) (W : list (list R)) (b : list R) (m : option M) (x y : list (list R)) :
  rff_fit dw1 db1 learn dim (Regressor (Some W) (Some b) m) x y = rff_fit dw2 db2 learn dim (Regressor (Some W) (Some b) m) x y.
Proof. reflexivity. Qed.

Lemma predict_rows {M : Type} (apply : M -> list R -> list R) (dim : nat) (dw : nat -> list (list R)) (db : nat -> list R)
    (r : regressor M) (x1 x2 p : list (list R)) :
  rff_predict dw db apply dim r (x1 ++ x2) = Some p ->
  exists p1 p2, rff_predict dw db apply dim r x1 = Some p1 /\ rff_predict dw db apply dim r x2 = Some p2 /\ p = p1 ++ p2 /\ length p1 = length x1.
Proof.
  unfold rff_predict. destruct (r_model r) as [m|]; [|discriminate]. destruct (set_weight _ _ _ _ _) as [W b]. intros H.
  injection H as <-. rewrite map_app. eexists _, _. repeat split. apply map_length.
Qed.

Lemma conv_bounded (W : list (list R)) (b x : list R) : Forall (fun v => -1 <= v <= 1) (conv W b x).
Proof. unfold conv, map2. apply Forall_map, Forall_forall. intros [w c] _. exact (COS_bound (dot x w + c)). Qed.

(** The learner is only ever shown features between -1 and 1. *)
Lemma learner_sees_bounded {M : Type} (learn : list (list R) -> list (list R) -> M) (learn' : list (list R) -> list (list R) -> M)
    (apply apply' : M -> list R -> list R) (dim : nat) (dw : nat -> list (list R)) (db : nat -> list R) (r : regressor M) (x y x' : list (list R)) :
  (forall f t, Forall (Forall (fun v => -1 <= v <= 1)) f -> length f = length x -> learn f t = learn' f t) ->
  (forall m f, Forall (fun v => -1 <= v <= 1) f -> apply m f = apply' m f) ->
  rff_predict dw db apply dim (rff_fit dw db learn dim r x y) x' = rff_predict dw db apply' dim (rff_fit dw db learn' dim r x y) x'.
Proof.
  intros Hl Ha. unfold rff_predict, rff_fit, set_weight. cbn. f_equal. rewrite Hl.
  - apply map_ext. intros row. apply Ha, conv_bounded.
  - apply Forall_map, Forall_forall. intros row _. apply conv_bounded.
  - apply map_length.
Qed.

(** * Boosting *)
Lemma linear_const c f : linear_apply (c, []) f = c.
Proof. unfold linear_apply, dot, map2. cbn. destruct f; cbn; lra. Qed.
Lemma const_error c : forall feats err, length err = length feats ->
  squared_error feats err (c, []) = total (squares err) - 2 * c * total err + c * c * INR (length err).
Proof.
  unfold squared_error. intros feats err. revert feats. induction err as [|e err IH]; intros [|f feats] H; try discriminate; [cbn; lra|].
  cbn [map]. rewrite map2_cons. unfold squares in *. cbn [map length]. rewrite !total_cons, IH by (cbn in H; lia). rewrite linear_const, S_INR. ring.
Qed.
Lemma best_constant_ok : no_worse_than_zero best_constant.
Proof.
  intros feats err H. unfold best_constant. rewrite const_error by exact H. destruct err as [|e err]; [cbn; lra|].
  assert (P : 0 < INR (length (e :: err))) by (apply len_pos; discriminate). set (n := INR (length (e :: err))) in *. set (t := total (e :: err)).
  replace (t / n * (t / n) * n) with (t / n * t) by (field; lra).
  assert (0 <= t / n * t); [|lra]. replace (t / n * t) with (t * t * / n) by (field; lra).
  apply Rmult_le_pos; [apply Rle_0_sqr|]. left. now apply Rinv_0_lt_compat.
Qed.

Lemma additive_len ls : forall stages x err, length err = length x -> length (snd (additive_fit ls stages x err)) = length x.
Proof.
  induction stages as [|[W b] rest IH]; intros x err H; [exact H|]. cbn [additive_fit].
  set (feats := map (conv W b) x). set (m := ls feats err). specialize (IH x (map2 Rminus err (map (linear_apply m) feats))).
  destruct (additive_fit ls rest x _) as [ms e]. cbn in *. apply IH. rewrite map2_length; [exact H|]. unfold feats. now rewrite !map_length.
Qed.

Lemma additive_decreases (learn : list (list R) -> list R -> R * list R) : no_worse_than_zero learn ->
  forall stages x y, length y = length x ->
  total (squares (snd (additive_fit learn stages x y))) <= total (squares y).
Proof.
  intros Hm. induction stages as [|[W b] rest IH]; intros x y H; [apply Rle_refl|]. cbn [additive_fit].
  set (feats := map (conv W b) x). set (m := learn feats y). specialize (IH x (map2 Rminus y (map (linear_apply m) feats))).
  destruct (additive_fit learn rest x _) as [ms e]. cbn [snd] in *. eapply Rle_trans; [apply IH|].
  - rewrite map2_length; [exact H|]. unfold feats. now rewrite !map_length.
  - apply Hm. unfold feats. now rewrite map_length.
Qed.

Lemma additive_app learn : forall s1 s2 x y,
  snd (additive_fit learn (s1 ++ s2) x y) = snd (additive_fit learn s2 x (snd (additive_fit learn s1 x y))) /\
  fst (additive_fit learn (s1 ++ s2) x y) = fst (additive_fit learn s1 x y) ++ fst (additive_fit learn s2 x (snd (additive_fit learn s1 x y))).
Proof.
  induction s1 as [|[W b] rest IH]; intros s2 x y; [split; reflexivity|]. cbn [app additive_fit].
  set (m := learn _ y). specialize (IH s2 x (map2 Rminus y (map (linear_apply m) (map (conv W b) x)))).
  destruct (additive_fit learn (rest ++ s2) x _) as [ms e]. destruct (additive_fit learn rest x _) as [ms1 e1]. cbn in *.
  destruct IH as [-> ->]. split; reflexivity.
Qed.

Lemma fold_acc {A} (f : A -> R) l a : fold_left (fun acc p => acc + f p) l a = a + fold_left (fun acc p => acc + f p) l 0.
Proof. revert a. induction l as [|p l IH]; intros a; cbn; [lra|]. rewrite (IH (a + f p)), (IH (0 + f p)). lra. Qed.

Lemma additive_residual learn : forall stages x y i, length y = length x -> (i < length x)%nat ->
  nth i (snd (additive_fit learn stages x y)) 0 = nth i y 0 - additive_predict stages (fst (additive_fit learn stages x y)) (nth i x []).
Proof.
  induction stages as [|[W b] rest IH]; intros x y i H Hi; [cbn; unfold additive_predict; cbn; lra|]. cbn [additive_fit].
  set (feats := map (conv W b) x). set (m := learn feats y). specialize (IH x (map2 Rminus y (map (linear_apply m) feats)) i).
  assert (Lf : length (map (linear_apply m) feats) = length x) by (unfold feats; now rewrite !map_length).
  destruct (additive_fit learn rest x _) as [ms e]. cbn [fst snd] in *.
  rewrite IH by (try rewrite map2_length; lia). rewrite (map2_nth Rminus _ _ i 0 0 0) by lia.
  unfold feats. rewrite (nth_indep (map _ _) 0 (linear_apply m (conv W b []))) by (unfold feats in Lf; lia).
  rewrite map_nth, map_nth. unfold additive_predict. cbn [combine fold_left fst snd].
  rewrite (fold_acc (fun p => linear_apply (snd p) (conv (fst (fst p)) (snd (fst p)) (nth i x []))) (combine rest ms) (0 + _)). lra.
Qed.

Lemma residual_list learn stages x y : length y = length x ->
  snd (additive_fit learn stages x y) = map2 Rminus y (map (additive_predict stages (fst (additive_fit learn stages x y))) x).
Proof.
  intros H. assert (Lm : length (map2 Rminus y (map (additive_predict stages (fst (additive_fit learn stages x y))) x)) = length x).
  { rewrite map2_length; [exact H|]. now rewrite map_length. }
  apply (list_eq_nth _ _ 0); rewrite additive_len by exact H; [lia|]. intros i Hi.
  rewrite additive_residual by assumption. rewrite (map2_nth Rminus _ _ i 0 0 0) by (rewrite ?map_length; lia).
  f_equal. rewrite (nth_indep _ 0 (additive_predict stages (fst (additive_fit learn stages x y)) [])) by (rewrite map_length; lia). now rewrite map_nth.
Qed.

Lemma boosting_improves (learn : list (list R) -> list R -> R * list R) (s1 s2 : list (list (list R) * list R)) (x : list (list R)) (y : list R) :
  no_worse_than_zero learn -> length y = length x ->
  let error stages := total (squares (map2 Rminus y (map (additive_predict stages (fst (additive_fit learn stages x y))) x))) in
  error (s1 ++ s2) <= error s1 <= total (squares y).
Proof.
  intros Hm H error. unfold error. rewrite <- !residual_list by exact H. destruct (additive_app learn s1 s2 x y) as [-> _]. split.
  - apply additive_decreases; [exact Hm|]. now apply additive_len.
  - now apply additive_decreases.
Qed.

(** * Orthogonal features *)
Lemma orf_shape (dim_in dim_out : nat) (std : R) (scales : nat -> nat -> R) (orth : nat -> nat -> nat -> R) : (0 < dim_in)%nat ->
  length (orf_matrix dim_in dim_out std scales orth) = dim_out /\
  Forall (fun c => length c = dim_in) (orf_matrix dim_in dim_out std scales orth).
Proof.
  intros Hd. unfold orf_matrix. split.
  - rewrite firstn_length, map_length, seq_length. pose proof (Nat.div_mod dim_out dim_in ltac:(lia)). pose proof (Nat.mod_upper_bound dim_out dim_in ltac:(lia)). nia.
  - apply Forall_forall. intros c Hc.
    assert (G : In c (map (fun k => map (fun i => orf_entry dim_in std scales orth i k) (seq 0 dim_in)) (seq 0 ((dim_out / dim_in + 1) * dim_in)))).
    { rewrite <- (firstn_skipn dim_out). apply in_or_app. now left. }
    apply in_map_iff in G as (k & <- & _). now rewrite map_length, seq_length.
Qed.

Lemma orf_nth dim_in dim_out std scales orth k i : (0 < dim_in)%nat -> (k < dim_out)%nat -> (i < dim_in)%nat ->
  nth i (nth k (orf_matrix dim_in dim_out std scales orth) []) 0 = orf_entry dim_in std scales orth i k.
Proof.
  intros Hd Hk Hi. unfold orf_matrix. rewrite nth_firstn by exact Hk.
  assert (L : (k < (dim_out / dim_in + 1) * dim_in)%nat).
  { pose proof (Nat.div_mod dim_out dim_in ltac:(lia)). pose proof (Nat.mod_upper_bound dim_out dim_in ltac:(lia)). nia. }
  rewrite nth_map_seq by exact L. now rewrite nth_map_seq.
Qed.

Lemma ip_ext n u v u' v' : (forall k, (k < n)%nat -> u k = u' k /\ v k = v' k) -> ip n u v = ip n u' v'.
Proof. induction n as [|n IH]; intros H; cbn; [reflexivity|]. rewrite IH by (intros; apply H; lia). destruct (H n) as [-> ->]; [lia|reflexivity]. Qed.
Lemma ip_scal n a b u v : ip n (fun k => a * u k) (fun k => b * v k) = a * b * ip n u v.
Proof. induction n as [|n IH]; cbn; [lra|]. rewrite IH. ring. Qed.

(** Within a complete block, the coordinates (rows) are orthogonal, of length [std * scale]. *)
Lemma orf_rows (dim_in dim_out : nat) (std : R) (scales : nat -> nat -> R) (orth : nat -> nat -> nat -> R) (blk i j : nat) :
  (0 < dim_in)%nat -> orthogonal dim_in (orth blk) -> ((blk + 1) * dim_in <= dim_out)%nat -> (i < dim_in)%nat -> (j < dim_in)%nat ->
  let entry i k := nth i (nth (blk * dim_in + k) (orf_matrix dim_in dim_out std scales orth) []) 0 in
  ip dim_in (entry i) (entry j) = if Nat.eq_dec i j then std * std * (scales blk i * scales blk i) else 0.
Proof.
  intros Hd [Ho _] Hb Hi Hj entry.
  rewrite (ip_ext dim_in (entry i) (entry j) (fun k => (std * scales blk i) * orth blk i k) (fun k => (std * scales blk j) * orth blk j k)).
  2:{ intros k Hk. unfold entry. rewrite !orf_nth by nia. unfold orf_entry.
      replace ((blk * dim_in + k) / dim_in)%nat with blk by (apply Nat.div_unique with k; nia).
      replace ((blk * dim_in + k) mod dim_in)%nat with k by (apply Nat.mod_unique with blk; nia). split; ring. }
  rewrite ip_scal, Ho by assumption. destruct (Nat.eq_dec i j) as [->|]; ring.
Qed.

Lemma ip_update n u v u' v' p (H : forall k, (k < n)%nat -> k <> p -> u k * v k = u' k * v' k) : (p < n)%nat ->
  ip n u v - u p * v p = ip n u' v' - u' p * v' p.
Proof.
  induction n as [|n IH]; intros Hp; [lia|]. cbn. destruct (Nat.eq_dec p n) as [->|N].
  - assert (E : forall m, (m <= n)%nat -> ip m u v = ip m u' v').
    { induction m as [|m IHm]; intros Hm; cbn; [reflexivity|]. rewrite IHm, H by lia. reflexivity. }
    rewrite E by lia. lra.
  - rewrite (H n) by lia. specialize (IH ltac:(intros; apply H; lia) ltac:(lia)). lra.
Qed.

(** The frequency vectors (columns) are not, unless the scales agree: changing one scale changes the
    inner product of two vectors both of which use that coordinate. *)
Lemma orf_columns (dim_in dim_out : nat) (std : R) (scales scales' : nat -> nat -> R) (orth : nat -> nat -> nat -> R) (blk p a b : nat) :
  (0 < dim_in)%nat -> ((blk + 1) * dim_in <= dim_out)%nat -> (a < dim_in)%nat -> (b < dim_in)%nat -> (p < dim_in)%nat ->
  std <> 0 -> orth blk p a <> 0 -> orth blk p b <> 0 ->
  (forall i, i <> p -> scales' blk i = scales blk i) -> scales' blk p * scales' blk p <> scales blk p * scales blk p ->
  let inner s := ip dim_in (fun i => nth i (nth (blk * dim_in + a) (orf_matrix dim_in dim_out std s orth) []) 0)
                           (fun i => nth i (nth (blk * dim_in + b) (orf_matrix dim_in dim_out std s orth) []) 0) in
  inner scales <> 0 \/ inner scales' <> 0.
Proof.
  intros Hd Hb Ha Hbb Hp Hs Oa Ob He Hsc inner.
  destruct (Req_dec (inner scales) 0) as [Z|]; [|now left]. destruct (Req_dec (inner scales') 0) as [Z'|]; [|now right]. exfalso.
  assert (E : forall s c i, (c < dim_in)%nat -> (i < dim_in)%nat ->
     nth i (nth (blk * dim_in + c) (orf_matrix dim_in dim_out std s orth) []) 0 = std * (s blk i * orth blk i c)).
  { intros s c i Hc Hi. rewrite orf_nth by nia. unfold orf_entry.
      replace ((blk * dim_in + c) / dim_in)%nat with blk by (apply Nat.div_unique with c; nia).
      replace ((blk * dim_in + c) mod dim_in)%nat with c by (apply Nat.mod_unique with blk; nia). reflexivity. }
  unfold inner in Z, Z'.
  rewrite (ip_ext _ _ _ (fun i => std * (scales blk i * orth blk i a)) (fun i => std * (scales blk i * orth blk i b))) in Z by (intros; now rewrite !E).
  rewrite (ip_ext _ _ _ (fun i => std * (scales' blk i * orth blk i a)) (fun i => std * (scales' blk i * orth blk i b))) in Z' by (intros; now rewrite !E).
  pose proof (ip_update dim_in (fun i => std * (scales blk i * orth blk i a)) (fun i => std * (scales blk i * orth blk i b))
     (fun i => std * (scales' blk i * orth blk i a)) (fun i => std * (scales' blk i * orth blk i b)) p) as U.
  cbn beta in U. rewrite Z, Z' in U. specialize (U ltac:(intros k _ Hk; rewrite (He k Hk); reflexivity) Hp).
  assert (D : (scales' blk p * scales' blk p - scales blk p * scales blk p) * (std * std * (orth blk p a * orth blk p b)) = 0) by lra.
  apply Rmult_integral in D as [D|D]; [lra|].
  apply Rmult_integral in D as [D|D]; apply Rmult_integral in D as [D|D]; contradiction.
Qed.

(** * With a formatter *)
Lemma rff_raises (cols : list label) (normalizers : list nat) : normalizers <> [] -> rff_denormalizable cols normalizers = false.
Proof.
  intros H. unfold rff_denormalizable, denormalizable, select_columns. destruct normalizers as [|n ns]; [congruence|].
  cbn [forallb]. assert (E : existsb (label_eqb (named n)) (map numbered (seq 0 (length cols))) = false).
  { apply not_true_is_false. intros E. apply existsb_exists in E as (l & Hl & El). apply in_map_iff in Hl as (k & <- & _). discriminate. }
  rewrite E. reflexivity.
Qed.
Lemma others_select (cols : list label) (normalizers : list nat) : (forall n, In n normalizers -> In (named n) cols) -> denormalizable cols normalizers = true.
Proof.
  intros H. unfold denormalizable, select_columns. rewrite (proj2 (forallb_forall _ normalizers)); [reflexivity|].
  intros n Hn. apply existsb_exists. exists (named n). split; [now apply H|]. cbn. apply Nat.eqb_refl.
Qed.
