From Coq Require Import List ZArith Bool Lia Ascii.
From Coq Require Import ZifyBool ZifyNat.
From Verif Require Import Model.Names Model.Series Model.Transformer Model.Formatter
  Spec.TransformerSpec Spec.FormatterSpec Spec.FormatterInput Proof.SeriesProof Proof.TransformerProof Proof.TransformerProof2.
Import ListNotations.
Local Open Scope Z_scope.
Ltac Zify.zify_post_hook ::= Z.div_mod_to_equations.

Lemma text_eqb_spec a b : reflect (a = b) (text_eqb a b).
Proof. unfold text_eqb. destruct (list_eq_dec Ascii.ascii_dec a b); constructor; assumption. Qed.
Lemma text_eqb_refl a : text_eqb a a = true.
Proof. destruct (text_eqb_spec a a); congruence. Qed.

Section F.
Context {V : Type}.
Implicit Types (x : frame V) (cols : list (text * series V)).

(** Shapes. *)
Lemma base_columns_rect idx agg st (fs : list (aggfun V)) name d n :
  length d = n -> rectangular n (base_columns idx agg st fs name d).
Proof.
  intros Hd c. unfold base_columns. destruct fs as [|f fs].
  - intros [<-|[]]. exact Hd.
  - intros Hin. apply in_map_iff in Hin. destruct Hin as (g & <- & _). cbn [snd]. now rewrite rolling_length.
Qed.
Lemma lagged_rect lags lag_of cols n : rectangular n cols -> rectangular n (lagged (V := V) lags lag_of cols).
Proof.
  intros H. destruct lags as [ls|]; cbn [lagged]; [|exact H].
  intros c Hin. apply in_flat_map in Hin. destruct Hin as (l & _ & Hin).
  apply in_map_iff in Hin. destruct Hin as (b & <- & Hb). cbn [snd]. rewrite shift_length. now apply H.
Qed.
Lemma combine_rect (ns : list text) (ss : list (series V)) n :
  (forall s, In s ss -> length s = n) -> rectangular n (combine ns ss).
Proof. intros H [a b] Hin. apply in_combine_r in Hin. now apply H. Qed.
Lemma bin_columns_rect idx dt subs orig (fs : list (aggfun V)) name d n :
  length d = n -> rectangular n (bin_columns idx dt subs orig fs name d).
Proof.
  intros Hd. apply combine_rect. intros s Hin. apply in_flat_map in Hin. destruct Hin as (i & _ & Hin).
  apply in_map_iff in Hin. destruct Hin as (c & <- & Hin). unfold sub_columns in Hin.
  eapply lagged_rect; [|exact Hin]. now apply base_columns_rect.
Qed.
Lemma transform_name_rect (c : config V) s idx name d s' cs ms n :
  length d = n -> transform_name c s idx name d = Some (s', cs, ms) -> rectangular n cs.
Proof.
  intros Hd. unfold transform_name. destruct (sampling_time (c_dt c) idx) as [dt|]; [|discriminate].
  destruct (c_bins c) as [orig|].
  - destruct (median (diffs idx)) as [dt'|]; [|discriminate].
    match goal with |- context [Nat.eqb ?a ?b] => destruct (Nat.eqb a b) end; [|discriminate].
    intros [= _ <- _]. apply lagged_rect. destruct (c_functions c) as [|f fs].
    + intros b [<-|[]]. exact Hd.
    + now apply bin_columns_rect.
  - intros [= _ <- _]. apply lagged_rect. now apply base_columns_rect.
Qed.
Lemma get_col_in cols nm d : get_col cols nm = Some d -> exists c, In c cols /\ snd c = d.
Proof.
  unfold get_col. destruct (find (fun c => text_eqb (fst c) nm) cols) as [c|] eqn:E; [|discriminate].
  intros [= <-]. apply find_some in E. exists c. tauto.
Qed.
Lemma transform_names_rect (c : config V) s idx cols names s' cs ms n :
  rectangular n cols -> transform_names c s idx cols names = Some (s', cs, ms) -> rectangular n cs.
Proof.
  intros Hr. revert s s' cs ms. induction names as [|nm names IH]; intros s s' cs ms; cbn [transform_names].
  - intros [= _ <- _] b [].
  - destruct (get_col cols nm) as [d|] eqn:Ed; [|discriminate].
    destruct (transform_name c s idx nm d) as [[[s1 c1] m1]|] eqn:E1; [|discriminate].
    destruct (transform_names c s1 idx cols names) as [[[s2 c2] m2]|] eqn:E2; [|discriminate].
    intros [= _ <- _] b Hb. apply in_app_or in Hb. destruct Hb as [Hb|Hb].
    + eapply transform_name_rect; [|exact E1|exact Hb]. apply get_col_in in Ed. destruct Ed as (o & Ho & <-). now apply Hr.
    + exact (IH _ _ _ _ E2 b Hb).
Qed.

Lemma apply_transformers_shape (trs : list (config V * state)) x ss x1 mss :
  apply_transformers trs x = Some (ss, x1, mss) ->
  exists feats, x1 = Frame (f_idx x) (f_cols x ++ feats) /\
    (rectangular (length (f_idx x)) (f_cols x) -> rectangular (length (f_idx x)) feats).
Proof.
  revert x ss x1 mss. induction trs as [|[c s] trs IH]; intros x ss x1 mss; cbn [apply_transformers].
  - intros [= _ <- _]. exists []. rewrite app_nil_r. split; [destruct x; reflexivity|]. intros _ b [].
  - unfold transform. destruct (transform_names c s (f_idx x) (f_cols x) (c_names c)) as [[[s1 c1] m1]|] eqn:E1; [|discriminate].
    destruct (apply_transformers trs (Frame (f_idx x) (f_cols x ++ c1))) as [[[ss' x''] mss']|] eqn:E2; [|discriminate].
    intros [= _ <- _]. apply IH in E2. cbn [f_idx f_cols] in E2. destruct E2 as (feats & -> & Hr).
    exists (c1 ++ feats). rewrite <- app_assoc. split; [reflexivity|].
    intros Hx. assert (Hc1 : rectangular (length (f_idx x)) c1) by (eapply transform_names_rect; eauto).
    assert (Hboth : rectangular (length (f_idx x)) (f_cols x ++ c1)).
    { intros b Hb. apply in_app_or in Hb. destruct Hb; auto. }
    intros b Hb. apply in_app_or in Hb. destruct Hb as [Hb|Hb]; [auto|]. now apply Hr.
Qed.

Lemma apply_targets_rect (trs : list (config V * state)) x ss tcols mss :
  rectangular (length (f_idx x)) (f_cols x) ->
  apply_targets trs x = Some (ss, tcols, mss) -> rectangular (length (f_idx x)) tcols.
Proof.
  intros Hx. revert ss tcols mss. induction trs as [|[c s] trs IH]; intros ss tcols mss; cbn [apply_targets].
  - intros [= _ <- _] b [].
  - unfold transform. destruct (transform_names c s (f_idx x) (f_cols x) (c_names c)) as [[[s1 c1] m1]|] eqn:E1; [|discriminate].
    destruct (apply_targets trs x) as [[[ss' cols'] mss']|]; [|discriminate].
    intros [= _ <- _] b Hb. cbn [f_cols app] in Hb. apply in_app_or in Hb. destruct Hb as [Hb|Hb].
    + eapply transform_names_rect; eauto.
    + exact (IH _ _ _ eq_refl b Hb).
Qed.

(** Masks. *)
Lemma keep_rows_map {A} (p : nat -> bool) (l : list A) dflt :
  keep_rows (map p (seq 0 (length l))) l = map (fun i => nth i l dflt) (filter p (seq 0 (length l))).
Proof.
  unfold keep_rows.
  assert (Hg : forall (l : list A) (k : nat) (g : nat -> A),
     (forall i, (i < length l)%nat -> nth i l dflt = g (k + i)%nat) ->
     map snd (filter fst (combine (map p (seq k (length l))) l)) = map g (filter p (seq k (length l)))).
  { clear l. induction l as [|a l IH]; intros k g Hg; [reflexivity|].
    cbn [length seq map combine filter fst]. destruct (p k) eqn:E; cbn [map snd filter].
    - f_equal; [specialize (Hg 0%nat ltac:(cbn; lia)); cbn in Hg; rewrite Nat.add_0_r in Hg; exact Hg|].
      apply IH. intros i Hi. specialize (Hg (S i) ltac:(cbn; lia)). cbn in Hg. rewrite Hg. f_equal. lia.
    - apply IH. intros i Hi. specialize (Hg (S i) ltac:(cbn; lia)). cbn in Hg. rewrite Hg. f_equal. lia. }
  apply Hg. intros i Hi. reflexivity.
Qed.

Lemma keep_cols_restrict p n cols :
  rectangular n cols -> keep_cols (map p (seq 0 n)) cols = map (restrict (filter p (seq 0 n))) cols.
Proof.
  intros Hr. unfold keep_cols. apply map_ext_in. intros c Hc. specialize (Hr c Hc).
  unfold restrict. f_equal. rewrite <- Hr. apply keep_rows_map.
Qed.

Lemma map_fst_keep mask cols : map fst (keep_cols mask cols) = map fst cols.
Proof. unfold keep_cols. rewrite map_map. reflexivity. Qed.

(** Columns by unique names. *)
Lemma filter_name_unique cols c :
  NoDup (map fst cols) -> In c cols -> filter (fun o => text_eqb (fst o) (fst c)) cols = [c].
Proof.
  induction cols as [|o cols IH]; intros Hnd Hin; [destruct Hin|].
  cbn in Hnd. inversion Hnd as [|? ? Ho Hnd']; subst. cbn [filter].
  destruct Hin as [->|Hin].
  - rewrite text_eqb_refl. f_equal. apply filter_none. intros b Hb.
    destruct (text_eqb_spec (fst b) (fst c)) as [E|E]; [|reflexivity].
    exfalso. apply Ho. rewrite <- E. now apply in_map.
  - destruct (text_eqb_spec (fst o) (fst c)) as [E|E]; [|now apply IH].
    exfalso. apply Ho. rewrite E. now apply in_map.
Qed.

Lemma filter_new_app cols feats :
  NoDup (map fst (cols ++ feats)) -> new_columns cols (cols ++ feats) = feats.
Proof.
  intros Hnd. unfold new_columns. rewrite filter_app.
  rewrite filter_none, filter_all; [reflexivity| |].
  - intros f Hf. unfold is_new. apply negb_true_iff.
    destruct (existsb (fun o => text_eqb (fst o) (fst f)) cols) eqn:E; [|reflexivity].
    apply existsb_exists in E. destruct E as (o & Ho & Eo). exfalso.
    destruct (text_eqb_spec (fst o) (fst f)) as [E|E]; [|discriminate].
    rewrite map_app in Hnd. apply in_split in Hf. destruct Hf as (l1 & l2 & ->).
    rewrite map_app in Hnd. cbn in Hnd. rewrite app_assoc in Hnd.
    apply NoDup_remove_2 in Hnd. apply Hnd. rewrite <- E, <- app_assoc. apply in_or_app. left. now apply in_map.
  - intros o Ho. unfold is_new. apply negb_false_iff, existsb_exists. exists o. split; [exact Ho|apply text_eqb_refl].
Qed.

Lemma filter_map_swap {A B} (f : A -> B) (p : B -> bool) l : filter p (map f l) = map f (filter (fun a => p (f a)) l).
Proof. induction l as [|a l IH]; [reflexivity|]. cbn. destruct (p (f a)); cbn; now rewrite IH. Qed.

Lemma select_unique cols feats (g : text * series V -> text * series V) :
  NoDup (map fst (cols ++ feats)) -> (forall c, fst (g c) = fst c) ->
  select_columns (map fst feats) (map g (cols ++ feats)) = map g feats.
Proof.
  intros Hnd Hg. unfold select_columns.
  transitivity (flat_map (fun c => [g c]) feats).
  - rewrite flat_map_map_in. apply flat_map_ext_in. intros f Hf.
    rewrite filter_map_swap. rewrite (filter_ext _ (fun o => text_eqb (fst o) (fst f))) by (intros o; now rewrite Hg).
    rewrite filter_name_unique; [reflexivity|exact Hnd|]. apply in_or_app. now right.
  - apply flat_map_single.
Qed.

Lemma select_unique_id cols feats :
  NoDup (map fst (cols ++ feats)) -> select_columns (map fst feats) (cols ++ feats) = feats.
Proof.
  intros Hnd. pose proof (select_unique cols feats (fun c => c) Hnd (fun c => eq_refl)) as H.
  now rewrite !map_id in H.
Qed.

Lemma complete_row_has cols i : complete_row cols i = forallb (has_value i) cols.
Proof. reflexivity. Qed.
End F.

Lemma formatter_rows (V : Type) :
  forall (trs ttrs : list (config V * state)) augment (x : frame V),
  NoDup (f_idx x) -> rectangular (length (f_idx x)) (f_cols x) ->
  (forall ss x1 mss, apply_transformers trs x = Some (ss, x1, mss) ->
     exists feats, x1 = Frame (f_idx x) (f_cols x ++ feats)) /\
  (forall ss feats mss ss' tcols mss',
     apply_transformers trs x = Some (ss, Frame (f_idx x) (f_cols x ++ feats), mss) ->
     apply_targets ttrs (Frame (f_idx x) (f_cols x ++ feats)) = Some (ss', tcols, mss') ->
     NoDup (map fst (f_cols x ++ feats)) ->
     let rows := complete_rows (length (f_idx x)) (feats ++ tcols) in
     formatter_transform trs ttrs augment true x =
     Some (Frame (restrict_index rows (f_idx x)) (map (restrict rows) (if augment then f_cols x ++ feats else feats)),
           Frame (restrict_index rows (f_idx x)) (map (restrict rows) tcols))) /\
  (forall ss feats mss,
     apply_transformers trs x = Some (ss, Frame (f_idx x) (f_cols x ++ feats), mss) ->
     NoDup (map fst (f_cols x ++ feats)) ->
     let rows := complete_rows (length (f_idx x)) feats in
     formatter_transform trs ttrs augment false x =
     Some (Frame (restrict_index rows (f_idx x)) (map (restrict rows) (if augment then f_cols x ++ feats else feats)),
           Frame (f_idx x) [])) /\
  (apply_transformers trs x = None -> forall rt, formatter_transform trs ttrs augment rt x = None).
Proof.
  intros trs ttrs augment x Hidx Hrect. split; [|split; [|split]].
  - intros ss x1 mss E. apply apply_transformers_shape in E. destruct E as (feats & -> & _). eauto.
  - intros ss feats mss ss' tcols mss' E1 E2 Hnd rows.
    assert (Hr1 : rectangular (length (f_idx x)) (f_cols x ++ feats)).
    { pose proof E1 as E1'. apply apply_transformers_shape in E1'. destruct E1' as (feats' & Ef & Hr).
      injection Ef as Ef. apply app_inv_head in Ef. subst feats'.
      intros c Hc. apply in_app_or in Hc. destruct Hc; [now apply Hrect|now apply Hr]. }
    assert (Hr2 : rectangular (length (f_idx x)) tcols).
    { eapply (apply_targets_rect ttrs (Frame (f_idx x) (f_cols x ++ feats))); eauto. }
    unfold formatter_transform. rewrite E1. cbn [f_idx f_cols]. rewrite E2.
    rewrite (filter_new_app (f_cols x) feats Hnd).
    rewrite (select_unique_id (f_cols x) feats Hnd).
    set (n := length (f_idx x)) in *.
    set (p := fun i => complete_row feats i && complete_row tcols i).
    assert (Hp : filter p (seq 0 n) = rows).
    { unfold rows, complete_rows. apply filter_ext. intros i. unfold p. rewrite forallb_app. reflexivity. }
    assert (Hkept : keep_rows (map p (seq 0 n)) (f_idx x) = restrict_index rows (f_idx x)).
    { unfold n at 1. rewrite (keep_rows_map p (f_idx x) 0). fold n. now rewrite Hp. }
    rewrite Hkept.
    assert (Hmask2 : map (fun i => existsb (Z.eqb (nth i (f_idx x) 0)) (restrict_index rows (f_idx x)) && complete_row tcols i) (seq 0 n)
                   = map p (seq 0 n)).
    { apply map_ext_in. intros i Hi. apply in_seq in Hi.
      destruct (complete_row tcols i) eqn:Et; [|unfold p; rewrite Et; now rewrite !andb_false_r].
      rewrite andb_true_r. destruct (p i) eqn:Ep.
      - apply existsb_exists. exists (nth i (f_idx x) 0). split; [|apply Z.eqb_refl].
        unfold restrict_index. apply in_map_iff. exists i. split; [reflexivity|]. rewrite <- Hp. apply filter_In. split; [|exact Ep].
        apply in_seq. lia.
      - destruct (existsb (Z.eqb (nth i (f_idx x) 0)) (restrict_index rows (f_idx x))) eqn:Ee; [|reflexivity].
        apply existsb_exists in Ee. destruct Ee as (t & Ht & Et'). apply Z.eqb_eq in Et'.
        unfold restrict_index in Ht. apply in_map_iff in Ht. destruct Ht as (j & Ej & Hj). rewrite <- Hp in Hj.
        apply filter_In in Hj. destruct Hj as [Hj Hpj]. apply in_seq in Hj.
        assert (i = j).
        { eapply (proj1 (NoDup_nth (f_idx x) 0) Hidx i j); unfold n in *; try lia. }
        subst j. congruence. }
    rewrite Hmask2, Hkept. rewrite (keep_cols_restrict p n tcols Hr2), Hp.
    rewrite (keep_cols_restrict p n _ Hr1), Hp.
    destruct augment; [reflexivity|].
    do 3 f_equal. exact (select_unique (f_cols x) feats (restrict rows) Hnd (fun c => eq_refl)).
  - intros ss feats mss E1 Hnd rows.
    assert (Hr1 : rectangular (length (f_idx x)) (f_cols x ++ feats)).
    { pose proof E1 as E1'. apply apply_transformers_shape in E1'. destruct E1' as (feats' & Ef & Hr).
      injection Ef as Ef. apply app_inv_head in Ef. subst feats'.
      intros c Hc. apply in_app_or in Hc. destruct Hc; [now apply Hrect|now apply Hr]. }
    unfold formatter_transform. rewrite E1. cbn [f_idx f_cols].
    rewrite (filter_new_app (f_cols x) feats Hnd), (select_unique_id (f_cols x) feats Hnd).
    assert (Hp : filter (complete_row feats) (seq 0 (length (f_idx x))) = rows) by reflexivity.
    rewrite (keep_rows_map (complete_row feats) (f_idx x) 0), Hp.
    rewrite (keep_cols_restrict (complete_row feats) _ _ Hr1), Hp.
    destruct augment; [reflexivity|].
    do 3 f_equal. exact (select_unique (f_cols x) feats (restrict rows) Hnd (fun c => eq_refl)).
  - intros E rt. unfold formatter_transform. now rewrite E.
Qed.

(** ** C09 *)
Section N.
Context {V : Type}.
Implicit Types (cols : list (text * series V)) (e : rowexpr (V := V)).

Definition apply_at e norms (c : text) (o : text * series V) : text * series V :=
  if text_eqb (fst o) c then (fst o, eval_column e norms (snd o)) else o.

Lemma update_columns_closed e norms names cols cols' :
  update_columns e norms names cols = Some cols' ->
  cols' = map (fun o => fold_left (fun o c => apply_at e norms c o) names o) cols.
Proof.
  revert cols. induction names as [|c names IH]; intros cols; cbn [update_columns fold_left].
  - intros [= <-]. now rewrite map_id.
  - unfold update_column. destruct (existsb (fun o => text_eqb (fst o) c) cols); [|discriminate].
    intros H. apply IH in H. rewrite H, map_map. apply map_ext. intros o. reflexivity.
Qed.

Fixpoint times (k : nat) (f : series V -> series V) (d : series V) : series V :=
  match k with O => d | S k' => times k' f (f d) end.
Definition occ (names : list text) (c : text) : nat := length (filter (fun n => text_eqb c n) names).

Lemma fold_apply_at e norms names o :
  fold_left (fun o c => apply_at e norms c o) names o = (fst o, times (occ names (fst o)) (eval_column e norms) (snd o)).
Proof.
  revert o. induction names as [|c names IH]; intros o; cbn [fold_left].
  - unfold occ. cbn. now destruct o.
  - rewrite IH. unfold apply_at, occ. cbn [filter].
    destruct (text_eqb (fst o) c) eqn:E; cbn [fst snd]; [|reflexivity].
    reflexivity.
Qed.

Lemma eval_column_length e norms d : length (eval_column e norms d) = length d.
Proof. unfold eval_column. now rewrite map_length, seq_length. Qed.

Definition inverse_exprs e einv (norms : list (series V)) : Prop :=
  forall i v, einv (map (fun n => nth i n None) norms) (e (map (fun n => nth i n None) norms) v) = v.

Lemma eval_column_inverse e einv norms d :
  inverse_exprs e einv norms -> eval_column einv norms (eval_column e norms d) = d.
Proof.
  intros Hinv. unfold eval_column at 1. rewrite eval_column_length.
  transitivity (map (fun i => nth i d None) (seq 0 (length d))); [|apply map_seq_nth].
  apply map_seq_ext. intros i Hi. unfold eval_column. rewrite nth_map_seq by exact Hi. apply Hinv.
Qed.

Lemma times_snoc k f d : times (S k) f d = f (times k f d).
Proof. revert d. induction k as [|k IH]; intros d; [reflexivity|]. cbn [times] in *. now rewrite IH. Qed.

Lemma times_inverse k e einv norms d :
  inverse_exprs e einv norms -> times k (eval_column einv norms) (times k (eval_column e norms) d) = d.
Proof.
  intros H. induction k as [|k IH]; [reflexivity|].
  rewrite (times_snoc k (eval_column e norms)). cbn [times].
  rewrite eval_column_inverse by exact H. exact IH.
Qed.

Lemma update_columns_some e norms names cols :
  (forall c, In c names -> In c (map fst cols)) -> exists cols', update_columns e norms names cols = Some cols'.
Proof.
  revert cols. induction names as [|c names IH]; intros cols H; cbn [update_columns]; [eauto|].
  unfold update_column.
  assert (E : existsb (fun o => text_eqb (fst o) c) cols = true).
  { specialize (H c (or_introl eq_refl)). apply in_map_iff in H. destruct H as (o & <- & Ho).
    apply existsb_exists. exists o. split; [exact Ho|apply text_eqb_refl]. }
  rewrite E. apply IH. intros c' Hc'. rewrite map_map.
  rewrite (map_ext _ fst); [apply H; now right|]. intros o. destruct (text_eqb (fst o) c); reflexivity.
Qed.
Lemma update_columns_none_names e norms names cols cols' :
  update_columns e norms names cols = Some cols' -> forall c, In c names -> In c (map fst cols).
Proof.
  revert cols. induction names as [|c names IH]; intros cols; cbn [update_columns]; [intros _ c []|].
  unfold update_column. destruct (existsb (fun o => text_eqb (fst o) c) cols) eqn:E; [|discriminate].
  intros H b [<-|Hb].
  - apply existsb_exists in E. destruct E as (o & Ho & Eo). destruct (text_eqb_spec (fst o) c) as [<-|]; [|discriminate]. now apply in_map.
  - specialize (IH _ H b Hb). rewrite map_map in IH. rewrite (map_ext _ fst) in IH; [exact IH|].
    intros o. destruct (text_eqb (fst o) c); reflexivity.
Qed.
End N.

Lemma normalize_roundtrip (V : Type) :
  forall (e einv : rowexpr (V := V)) norms uniq metas cols cols',
  (forall i v, einv (map (fun n => nth i n None) norms) (e (map (fun n => nth i n None) norms) v) = v) ->
  normalize_cols e norms uniq metas cols = Some cols' ->
  denormalize_cols einv norms uniq metas cols' = Some cols.
Proof.
  intros e einv norms uniq metas cols cols' Hinv H. unfold denormalize_cols, normalize_cols in *.
  pose proof (update_columns_none_names _ _ _ _ _ H) as Hn.
  apply update_columns_closed in H.
  set (names := normalised_names uniq metas) in *.
  assert (Hfst : map fst cols' = map fst cols).
  { rewrite H, map_map. apply map_ext. intros o. now rewrite fold_apply_at. }
  destruct (update_columns_some einv norms names cols') as [cols'' E].
  { rewrite Hfst. exact Hn. }
  rewrite E. f_equal. apply update_columns_closed in E. rewrite E, H, map_map.
  rewrite <- (map_id cols) at 2. apply map_ext. intros o. rewrite !fold_apply_at. cbn [fst snd].
  rewrite times_inverse by exact Hinv. now destruct o.
Qed.

(** How often the expression really is applied. *)
Lemma normalize_iterated (V : Type) :
  forall (e : rowexpr (V := V)) norms uniq metas cols cols',
  normalize_cols e norms uniq metas cols = Some cols' ->
  NoDup (flat_map (fun ms => map m_index ms) metas) ->
  cols' = map (fun o => (fst o,
     Nat.iter (if existsb (text_eqb (fst o)) (flat_map (fun ms => map m_index ms) metas) then length uniq else 0%nat)
              (eval_column e norms) (snd o))) cols.
Proof.
  intros e norms uniq metas cols cols' H Hnd. unfold normalize_cols in H.
  apply update_columns_closed in H. rewrite H. apply map_ext. intros o. rewrite fold_apply_at. f_equal.
  assert (Hit : forall k d, times k (eval_column e norms) d = Nat.iter k (eval_column e norms) d).
  { induction k as [|k IH]; intros d; [reflexivity|]. rewrite times_snoc, IH. reflexivity. }
  rewrite Hit. f_equal. unfold normalised_names.
  set (L := flat_map (fun ms => map m_index ms) metas) in *.
  assert (HL : occ L (fst o) = if existsb (text_eqb (fst o)) L then 1%nat else 0%nat).
  { clear H. unfold occ. induction L as [|a L IH]; [reflexivity|]. cbn. inversion Hnd as [|? ? Ha Hnd']; subst.
    destruct (text_eqb_spec (fst o) a) as [E|E]; cbn.
    - f_equal. rewrite (filter_none); [reflexivity|]. intros b Hb. destruct (text_eqb_spec (fst o) b); [|reflexivity].
      congruence.
    - now apply IH. }
  clear H. induction uniq as [|u uniq IH]; [now destruct (existsb (text_eqb (fst o)) L)|].
  cbn [flat_map]. unfold occ. rewrite filter_app, app_length. fold (occ L (fst o)).
  fold (occ (flat_map (fun _ : text => L) uniq) (fst o)). rewrite IH, HL.
  destruct (existsb (text_eqb (fst o)) L); reflexivity.
Qed.

Lemma normalize_once_refuted :
  exists (e : rowexpr (V := Z)) norms uniq metas cols cols' name col,
    NoDup (flat_map (fun ms => map m_index ms) metas) /\
    normalize_cols e norms uniq metas cols = Some cols' /\
    In (name, col) cols /\ (forall o, In o cols' -> fst o = name -> snd o <> eval_column e norms col).
Proof.
  set (e := fun (ns : list (option Z)) (v : option Z) => option_map (fun z => z - 1) v).
  set (a := ["a"%char] : text). set (b := ["b"%char] : text).
  exists e, [], [a; b], [[Meta a a None 0 1 a]; [Meta b b None 0 1 b]], [(a, [Some 5]); (b, [Some 7])].
  eexists. exists a, [Some 5].
  split. { cbn. repeat constructor; cbn; intuition discriminate. }
  split; [reflexivity|]. split; [now left|].
  intros o [<-|[<-|[]]]; cbn; intros; discriminate.
Qed.

(** ** C10 *)
Lemma registry_invariant :
  forall calls, NoDup (map fst (run_registry calls)).
Proof.
  intros calls. unfold run_registry.
  assert (H : forall reg, NoDup (map fst reg) ->
    NoDup (map fst (fold_left (fun reg c => fst (add_normalizer reg (fst (fst c)) (snd (fst c)) (snd c))) calls reg))).
  { induction calls as [|[[ts l] n] calls IH]; intros reg Hr; [exact Hr|]. cbn [fold_left fst snd].
    apply IH. unfold add_normalizer.
    destruct (existsb (fun r => text_eqb (fst r) n) reg) eqn:E; [exact Hr|].
    destruct ts as [|t [|t2 ts]]; try exact Hr. destruct (lags_accepted l); [|exact Hr].
    cbn [fst]. rewrite map_app. cbn. apply NoDup_app_remove_r || idtac.
    assert (Hn : ~ In n (map fst reg)).
    { intros Hin. apply in_map_iff in Hin. destruct Hin as (r & <- & Hrin).
      assert (existsb (fun r0 => text_eqb (fst r0) (fst r)) reg = true) as Ht.
      { apply existsb_exists. exists r. split; [exact Hrin|apply text_eqb_refl]. }
      congruence. }
    clear - Hr Hn. induction (map fst reg) as [|m ms IHm]; cbn; [constructor; [tauto|constructor]|].
    inversion Hr; subst. constructor.
    - intros Hin. apply in_app_or in Hin. destruct Hin as [Hin|[<-|[]]]; [contradiction|]. apply Hn. now left.
    - apply IHm; [assumption|]. intros Hin. apply Hn. now right. }
  apply H. constructor.
Qed.

Lemma registry_first_wins :
  forall calls1 calls2 name target,
  In (name, target) (run_registry calls1) -> In (name, target) (run_registry (calls1 ++ calls2)).
Proof.
  intros calls1 calls2 name target H. unfold run_registry. rewrite fold_left_app.
  fold (run_registry calls1). generalize dependent (run_registry calls1).
  induction calls2 as [|[[ts l] n] calls IH]; intros reg Hr; [exact Hr|]. cbn [fold_left fst snd].
  apply IH. unfold add_normalizer. destruct (existsb _ reg); [exact Hr|].
  destruct ts as [|t [|t2 ts]]; try exact Hr. destruct (lags_accepted l); [|exact Hr].
  cbn. apply in_or_app. now left.
Qed.

Lemma registry_outcome :
  forall calls targets lags name,
  let reg := run_registry calls in
  let r := add_normalizer reg targets lags name in
  (In name (map fst reg) -> r = (reg, Ignored)) /\
  (~ In name (map fst reg) ->
     (exists t, targets = [t] /\ (lags = LagNone \/ exists z, lags = LagArray [z] /\ 0 < z) /\
                r = (reg ++ [(name, t)], Added)) \/
     r = (reg, Raised)).
Proof.
  intros calls targets lags name reg r. unfold r, add_normalizer.
  destruct (existsb (fun r0 => text_eqb (fst r0) name) reg) eqn:E.
  - split; [reflexivity|]. intros Hn. exfalso. apply Hn. apply existsb_exists in E. destruct E as (o & Ho & Eo).
    destruct (text_eqb_spec (fst o) name) as [<-|]; [now apply in_map|discriminate].
  - split.
    + intros Hin. exfalso. apply in_map_iff in Hin. destruct Hin as (o & <- & Ho).
      assert (existsb (fun r0 => text_eqb (fst r0) (fst o)) reg = true); [|congruence].
      apply existsb_exists. exists o. split; [exact Ho|apply text_eqb_refl].
    + intros _. destruct targets as [|t [|t2 ts]]; try (right; reflexivity).
      destruct lags as [|z|l|l]; cbn [lags_accepted]; try (right; reflexivity).
      * left. exists t. split; [reflexivity|]. split; [now left|reflexivity].
      * destruct l as [|z [|z2 l]]; cbn; try (right; reflexivity).
        destruct (0 <? z) eqn:Ez; cbn; [|right; reflexivity].
        left. exists t. split; [reflexivity|]. split; [right; exists z; split; [reflexivity|lia]|reflexivity].
Qed.

(** Documented argument type [lags: list]: always an exception for a new name. *)
Lemma registry_list_lags_refuted :
  forall calls target l name, ~ In name (map fst (run_registry calls)) ->
    add_normalizer (run_registry calls) [target] (LagList l) name = (run_registry calls, Raised).
Proof.
  intros calls target l name Hn. unfold add_normalizer.
  destruct (existsb (fun r0 => text_eqb (fst r0) name) (run_registry calls)) eqn:E; [|reflexivity].
  exfalso. apply Hn. apply existsb_exists in E. destruct E as (o & Ho & Eo).
  destruct (text_eqb_spec (fst o) name) as [<-|]; [now apply in_map|discriminate].
Qed.

(** ** C11 *)
Lemma time_features_stable :
  forall history n1 index1 names1 rows1 between n2 index2 names2 rows2,
  let s0 := run_time history None in
  let s1 := fst (add_time_features s0 n1 index1) in
  let s2 := run_time between s1 in
  snd (add_time_features s0 n1 index1) = Some (names1, rows1) ->
  snd (add_time_features s2 n2 index2) = Some (names2, rows2) ->
  names2 = names1 /\ length rows2 = length index2 /\
  (forall r, In r rows2 -> length r = length names1).
Proof.
  intros history n1 index1 names1 rows1 between n2 index2 names2 rows2 s0 s1 s2 H1 H2.
  assert (Hkeep : forall st n idx b, st = Some b -> fst (add_time_features st n idx) = Some b).
  { intros st n idx b ->. unfold add_time_features. destruct idx as [|t idx]; [reflexivity|].
    destruct b, (s_offset t); try reflexivity. destruct n; reflexivity. }
  assert (Hrun : forall b, s1 = Some b -> s2 = Some b).
  { unfold s2, run_time. intros b Hb. revert Hb. generalize s1. clear -Hkeep.
    induction between as [|[n idx] l IH]; intros st Hst; [exact Hst|]. cbn [fold_left fst snd]. apply IH. now apply Hkeep. }
  assert (H1' : exists b, s1 = Some b /\ names1 = if b then base_time_names ++ [utc_name] else base_time_names).
  { unfold s1. revert H1. unfold add_time_features. destruct index1 as [|t idx]; [discriminate|].
    destruct s0 as [[|]|], (s_offset t); cbn [fst snd]; try destruct n1; cbn [fst snd];
      intros [= <- _]; eexists; split; reflexivity. }
  destruct H1' as (b & Hb & ->). apply Hrun in Hb. rewrite Hb in H2.
  revert H2. unfold add_time_features. destruct index2 as [|t idx]; [discriminate|].
  destruct b, (s_offset t); cbn [fst snd]; try destruct n2; cbn [fst snd];
    intros [= <- <-]; (split; [reflexivity|]; split; [cbn [length]; now rewrite map_length|]);
    intros r Hr; (destruct Hr as [<-|Hr]; [reflexivity|]); apply in_map_iff in Hr; destruct Hr as (u & <- & _); reflexivity.
Qed.

Lemma time_features_total :
  forall st n index, index <> [] -> (1 <= n)%nat ->
  exists names rows, snd (add_time_features st n index) = Some (names, rows).
Proof.
  intros st n index Hi Hn. destruct index as [|t idx]; [congruence|]. unfold add_time_features.
  destruct st as [[|]|], (s_offset t); try destruct n; cbn; eauto. lia.
Qed.

Lemma some_eq {A} (a b : A) : Some a = Some b -> a = b.
Proof. congruence. Qed.
Lemma time_features_values :
  forall st n index names rows i t,
  snd (add_time_features st n index) = Some (names, rows) -> nth_error index i = Some t ->
  (forall u, In u index -> s_offset u = None <-> s_offset t = None) ->
  exists r, nth_error rows i = Some r /\
    cell_named names r hour_column = Some (s_hour t) /\
    cell_named names r weekday_column = Some (s_dow t) /\
    cell_named names r minute_column = Some (60 * s_hour t + s_minute t) /\
    cell_named names r offset_column =
      match fst (add_time_features st n index) with
      | Some true => Some (match s_offset t with Some z => z | None => 0 end)
      | _ => None
      end.
Proof.
  intros st n index names rows i t E Ei U. destruct index as [|t0 idx]; [destruct i; discriminate|].
  set (l := t0 :: idx) in *.
  assert (U0 : s_offset t0 = None <-> s_offset t = None) by (apply U; left; reflexivity).
  assert (M : forall f : stamp -> list Z, nth_error (map f l) i = Some (f t)) by (intro f; exact (map_nth_error f i l Ei)).
  assert (D : add_time_features st n l =
    let base u := [s_hour u; s_dow u; s_hour u * 60 + s_minute u] in
    let with_off u := base u ++ [match s_offset u with Some z => z | None => 0 end] in
    match st, s_offset t0 with
    | None, None => (Some false, Some (base_time_names, map base l))
    | None, Some _ => (Some true, Some (base_time_names ++ [utc_name], map with_off l))
    | Some true, Some _ =>
        match n with
        | O => (Some true, None)
        | S _ => (Some true, Some (base_time_names ++ [utc_name], map with_off l))
        end
    | Some true, None => (Some true, Some (base_time_names ++ [utc_name], map (fun u => base u ++ [0]) l))
    | Some false, _ => (Some false, Some (base_time_names, map base l))
    end) by (unfold l; cbn [add_time_features]; destruct st as [[|]|], (s_offset t0); try destruct n; reflexivity).
  rewrite D in E |- *. clear D. cbv zeta in E |- *. clearbody l.
  destruct st as [[|]|], (s_offset t0) eqn:E0; try destruct n; cbn [snd fst] in E |- *;
    try discriminate; assert (En := f_equal (option_map fst) E); assert (Er := f_equal (option_map snd) E);
    cbn [option_map fst snd] in En, Er; apply some_eq in En; apply some_eq in Er; subst names rows;
    (eexists; split; [apply M|]);
    (split; [reflexivity|]; split; [reflexivity|]; split; [change (Some (s_hour t * 60 + s_minute t) = Some (60 * s_hour t + s_minute t)); f_equal; lia|]);
    try reflexivity; cbn; destruct (s_offset t) eqn:Et; try reflexivity;
    destruct U0 as [U1 U2]; discriminate (U1 eq_refl).
Qed.

(** ** C12 *)
Lemma holidays_codes :
  forall days bridges long_weekends holidays,
  length (add_holidays days bridges long_weekends holidays) = length days /\
  forall i, (i < length days)%nat ->
    day_code (fun d => In d bridges) (fun d => In d long_weekends) (fun d => In d holidays)
             (nth i days 0) (nth i (add_holidays days bridges long_weekends holidays) 0).
Proof.
  intros days bridges lw hol.
  assert (Hl : forall set v col, length col = length days -> length (overwrite days set v col) = length days).
  { intros set v col H. unfold overwrite. rewrite map_length, combine_length. lia. }
  assert (Hn : forall set v col i, length col = length days -> (i < length days)%nat ->
     nth i (overwrite days set v col) 0 = if existsb (Z.eqb (nth i days 0)) set then v else nth i col 0).
  { intros set v col i H Hi. unfold overwrite.
    set (g := fun p : Z * Z => if existsb (Z.eqb (fst p)) set then v else snd p).
    rewrite (nth_indep _ 0 (g (0, 0))) by (rewrite map_length, combine_length; lia).
    rewrite map_nth. rewrite combine_nth by lia. reflexivity. }
  assert (Hin : forall d set, existsb (Z.eqb d) set = true <-> In d set).
  { intros d set. rewrite existsb_exists. split.
    - intros (y & Hy & E). apply Z.eqb_eq in E. now subst.
    - intros H. exists d. split; [exact H|apply Z.eqb_refl]. }
  unfold add_holidays. cbv zeta.
  assert (H0 : length (map (fun _ : Z => 0) days) = length days) by apply map_length.
  split.
  - rewrite !Hl; auto.
  - intros i Hi. rewrite !Hn by (auto; rewrite ?Hl; auto).
    unfold day_code. rewrite <- !Hin.
    destruct (existsb (Z.eqb (nth i days 0)) hol); [left; auto|].
    destruct (existsb (Z.eqb (nth i days 0)) lw); [right; left; auto|].
    destruct (existsb (Z.eqb (nth i days 0)) bridges); [right; right; left; auto|].
    right; right; right. repeat split; auto.
    set (g := fun _ : Z => 0). rewrite (nth_indep _ 0 (g 0)) by (rewrite map_length; lia). now rewrite map_nth.
Qed.
