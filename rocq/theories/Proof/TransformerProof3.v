From Coq Require Import List ZArith Bool Lia Ascii.
From Coq Require Import ZifyBool ZifyNat.
From Verif Require Import Model.Names Model.Series Model.Transformer Spec.TransformerSpec Spec.TransformerInput
  Proof.SeriesProof Proof.TransformerProof Proof.TransformerProof2.
Import ListNotations.
Local Open Scope Z_scope.
Ltac Zify.zify_post_hook ::= Z.div_mod_to_equations.

(** Sorting. *)
Fixpoint ascending (l : list Z) : Prop :=
  match l with [] => True | x :: l' => (forall y, In y l' -> x <= y) /\ ascending l' end.
Lemma insert_ascending x l : ascending l -> ascending (insert x l).
Proof.
  induction l as [|y l IH]; cbn [insert ascending]; [cbn; tauto|]. intros [Hy Hl].
  destruct (x <=? y) eqn:E.
  - cbn. repeat split; auto. intros z [<-|Hz]; [lia|]. specialize (Hy z Hz). lia.
  - cbn. split; [|apply IH, Hl]. intros z Hz. apply insert_in in Hz. destruct Hz as [->|Hz]; [lia|auto].
Qed.
Lemma isort_ascending l : ascending (isort l).
Proof. induction l as [|x l IH]; cbn; [exact I|]. now apply insert_ascending. Qed.
Lemma ascending_nth l i j : ascending l -> (i <= j < length l)%nat -> nth i l 0 <= nth j l 0.
Proof.
  revert i j. induction l as [|x l IH]; intros i j Ha Hij; [cbn in Hij; lia|].
  destruct Ha as [Hx Hl]. destruct i as [|i], j as [|j]; cbn in *; try lia.
  - apply Hx, nth_In. lia.
  - apply IH; [exact Hl|lia].
Qed.
Lemma insert_perm_nodup x l : NoDup (x :: l) -> NoDup (insert x l).
Proof.
  induction l as [|y l IH]; intros H; cbn; [exact H|]. destruct (x <=? y); [exact H|].
  inversion H as [|? ? Hx Hl]; subst. inversion Hl as [|? ? Hy Hl']; subst.
  constructor.
  - rewrite insert_in. intros [->|Hin]; [apply Hx; now left|contradiction].
  - apply IH. constructor; [|exact Hl']. intros Hin. apply Hx. now right.
Qed.
Lemma isort_nodup l : NoDup l -> NoDup (isort l).
Proof.
  induction l as [|x l IH]; intros H; cbn; [constructor|]. inversion H; subst.
  apply insert_perm_nodup. constructor; [|auto]. now rewrite isort_in.
Qed.
Lemma orig_descending bins i :
  NoDup bins -> let orig := rev (isort bins) in
  (S i < length orig)%nat -> nth (S i) orig 0 < nth i orig 0.
Proof.
  intros Hnd orig Hi. unfold orig in *. rewrite rev_length in Hi.
  rewrite !rev_nth by lia.
  set (l := isort bins) in *. pose proof (isort_ascending bins) as Ha. pose proof (isort_nodup bins Hnd) as Hn.
  fold l in Ha, Hn.
  pose proof (ascending_nth l (length l - S (S i)) (length l - S i) Ha ltac:(lia)) as Hle.
  rewrite (NoDup_nth l 0) in Hn.
  specialize (Hn (length l - S (S i))%nat (length l - S i)%nat ltac:(lia) ltac:(lia)). lia.
Qed.
Lemma orig_nonneg bins i :
  (forall b, In b bins -> 0 <= b) -> let orig := rev (isort bins) in
  (i < length orig)%nat -> 0 <= nth i orig 0.
Proof.
  intros H orig Hi. apply H. unfold orig in *. apply isort_in, in_rev, nth_In. exact Hi.
Qed.
Lemma orig_span bins : NoDup bins -> let orig := rev (isort bins) in
  0 <= nth 0 orig 0 - nth (length orig - 1) orig 0.
Proof.
  intros Hnd orig. unfold orig. rewrite rev_length.
  destruct (length (isort bins)) as [|n] eqn:E.
  - destruct (isort bins); [cbn; lia|discriminate].
  - rewrite !rev_nth by lia. rewrite E.
    pose proof (ascending_nth (isort bins) (S n - S (S n - 1)) (S n - 1) (isort_ascending bins) ltac:(lia)). lia.
Qed.

Section T.
Context {V : Type}.
Implicit Types (c : config V) (d : series V) (x : frame V).

Lemma transform_bins names fs agg_freq lags rel bins dt0 c s x sig t0 dt augment :
  init_transformer names fs agg_freq lags rel (Some bins) dt0 = Some (c, s) ->
  fs <> [] -> regular t0 dt (f_idx x) -> knows_dt dt0 dt (length (f_idx x)) -> (2 <= length (f_idx x))%nat ->
  has_signals x names sig -> NoDup bins -> (forall b, In b bins -> 0 <= b) ->
  (forall ls l, lags = Some ls -> In l ls -> 0 <= l) ->
  let orig := rev (isort bins) in
  let Q := bins_keys names fs lags rel orig in
  c = Config names fs lags rel (Some orig) dt0 /\
  exists s', transform c s augment x =
    Some (s', Frame (f_idx x) ((if augment then f_cols x else []) ++ map (canon_col (length (f_idx x)) sig) Q),
          flat_map (raw_metas c orig dt) names).
Proof.
  intros E Hfs Hreg Hdt Hn Hsig Hnd Hb0 Hlags orig Q. unfold init_transformer in E.
  destruct (nonincreasing bins || nondecreasing bins); [|discriminate].
  fold orig in E. injection E as <- <-. split; [reflexivity|].
  pose proof (knows_dt_sampling dt0 dt t0 _ Hreg Hdt) as Hst.
  pose proof (median_diffs_regular _ _ _ Hreg Hn) as Hmed.
  set (c := Config names fs lags rel (Some orig) dt0).
  set (subs := map (fun i => AggInt (nth i orig 0 - nth (S i) orig 0)) (seq 0 (length orig - 1))).
  assert (Hspan : 0 <= nth 0 orig 0 - nth (length orig - 1) orig 0) by (apply orig_span; assumption).
  assert (Hl : forall l, In l (lag_keys c) -> 0 <= bin_lag_rows c orig l).
  { unfold lag_keys, bin_lag_rows. cbn [c_lags c_rel c]. intros l Hin.
    assert (0 <= lag_num l).
    { destruct lags as [ls|]; [|destruct Hin as [<-|[]]; cbn; lia].
      apply in_map_iff in Hin. destruct Hin as (z & <- & Hz). cbn. eapply Hlags; eauto. }
    destruct rel; nia. }
  assert (Hsubs : forall i, (S i < length orig)%nat -> nth i subs AggNone = AggInt (nth i orig 0 - nth (S i) orig 0)).
  { intros i Hi. unfold subs. rewrite nth_map_seq by lia. reflexivity. }
  assert (Hsubs' : forall i, (S i < length orig)%nat ->
     nth i (map (fun a => resolve_agg a dt) subs) AggNone = AggTime ((nth i orig 0 - nth (S i) orig 0) * dt)).
  { intros i Hi. unfold subs. rewrite map_map, nth_map_seq by lia. reflexivity. }
  assert (Hord : forall i, (S i < length orig)%nat -> 0 <= nth (S i) orig 0 /\ 1 <= nth i orig 0 - nth (S i) orig 0).
  { intros i Hi. split; [apply orig_nonneg; assumption|].
    pose proof (orig_descending bins i Hnd Hi). unfold orig in *. lia. }
  set (s1 := State (resolve_agg agg_freq dt) (map (fun a => resolve_agg a dt) subs)).
  set (G := fun nm => map (fun p => (binlag_name orig nm p, bin_col orig (bin_lag_rows c orig (fst p)) (sig nm) (snd p)))
                          (bin_keys c orig (c_functions c))).
  unfold transform.
  destruct (transform_names_closed c (State agg_freq subs) s1 (f_idx x) (f_cols x) names sig G (raw_metas c orig dt)) as (s2 & E & _).
  - intros nm Hnm. apply Hsig. exact Hnm.
  - intros nm Hnm. destruct (Hsig nm Hnm) as [_ Hlen].
    apply (transform_name_bins c (State agg_freq subs) (f_idx x) nm (sig nm) t0 dt orig); auto.
    intros i Hi. destruct (Hord i Hi) as [H1 H2]. repeat split; auto.
    cbn [st_subs]. rewrite Hsubs by exact Hi. reflexivity.
  - intros nm Hnm. destruct (Hsig nm Hnm) as [_ Hlen].
    pose proof (transform_name_bins c s1 (f_idx x) nm (sig nm) t0 dt orig) as L.
    assert (Hs1 : State (resolve_agg (st_agg s1) dt) (map (fun a => resolve_agg a dt) (st_subs s1)) = s1).
    { unfold s1. cbn [st_agg st_subs]. f_equal; [apply resolve_idem|]. rewrite map_map. apply map_ext. intros a. apply resolve_idem. }
    rewrite Hs1 in L. apply L; auto.
    intros i Hi. destruct (Hord i Hi) as [H1 H2]. repeat split; auto.
    cbn [st_subs s1]. rewrite Hsubs' by exact Hi. reflexivity.
  - change (c_names c) with names. rewrite E. exists s2. f_equal. f_equal. f_equal. f_equal. f_equal.
    unfold G, Q, bins_keys. rewrite map_flat_map.
    apply flat_map_ext_in. intros nm Hnm. destruct (Hsig nm Hnm) as [_ Hlen].
    rewrite map_map. apply map_ext. intros [l [i f]]. unfold canon_col. cbn [k_name k_fun k_lag k_src k_lo k_len fst snd].
    f_equal. unfold bin_col. rewrite Hlen. apply map_ext. intros k. cbn [fst snd]. f_equal.
    change (bin_lag_rows (Config names fs lags rel (Some orig) None) orig l) with (bin_lag_rows c orig l). lia.
Qed.

Lemma bins_metas_keys names (fs : list (aggfun V)) lags rel orig dt0 dt :
  let c := Config names fs lags rel (Some orig) dt0 in
  two_singletons (length (lag_keys c)) (length fs) (length orig - 1) ->
  flat_map (raw_metas c orig dt) names = map (canon_meta dt) (bins_keys names fs lags rel orig).
Proof.
  intros c H2. unfold bins_keys. rewrite map_flat_map. apply flat_map_ext. intros nm.
  rewrite (raw_metas_two_singletons c orig dt nm H2). rewrite map_map. apply map_ext. intros [l [i f]].
  unfold bin_meta, canon_meta. cbn [k_name k_fun k_lag k_src k_lo k_len fst snd].
  change (bin_lag_rows (Config names fs lags rel (Some orig) None) orig l) with (bin_lag_rows c orig l).
  f_equal; ring.
Qed.

Lemma bins_windows_keys names (fs : list (aggfun V)) lags rel orig dt0 dt l :
  let c := Config names fs lags rel (Some orig) dt0 in
  lag_keys c = [l] ->
  map (fun m => (m_index m, m_name m, (m_start m, m_end m))) (flat_map (raw_metas c orig dt) names) =
  map (fun q => let m := canon_meta dt q in (m_index m, m_name m, (m_start m, m_end m))) (bins_keys names fs lags rel orig).
Proof.
  intros c Hl. unfold bins_keys. rewrite !map_flat_map. apply flat_map_ext. intros nm.
  rewrite map_map.
  assert (Hcomb : forall ms : list meta, map (fun m => (m_index m, m_name m, (m_start m, m_end m))) ms
     = combine (combine (map m_index ms) (map m_name ms)) (map (fun m => (m_start m, m_end m)) ms)).
  { intros ms. now rewrite !combine_map_map. }
  rewrite Hcomb. destruct (raw_metas_shape c orig dt nm) as (_ & -> & ->).
  rewrite (raw_metas_one_lag c orig dt nm l Hl). rewrite !combine_map_map.
  apply map_ext. intros [l' [i f]].
  unfold bin_meta, canon_meta. cbn [k_name k_fun k_lag k_src k_lo k_len fst snd m_index m_name m_start m_end].
  change (bin_lag_rows (Config names fs lags rel (Some orig) None) orig l') with (bin_lag_rows c orig l').
  f_equal. f_equal; ring.
Qed.

Lemma bins_keys_in names (fs : list (aggfun V)) lags rel bins q :
  NoDup bins -> In q (bins_keys names fs lags rel (rev (isort bins))) ->
  In (k_fun q) fs /\ In (k_src q) names /\ 1 <= k_len q.
Proof.
  intros Hnd Hin. unfold bins_keys in Hin. apply in_flat_map in Hin. destruct Hin as (nm & Hnm & Hin).
  apply in_map_iff in Hin. destruct Hin as ([l [i f]] & <- & Hin). cbn [k_fun k_src k_len fst snd].
  unfold bin_keys in Hin. apply in_prod_iff in Hin. destruct Hin as [_ Hin].
  apply in_prod_iff in Hin. destruct Hin as [Hi Hf]. apply in_seq in Hi.
  pose proof (orig_descending bins i Hnd ltac:(lia)). repeat split; auto. lia.
Qed.

(** From the canonical description to the specification. *)
Lemma canon_describes n (sig : text -> series V) dt (q : key (V:=V)) :
  length (sig (k_src q)) = n -> 1 <= k_len q ->
  describes (fn (k_fun q)) dt (sig (k_src q)) (k_lo q * dt) ((k_lo q + k_len q) * dt) (snd (canon_col n sig q)).
Proof.
  intros Hn Hl. exists (k_lo q), (k_len q). repeat split; auto.
  - unfold canon_col. cbn [snd]. now rewrite map_length, seq_length.
  - intros i Hi. unfold canon_col. cbn [snd]. rewrite nth_map_seq by lia. reflexivity.
Qed.

Lemma describes_reads_only f dt t0 idx d1 d2 st en (col1 col2 : series V) :
  regular t0 dt idx -> length d1 = length idx -> length d2 = length idx ->
  describes f dt d1 st en col1 -> describes f dt d2 st en col2 ->
  reads_only idx st en d1 d2 col1 col2.
Proof.
  intros [Hdt Hidx] H1 H2 (lo & len & Hlen & Hst & Hen & Hc1 & Hv1) (lo' & len' & _ & Hst' & Hen' & Hc2 & Hv2).
  assert (lo' = lo) by nia. subst lo'. assert (len' = len) by nia. subst len'.
  intros i Hi Hag. rewrite Hv1, Hv2 by lia.
  assert (Hs : samples d1 (Z.of_nat i + lo) len = samples d2 (Z.of_nat i + lo) len).
  { unfold samples. apply map_seq_ext. intros k Hk. unfold sample. rewrite H1, H2.
    match goal with |- (if ?b then _ else _) = _ => destruct b eqn:E end; [|reflexivity].
    apply Hag; [lia|]. rewrite !Hidx by lia. rewrite Z2Nat.id by lia. nia. }
  unfold window_feature. now rewrite Hs.
Qed.

Lemma describes_needs_all f dt t0 d st en (col : series V) :
  0 < dt -> describes f dt d st en col -> needs_all t0 dt st en d col.
Proof.
  intros Hdt (lo & len & Hlen & Hst & Hen & Hc & Hv) i j Hi Hj Hs.
  rewrite Hv by exact Hi. apply window_feature_none with (k := Z.to_nat (j - (Z.of_nat i + lo))).
  - assert (j < Z.of_nat i + lo + len) by nia. assert (Z.of_nat i + lo <= j) by nia. lia.
  - assert (Z.of_nat i + lo <= j) by nia. rewrite Z2Nat.id by lia. rewrite <- Hs. f_equal. lia.
Qed.

(** Causality for arbitrary indices. *)
Definition past_agree (m : nat) (c1 c2 : text * series V) : Prop :=
  fst c1 = fst c2 /\ agree m (snd c1) (snd c2).

Lemma Forall2_map_both {A B C D} (R : C -> D -> Prop) (S : A -> B -> Prop) (f : A -> C) (g : B -> D) l1 l2 :
  (forall a b, S a b -> R (f a) (g b)) -> Forall2 S l1 l2 -> Forall2 R (map f l1) (map g l2).
Proof. intros H. induction 1; cbn; constructor; auto. Qed.

Lemma Forall2_refl_map {A C D} (R : C -> D -> Prop) (f : A -> C) (g : A -> D) l :
  (forall a, In a l -> R (f a) (g a)) -> Forall2 R (map f l) (map g l).
Proof.
  induction l as [|a l IH]; intros H; cbn; constructor; [apply H; now left|].
  apply IH. intros b Hb. apply H. now right.
Qed.

Lemma Forall2_flat_map {A C D} (R : C -> D -> Prop) (f : A -> list C) (g : A -> list D) l :
  (forall a, In a l -> Forall2 R (f a) (g a)) -> Forall2 R (flat_map f l) (flat_map g l).
Proof.
  induction l as [|a l IH]; intros H; cbn; [constructor|].
  apply Forall2_app; [apply H; now left|]. apply IH. intros b Hb. apply H. now right.
Qed.

Lemma base_columns_past idx agg steps fs name d1 d2 m :
  agree m d1 d2 -> Forall2 (past_agree m) (base_columns idx agg steps fs name d1) (base_columns idx agg steps fs name d2).
Proof.
  intros H. unfold base_columns. destruct fs as [|f fs].
  - constructor; [|constructor]. split; [reflexivity|exact H].
  - apply Forall2_refl_map. intros g _. split; [reflexivity|]. now apply rolling_agree.
Qed.

Lemma lagged_past lags lag_of cols1 cols2 m q :
  (forall ls l, lags = Some ls -> In l ls -> Z.of_nat q <= lag_of l) -> (lags = None -> q = O) ->
  Forall2 (past_agree m) cols1 cols2 -> Forall2 (past_agree (m + q)) (lagged lags lag_of cols1) (lagged lags lag_of cols2).
Proof.
  intros Hq Hn HF. destruct lags as [ls|]; cbn [lagged].
  - apply Forall2_flat_map. intros l Hl. apply Forall2_map_both with (S := past_agree m); [|exact HF].
    intros [n1 s1] [n2 s2] [E1 E2]. cbn in *. split; cbn; [now rewrite E1|]. apply shift_agree; eauto.
  - rewrite (Hn eq_refl), Nat.add_0_r. exact HF.
Qed.

Lemma Forall2_snd_past m (l1 l2 : list (text * series V)) :
  Forall2 (past_agree m) l1 l2 -> Forall2 (agree m) (map snd l1) (map snd l2).
Proof. apply Forall2_map_both. intros a b [_ H]. exact H. Qed.

Lemma Forall2_combine_same (ns : list text) m (l1 l2 : list (series V)) :
  Forall2 (agree m) l1 l2 -> Forall2 (past_agree m) (combine ns l1) (combine ns l2).
Proof.
  intros H. revert ns. induction H as [|a b l1 l2 Hab H IH]; intros [|n ns]; cbn; constructor; auto.
  split; auto.
Qed.

Lemma bin_columns_past idx dt subs orig fs name d1 d2 m :
  (forall i, (S i < length orig)%nat -> 0 <= nth (S i) orig 0) -> agree m d1 d2 ->
  Forall2 (past_agree m) (bin_columns idx dt subs orig fs name d1) (bin_columns idx dt subs orig fs name d2).
Proof.
  intros Hpos H. unfold bin_columns. apply Forall2_combine_same. apply Forall2_flat_map.
  intros i Hi. apply in_seq in Hi. apply Forall2_snd_past. unfold sub_columns.
  replace m with (m + 0)%nat by lia.
  apply lagged_past.
  - intros ls l [= <-] [<-|[]]. apply Hpos. lia.
  - discriminate.
  - now apply base_columns_past.
Qed.

Definition lag_rows_ge c s dt (q : nat) : Prop :=
  (c_lags c = None -> q = O) /\
  forall ls l, c_lags c = Some ls -> In l ls ->
    Z.of_nat q <= match c_bins c with
                  | None => if c_rel c then l * (agg_ns (resolve_agg (st_agg s) dt) ÷ dt) else l
                  | Some orig => if c_rel c then l * (nth 0 orig 0 - nth (length orig - 1) orig 0) else l
                  end.

Lemma past_names m l1 l2 : Forall2 (past_agree m) l1 l2 -> map fst l1 = map fst l2.
Proof. induction 1 as [|a b l1 l2 [H _] _ IH]; [reflexivity|]. cbn. congruence. Qed.

Lemma transform_name_past c s idx name d1 d2 m q dt :
  sampling_time (c_dt c) idx = Some dt -> lag_rows_ge c s dt q ->
  (forall orig i, c_bins c = Some orig -> (S i < length orig)%nat -> 0 <= nth (S i) orig 0) ->
  agree m d1 d2 ->
  match transform_name c s idx name d1, transform_name c s idx name d2 with
  | Some (s1, cols1, ms1), Some (s2, cols2, ms2) =>
      s1 = s2 /\ ms1 = ms2 /\ Forall2 (past_agree (m + q)) cols1 cols2 /\ st_agg s1 = resolve_agg (st_agg s) dt
  | None, None => True
  | _, _ => False
  end.
Proof.
  intros Hdt [Hq0 Hq] Hpos Hag. unfold transform_name. rewrite Hdt.
  destruct (c_bins c) as [orig|] eqn:Eb.
  - destruct (median (diffs idx)) as [dt'|]; [|exact I].
    match goal with |- context [lagged (c_lags c) ?g ?b1] => set (base1 := b1) end.
    match goal with |- context [length (lagged (c_lags c) ?g (match c_functions c with [] => [(name, d2)] | _ => _ end))] =>
      idtac end.
    set (base2 := match c_functions c with [] => [(name, d2)] | a :: l => bin_columns idx dt' (st_subs s) orig (a :: l) name d2 end).
    assert (HF : Forall2 (past_agree m) base1 base2).
    { unfold base1, base2. destruct (c_functions c) as [|f fs].
      - constructor; [|constructor]. split; [reflexivity|exact Hag].
      - apply bin_columns_past; [intros i Hi; eapply Hpos; eauto|exact Hag]. }
    set (lag_of := fun l => if c_rel c then l * (nth 0 orig 0 - nth (length orig - 1) orig 0) else l).
    assert (HL : Forall2 (past_agree (m + q)) (lagged (c_lags c) lag_of base1) (lagged (c_lags c) lag_of base2)).
    { apply lagged_past; auto. }
    pose proof (past_names _ _ _ HL) as Hnm. rewrite <- Hnm.
    pose proof (f_equal (@length _) Hnm) as Hle. rewrite !map_length in Hle. rewrite <- Hle.
    match goal with |- context [Nat.eqb ?a ?b] => destruct (Nat.eqb a b) end; [|exact I].
    repeat split; try reflexivity. exact HL.
  - set (agg := resolve_agg (st_agg s) dt).
    set (steps := agg_ns agg ÷ dt).
    set (lag_of := fun l => if c_rel c then l * steps else l).
    assert (HL : Forall2 (past_agree (m + q)) (lagged (c_lags c) lag_of (base_columns idx agg steps (c_functions c) name d1))
                  (lagged (c_lags c) lag_of (base_columns idx agg steps (c_functions c) name d2))).
    { apply lagged_past; [intros ls l Els Hl; apply (Hq ls l Els Hl)|exact Hq0|now apply base_columns_past]. }
    pose proof (past_names _ _ _ HL) as Hnm. rewrite <- Hnm.
    repeat split; try reflexivity. exact HL.
Qed.

Lemma get_col_past m cols1 cols2 nm :
  Forall2 (past_agree m) cols1 cols2 ->
  match get_col cols1 nm, get_col cols2 nm with
  | Some d1, Some d2 => agree m d1 d2 | None, None => True | _, _ => False
  end.
Proof.
  unfold get_col. induction 1 as [|a b l1 l2 [Hn Ha] _ IH]; [exact I|].
  cbn. rewrite <- Hn. destruct (text_eqb (fst a) nm); cbn; [exact Ha|exact IH].
Qed.

Lemma transform_names_past c s idx cols1 cols2 names m q dt :
  sampling_time (c_dt c) idx = Some dt -> lag_rows_ge c s dt q ->
  (forall orig i, c_bins c = Some orig -> (S i < length orig)%nat -> 0 <= nth (S i) orig 0) ->
  Forall2 (past_agree m) cols1 cols2 ->
  match transform_names c s idx cols1 names, transform_names c s idx cols2 names with
  | Some (s1, c1, ms1), Some (s2, c2, ms2) =>
      s1 = s2 /\ ms1 = ms2 /\ Forall2 (past_agree (m + q)) c1 c2
  | None, None => True
  | _, _ => False
  end.
Proof.
  intros Hdt Hq Hpos HF. revert s Hq. induction names as [|nm names IH]; intros s Hq; cbn [transform_names].
  - repeat split; constructor.
  - pose proof (get_col_past m cols1 cols2 nm HF) as Hg.
    destruct (get_col cols1 nm) as [d1|], (get_col cols2 nm) as [d2|]; try contradiction; [|exact I].
    pose proof (transform_name_past c s idx nm d1 d2 m q dt Hdt Hq Hpos Hg) as Ht.
    destruct (transform_name c s idx nm d1) as [[[s1 c1] m1]|], (transform_name c s idx nm d2) as [[[s2 c2] m2]|];
      try contradiction; [|exact I].
    destruct Ht as (-> & -> & HF1 & Hagg).
    assert (Hq' : lag_rows_ge c s2 dt q).
    { destruct Hq as [Hq0 Hq]. split; [exact Hq0|]. intros ls l Els Hl. rewrite Hagg, resolve_idem. eauto. }
    specialize (IH s2 Hq').
    destruct (transform_names c s2 idx cols1 names) as [[[s3 c3] m3]|], (transform_names c s2 idx cols2 names) as [[[s4 c4] m4]|];
      try contradiction; [|exact I].
    destruct IH as (-> & -> & HF2). repeat split. now apply Forall2_app.
Qed.
End T.
