From Coq Require Import List ZArith Bool Lia Ascii Permutation.
From Coq Require Import ZifyBool ZifyNat.
From Verif Require Import Model.Names Model.Series Model.Transformer Model.Formatter Model.GlobalForm
  Spec.TransformerSpec Spec.FormatterSpec Spec.FormatterInput Spec.GlobalFormSpec Spec.TransformerInput
  Proof.SeriesProof Proof.TransformerProof Proof.TransformerProof2 Proof.TransformerProof4 Proof.FormatterProof.
Import ListNotations.
Local Open Scope Z_scope.

Section G.
Context {V : Type}.

(** ** Simulation *)
Lemma base_columns_names idx agg st (fs : list (aggfun V)) name d :
  map fst (base_columns idx agg st fs name d) = base_names agg fs name.
Proof. unfold base_columns, base_names. destruct fs as [|f fs]; [reflexivity|]. rewrite map_map. reflexivity. Qed.

Lemma lagged_names lags lag_of (cols : list (text * series V)) :
  map fst (lagged lags lag_of cols) = lag_names lags (map fst cols).
Proof.
  destruct lags as [ls|]; [|reflexivity]. cbn [lagged lag_names]. rewrite map_flat_map.
  apply flat_map_ext_in. intros l _. rewrite !map_map. reflexivity.
Qed.

Lemma map_fst_combine {A B} (l1 : list A) (l2 : list B) : length l1 = length l2 -> map fst (combine l1 l2) = l1.
Proof. revert l2. induction l1 as [|a l1 IH]; intros [|b l2] H; cbn in *; try congruence. f_equal. apply IH. lia. Qed.

Lemma flat_map_len {A B} (f : A -> list B) l n : (forall x, In x l -> length (f x) = n) -> length (flat_map f l) = (length l * n)%nat.
Proof.
  induction l as [|a l IH]; intros H; [reflexivity|]. cbn. rewrite app_length, IH, H; [lia|now left|].
  intros x Hx. apply H. now right.
Qed.

Lemma bin_columns_names idx dt subs orig f (fs : list (aggfun V)) name d :
  map fst (bin_columns idx dt subs orig (f :: fs) name d) = bin_names orig (f :: fs) name.
Proof.
  unfold bin_columns. apply map_fst_combine. unfold bin_names.
  rewrite (flat_map_len _ _ (length (f :: fs))).
  2:{ intros i _. cbn [function_names]. now rewrite !map_length. }
  rewrite (flat_map_len _ _ (length (f :: fs))); [reflexivity|].
  intros i _. rewrite map_length. unfold sub_columns. cbn [lagged flat_map]. rewrite app_nil_r, map_length.
  unfold base_columns. now rewrite map_length.
Qed.

Lemma simulate_at_same (c : config V) s idx name d s' cols ms :
  transform_name c s idx name d = Some (s', cols, ms) ->
  exists dt, sampling_time (c_dt c) idx = Some dt /\ st_agg s' = resolve_agg (st_agg s) dt /\
    simulate_at c s dt name = Some (State (resolve_agg (st_agg s) dt) (st_subs s), ms).
Proof.
  unfold transform_name. destruct (sampling_time (c_dt c) idx) as [dt|]; [|discriminate].
  intros H. exists dt. split; [reflexivity|]. revert H. unfold simulate_at.
  destruct (c_bins c) as [orig|].
  - destruct (median (diffs idx)) as [dt'|]; [|discriminate]. cbv zeta.
    set (cols0 := lagged (c_lags c) _ _).
    assert (Hn : map fst cols0 = lag_names (c_lags c) (match c_functions c with [] => [name] | fs => bin_names orig fs name end)).
    { unfold cols0. rewrite lagged_names. f_equal. destruct (c_functions c) as [|f fs]; [reflexivity|]. apply bin_columns_names. }
    rewrite <- Hn. rewrite (map_length fst cols0).
    match goal with |- context [Nat.eqb ?a ?b] => destruct (Nat.eqb a b) eqn:En end; [|discriminate].
    intros [= <- _ <-]. split; reflexivity.
  - cbv zeta. intros [= <- _ <-]. rewrite lagged_names, base_columns_names. split; reflexivity.
Qed.

Lemma get_col_exists (cols : list (text * series V)) nm d :
  get_col cols nm = Some d -> existsb (fun o => text_eqb (fst o) nm) cols = true.
Proof.
  unfold get_col. destruct (find (fun c => text_eqb (fst c) nm) cols) as [c|] eqn:E; [|discriminate].
  intros _. apply find_some in E. apply existsb_exists. exists c. exact E.
Qed.

Definition res_state (s : state) (dt : Z) : state := State (resolve_agg (st_agg s) dt) (st_subs s).

Lemma simulate_names_same (c : config V) (x : frame V) names : forall s sx s' cols ms,
  transform_names c sx (f_idx x) (f_cols x) names = Some (s', cols, ms) ->
  st_agg s = st_agg sx ->
  exists s'', simulate_names c s (Some x) names = Some (s'', ms) /\ st_subs s'' = st_subs s /\
    (s'' = s /\ names = [] \/ exists dt, sampling_time (c_dt c) (f_idx x) = Some dt /\ s'' = res_state s dt) /\
    (c_dt c <> None -> simulate_names c s None names = Some (s'', ms)).
Proof.
  induction names as [|nm names IH]; intros s sx s' cols ms H Hagg.
  - injection H as <- <- <-. exists s. cbn. repeat split; auto.
  - cbn [transform_names] in H. destruct (get_col (f_cols x) nm) as [d|] eqn:Ed; [|discriminate].
    destruct (transform_name c sx (f_idx x) nm d) as [[[s1 c1] m1]|] eqn:E1; [|discriminate].
    destruct (transform_names c s1 (f_idx x) (f_cols x) names) as [[[s2 c2] m2]|] eqn:E2; [|discriminate].
    injection H as <- <- <-.
    apply simulate_at_same in E1. destruct E1 as (dt & Edt & Es1 & Esim).
    assert (Hsim : simulate_at c s dt nm = Some (res_state s dt, m1)).
    { unfold simulate_at, res_state in *. rewrite Hagg. destruct (c_bins c) as [orig|].
      - revert Esim. cbv zeta. match goal with |- context [Nat.eqb ?a ?b] => destruct (Nat.eqb a b) end; [|discriminate].
        intros E. injection E as E. now rewrite E.
      - cbv zeta in *. injection Esim as E. now rewrite E. }
    destruct (IH (res_state s dt) s1 s2 c2 m2 E2) as (s'' & Hs1 & Hs2 & Hs3 & Hs4).
    { unfold res_state. cbn [st_agg]. now rewrite Es1, Hagg. }
    assert (Hdt0 : c_dt c <> None -> c_dt c = Some dt).
    { unfold sampling_time in Edt. destruct (c_dt c); congruence. }
    exists s''. split; [|split; [|split]].
    + cbn [simulate_names]. rewrite (get_col_exists _ _ _ Ed). cbn [option_map].
      unfold simulate_name. unfold sampling_time in Edt. rewrite Edt, Hsim. now rewrite Hs1.
    + rewrite Hs2. reflexivity.
    + right. exists dt. split; [exact Edt|]. destruct Hs3 as [[-> _]|(dt2 & Edt2 & ->)]; [reflexivity|].
      rewrite Edt in Edt2. injection Edt2 as <-. unfold res_state. cbn [st_agg st_subs]. now rewrite resolve_idem.
    + intros Hc. cbn [simulate_names option_map]. unfold simulate_name. rewrite (Hdt0 Hc), Hsim. now rewrite Hs4.
Qed.

Lemma transform_name_res (c : config V) s idx nm d dt :
  sampling_time (c_dt c) idx = Some dt -> transform_name c (res_state s dt) idx nm d = transform_name c s idx nm d.
Proof.
  intros Edt. unfold transform_name. rewrite Edt. unfold res_state. cbn [st_agg st_subs]. now rewrite resolve_idem.
Qed.
End G.

Lemma simulate_same (V : Type) :
  forall (c : config V) s augment x s' fr ms,
  transform c s augment x = Some (s', fr, ms) ->
  exists s'', simulate c s (Some x) = Some (s'', ms) /\
    (c_dt c <> None -> simulate c s None = Some (s'', ms)) /\
    transform c s'' augment x = Some (s', fr, ms).
Proof.
  intros c s augment x s' fr ms H. unfold transform in H.
  destruct (transform_names c s (f_idx x) (f_cols x) (c_names c)) as [[[s1 cols] m1]|] eqn:E; [|discriminate].
  injection H as <- <- <-.
  destruct (simulate_names_same c x (c_names c) s s s1 cols m1 E eq_refl) as (s'' & H1 & H2 & H3 & H4).
  exists s''. split; [exact H1|]. split; [exact H4|].
  unfold transform. destruct H3 as [[-> Hn]|(dt & Edt & ->)]; [now rewrite E|].
  destruct (c_names c) as [|nm names] eqn:Enames.
  - cbn in *. injection H1 as Es. rewrite <- Es in *. injection E as <- <- <-. reflexivity.
  - cbn [transform_names] in *. rewrite (transform_name_res c s (f_idx x) nm _ dt Edt) || idtac.
    destruct (get_col (f_cols x) nm) as [d|]; [|discriminate].
    rewrite (transform_name_res c s (f_idx x) nm d dt Edt). now rewrite E.
Qed.

(** Simulation fails on chained transformers, which transform accepts: it is never
    shown the columns added by earlier transformers. *)
Lemma simulate_chained_refuted :
  exists (c1 c2 : config Z) s1 s2 (x : frame Z) r, 
    apply_transformers [(c1, s1); (c2, s2)] x = Some r /\
    simulate c1 s1 (Some x) <> None /\ simulate c2 s2 (Some x) = None.
Proof.
  set (x := Frame [0; 1; 2] [(tx, [Some 1; Some 2; Some 3])]).
  exists (Config [tx] [] (Some [1]) false None None), (Config [lag_name tx 1] [] (Some [1]) false None None),
    (State AggNone []), (State AggNone []), x.
  eexists. split; [vm_compute; reflexivity|]. split; [vm_compute; discriminate|]. vm_compute. reflexivity.
Qed.

(** ** Threads *)
Lemma get_col_app (V : Type) (cols feats : list (text * series V)) nm :
  In nm (map fst cols) -> get_col (cols ++ feats) nm = get_col cols nm.
Proof.
  unfold get_col. induction cols as [|c cols IH]; [intros []|]. cbn [map app find]. intros [->|Hin].
  - now rewrite text_eqb_refl.
  - destruct (text_eqb (fst c) nm); [reflexivity|]. now apply IH.
Qed.
Lemma transform_names_app (V : Type) (c : config V) idx cols feats names : forall s,
  (forall nm, In nm names -> In nm (map fst cols)) ->
  transform_names c s idx (cols ++ feats) names = transform_names c s idx cols names.
Proof.
  induction names as [|nm names IH]; intros s H; [reflexivity|]. cbn [transform_names].
  rewrite get_col_app by (apply H; now left). destruct (get_col cols nm) as [d|]; [|reflexivity].
  destruct (transform_name c s idx nm d) as [[[s1 c1] m1]|]; [|reflexivity].
  rewrite IH; [reflexivity|]. intros n Hn. apply H. now right.
Qed.

Lemma parallel_same (V : Type) :
  forall (trs : list (config V * state)) (x : frame V),
  (forall c s nm, In (c, s) trs -> In nm (c_names c) -> In nm (map fst (f_cols x))) ->
  apply_parallel trs x = apply_transformers trs x.
Proof.
  intros trs x H.
  assert (Hg : forall trs, (forall c s nm, In (c, s) trs -> In nm (c_names c) -> In nm (map fst (f_cols x))) ->
    forall feats, apply_transformers trs (Frame (f_idx x) (f_cols x ++ feats)) =
    match parallel_columns trs x with
    | None => None
    | Some (ss, cols, mss) => Some (ss, Frame (f_idx x) (f_cols x ++ feats ++ cols), mss)
    end).
  { clear trs H. induction trs as [|[c s] trs IH]; intros H feats.
    - cbn. now rewrite app_nil_r.
    - cbn [apply_transformers parallel_columns]. unfold transform. cbn [f_idx f_cols].
      rewrite transform_names_app by (intros nm Hn; eapply H; [now left|exact Hn]).
      destruct (transform_names c s (f_idx x) (f_cols x) (c_names c)) as [[[s1 c1] m1]|]; [|reflexivity].
      rewrite <- app_assoc. rewrite IH by (intros c' s0 nm Hin; apply (H c' s0 nm); now right).
      destruct (parallel_columns trs x) as [[[ss cols] mss]|]; [|reflexivity].
      cbn [f_cols app]. now rewrite <- !app_assoc. }
  unfold apply_parallel. specialize (Hg trs H []). rewrite app_nil_r in Hg.
  assert (Ex : Frame (f_idx x) (f_cols x) = x) by (now destruct x). rewrite Ex in Hg. rewrite Hg.
  destruct (parallel_columns trs x) as [[[ss cols] mss]|]; reflexivity.
Qed.

Lemma parallel_chained_refuted :
  exists (trs : list (config Z * state)) (x : frame Z) r,
    apply_transformers trs x = Some r /\ apply_parallel trs x = None.
Proof.
  set (x := Frame [0; 1; 2] [(tx, [Some 1; Some 2; Some 3])]).
  exists [(Config [tx] [] (Some [1]) false None None, State AggNone []);
          (Config [lag_name tx 1] [] (Some [1]) false None None, State AggNone [])], x.
  eexists. split; vm_compute; reflexivity.
Qed.

(** ** Global form *)
Lemma global_form_faithful (V : Type) :
  forall shared (x : frame V) gs,
  global_preprocess shared x = Some gs ->
  let private := filter (fun c => negb (if in_dec (list_eq_dec Ascii.ascii_dec) (fst c) shared then true else false)) (f_cols x) in
  map (@g_name V) gs = map fst private /\
  long_observations gs = observations (f_idx x) private /\
  (forall g, In g gs -> g_idx g = f_idx x /\ In (g_name g, g_target g) (f_cols x) /\ ~ In (g_name g) shared /\
     (forall c, In c (g_shared g) -> In c (f_cols x)) /\
     (NoDup (map fst (f_cols x)) -> map fst (g_shared g) = shared)).
Proof.
  intros shared x gs H private. unfold global_preprocess in H.
  destruct (forallb _ shared) eqn:E; [|discriminate].
  assert (Hmem : forall nm, mem nm shared = if in_dec (list_eq_dec Ascii.ascii_dec) nm shared then true else false).
  { intros nm. unfold mem. destruct (in_dec (list_eq_dec Ascii.ascii_dec) nm shared) as [Hin|Hn].
    - apply existsb_exists. exists nm. split; [exact Hin|apply text_eqb_refl].
    - destruct (existsb (text_eqb nm) shared) eqn:Ee; [|reflexivity]. apply existsb_exists in Ee.
      destruct Ee as (o & Ho & Eo). destruct (text_eqb_spec nm o); [subst; contradiction|discriminate]. }
  assert (Hp : filter (fun c => negb (mem (fst c) shared)) (f_cols x) = private).
  { apply filter_ext. intros c. now rewrite Hmem. }
  rewrite Hp in H. injection H as <-. split; [|split].
  - rewrite map_map. reflexivity.
  - unfold long_observations, observations. rewrite flat_map_map_in. reflexivity.
  - intros g Hg. apply in_map_iff in Hg. destruct Hg as (c & <- & Hc). cbn [g_idx g_name g_target g_shared].
    apply filter_In in Hc. destruct Hc as [Hc Hn]. split; [reflexivity|]. split; [now destruct c|].
    split. { intros Hin. match type of Hn with context [in_dec ?d ?a ?l] => destruct (in_dec d a l) end; [cbn in Hn; discriminate|contradiction]. }
    split.
    + intros o Ho. unfold select_columns in Ho. apply in_flat_map in Ho. destruct Ho as (nm & _ & Ho). apply filter_In in Ho. tauto.
    + intros Hnd. unfold select_columns. rewrite forallb_forall in E. clear Hmem Hp private Hn.
      induction shared as [|nm fs IH]; [reflexivity|]. cbn [flat_map]. rewrite map_app, IH.
      * specialize (E nm (or_introl eq_refl)). apply existsb_exists in E. destruct E as (o & Ho & Heq).
        destruct (text_eqb_spec (fst o) nm) as [<-|]; [|discriminate]. now rewrite filter_name_unique.
      * intros y Hy. apply E. now right.
Qed.

Lemma position_spec names c : match position c names with
  | Some k => (k < length names)%nat /\ nth_error names k = Some c
  | None => ~ In c names end.
Proof.
  induction names as [|a names IH]; [intros []|]. cbn [position].
  destruct (text_eqb_spec c a) as [->|Hne].
  - cbn. split; [lia|reflexivity].
  - destruct (position c names) as [k|]; cbn [option_map].
    + destruct IH. cbn. split; [lia|assumption].
    + intros [Hc|Hc]; [congruence|contradiction].
Qed.
Lemma position_nth names k c : NoDup names -> nth_error names k = Some c -> position c names = Some k.
Proof.
  intros Hnd Hk. pose proof (position_spec names c) as Hp. destruct (position c names) as [j|].
  - destruct Hp as [Hj Hp]. f_equal. apply (proj1 (NoDup_nth_error names) Hnd); congruence.
  - exfalso. apply Hp. eapply nth_error_In; eauto.
Qed.

Lemma nth_error_ext {A} (l1 l2 : list A) : (forall k, nth_error l1 k = nth_error l2 k) -> l1 = l2.
Proof.
  revert l2. induction l1 as [|a l1 IH]; intros [|b l2] H; [reflexivity| | |].
  - specialize (H 0%nat). discriminate.
  - specialize (H 0%nat). discriminate.
  - f_equal; [specialize (H 0%nat); now injection H|]. apply IH. intros k. exact (H (S k)).
Qed.

Lemma reorder_permutes (V : Type) :
  forall names order (row : text -> V), NoDup names -> Permutation order names ->
  map (reorder_row names order row) names = map row order /\
  Permutation (map (reorder_row names order row) names) (map row names) /\
  (forall c, ~ In c names -> reorder_row names order row c = row c).
Proof.
  intros names order row Hnd Hp.
  assert (Hm : map (reorder_row names order row) names = map row order).
  { apply Permutation_length in Hp as Hl. apply nth_error_ext. intros k. rewrite !nth_error_map.
    destruct (nth_error names k) as [c|] eqn:Ek.
    - cbn. unfold reorder_row. rewrite (position_nth names k c Hnd Ek).
      assert (Hk : (k < length order)%nat). { rewrite Hl. apply nth_error_Some. congruence. }
      rewrite (nth_error_nth' order c Hk). reflexivity.
    - apply nth_error_None in Ek. rewrite <- Hl in Ek. apply nth_error_None in Ek. now rewrite Ek. }
  split; [exact Hm|]. split.
  - rewrite Hm. now apply Permutation_map.
  - intros c Hc. unfold reorder_row. pose proof (position_spec names c) as Hs. destruct (position c names); [|reflexivity].
    exfalso. apply Hc. destruct Hs. eapply nth_error_In; eauto.
Qed.

Lemma insert_desc_perm k l : Permutation (insert_desc k l) (k :: l).
Proof.
  induction l as [|a l IH]; [reflexivity|]. cbn. destruct (snd a <? snd k); [reflexivity|].
  rewrite IH. apply perm_swap.
Qed.
Lemma corr_order_perm corr : Permutation (corr_order corr) (map fst corr).
Proof.
  unfold corr_order. apply Permutation_map.
  assert (H : forall acc, Permutation (fold_left (fun acc k => insert_desc k acc) corr acc) (corr ++ acc)).
  { induction corr as [|k corr IH]; intros acc; [reflexivity|]. cbn [fold_left app]. rewrite IH, insert_desc_perm.
    symmetry. apply Permutation_middle. }
  rewrite H, app_nil_r. reflexivity.
Qed.

Lemma reorder_consistent (V : Type) :
  forall names stored0 (signals : list (list (text * Z) * list (text -> V))) order,
  signals <> [] ->
  (forall sg, In sg signals -> corr_order (fst sg) = order) ->
  let r := reorder_training names stored0 signals in
  fst r = Some order /\
  snd r = map (fun sg => map (reorder_row names order) (snd sg)) signals /\
  (forall rows : list (text -> V), reorder_prediction names (fst r) rows = Some (map (reorder_row names order) rows)).
Proof.
  intros names stored0 signals order Hne H r.
  assert (Hg : forall signals st, (forall sg, In sg signals -> corr_order (fst sg) = order) ->
     fst (reorder_training names st signals) = match signals with [] => st | _ => Some order end /\
     snd (reorder_training names st signals) = map (fun sg : list (text * Z) * list (text -> V) => map (reorder_row names order) (snd sg)) signals).
  { clear. induction signals as [|[corr rows] signals IH]; intros st H; [split; reflexivity|].
    cbn [reorder_training fst snd]. specialize (H (corr, rows) (or_introl eq_refl)) as Ho. cbn [fst] in Ho. rewrite Ho.
    destruct (IH (Some order)) as [H1 H2]. { intros sg Hs. apply H. now right. }
    split; [rewrite H1; now destruct signals|]. rewrite H2. reflexivity. }
  destruct (Hg signals stored0 H) as [H1 H2]. unfold r. destruct signals as [|sg signals]; [congruence|].
  rewrite H1. split; [reflexivity|]. split; [exact H2|]. intros rows. reflexivity.
Qed.

(** Two signals whose correlations rank the features differently: the stored order
    is that of the last one, and the first signal's rows are permuted differently
    in training and in prediction. *)
Lemma reorder_refuted :
  exists names (corr1 corr2 : list (text * Z)) (row : text -> Z),
    NoDup names /\ map fst corr1 = names /\ map fst corr2 = names /\
    let r := reorder_training names None [(corr1, [row]); (corr2, [])] in
    exists trained predicted, nth_error (snd r) 0 = Some [trained] /\
      reorder_prediction names (fst r) [row] = Some [predicted] /\
      exists c, In c names /\ trained c <> predicted c.
Proof.
  set (a := ["a"%char]). set (b := ["b"%char]).
  exists [a; b], [(a, 1); (b, 2)], [(a, 2); (b, 1)], (fun t => if text_eqb t a then 0 else 1).
  split. { repeat constructor; cbn; intuition discriminate. }
  split; [reflexivity|]. split; [reflexivity|]. cbv zeta.
  eexists. eexists. split; [reflexivity|]. split; [reflexivity|].
  exists a. split; [now left|]. vm_compute. discriminate.
Qed.

(** ** Time limits *)
Section Best.
Context (sel : Z -> Z -> Z) (R : Z -> Z -> Prop).
Context (Hsel : forall x y, sel x y = x \/ sel x y = y).
Context (Hl : forall x y, R (sel x y) x).
Context (Hr : forall x y, R (sel x y) y).
Context (Htrans : forall x y z, R x y -> R y z -> R x z).
Context (Hrefl : forall x, R x x).

Definition best (o : option Z) (l : list Z) : Prop :=
  match o with None => l = [] | Some v => In v l /\ forall u, In u l -> R v u end.

Lemma best_op o1 l1 o2 l2 : best o1 l1 -> best o2 l2 -> best (opt_lift sel o1 o2) (l1 ++ l2).
Proof.
  destruct o1 as [v1|], o2 as [v2|]; cbn [opt_lift best].
  - intros [I1 B1] [I2 B2]. split.
    + apply in_or_app. destruct (Hsel v1 v2) as [-> | ->]; auto.
    + intros u Hu. apply in_app_or in Hu. destruct Hu as [Hu|Hu]; [apply (Htrans _ v1); auto|apply (Htrans _ v2); auto].
  - intros H ->. rewrite app_nil_r. exact H.
  - intros ->. auto.
  - intros -> ->. reflexivity.
Qed.
Lemma best_ext o l l' : (forall u, In u l <-> In u l') -> best o l -> best o l'.
Proof.
  intros H. destruct o as [v|]; cbn [best].
  - intros [I B]. split; [now apply H|]. intros u Hu. apply B. now apply H.
  - intros ->. destruct l' as [|a l']; [reflexivity|]. destruct (proj2 (H a) (or_introl eq_refl)).
Qed.
Lemma fold_best {A} (val : A -> option Z) (ls : A -> list Z) ps :
  (forall p, In p ps -> best (val p) (ls p)) ->
  best (fold_right (fun p acc => opt_lift sel (val p) acc) None ps) (flat_map ls ps).
Proof.
  induction ps as [|p ps IH]; intros H; [reflexivity|]. cbn [fold_right flat_map].
  apply best_op; [apply H; now left|]. apply IH. intros q Hq. apply H. now right.
Qed.
Lemma lim_best f ms : best (lim_of f (opt_lift sel) ms) (map f ms).
Proof.
  unfold lim_of. pose proof (fold_best (fun m => Some (f m)) (fun m => [f m]) ms) as H.
  rewrite <- (flat_map_single f ms). apply H. intros p _. cbn. split; [now left|]. intros u [<-|[]]. apply Hrefl.
Qed.

Lemma signal_best f metas :
  best (fold_right (fun p acc => opt_lift sel (snd p) acc) None (signal_lims f (opt_lift sel) metas)) (map f (concat metas)).
Proof.
  set (keys := flat_map (fun ms => map (fun nm => (ms, nm)) (group_names ms)) metas).
  set (val := fun q : list meta * text => lim_of f (opt_lift sel) (filter (fun m => text_eqb (m_name m) (snd q)) (fst q))).
  set (els := fun q : list meta * text => map f (filter (fun m => text_eqb (m_name m) (snd q)) (fst q))).
  assert (Hfirsts : flat_map (group_lims f (opt_lift sel)) metas = map (fun q => (snd q, val q)) keys).
  { unfold keys. rewrite map_flat_map. apply flat_map_ext_in. intros ms _. unfold group_lims. rewrite map_map. reflexivity. }
  unfold signal_lims. cbv zeta. rewrite Hfirsts. rewrite map_map. cbn [fst].
  set (names := nodup (list_eq_dec Ascii.ascii_dec) (map snd keys)).
  rewrite (map_ext _ (fun nm => (nm, fold_right (fun q acc => opt_lift sel (val q) acc) None (filter (fun q => text_eqb (snd q) nm) keys)))).
  2:{ intros nm. f_equal. rewrite filter_map_swap. cbn [fst]. induction (filter _ keys) as [|q l IH]; [reflexivity|]. cbn. now rewrite IH. }
  match goal with |- best (fold_right _ None (map ?g names)) _ =>
    assert (Hf : fold_right (fun p acc => opt_lift sel (snd p) acc) None (map g names) =
                 fold_right (fun nm acc => opt_lift sel (snd (g nm)) acc) None names)
  end.
  { induction names as [|nm l IH]; [reflexivity|]. cbn. now rewrite IH. }
  rewrite Hf. cbn [snd]. clear Hf.
  eapply best_ext; [|apply (fold_best _ (fun nm => flat_map els (filter (fun q => text_eqb (snd q) nm) keys)))].
  - intros u. rewrite in_flat_map. split.
    + intros (nm & _ & Hu). apply in_flat_map in Hu. destruct Hu as ([ms nm'] & Hq & Hu).
      apply filter_In in Hq. destruct Hq as [Hq _]. unfold keys in Hq. apply in_flat_map in Hq. destruct Hq as (ms' & Hms & Hq).
      apply in_map_iff in Hq. destruct Hq as (n2 & [= -> ->] & _). unfold els in Hu. cbn in Hu.
      apply in_map_iff in Hu. destruct Hu as (m & <- & Hm). apply filter_In in Hm. apply in_map. apply in_concat. exists ms. tauto.
    + intros Hu. apply in_map_iff in Hu. destruct Hu as (m & <- & Hm). apply in_concat in Hm. destruct Hm as (ms & Hms & Hm).
      assert (Hk : In (ms, m_name m) keys).
      { unfold keys. apply in_flat_map. exists ms. split; [exact Hms|]. apply in_map_iff. exists (m_name m). split; [reflexivity|].
        unfold group_names. apply nodup_In. now apply in_map. }
      exists (m_name m). split. { unfold names. apply nodup_In. apply in_map_iff. exists (ms, m_name m). auto. }
      apply in_flat_map. exists (ms, m_name m). split. { apply filter_In. split; [exact Hk|apply text_eqb_refl]. }
      unfold els. cbn. apply in_map. apply filter_In. split; [exact Hm|apply text_eqb_refl].
  - intros nm _. apply fold_best. intros q _. apply lim_best.
Qed.
End Best.

Lemma time_lims_spec :
  forall metas, concat metas <> [] ->
  exists a b, time_lims metas = (Some a, Some b) /\
    smallest a (map m_start (concat metas)) /\ largest b (map m_end (concat metas)).
Proof.
  intros metas Hne. unfold time_lims, min_opt, max_opt.
  pose proof (signal_best Z.min Z.le ltac:(intros; lia) ltac:(intros; lia) ltac:(intros; lia) ltac:(intros; lia) ltac:(intros; lia) m_start metas) as H1.
  pose proof (signal_best Z.max (fun x y => y <= x) ltac:(intros; cbv beta in *; lia) ltac:(intros; cbv beta in *; lia) ltac:(intros; cbv beta in *; lia) ltac:(intros; cbv beta in *; lia) ltac:(intros; cbv beta in *; lia) m_end metas) as H2.
  cbv beta in *.
  destruct (fold_right _ None (signal_lims m_start _ metas)) as [a|]; [|cbn in H1; destruct (concat metas); [congruence|discriminate]].
  destruct (fold_right _ None (signal_lims m_end _ metas)) as [b|]; [|cbn in H2; destruct (concat metas); [congruence|discriminate]].
  exists a, b. split; [reflexivity|]. split; [exact H1|exact H2].
Qed.
