(** Properties of [Formatter]: C05-C12, C15, C65-C68. *)
From Coq Require Import List ZArith Bool Ascii Sorted Permutation Lia.
From Verif Require Import Model.Names Model.Series Model.Transformer Model.Formatter Model.GlobalForm
  Spec.TransformerSpec Spec.TransformerInput Spec.FormatterSpec Spec.FormatterInput Spec.GlobalFormSpec
  Proof.FormatterProof Proof.FormatterProof2 Proof.GlobalFormProof.
Import ListNotations.
Local Open Scope Z_scope.

(** C05 *)
Theorem C05_aligned_rows :
  forall (V : Type),
  forall (trs ttrs : list (config V * state)) augment (x : frame V),
  NoDup (f_idx x) -> rectangular (length (f_idx x)) (f_cols x) ->
  (forall ss x1 mss, apply_transformers trs x = Some (ss, x1, mss) ->
     exists feats, x1 = Frame (f_idx x) (f_cols x ++ feats)) /\
  (forall ss feats mss ss' tcols mss',
     apply_transformers trs x = Some (ss, Frame (f_idx x) (f_cols x ++ feats), mss) ->
     apply_targets ttrs (Frame (f_idx x) (f_cols x ++ feats)) = Some (ss', tcols, mss') ->
     NoDup (map fst (f_cols x ++ feats)) ->
     let rows := complete_rows (length (f_idx x)) (feats ++ tcols) in
     formatter_transform trs ttrs augment true x =
     Some (Frame (restrict_index rows (f_idx x)) (map (restrict rows) (if augment then f_cols x ++ feats else feats)),
           Frame (restrict_index rows (f_idx x)) (map (restrict rows) tcols))) /\
  (forall ss feats mss,
     apply_transformers trs x = Some (ss, Frame (f_idx x) (f_cols x ++ feats), mss) ->
     NoDup (map fst (f_cols x ++ feats)) ->
     let rows := complete_rows (length (f_idx x)) feats in
     formatter_transform trs ttrs augment false x =
     Some (Frame (restrict_index rows (f_idx x)) (map (restrict rows) (if augment then f_cols x ++ feats else feats)),
           Frame (f_idx x) [])) /\
  (apply_transformers trs x = None -> forall rt, formatter_transform trs ttrs augment rt x = None).
Proof. exact (@formatter_rows). Qed.
Print Assumptions C05_aligned_rows.
(** A frame with a gap: one lag feature, one step-ahead target; rows 0 (no past), 2 and
    3 (gap) and 5 (no future) disappear. *)
Definition ex_frame : frame Z :=
  Frame [0; 10; 20; 30; 40; 50] [(tx, [Some 1; Some 2; Some 3; None; Some 5; Some 6])].
Definition ex_trs : list (config Z * state) := [(Config [tx] [] (Some [0; 1]) false None None, State AggNone [])].
Definition ex_ttrs : list (config Z * state) := [(Config [tx] [] (Some [-1]) false None None, State AggNone [])].
Example C05_case :
  NoDup (f_idx ex_frame) /\ rectangular (length (f_idx ex_frame)) (f_cols ex_frame) /\
  exists y t, formatter_transform ex_trs ex_ttrs false true ex_frame = Some (y, t) /\
    f_idx y = [10] /\ f_idx t = [10] /\ map snd (f_cols t) = [[Some 3]].
Proof.
  split. { repeat constructor; cbn; intuition discriminate. }
  split. { intros c [<-|[]]. reflexivity. }
  eexists. eexists. split; [vm_compute; reflexivity|]. repeat split; reflexivity.
Qed.

(** C06 *)
Theorem C06_fold_separation :
  forall idx n_k mult metas folds train test,
  time_kfcv idx n_k mult metas = Some folds -> In (train, test) folds ->
  length train = length idx /\ length test = length idx /\
  exists d a w,
    widest (map m_start (concat metas)) d /\ d <= w /\
    (forall i, (i < length idx)%nat ->
       (nth i test false = true <-> a <= nth i idx 0 <= a + w) /\
       (nth i train false = true <-> nth i idx 0 < a - d \/ a + w + d < nth i idx 0)) /\
    (forall i, ~ (nth i train false = true /\ nth i test false = true)) /\
    (forall t1 t2, selected idx train t1 -> selected idx test t2 -> d < Z.abs (t1 - t2)) /\
    (forall t1 t2 m u, selected idx train t1 -> selected idx test t2 -> In m (concat metas) ->
       m_start m <= u <= 0 -> t1 + u <> t2 /\ t2 + u <> t1).
Proof. exact (@cv_separation). Qed.
Print Assumptions C06_fold_separation.
Theorem C06_target_leak_refuted :
  exists idx n_k mult (fmeta tmeta : meta) folds train test t1 t2,
    StronglySorted Z.lt idx /\
    time_kfcv idx n_k mult [[fmeta]] = Some folds /\ In (train, test) folds /\
    selected idx train t1 /\ selected idx test t2 /\
    t1 + m_start tmeta <= t2 < t1 + m_end tmeta.
Proof. exact (@cv_target_leak). Qed.
Print Assumptions C06_target_leak_refuted.
(** C07 *)
Theorem C07_folds_cover :
  forall idx n_k mult metas folds,
  (1 <= mult)%nat -> StronglySorted Z.le idx ->
  time_kfcv idx n_k mult metas = Some folds ->
  length folds = (n_k * mult)%nat /\
  forall i, (i < length idx)%nat -> exists fold, In fold folds /\ nth i (snd fold) false = true.
Proof. exact (@cv_cover). Qed.
Print Assumptions C07_folds_cover.
Definition ex_meta (start_ end_ : Z) : meta := Meta tx tx None start_ end_ tx.
Example C06_C07_case :
  StronglySorted Z.le [0; 1; 2; 4; 5; 7; 8; 9; 11; 12] /\
  exists folds, time_kfcv [0; 1; 2; 4; 5; 7; 8; 9; 11; 12] 4 2 [[ex_meta (-2) 1]] = Some folds /\
    length folds = 8%nat /\
    exists f, nth_error folds 3 = Some f /\ existsb (fun b => b) (fst f) = true /\ existsb (fun b => b) (snd f) = true.
Proof.
  split. { repeat (constructor; [|repeat (constructor; [lia|]); constructor]). constructor. }
  eexists. split; [vm_compute; reflexivity|]. split; [reflexivity|]. eexists. split; [reflexivity|]. split; reflexivity.
Qed.

(** C68 *)
Theorem C68_two_folds_refuted :
  forall idx mult metas folds train test,
  (1 <= mult)%nat -> StronglySorted Z.le idx ->
  time_kfcv idx 2 mult metas = Some folds -> In (train, test) folds ->
  forall i, nth i train false = false.
Proof. exact (@cv_two_folds_untrainable). Qed.
Print Assumptions C68_two_folds_refuted.
Theorem C68_short_history_partial :
  forall idx n_k mult metas folds train test first len,
  (1 <= mult)%nat -> (2 <= n_k)%nat -> nth_error idx 0 = Some first -> len = last idx 0 - first ->
  (forall m, In m (concat metas) -> 2 * Z.abs (m_start m) * (Z.of_nat n_k - 1) < (Z.of_nat n_k - 2) * len) ->
  time_kfcv idx n_k mult metas = Some folds -> In (train, test) folds ->
  exists i, nth i train false = true.
Proof. exact (@cv_trainable). Qed.
Print Assumptions C68_short_history_partial.
Theorem C68_five_folds_partial :
  forall idx n_k mult metas folds train test first,
  (1 <= mult)%nat -> (5 <= n_k)%nat -> nth_error idx 0 = Some first -> first < last idx 0 ->
  time_kfcv idx n_k mult metas = Some folds -> In (train, test) folds ->
  exists i, nth i train false = true.
Proof. exact (@cv_trainable_five). Qed.
Print Assumptions C68_five_folds_partial.
(** Three folds, features looking back two seconds in twelve. *)
Example C68_short_history_case : exists folds, time_kfcv [0; 3; 6; 9; 12] 3 1 [[ex_meta (-2) 1]] = Some folds /\ length folds = 3%nat /\
  forall m, In m (concat [[ex_meta (-2) 1]]) -> 2 * Z.abs (m_start m) * (Z.of_nat 3 - 1) < (Z.of_nat 3 - 2) * 12.
Proof. eexists. split; [vm_compute; reflexivity|]. split; [reflexivity|]. intros m [<-|[]]. vm_compute. reflexivity. Qed.

Example C68_case :
  exists folds, time_kfcv [0; 1; 2; 3; 4; 5] 2 1 [[ex_meta (-2) 1]] = Some folds /\ length folds = 2%nat.
Proof. eexists. split; vm_compute; reflexivity. Qed.

(** C08 *)
Theorem C08_pruned_features_partial :
  forall tmetas fmetas col extra method n ns cols,
  match method with Periodic p _ => 0 < p | _ => True end ->
  prune_columns tmetas fmetas col extra method n ns = Some cols ->
  exists first others t kept,
    tmetas = first :: others /\ nth_error first col = Some t /\
    cols = map m_index kept ++ extra /\
    (exists mask, length mask = length (concat fmetas) /\
       kept = map snd (filter fst (combine mask (concat fmetas))) /\
       forall k m, nth_error (concat fmetas) k = Some m ->
         (nth k mask false = true <-> kept_by_code method n ns (m_start t) (m_end t) m)).
Proof. exact (@prune_kept). Qed.
Print Assumptions C08_pruned_features_partial.
Theorem C08_pruned_frame :
  forall (V : Type),
  forall (df : frame V) features df',
  prune_frame df features = Some df' ->
  f_idx df' = f_idx df /\ (forall c, In c (f_cols df') -> In c (f_cols df) /\ In (fst c) features) /\
  (NoDup (map fst (f_cols df)) -> map fst (f_cols df') = features).
Proof. exact (@prune_frame_rows). Qed.
Print Assumptions C08_pruned_frame.
Theorem C08_last_seconds_refuted :
  exists method n ns t m, kept_by_code method n ns (m_start t) (m_end t) m /\
    ~ kept_as_promised method n ns (m_start t) (m_end t) m /\
    prune_columns [[t]] [[m]] 0 [] method n ns = Some [m_index m].
Proof. exact (@prune_promise_refuted_seconds). Qed.
Print Assumptions C08_last_seconds_refuted.
Theorem C08_tolerance_refuted :
  exists method n ns t m, kept_as_promised method n ns (m_start t) (m_end t) m /\
    ~ kept_by_code method n ns (m_start t) (m_end t) m /\
    prune_columns [[t]] [[m]] 0 [] method n ns = Some [].
Proof. exact (@prune_promise_refuted_tolerance). Qed.
Print Assumptions C08_tolerance_refuted.
Example C08_case :
  prune_columns [[ex_meta 1 2; ex_meta 24 25]] [[Meta ["a"%char] tx None (-24) (-23) tx; Meta ["b"%char] tx None (-30) (-29) tx]]
    1 [tx] (Periodic 24 1) 0 0 = Some [["a"%char]; tx].
Proof. vm_compute. reflexivity. Qed.

(** C09 *)
Theorem C09_round_trip :
  forall (V : Type),
  forall (e einv : rowexpr (V := V)) norms uniq metas cols cols',
  (forall i v, einv (map (fun n => nth i n None) norms) (e (map (fun n => nth i n None) norms) v) = v) ->
  normalize_cols e norms uniq metas cols = Some cols' ->
  denormalize_cols einv norms uniq metas cols' = Some cols.
Proof. exact (@normalize_roundtrip). Qed.
Print Assumptions C09_round_trip.
Theorem C09_applications :
  forall (V : Type),
  forall (e : rowexpr (V := V)) norms uniq metas cols cols',
  normalize_cols e norms uniq metas cols = Some cols' ->
  NoDup (flat_map (fun ms => map m_index ms) metas) ->
  cols' = map (fun o => (fst o,
     Nat.iter (if existsb (text_eqb (fst o)) (flat_map (fun ms => map m_index ms) metas) then length uniq else 0%nat)
              (eval_column e norms) (snd o))) cols.
Proof. exact (@normalize_iterated). Qed.
Print Assumptions C09_applications.
Theorem C09_normalised_once_refuted :
  exists (e : rowexpr (V := Z)) norms uniq metas cols cols' name col,
    NoDup (flat_map (fun ms => map m_index ms) metas) /\
    normalize_cols e norms uniq metas cols = Some cols' /\
    In (name, col) cols /\ (forall o, In o cols' -> fst o = name -> snd o <> eval_column e norms col).
Proof. exact (@normalize_once_refuted). Qed.
Print Assumptions C09_normalised_once_refuted.
(** A subtract-the-normaliser expression and its inverse, two targets. *)
Definition ex_sub : rowexpr (V := Z) := fun ns v =>
  match ns, v with Some n :: _, Some z => Some (z - n) | _, _ => v end.
Definition ex_add : rowexpr (V := Z) := fun ns v =>
  match ns, v with Some n :: _, Some z => Some (z + n) | _, _ => v end.
Example C09_case :
  (forall i v, ex_add (map (fun n => nth i n None) [[Some 3; None; Some 7]]) (ex_sub (map (fun n => nth i n None) [[Some 3; None; Some 7]]) v) = v) /\
  exists cols', normalize_cols ex_sub [[Some 3; None; Some 7]] [tx] [[ex_meta 0 1]] [(tx, [Some 10; Some 20; None])] = Some cols' /\
    cols' = [(tx, [Some 7; Some 20; None])].
Proof.
  split.
  - intros i v. cbn [map]. destruct (nth i [Some 3; None; Some 7] None) as [n|]; destruct v as [z|]; cbn; try reflexivity.
    f_equal. lia.
  - eexists. split; reflexivity.
Qed.

(** C10 *)
Theorem C10_unique_names :
  forall calls, NoDup (map fst (run_registry calls)).
Proof. exact (@registry_invariant). Qed.
Print Assumptions C10_unique_names.
Theorem C10_first_wins :
  forall calls1 calls2 name target,
  In (name, target) (run_registry calls1) -> In (name, target) (run_registry (calls1 ++ calls2)).
Proof. exact (@registry_first_wins). Qed.
Print Assumptions C10_first_wins.
Theorem C10_outcome :
  forall calls targets lags name,
  let reg := run_registry calls in
  let r := add_normalizer reg targets lags name in
  (In name (map fst reg) -> r = (reg, Ignored)) /\
  (~ In name (map fst reg) ->
     (exists t, targets = [t] /\ (lags = LagNone \/ exists z, lags = LagArray [z] /\ 0 < z) /\
                r = (reg ++ [(name, t)], Added)) \/
     r = (reg, Raised)).
Proof. exact (@registry_outcome). Qed.
Print Assumptions C10_outcome.
Theorem C10_list_lags_refuted :
  forall calls target l name, ~ In name (map fst (run_registry calls)) ->
    add_normalizer (run_registry calls) [target] (LagList l) name = (run_registry calls, Raised).
Proof. exact (@registry_list_lags_refuted). Qed.
Print Assumptions C10_list_lags_refuted.
Example C10_case :
  run_registry [([tx], LagNone, ["a"%char]); ([tx], LagArray [1], ["b"%char]); ([["y"%char]], LagNone, ["a"%char])]
  = [(["a"%char], tx); (["b"%char], tx)].
Proof. reflexivity. Qed.

(** C11 *)
Theorem C11_stable_names :
  forall history n1 index1 names1 rows1 between n2 index2 names2 rows2,
  let s0 := run_time history None in
  let s1 := fst (add_time_features s0 n1 index1) in
  let s2 := run_time between s1 in
  snd (add_time_features s0 n1 index1) = Some (names1, rows1) ->
  snd (add_time_features s2 n2 index2) = Some (names2, rows2) ->
  names2 = names1 /\ length rows2 = length index2 /\
  (forall r, In r rows2 -> length r = length names1).
Proof. exact (@time_features_stable). Qed.
Print Assumptions C11_stable_names.
Theorem C11_total :
  forall st n index, index <> [] -> (1 <= n)%nat ->
  exists names rows, snd (add_time_features st n index) = Some (names, rows).
Proof. exact (@time_features_total). Qed.
Print Assumptions C11_total.
Theorem C11_values :
  forall st n index names rows i t,
  snd (add_time_features st n index) = Some (names, rows) -> nth_error index i = Some t ->
  (forall u, In u index -> s_offset u = None <-> s_offset t = None) ->
  exists r, nth_error rows i = Some r /\
    cell_named names r hour_column = Some (s_hour t) /\
    cell_named names r weekday_column = Some (s_dow t) /\
    cell_named names r minute_column = Some (60 * s_hour t + s_minute t) /\
    cell_named names r offset_column =
      match fst (add_time_features st n index) with
      | Some true => Some (match s_offset t with Some z => z | None => 0 end)
      | _ => None
      end.
Proof. exact (@time_features_values). Qed.
Print Assumptions C11_values.
Example C11_values_case : exists r,
  nth_error [[5; 2; 315; 1]; [6; 2; 360; 2]] 1 = Some r /\ cell_named (base_time_names ++ [utc_name]) r minute_column = Some 360.
Proof.
  destruct (C11_values None 0 [Stamp 5 2 15 (Some 1); Stamp 6 2 0 (Some 2)] _ _ 1%nat (Stamp 6 2 0 (Some 2)) eq_refl eq_refl)
    as (r & A & _ & _ & B & _).
  - intros u [<-|[<-|[]]]; split; intro H; discriminate H.
  - exists r. split; [exact A|exact B].
Qed.
Example C11_case :
  exists names rows,
    snd (add_time_features (run_time [(1%nat, [Stamp 3 1 30 (Some 2)]); (0%nat, [])] None) 1 [Stamp 5 2 15 None]) = Some (names, rows) /\
    length names = 4%nat /\ rows = [[5; 2; 315; 0]].
Proof. eexists. eexists. split; [reflexivity|]. split; reflexivity. Qed.

(** C12 *)
Theorem C12_day_codes :
  forall days bridges long_weekends holidays,
  length (add_holidays days bridges long_weekends holidays) = length days /\
  forall i, (i < length days)%nat ->
    day_code (fun d => In d bridges) (fun d => In d long_weekends) (fun d => In d holidays)
             (nth i days 0) (nth i (add_holidays days bridges long_weekends holidays) 0).
Proof. exact (@holidays_codes). Qed.
Print Assumptions C12_day_codes.
Example C12_case : add_holidays [1; 2; 3; 4; 5] [2; 3] [3; 4] [4] = [0; 1; 2; 3; 0].
Proof. reflexivity. Qed.

(** C15 *)
Theorem C15_long_format :
  forall (V : Type),
  forall shared (x : frame V) gs,
  global_preprocess shared x = Some gs ->
  let private := filter (fun c => negb (if in_dec (list_eq_dec Ascii.ascii_dec) (fst c) shared then true else false)) (f_cols x) in
  map (@g_name V) gs = map fst private /\
  long_observations gs = observations (f_idx x) private /\
  (forall g, In g gs -> g_idx g = f_idx x /\ In (g_name g, g_target g) (f_cols x) /\ ~ In (g_name g) shared /\
     (forall c, In c (g_shared g) -> In c (f_cols x)) /\
     (NoDup (map fst (f_cols x)) -> map fst (g_shared g) = shared)).
Proof. exact (@global_form_faithful). Qed.
Print Assumptions C15_long_format.
Theorem C15_reorder_permutes :
  forall (V : Type),
  forall names order (row : text -> V), NoDup names -> Permutation order names ->
  map (reorder_row names order row) names = map row order /\
  Permutation (map (reorder_row names order row) names) (map row names) /\
  (forall c, ~ In c names -> reorder_row names order row c = row c).
Proof. exact (@reorder_permutes). Qed.
Print Assumptions C15_reorder_permutes.
Theorem C15_reorder_consistent_partial :
  forall (V : Type),
  forall names stored0 (signals : list (list (text * Z) * list (text -> V))) order,
  signals <> [] ->
  (forall sg, In sg signals -> corr_order (fst sg) = order) ->
  let r := reorder_training names stored0 signals in
  fst r = Some order /\
  snd r = map (fun sg => map (reorder_row names order) (snd sg)) signals /\
  (forall rows : list (text -> V), reorder_prediction names (fst r) rows = Some (map (reorder_row names order) rows)).
Proof. exact (@reorder_consistent). Qed.
Print Assumptions C15_reorder_consistent_partial.
Theorem C15_reorder_refuted :
  exists names (corr1 corr2 : list (text * Z)) (row : text -> Z),
    NoDup names /\ map fst corr1 = names /\ map fst corr2 = names /\
    let r := reorder_training names None [(corr1, [row]); (corr2, [])] in
    exists trained predicted, nth_error (snd r) 0 = Some [trained] /\
      reorder_prediction names (fst r) [row] = Some [predicted] /\
      exists c, In c names /\ trained c <> predicted c.
Proof. exact (@reorder_refuted). Qed.
Print Assumptions C15_reorder_refuted.
Example C15_case :
  exists gs, global_preprocess [["w"%char]]
      (Frame [0; 1] [(["p"%char], [Some 1; Some 2]); (["w"%char], [Some 8; Some 9]); (["q"%char], [Some 3; None])]) = Some gs /\
    long_observations gs = [(0, ["p"%char], Some 1); (1, ["p"%char], Some 2); (0, ["q"%char], Some 3); (1, ["q"%char], None)].
Proof. eexists. split; reflexivity. Qed.
Example C15_case_order :
  corr_order [(["a"%char], 1); (["b"%char], 5); (["c"%char], 3)] = [["b"%char]; ["c"%char]; ["a"%char]].
Proof. reflexivity. Qed.

(** C65 *)
Theorem C65_simulation_partial :
  forall (V : Type),
  forall (c : config V) s augment x s' fr ms,
  transform c s augment x = Some (s', fr, ms) ->
  exists s'', simulate c s (Some x) = Some (s'', ms) /\
    (c_dt c <> None -> simulate c s None = Some (s'', ms)) /\
    transform c s'' augment x = Some (s', fr, ms).
Proof. exact (@simulate_same). Qed.
Print Assumptions C65_simulation_partial.
Theorem C65_chained_refuted :
  exists (c1 c2 : config Z) s1 s2 (x : frame Z) r, 
    apply_transformers [(c1, s1); (c2, s2)] x = Some r /\
    simulate c1 s1 (Some x) <> None /\ simulate c2 s2 (Some x) = None.
Proof. exact (@simulate_chained_refuted). Qed.
Print Assumptions C65_chained_refuted.
Example C65_case :
  exists r, transform (Config [tx] [f_last; f_first] (Some [0; 2]) true None None) (State (AggInt 2) []) true x4 = Some r /\
    length (snd r) = 4%nat.
Proof. eexists. split; vm_compute; reflexivity. Qed.

(** C66 *)
Theorem C66_threads_partial :
  forall (V : Type),
  forall (trs : list (config V * state)) (x : frame V),
  (forall c s nm, In (c, s) trs -> In nm (c_names c) -> In nm (map fst (f_cols x))) ->
  apply_parallel trs x = apply_transformers trs x.
Proof. exact (@parallel_same). Qed.
Print Assumptions C66_threads_partial.
Theorem C66_chained_refuted :
  exists (trs : list (config Z * state)) (x : frame Z) r,
    apply_transformers trs x = Some r /\ apply_parallel trs x = None.
Proof. exact (@parallel_chained_refuted). Qed.
Print Assumptions C66_chained_refuted.
Example C66_case :
  exists r, apply_parallel [(Config [tx] [] (Some [1]) false None None, State AggNone []);
                            (Config [tx] [f_last] (Some [2]) false None None, State (AggInt 2) [])] x4 = Some r /\
    length (f_cols (snd (fst r))) = 3%nat.
Proof. eexists. split; vm_compute; reflexivity. Qed.

(** C67 *)
Theorem C67_time_limits :
  forall metas, concat metas <> [] ->
  exists a b, time_lims metas = (Some a, Some b) /\
    smallest a (map m_start (concat metas)) /\ largest b (map m_end (concat metas)).
Proof. exact (@time_lims_spec). Qed.
Print Assumptions C67_time_limits.
Example C67_case : time_lims [[ex_meta (-5) 1; ex_meta (-2) 3]; [Meta tx tx None (-9) (-3) ["y"%char]]] = (Some (-9), Some 3).
Proof. reflexivity. Qed.
