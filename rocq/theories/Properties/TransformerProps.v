(** Properties C01-C04: features made by transformers. *)
From Coq Require Import List ZArith Ascii Permutation Lia.
From Verif Require Import Model.Names Model.Series Model.Transformer Spec.TransformerSpec Spec.TransformerInput
  Proof.TransformerProof4.
Import ListNotations.
Local Open Scope Z_scope.

(** C01 (and the metadata half, C03), no bins. Every requested (source, lag,
    function) gets one column, whose row i is the function of the [a] samples
    i-l-a+1 .. i-l of the source (missing unless all are observed), and one
    metadata row with that column's name, function, lag and time window. *)
Theorem C01_feature_values :
  forall (V : Type),
  forall names (fs : list (aggfun V)) agg_freq lags rel dt0 c s (x : frame V) sig t0 dt a augment,
  init_transformer names fs agg_freq lags rel None dt0 = Some (c, s) ->
  fs <> [] -> regular t0 dt (f_idx x) -> knows_dt dt0 dt (length (f_idx x)) ->
  has_signals x names sig -> denotes_steps agg_freq dt a -> 1 <= a ->
  let entries := requested names (requested_lags lags rel a) [(a, 0)] fs in
  let label := entry_label (agg_text (resolve_agg agg_freq dt)) in
  exists s',
    transform c s augment x =
    Some (s',
      Frame (f_idx x) ((if augment then f_cols x else []) ++ map (fun e => (label e, entry_values sig e)) entries),
      map (fun e => Meta (label e) (fn_name (e_fun e)) (e_lag e) (entry_start dt e) (entry_end dt e) (e_src e)) entries).
Proof. exact (@simple_features). Qed.
Print Assumptions C01_feature_values.
(** C01, nested bins: row i is the function of samples i-l-from+1 .. i-l-to. *)
Theorem C01_bin_feature_values :
  forall (V : Type),
  forall names (fs : list (aggfun V)) agg_freq lags rel bins edges dt0 c s (x : frame V) sig t0 dt augment,
  init_transformer names fs agg_freq lags rel (Some bins) dt0 = Some (c, s) ->
  Permutation edges bins -> decreasing edges -> (forall b, In b bins -> 0 <= b) ->
  (forall ls l, lags = Some ls -> In l ls -> 0 <= l) ->
  fs <> [] -> regular t0 dt (f_idx x) -> knows_dt dt0 dt (length (f_idx x)) -> (2 <= length (f_idx x))%nat ->
  has_signals x names sig ->
  let entries := requested names (requested_lags lags rel (total_span edges)) (bin_pairs edges) fs in
  exists s' metas,
    transform c s augment x =
    Some (s',
      Frame (f_idx x) ((if augment then f_cols x else []) ++ map (fun e => (bin_label e, entry_values sig e)) entries),
      metas) /\
    map m_index metas = map bin_label entries /\ map m_name metas = map e_src entries.
Proof. exact (@bins_features). Qed.
Print Assumptions C01_bin_feature_values.
(** C01, causality, for every index (regular or not): if two frames coincide in
    the first [m] rows and every lag is at least [q] rows, the features coincide
    in the first [m + q] rows. *)
Theorem C01_causality :
  forall (V : Type),
  forall (c : config V) s idx cols1 cols2 m q dt,
  sampling_time (c_dt c) idx = Some dt ->
  (c_lags c = None -> q = O) ->
  (forall ls l, c_lags c = Some ls -> In l ls ->
     Z.of_nat q <= match c_rel c, c_bins c with
                   | false, _ => l
                   | true, None => l * (agg_ns (resolve_agg (st_agg s) dt) ÷ dt)
                   | true, Some edges => l * total_span edges
                   end) ->
  (forall edges b, c_bins c = Some edges -> In b edges -> 0 <= b) ->
  same_past m cols1 cols2 ->
  match transform c s false (Frame idx cols1), transform c s false (Frame idx cols2) with
  | Some (s1, y1, ms1), Some (s2, y2, ms2) =>
      s1 = s2 /\ ms1 = ms2 /\ same_past (m + q) (f_cols y1) (f_cols y2)
  | None, None => True
  | _, _ => False
  end.
Proof. exact (@causality). Qed.
Print Assumptions C01_causality.
Example C01_example :
  exists c s s' metas,
    init_transformer [tx] [f_first] (AggInt 2) (Some [1]) false None None = Some (c, s) /\
    regular 0 1 (f_idx x4) /\ knows_dt None 1 (length (f_idx x4)) /\ has_signals x4 [tx] sig4 /\
    transform c s false x4 =
      Some (s', Frame (f_idx x4) [(lag_name (tx ++ ["_"; "_"; "F"]%char) 1,
                                   [None; None; Some 10; Some 11; Some 12])], metas).
Proof.
  do 4 eexists. split; [reflexivity|]. split; [exact x4_regular|].
  split; [right; cbn; split; [reflexivity|lia]|]. split; [exact x4_signals|]. vm_compute. reflexivity.
Qed.

(** C02: the declared window of a column contains every sample the column reads,
    and every sample in the window is needed. *)
Theorem C02_declared_windows :
  forall (V : Type),
  forall names (fs : list (aggfun V)) agg_freq lags rel dt0 c s (x1 x2 : frame V) sig1 sig2 t0 dt a,
  init_transformer names fs agg_freq lags rel None dt0 = Some (c, s) ->
  fs <> [] -> regular t0 dt (f_idx x1) -> f_idx x2 = f_idx x1 -> knows_dt dt0 dt (length (f_idx x1)) ->
  has_signals x1 names sig1 -> has_signals x2 names sig2 -> denotes_steps agg_freq dt a -> 1 <= a ->
  exists s1 s2 cols1 cols2 metas,
    transform c s false x1 = Some (s1, Frame (f_idx x1) cols1, metas) /\
    transform c s false x2 = Some (s2, Frame (f_idx x1) cols2, metas) /\
    length metas = length cols1 /\ length metas = length cols2 /\
    forall k m c1 c2, nth_error metas k = Some m -> nth_error cols1 k = Some c1 -> nth_error cols2 k = Some c2 ->
      m_index m = fst c1 /\ m_index m = fst c2 /\
      reads_only (f_idx x1) (m_start m) (m_end m) (sig1 (m_name m)) (sig2 (m_name m)) (snd c1) (snd c2) /\
      needs_all t0 dt (m_start m) (m_end m) (sig1 (m_name m)) (snd c1).
Proof. exact (@simple_windows). Qed.
Print Assumptions C02_declared_windows.
Theorem C02_declared_windows_bins :
  forall (V : Type),
  forall names (fs : list (aggfun V)) agg_freq lags rel bins edges dt0 c s (x1 x2 : frame V) sig1 sig2 t0 dt,
  init_transformer names fs agg_freq lags rel (Some bins) dt0 = Some (c, s) ->
  Permutation edges bins -> decreasing edges -> (forall b, In b bins -> 0 <= b) ->
  (forall ls l, lags = Some ls -> In l ls -> 0 <= l) ->
  fs <> [] -> regular t0 dt (f_idx x1) -> f_idx x2 = f_idx x1 -> knows_dt dt0 dt (length (f_idx x1)) ->
  (2 <= length (f_idx x1))%nat ->
  has_signals x1 names sig1 -> has_signals x2 names sig2 ->
  length (requested_lags lags rel (total_span edges)) = 1%nat ->
  exists s1 s2 cols1 cols2 metas,
    transform c s false x1 = Some (s1, Frame (f_idx x1) cols1, metas) /\
    transform c s false x2 = Some (s2, Frame (f_idx x1) cols2, metas) /\
    length metas = length cols1 /\ length metas = length cols2 /\
    forall k m c1 c2, nth_error metas k = Some m -> nth_error cols1 k = Some c1 -> nth_error cols2 k = Some c2 ->
      m_index m = fst c1 /\ m_index m = fst c2 /\
      reads_only (f_idx x1) (m_start m) (m_end m) (sig1 (m_name m)) (sig2 (m_name m)) (snd c1) (snd c2) /\
      needs_all t0 dt (m_start m) (m_end m) (sig1 (m_name m)) (snd c1).
Proof. exact (@bins_windows). Qed.
Print Assumptions C02_declared_windows_bins.
(** C02 fails when the aggregation length is a duration that is not a multiple of
    the sampling time: the column reads a sample before its declared start. *)
Theorem C02_declared_windows_refuted :
  exists names fs agg_freq lags rel c s (x1 x2 : frame Z) t0 dt s1 s2 cols1 cols2 metas m c1 c2,
    init_transformer names fs agg_freq lags rel None None = Some (c, s) /\
    regular t0 dt (f_idx x1) /\ f_idx x2 = f_idx x1 /\
    transform c s false x1 = Some (s1, Frame (f_idx x1) cols1, metas) /\
    transform c s false x2 = Some (s2, Frame (f_idx x1) cols2, metas) /\
    nth_error metas 0 = Some m /\ nth_error cols1 0 = Some c1 /\ nth_error cols2 0 = Some c2 /\
    exists d1 d2, get_col (f_cols x1) (m_name m) = Some d1 /\ get_col (f_cols x2) (m_name m) = Some d2 /\
      ~ reads_only (f_idx x1) (m_start m) (m_end m) d1 d2 (snd c1) (snd c2).
Proof. exact (@windows_refuted). Qed.
Print Assumptions C02_declared_windows_refuted.
(** C03: with bins, the metadata rows describe the columns next to them whenever
    at least two of (lags, functions, bins) are singletons... *)
Theorem C03_bin_metadata_partial :
  forall (V : Type),
  forall names (fs : list (aggfun V)) agg_freq lags rel bins edges dt0 c s (x : frame V) sig t0 dt augment,
  init_transformer names fs agg_freq lags rel (Some bins) dt0 = Some (c, s) ->
  Permutation edges bins -> decreasing edges -> (forall b, In b bins -> 0 <= b) ->
  (forall ls l, lags = Some ls -> In l ls -> 0 <= l) ->
  fs <> [] -> regular t0 dt (f_idx x) -> knows_dt dt0 dt (length (f_idx x)) -> (2 <= length (f_idx x))%nat ->
  has_signals x names sig ->
  two_singletons (length (requested_lags lags rel (total_span edges))) (length fs) (length (bin_pairs edges)) ->
  let entries := requested names (requested_lags lags rel (total_span edges)) (bin_pairs edges) fs in
  exists s',
    transform c s augment x =
    Some (s',
      Frame (f_idx x) ((if augment then f_cols x else []) ++ map (fun e => (bin_label e, entry_values sig e)) entries),
      map (fun e => Meta (bin_label e) (fn_name (e_fun e)) (Some (e_rows e)) (entry_start dt e) (entry_end dt e) (e_src e)) entries).
Proof. exact (@bins_metadata). Qed.
Print Assumptions C03_bin_metadata_partial.
(** ...and otherwise they do not. *)
Theorem C03_bin_metadata_refuted :
  mislabelled [f_last; f_first] None [2; 1; 0] /\
  mislabelled [f_last] (Some [1; 2]) [2; 1; 0] /\
  mislabelled [f_last; f_first] (Some [1; 2]) [2; 0].
Proof. exact (@bins_metadata_refuted). Qed.
Print Assumptions C03_bin_metadata_refuted.
Example C03_example :
  exists c s, init_transformer [tx] [f_first] AggNone (Some [1]) false (Some [0; 1; 3]) None = Some (c, s) /\
    Permutation [3; 1; 0] [0; 1; 3] /\ decreasing [3; 1; 0] /\
    two_singletons (length (requested_lags (Some [1]) false (total_span [3; 1; 0]))) (length [f_first])
                   (length (bin_pairs [3; 1; 0])).
Proof.
  do 2 eexists. split; [reflexivity|]. split; [|split].
  - apply Permutation_sym, (Permutation_rev [0; 1; 3]).
  - unfold decreasing. repeat (constructor; try lia).
  - cbn. left. split; reflexivity.
Qed.

(** C04: after any history of frames with one sampling time, a transformer gives
    the same features and metadata as a fresh one... *)
Theorem C04_same_sampling_history_partial :
  forall (V : Type),
  forall (c : config V) s history s' x dt dt' augment,
  reached c s history s' ->
  (forall y, In y (x :: history) -> sampling_time (c_dt c) (f_idx y) = Some dt /\ median (diffs (f_idx y)) = Some dt') ->
  match transform c s augment x, transform c s' augment x with
  | Some (_, y1, ms1), Some (_, y2, ms2) => y1 = y2 /\ ms1 = ms2
  | None, None => True
  | _, _ => False
  end.
Proof. exact (@same_sampling_history). Qed.
Print Assumptions C04_same_sampling_history_partial.
(** ...but a history with another sampling time changes them. *)
Theorem C04_history_refuted :
  exists (c : config Z) s (x y : frame Z) s1 fry msy s2 fr1 ms1 s3 fr2 ms2,
    init_transformer [tx] [f_first] (AggInt 2) None false None None = Some (c, s) /\
    regular 0 1 (f_idx y) /\ regular 0 2 (f_idx x) /\
    transform c s false y = Some (s1, fry, msy) /\
    transform c s false x = Some (s2, fr1, ms1) /\
    transform c s1 false x = Some (s3, fr2, ms2) /\
    map snd (f_cols fr1) <> map snd (f_cols fr2) /\
    map m_start ms1 <> map m_start ms2.
Proof. exact (@history_refuted). Qed.
Print Assumptions C04_history_refuted.
Example C04_example :
  exists (c : config Z) s s',
    init_transformer [tx] [f_first] (AggInt 2) None false None None = Some (c, s) /\
    reached c s [x4; x4] s' /\ s' <> s /\
    sampling_time (c_dt c) (f_idx x4) = Some 1 /\ median (diffs (f_idx x4)) = Some 1.
Proof.
  do 3 eexists. split; [reflexivity|]. split.
  - apply (reached_cons _ _ x4 [x4] false (State (AggTime 2) []) _ (Frame (f_idx x4) [(tx ++ ["_"; "_"; "F"]%char, [None; Some 10; Some 11; Some 12; Some 13])])
            [Meta (tx ++ ["_"; "_"; "F"]%char) ["F"%char] None (-1) 1 tx]); [vm_compute; reflexivity|].
    apply (reached_cons _ _ x4 [] false (State (AggTime 2) []) _ (Frame (f_idx x4) [(tx ++ ["_"; "_"; "F"]%char, [None; Some 10; Some 11; Some 12; Some 13])])
            [Meta (tx ++ ["_"; "_"; "F"]%char) ["F"%char] None (-1) 1 tx]); [vm_compute; reflexivity|].
    constructor.
  - split; [discriminate|]. split; reflexivity.
Qed.
