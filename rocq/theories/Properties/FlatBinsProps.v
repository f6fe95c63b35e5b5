(** Features of a transformer with [nested=False], and the renaming of features: C148 - C150. *)
From Coq Require Import String Ascii List ZArith Bool Lia Sorted.
From Verif Require Import Model.Names Model.Series Model.Transformer Model.FlatBins Model.Rename.
From Verif Require Import Spec.TransformerSpec Spec.TransformerInput Spec.FlatBinsSpec Spec.RenameSpec.
From Verif Require Import Proof.FlatBinsProof Proof.FlatBinsProof2 Proof.RenameProof.
Import ListNotations.
Local Open Scope list_scope.
Local Open Scope Z_scope.

(** C148: on complete data a column holds the requested values in the computed rows, and
    nothing elsewhere... *)
Theorem C148_values_partial :
  forall (V : Type), forall lags rel edges (fs : list (aggfun V)) name (d : series V),
  decreasing edges -> (2 <= length edges)%nat -> total_span edges <= Z.of_nat (length d) -> no_gap d ->
  let entries := flat_requested name (requested_lags lags rel (total_span edges)) (bin_pairs edges) fs in
  exists cols, flat_columns lags rel edges fs name d = Some cols /\
    map fst cols = map bin_label entries /\
    forall k e c, nth_error entries k = Some e -> nth_error cols k = Some c ->
      length (snd c) = length d /\
      forall i, (i < length d)%nat ->
        (computed (Z.of_nat (length d)) edges e (Z.of_nat i) ->
           nth i (snd c) None = nth i (entry_values (fun _ => d) e) None) /\
        (~ computed (Z.of_nat (length d)) edges e (Z.of_nat i) -> nth i (snd c) None = None).
Proof. exact (@flat_values). Qed.
Print Assumptions C148_values_partial.
(** ...but the most recent rows are never computed, whatever the data... *)
Theorem C148_recent_refuted :
  forall (V : Type), forall lags rel edges (fs : list (aggfun V)) name (d : series V) cols,
  decreasing edges -> (2 <= length edges)%nat ->
  flat_columns lags rel edges fs name d = Some cols ->
  let entries := flat_requested name (requested_lags lags rel (total_span edges)) (bin_pairs edges) fs in
  forall k e c i, nth_error entries k = Some e -> nth_error cols k = Some c ->
    (i < length d)%nat -> Z.of_nat (length d) < Z.of_nat i + total_span edges ->
    nth i (snd c) None = None /\
    (no_gap d -> total_fun (fn (e_fun e)) -> 0 <= e_rows e + e_to e -> e_rows e + e_from e <= Z.of_nat i + 1 ->
     nth i (entry_values (fun _ => d) e) None <> None).
Proof. exact (@flat_recent). Qed.
Print Assumptions C148_recent_refuted.
(** ...and after a missing observation the values are those of a window that lies
    [total_span edges] rows too early. *)
Theorem C148_gap_refuted :
  forall (V : Type), forall rel edges (fs : list (aggfun V)) name (d : series V) g cols,
  decreasing edges -> (2 <= length edges)%nat -> gap_at g d ->
  total_span edges <= Z.of_nat g -> Z.of_nat g + total_span edges < Z.of_nat (length d) ->
  flat_columns None rel edges fs name d = Some cols ->
  let entries := flat_requested name (requested_lags None rel (total_span edges)) (bin_pairs edges) fs in
  forall k e c i, nth_error entries k = Some e -> nth_error cols k = Some c ->
    Z.of_nat g < Z.of_nat i -> Z.of_nat i + total_span edges <= Z.of_nat (length d) ->
    Z.of_nat i < Z.of_nat g + hd 0 edges ->
    total_span edges + hd 0 edges <= Z.of_nat i + 1 ->
    nth i (snd c) None =
    nth i (feature_column (fn (e_fun e)) d (e_to e + total_span edges) (e_from e - e_to e)) None.
Proof. exact (@flat_gap). Qed.
Print Assumptions C148_gap_refuted.
Example C148_example :
  decreasing [2; 0] /\ no_gap [Some 1; Some 2; Some 3; Some 4] /\ total_fun last_seen /\
  flat_columns None false [2; 0] [f_last] tx [Some 1; Some 2; Some 3; Some 4] =
    Some [(list_ascii_of_string "x_L_2_0", [None; Some 2; Some 3; None])] /\
  gap_at 3 [Some 1; Some 2; Some 3; None; Some 5; Some 6; Some 7] /\
  flat_columns None false [2; 0] [f_last] tx [Some 1; Some 2; Some 3; None; Some 5; Some 6; Some 7] =
    Some [(list_ascii_of_string "x_L_2_0", [None; Some 2; None; None; Some 3; Some 6; None])].
Proof.
  split; [|split; [|split; [|split; [|split]]]].
  - unfold decreasing. repeat (constructor; try lia).
  - intros i I. do 4 (destruct i as [|i]; [discriminate|]). cbn in I. lia.
  - intros w N W E. unfold last_seen in E. rewrite forallb_forall in W.
    assert (In (last w None) w) as I.
    { destruct (exists_last N) as (q & z & ->). rewrite last_last. apply in_or_app. right. left. reflexivity. }
    apply W in I. rewrite E in I. discriminate.
  - reflexivity.
  - split; [cbn; lia|]. intros i I. do 7 (destruct i as [|i]; [cbn; split; [intros; (discriminate || lia)|intros; (discriminate || lia || reflexivity)]|]). cbn in I. lia.
  - reflexivity.
Qed.

(** C149 *)
Theorem C149_one_lag_partial :
  forall (V : Type), forall lags rel edges dt (fs : list (aggfun V)) name (d : series V) cols,
  flat_columns lags rel edges fs name d = Some cols ->
  let entries := flat_requested name (requested_lags lags rel (total_span edges)) (bin_pairs edges) fs in
  length (requested_lags lags rel (total_span edges)) = 1%nat ->
  flat_meta lags rel edges dt fs name (map fst cols) =
  map (fun e => Meta (bin_label e) (fn_name (e_fun e)) (Some (e_rows e)) (entry_start dt e) (entry_end dt e) (e_src e)) entries.
Proof. exact (@flat_meta_one). Qed.
Print Assumptions C149_one_lag_partial.
Theorem C149_lags_refuted :
  forall (V : Type), forall a b l1 l2 dt (f1 f2 : aggfun V) fs name (d : series V) cols,
  l1 <> l2 -> 0 < dt ->
  flat_columns (Some [l1; l2]) false [a; b] (f1 :: f2 :: fs) name d = Some cols ->
  exists m e,
    nth_error (flat_meta (Some [l1; l2]) false [a; b] dt (f1 :: f2 :: fs) name (map fst cols)) 1 = Some m /\
    nth_error (flat_requested name (requested_lags (Some [l1; l2]) false (total_span [a; b])) (bin_pairs [a; b]) (f1 :: f2 :: fs)) 1 = Some e /\
    m_index m = bin_label e /\
    m_function m = fn_name f1 /\ e_fun e = f2 /\
    m_lag m = Some l2 /\ e_rows e = l1 /\
    m_start m <> entry_start dt e /\ m_end m <> entry_end dt e.
Proof. exact (@flat_meta_wrong). Qed.
Print Assumptions C149_lags_refuted.
Example C149_example :
  map m_start (flat_meta (Some [1]) false [3; 1; 0] 10 [f_first; f_last] tx (map (fun _ => tx) [1; 2; 3; 4])) = [-30; -10; -30; -10].
Proof. reflexivity. Qed.

(** C150 *)
Theorem C150_bypassed_partial : forall features targets x sa names,
  rename_features features targets x sa = Some names ->
  length names = length x /\
  forall k c, nth_error x k = Some c -> ~ In c (t_index features) -> nth_error names k = Some c.
Proof. exact (@rename_keeps). Qed.
Print Assumptions C150_bypassed_partial.
Theorem C150_renamed_partial : forall features targets x sa names,
  NoDup (t_index features) -> rename_features features targets x sa = Some names ->
  exists prediction, refers_to targets sa prediction /\
  forall k i c time, nth_error x k = Some c -> nth_error (t_index features) i = Some c -> nth_error (t_cell features referring_time) i = Some time ->
  exists stem, before_first_lag c stem /\ nth_error names k = Some (stem ++ hr_timedelta true ((time - prediction) / 1000000000))%list.
Proof. exact (@rename_new). Qed.
Print Assumptions C150_renamed_partial.
Theorem C150_fails_refuted : forall features targets x sa,
  built_by_transformers features -> built_by_transformers targets ->
  rename_features features targets x sa = None.
Proof. exact (@rename_fails). Qed.
Print Assumptions C150_fails_refuted.
Example C150_example :
  let t := Table (referring_time :: metadata_columns) [list_ascii_of_string "x_lag_001"] (fun _ => [- 1 * 1000000000]) in
  let y := Table (referring_time :: metadata_columns) [list_ascii_of_string "y_lag_-001"]
                 (fun c => if text_eqb c lag_column then [-1] else [3600 * 1000000000]) in
  rename_features t y [list_ascii_of_string "x_lag_001"; list_ascii_of_string "z"] 1 =
    Some [list_ascii_of_string "x-00d01h00m01s"; list_ascii_of_string "z"] /\
  built_by_transformers (Table metadata_columns [] (fun _ => [])).
Proof. split; reflexivity. Qed.
