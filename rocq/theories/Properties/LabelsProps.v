(** C188: the frame of quantiles names the targets like the point forecast. *)
From Coq Require Import Ascii NArith ZArith List Lia.
From Verif Require Import Model.Names Model.Labels Spec.LabelsSpec Proof.LabelsProof.
Import ListNotations.

(** C188. Linear, boosted and random-feature models, persistence benchmarks,
    Holt-Winters and the adaptive models: the quantile frame carries, in order,
    the labels of the point forecast, with all levels below each. *)
Theorem C188_same_labels_partial : forall {Q} (m : fitted) (levels : list Q),
  (exists y, m = Tabular y) \/ (exists n, m = Benchmark n) \/
  (exists t n, m = Smoothing t n) \/ (exists t n, m = Adaptive t n) ->
  exists columns, predict_quantiles m true levels = Frame columns /\
    belongs_to columns (predict_columns m) levels.
Proof. exact (@same_labels). Qed.
Print Assumptions C188_same_labels_partial.
(** The labels made of a target name and a step are distinct. *)
Theorem C188_distinct_partial : forall name n_sa,
  NoDup (counted_all name n_sa) /\ NoDup (ahead_all name n_sa).
Proof. exact (@labels_distinct). Qed.
Print Assumptions C188_distinct_partial.
(** HoltWintersMulti has no quantile frame at all. *)
Theorem C188_multi_smoothing_refuted : forall {Q} name n_sa (levels : list Q),
  predict_quantiles (SmoothingMulti name n_sa) true levels = Raises.
Proof. exact (@multi_smoothing_raises). Qed.
Print Assumptions C188_multi_smoothing_refuted.
(** FK_multi names the targets of the two frames differently, for every
    horizon and target. *)
Theorem C188_multi_adaptive_refuted : forall {Q} name n_sa (levels : list Q),
  exists columns, predict_quantiles (AdaptiveMulti name n_sa) true levels = Frame columns /\
    length columns = n_sa * length levels /\
    no_common_label columns (predict_columns (AdaptiveMulti name n_sa)).
Proof. exact (@multi_adaptive_labels). Qed.
Print Assumptions C188_multi_adaptive_refuted.
(** So do the statsmodels wrappers. *)
Theorem C188_wrapped_refuted : forall {Q} name n_sa (levels : list Q),
  exists columns, predict_quantiles (Wrapped name n_sa) true levels = Frame columns /\
    length columns = n_sa * length levels /\
    no_common_label columns (predict_columns (Wrapped name n_sa)).
Proof. exact (@wrapped_labels). Qed.
Print Assumptions C188_wrapped_refuted.
(** Networks and DiscreteDistr return no frame, whatever is asked. *)
Theorem C188_networks_refuted : forall {Q} (m : fitted) dataframe (levels : list Q),
  (exists y, m = Network y) \/ (exists names, m = Distribution names) ->
  forall columns, predict_quantiles m dataframe levels <> Frame columns.
Proof. exact (@no_quantile_frame). Qed.
Print Assumptions C188_networks_refuted.
Example C188_case :
  predict_quantiles (Adaptive ["p"%char] 2) true [1; 9] =
    Frame [(Col ["p"; "_"; "t"; "+"; "1"]%char, 1); (Col ["p"; "_"; "t"; "+"; "1"]%char, 9);
           (Col ["p"; "_"; "t"; "+"; "2"]%char, 1); (Col ["p"; "_"; "t"; "+"; "2"]%char, 9)] /\
  predict_columns (Adaptive ["p"%char] 2) = [Col ["p"; "_"; "t"; "+"; "1"]%char; Col ["p"; "_"; "t"; "+"; "2"]%char] /\
  predict_quantiles (AdaptiveMulti ["p"%char] 1) true [5] = Frame [(Col ["p"; "_"; "0"]%char, 5)] /\
  predict_quantiles (Tabular [Pos 3; Col ["y"%char]]) true [5] = Frame [(Pos 3, 5); (Col ["y"%char], 5)] /\
  predict_quantiles (Benchmark 2) true [5] = Frame [(Pos 0, 5); (Pos 1, 5)] /\
  predict_quantiles (Smoothing ["p"%char] 1) true [5] = Frame [(Col ["p"; "_"; "0"]%char, 5)] /\
  predict_quantiles (Smoothing ["p"%char] 1) false [5] = Array.
Proof. repeat split; reflexivity. Qed.
