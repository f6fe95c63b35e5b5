(** Model of stat_utils.bootstrap (stat_utils.py:12-59) without the plots. The draws of labels
    are an argument. Exact arithmetic. *)
From Coq Require Import List Bool Arith Reals.
Import ListNotations.
Local Open Scope R_scope.

(** [series.loc[s]] for a list of labels: all the rows with the first label, then those with the
    second, .. (stat_utils.py:34-35). *)
Definition loc {L V} (eqb : L -> L -> bool) (series : list (L * V)) (s : list L) : list V :=
  flat_map (fun l => map snd (filter (fun r => eqb l (fst r)) series)) s.

(** stat_utils.py:24: [np.arange(100, n_sampling, 500)]. *)
Definition sample_at (n_sampling : nat) : list nat :=
  filter (fun k => (k <? n_sampling)%nat) (map (fun k => 100 + 500 * k)%nat (seq 0 n_sampling)).

(** [np.mean], [np.std]. Used by [std], stat_utils.py:32-42. *)
Definition mean (l : list R) : R := fold_right Rplus 0 l / INR (length l).
(** Used by [summary], stat_utils.py:32-42. *)
Definition std (l : list R) : R := sqrt (mean (map (fun v => (v - mean l) * (v - mean l)) l)).

(** stat_utils.py:32-42: the summary, a row per entry of [sample_at]. *)
Definition summary {L V} (eqb : L -> L -> bool) (series : list (L * V)) (stat : list V -> R) (samples : list (list L)) : list (R * R) :=
  map (fun n_s => let stats := map (fun s => stat (loc eqb series s)) (firstn n_s samples) in (mean stats, std stats))
      (sample_at (length samples)).
(** stat_utils.py:59: its last row; [None] = an exception (no row at all). [samples] has [n_sampling] rows (22). *)
Definition bootstrap {L V} (eqb : L -> L -> bool) (series : list (L * V)) (stat : list V -> R) (samples : list (list L)) : option (R * R) :=
  match rev (summary eqb series stat samples) with [] => None | r :: _ => Some r end.
