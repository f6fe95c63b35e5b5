(** Model of forecasting_models/gradientboosters.py, randomforests.py and LGBForecaster
    (forecaster.py:391-407): how fitted models are stored and used. The learners are parameters. *)
From Coq Require Import List Arith Bool.
From Verif Require Import Model.Quantiles.
Import ListNotations.

(** Learners: horizon of a data set, single-step model i, multi-step model (gradientboosters.py:85-90
    and 94-113, randomforests.py:93-99 and 119), and their predictions. [one_at m i x]
    prunes x for step i first; [multi_at g j x] is position j. *)
Record learners (D M G X V : Type) := Learners {
  horizon : D -> nat; fit_one : D -> nat -> M; fit_multi : D -> nat -> G; one_at : M -> nat -> X -> V; multi_at : G -> nat -> X -> V }.
Arguments horizon {D M G X V}. Arguments fit_one {D M G X V}. Arguments fit_multi {D M G X V}. Arguments one_at {D M G X V}. Arguments multi_at {D M G X V}.
(** Constructor arguments and attributes. Used by [hybrid_fit], gradientboosters.py:78-118. *)
Record hybrid (M G : Type) := Hybrid { n_single : nat; in_parallel : bool; models : list M; multi_model : option G; n_multi : option nat }.
Arguments Hybrid {M G}. Arguments n_single {M G}. Arguments in_parallel {M G}. Arguments models {M G}. Arguments multi_model {M G}. Arguments n_multi {M G}.
(** With [hybrid], gradientboosters.py:78-118. *)
Definition new_hybrid {M G} (n : nat) (parallel : bool) : hybrid M G := Hybrid n parallel [] None None.
(** gradientboosters.py:78-118, randomforests.py:101-124: with [parallel] the list of models is
    replaced, otherwise it is extended. [None]: a column beyond the horizon is requested. *)
Definition hybrid_fit {D M G X V} (L : learners D M G X V) (o : hybrid M G) (d : D) : option (hybrid M G) :=
  if horizon L d <? n_single o then None
  else let fitted := map (fit_one L d) (seq 0 (n_single o)) in
       let k := horizon L d - n_single o in
       Some (Hybrid (n_single o) (in_parallel o) (if in_parallel o then fitted else models o ++ fitted)
              (if 0 <? k then Some (fit_multi L d (n_single o)) else multi_model o) (Some k)).
(** gradientboosters.py:127-155, randomforests.py:126-153 (one row, point forecast). *)
Definition hybrid_predict {D M G X V} (L : learners D M G X V) (o : hybrid M G) (x : X) : option (list V) :=
  match all_some (map (fun i => option_map (fun m => one_at L m i x) (nth_error (models o) i)) (seq 0 (n_single o))), n_multi o with
  | Some singles, Some 0 => Some singles
  | Some singles, Some k => option_map (fun g => singles ++ map (fun j => multi_at L g j x) (seq 0 k)) (multi_model o)
  | _, None => None
  | None, _ => None
  end.
(** With [hybrid_predict], gradientboosters.py:127-155. *)
Fixpoint fit_all {O D} (fit : O -> D -> option O) (o : O) (ds : list D) : option O :=
  match ds with [] => Some o | d :: ds' => match fit o d with Some o' => fit_all fit o' ds' | None => None end end.

(** gradientboosters.py:95-110: rows of the multi-step training set: for the j-th remaining step,
    the sampled rows with the indicator j, paired with the target column n_single + j. *)
Definition multi_rows {X Y} (n_single k : nat) (idx : nat -> list nat) (x : nat -> X) (y : nat -> nat -> Y) : list ((X * nat) * Y) :=
  flat_map (fun j => map (fun r => ((x r, j), y r (n_single + j))) (idx j)) (seq 0 k).

(** forecaster.py:391-407: one model per column, always extended; [target_cols] has the horizon of
    the last fit, and a different number of models is a ValueError (already inside fit, which predicts). *)
Definition lgb_fit {D M G X V} (L : learners D M G X V) (ms : list M) (d : D) : option (list M) :=
  let ms' := ms ++ map (fit_one L d) (seq 0 (horizon L d)) in
  if length ms' =? horizon L d then Some ms' else None.
(** With [lgb_fit], forecaster.py:391-407. *)
Definition lgb_predict {D M G X V} (L : learners D M G X V) (ms : list M) (x : X) : list V :=
  map (fun im => one_at L (snd im) (fst im) x) (combine (seq 0 (length ms)) ms).

(** gradientboosters.py:176-199 (LGBEnergyAware.fit): [energy d before i] is model i trained with the
    unbalance predicted by [self.models[0..i-1]]; then the parent's fit on the validation part [d']. *)
Definition energy_fit {D M G X V} (L : learners D M G X V) (energy : D -> list M -> nat -> M) (o : hybrid M G) (d d' : D) : option (hybrid M G) :=
  let ms := fold_left (fun ms i => ms ++ [energy d (firstn i ms) i]) (seq 0 (n_single o)) (models o) in
  hybrid_fit L (Hybrid (n_single o) (in_parallel o) ms (multi_model o) (n_multi o)) d'.

(** ** Shapes in QRF.predict. A shape is a list of dimensions. *)
(** [np.squeeze], [np.atleast_2d], [np.dstack] of 3-d arrays. Used by [qrf_shape], randomforests.py:138-151. *)
Definition squeeze (s : list nat) : list nat := filter (fun d => negb (d =? 1)) s.
(** Used by [qrf_shape], randomforests.py:138-151. *)
Definition atleast_2d (s : list nat) : list nat := match s with [] => [1; 1] | [a] => [1; a] | _ => s end.
(** Used by [qrf_shape], randomforests.py:138-151. *)
Definition dstack (ss : list (list nat)) : option (list nat) :=
  match ss with
  | [a; b; c] :: rest =>
      if forallb (fun s => match s with [a'; b'; _] => (a =? a') && (b =? b') | _ => false end) rest
      then Some [a; b; fold_right Nat.add 0 (map (fun s => nth 2 s 0) ss)] else None
  | _ => None
  end.
(** A shape of at most two dimensions as [np.dstack] sees it. Used by [qrf_shape], randomforests.py:138-151. *)
Definition as_3d (s : list nat) : list nat := match s with [a; b] => [a; b; 1] | _ => s end.
(** Contract of quantile_forest (version the code targets): shape of a prediction of [rows] rows
    with [outs] outputs; [None] = mean, [Some q] = q >= 2 levels. Used by [single_shape], randomforests.py:155-163. *)
Definition forest_shape (rows outs : nat) (levels : option nat) : list nat :=
  rows :: (if outs =? 1 then [] else [outs]) ++ (match levels with Some q => [q] | None => [] end).
(** randomforests.py 155-163 and 165-173. *)
Definition single_shape (rows : nat) (levels : option nat) : list nat :=
  let s := forest_shape rows 1 levels in match s with [a] => [a; 1] | _ => s end.
(** Used by [qrf_shape], randomforests.py:138-151. *)
Definition multi_shape (rows k : nat) (levels : option nat) : list nat :=
  match forest_shape rows k levels with
  | [a] => [a; 1; 1]
  | [a; b] => [a; 1; b]
  | [a; b; c] => [a; c; b]
  | s => s
  end.
(** randomforests.py:138-151: shape of the frame; [None] = ValueError (stacking, or values and labels disagree). *)
Definition qrf_shape (rows n_single k : nat) (levels : option nat) : option (list nat) :=
  match dstack (repeat (as_3d (single_shape rows levels)) n_single ++ (if 0 <? k then [multi_shape rows k levels] else [])) with
  | None => None
  | Some s =>
      let frame := match levels with
                   | None => atleast_2d (squeeze s)
                   | Some q => match s with [a; b; c] => [a; c * b] | _ => s end
                   end in
      let columns := (n_single + k) * match levels with Some q => q | None => 1 end in
      if match frame with [a; b] => (a =? rows) && (b =? columns) | _ => false end then Some frame else None
  end.

(** randomforests.py 187-192: rows reshaped to (levels, -1), then axes swapped. *)
Definition qrf_to_numpy {T L A} (eqd : forall a b : L, {a = b} + {a <> b}) (f : qframe T L A) : option (list (list (list A))) :=
  let k := length (nodup eqd (map snd (qf_columns f))) in
  if (k =? 0) || (length (qf_rows f) =? 0) then None
  else all_some (map (fun r =>
         if negb (length r mod k =? 0) then None
         else let n := length r / k in
              all_some (map (fun t => all_some (map (fun q => nth_error r (q * n + t)) (seq 0 k))) (seq 0 n)))
       (qf_rows f)).
