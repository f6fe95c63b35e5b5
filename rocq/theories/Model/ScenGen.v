(** Model of scenario generation (scenarios_generator.py, copula.py:73-101,
    scenred.py:384-418, forecaster.py:272-280). Exact arithmetic; random draws and the
    normal distribution function are arguments. *)
From Coq Require Import List ZArith Bool Arith Reals.
From Verif Require Import Model.Series Model.Subsample Model.Stats Model.Quantiles Model.Metrics.
Import ListNotations.
Local Open Scope R_scope.

(** [scipy.interpolate.interp1d(q_vect, quantiles, fill_value='extrapolate')] (linear,
    [assume_sorted=False]): points are sorted by level (stable), the cell is found by
    [searchsorted(x, x_new)] clipped to [1, n-1]. [None]: fewer than two levels.
    Used by [sort_points], scenarios_generator.py:194-213. *)
Fixpoint insert_point (p : R * R) (l : list (R * R)) : list (R * R) :=
  match l with
  | [] => [p]
  | a :: l' => if Rle_dec (fst p) (fst a) then p :: a :: l' else a :: insert_point p l'
  end.
(** Used by [interp1d], scenarios_generator.py:194-213. *)
Definition sort_points (l : list (R * R)) : list (R * R) := fold_right insert_point [] l.
(** Used by [interp1d], scenarios_generator.py:194-213. *)
Definition cell_index (xs : list R) (x : R) : nat :=
  Nat.max 1 (Nat.min (count (fun a => Rltb a x) xs) (length xs - 1)).
(** Used by [interp1d], scenarios_generator.py:194-213. *)
Definition line (a b : R * R) (x : R) : R :=
  (snd b - snd a) / (fst b - fst a) * (x - fst a) + snd a.
(** Used by [interp_scens], scenarios_generator.py:194-213. *)
Definition interp1d (levels values : list R) (x : R) : option R :=
  let pts := sort_points (combine levels values) in
  if (length pts <? 2)%nat then None
  else
    let hi := cell_index (map fst pts) x in
    Some (line (nth (hi - 1) pts (0, 0)) (nth hi pts (0, 0)) x).

(** scenarios_generator.py:194-213: one interpolator per step. *)
Definition interp_scens (q_vect : list R) (quantiles : list (list R)) (samples : list (list R)) : option (list (list R)) :=
  all_some (map2 (fun q u => all_some (map (interp1d q_vect q) u)) quantiles samples).

(** n-dimensional arrays: a shape and cells addressed by index lists. Used by [squeeze], copula.py:91-100. *)
Record ndarray A := ND { nd_shape : list nat; nd_at : list nat -> A }.
Arguments ND {A}. Arguments nd_shape {A}. Arguments nd_at {A}.
(** [numpy.squeeze]: drop the dimensions of size one. Used by [squeeze], copula.py:91-100. *)
Definition squeeze_shape (s : list nat) : list nat := filter (fun d => negb (d =? 1)%nat) s.
(** Used by [squeeze], copula.py:91-100. *)
Fixpoint unsqueeze_index (s idx : list nat) : list nat :=
  match s with
  | [] => []
  | d :: s' => if (d =? 1)%nat then 0%nat :: unsqueeze_index s' idx
               else match idx with i :: idx' => i :: unsqueeze_index s' idx' | [] => [] end
  end.
(** Used by [copula_hour], copula.py:91-100. *)
Definition squeeze {A} (a : ndarray A) : ndarray A :=
  ND (squeeze_shape (nd_shape a)) (fun idx => nd_at a (unsqueeze_index (nd_shape a) idx)).
(** Used by [copula_hour], copula.py:91-100. *)
Definition expand_first {A} (a : ndarray A) : ndarray A := ND (1%nat :: nd_shape a) (fun idx => nd_at a (tl idx)).
(** Used by [copula_hour], copula.py:91-100. *)
Definition expand_last {A} (a : ndarray A) : ndarray A := ND (nd_shape a ++ [1%nat]) (fun idx => nd_at a (removelast idx)).
(** [np.swapaxes(a, 1, 2)]; [None] = AxisError. Used by [copula_hour], copula.py:91-100. *)
Definition swapaxes12 {A} (a : ndarray A) : option (ndarray A) :=
  match nd_shape a with
  | d0 :: d1 :: d2 :: rest =>
      Some (ND (d0 :: d2 :: d1 :: rest) (fun idx => match idx with i :: j :: k :: r => nd_at a (i :: k :: j :: r) | _ => nd_at a idx end))
  | _ => None
  end.
(** Assigning a 3-dimensional array to a slice of a given 3-dimensional shape: equal
    dimensions or size one (broadcast). Used by [copula_hour], copula.py:91-100. *)
Definition broadcasts (s target : list nat) : bool :=
  (length s =? length target)%nat && forallb (fun p => (fst p =? snd p)%nat || (fst p =? 1)%nat) (combine s target).
(** Used by [copula_hour], copula.py:91-100. *)
Definition broadcast_index (s idx : list nat) : list nat := map2 (fun d i => if (d =? 1)%nat then 0%nat else i) s idx.

(** copula.py:91-100: samples of one hour with [n_h] rows. [draws] is what the
    generator returns, shape (n_h, n_scen, dim); scipy squeezes it. *)
Definition copula_hour (cdf : R -> R) (dim n_scen n_h : nat) (draws : list nat -> R) : option (ndarray R) :=
  let a := squeeze (ND [n_h; n_scen; dim] draws) in
  let a := if (n_h =? 1)%nat then expand_first a else a in
  let a := if (length (nd_shape a) =? 2)%nat then expand_last a else a in
  match swapaxes12 a with
  | None => None
  | Some b =>
      let target := [n_h; dim; n_scen] in
      if broadcasts (nd_shape b) target
      then Some (ND target (fun idx => cdf (nd_at b (broadcast_index (nd_shape b) idx)))) else None
  end.

(** copula.py:73-101. Rows of the same hour are numbered among themselves; [draws h]
    are the normal draws for hour [h]. Result: row, step, scenario. [None]: an hour that
    was not seen at fit time, or a shape mismatch. *)
Definition rank_in_hour (hours : list Z) (i : nat) : nat :=
  length (filter (Z.eqb (nth i hours 0%Z)) (firstn i hours)).
(** copula.py:73-101. *)
Definition copula_sample (cdf : R -> R) (fitted : list Z) (dim n_scen : nat) (hours : list Z)
    (draws : Z -> list nat -> R) : option (array3) :=
  match all_some (map (fun h => if existsb (Z.eqb h) fitted
                                then option_map (pair h) (copula_hour cdf dim n_scen (count_hour hours h) (draws h)) else None)
                      (unique_hours hours)) with
  | None => None
  | Some blocks =>
      Some (Array3 (length hours) dim n_scen (fun i j s =>
        match find (fun b => Z.eqb (fst b) (nth i hours 0%Z)) blocks with
        | Some b => nd_at (snd b) [rank_in_hour hours i; j; s]
        | None => 0
        end))
  end.

(** Noise added by sample_scenarios: [u] uniform in [0,1) for the first node, [z] normal.
    Used by [sample_scenarios], scenarios_generator.py:154-178. *)
Record noise := Noise { n_uniform : nat -> nat -> R; n_normal : nat -> nat -> nat -> R }.

(** scenarios_generator.py:154-178. Steps ahead [steps]; quantiles are (row, step,
    level). The interpolator of a step with no value (fewer than two levels) gives NaN. *)
Definition sample_scenarios (q_vect : list R) (additional : bool) (init : option (list R)) (nz : noise)
    (rows steps n_scen : nat) (quantiles : nat -> nat -> list R) (samples : array3) : option (nat * (nat -> nat -> nat -> option R)) :=
  let scen i j s := interp1d q_vect (quantiles i j) (a_at samples i j s) in
  let noisy i j s o := option_map (fun v => v + n_normal nz i j s * / 1000000000) o in
  if additional then
    let obs := match init with Some l => l | None => repeat 0 rows end in
    if (length obs =? rows)%nat then
      Some (S steps, fun i j s =>
        noisy i j s (match j with
                     | O => Some (nth i obs 0 + n_uniform nz i s * / 1000000)
                     | S j' => scen i j' s
                     end))
    else None
  else Some (steps, fun i j s => noisy i j s (scen i j s)).

(** scenarios_generator.py:93-99, 117-123: [np.dstack([quantiles[q].values for q in
    level_0])] on a frame with two-level columns. *)
Definition sub_columns {T L} (eqd : forall a b : T, {a = b} + {a <> b}) (cols : list (T * L)) (a : T) : list nat :=
  filter (fun c => if eqd (nth c (map fst cols) a) a then true else false) (seq 0 (length cols)).
(** Used by [dstack], scenarios_generator.py:101-103. *)
Definition first_labels {T L} (eqd : forall a b : T, {a = b} + {a <> b}) (cols : list (T * L)) : list T :=
  rev (nodup eqd (rev (map fst cols))).
(** Used by [checked_quantiles], scenarios_generator.py:101-103. *)
Definition dstack {T L} (eqd : forall a b : T, {a = b} + {a <> b}) (f : qframe T L R) : array3 :=
  let labels := first_labels eqd (qf_columns f) in
  let blocks := map (sub_columns eqd (qf_columns f)) labels in
  Array3 (length (qf_rows f)) (length (nth 0 blocks [])) (length blocks)
    (fun i j k => nth (nth j (nth k blocks []) 0%nat) (nth i (qf_rows f) []) 0).
(** scenarios_generator.py:101-103: the number of levels must be the last dimension. *)
Definition checked_quantiles {T L} (eqd : forall a b : T, {a = b} + {a <> b}) (q_vect : list R) (f : qframe T L R) : option array3 :=
  if (length q_vect =? a_dim2 (dstack eqd f))%nat then Some (dstack eqd f) else None.

(** forecaster.py:277-278: the re-estimated quantiles (one per step of the scenarios) are
    compared with the predicted ones; numpy raises unless the shapes broadcast. *)
Definition predict_scenarios_check (scenario_steps quantile_steps : nat) : bool :=
  (scenario_steps =? quantile_steps)%nat || (scenario_steps =? 1)%nat || (quantile_steps =? 1)%nat.

(** forecaster.py:272-280: the scenarios of the generator, after the comparison. *)
Definition predict_scenarios (q_vect : list R) (additional : bool) (init : option (list R)) (nz : noise)
    (rows steps n_scen : nat) (quantiles : nat -> nat -> list R) (samples : array3) : option (nat * (nat -> nat -> nat -> option R)) :=
  match sample_scenarios q_vect additional init nz rows steps n_scen quantiles samples with
  | None => None
  | Some (n, scen) => if predict_scenarios_check n steps then Some (n, scen) else None
  end.

(** Scenario trees: nodes carry (time, probability, value); node numbers are positions.
    Used by [tree], scenarios_generator.py:188-192. *)
Record node := Node { nd_time : nat; nd_prob : R; nd_value : R }.
(** Used by [heap], scenarios_generator.py:188-192. *)
Record tree := Tree { tr_nodes : list node; tr_edges : list (nat * nat) }.

(** scenred.py:402-418 and 384-387: one pass per distinct time. *)
Definition unique_times (l : list nat) : list nat := uniq_sorted l.
(** With [unique_times], scenred.py:402-418. *)
Definition superimpose (x : list R) (t : tree) : tree :=
  let times := map nd_time (tr_nodes t) in
  let vals := fold_left (fun vals u => map2 (fun tm v => if (tm =? u)%nat then v + nth u x 0 else v) times vals)
                        (unique_times times) (map nd_value (tr_nodes t)) in
  Tree (map2 (fun n v => Node (nd_time n) (nd_prob n) v) (tr_nodes t) vals) (tr_edges t).

(** Python objects: a heap of trees. scenarios_generator.py:188-192: [deepcopy], then
    the copy is changed in place. *)
Definition heap := list tree.
(** With [heap], scenarios_generator.py:188-192. *)
Definition put (h : heap) (a : nat) (t : tree) : heap := firstn a h ++ t :: skipn (S a) h.
(** With [put], scenarios_generator.py:188-192. *)
Definition tree_gen (h : heap) (stored : list (Z * nat)) (hour : Z) (x : list R) : option (heap * nat) :=
  match find (fun p => Z.eqb (fst p) hour) stored with
  | None => None
  | Some (_, a) =>
      match nth_error h a with
      | None => None
      | Some t =>
          let b := length h in
          let h1 := h ++ [t] in
          Some (put h1 b (superimpose x t), b)
      end
  end.
(** With [tree_gen], scenarios_generator.py:188-192. *)
Fixpoint trees_gen (h : heap) (stored : list (Z * nat)) (rows : list (Z * list R)) : option (heap * list nat) :=
  match rows with
  | [] => Some (h, [])
  | (hour, x) :: rows' =>
      match tree_gen h stored hour x with
      | None => None
      | Some (h1, a) => option_map (fun p => (fst p, a :: snd p)) (trees_gen h1 stored rows')
      end
  end.
(** scenarios_generator.py:134-150 (not online): forecasts of each row with its hour;
    the additional node gets [init] (one number per row, else [None] = ValueError) or the
    first forecast. *)
Definition with_root (init : option (list R)) (rows : list (Z * list R)) : option (list (Z * list R)) :=
  match init with
  | None => Some (map (fun p => (fst p, nth 0 (snd p) 0 :: snd p)) rows)
  | Some l => if (length l =? length rows)%nat then Some (map2 (fun o p => (fst p, o :: snd p)) l rows) else None
  end.
(** With [with_root], scenarios_generator.py:134-150. *)
Definition predict_trees (h : heap) (stored : list (Z * nat)) (additional : bool) (init : option (list R))
    (rows : list (Z * list R)) : option (heap * list nat) :=
  match stored with
  | [] => None
  | _ =>
      match (if additional then with_root init rows else Some rows) with
      | None => None
      | Some rows' => trees_gen h stored rows'
      end
  end.
