(** Model of the default node schedule, of the choice of the base tree for pre-computed
    trees, of what [predict_trees] returns and of the refinement of node values
    (tree_builders.py:67-85, 26-33; scenarios_generator.py:53-68, 126-150, 181-192;
    forecaster.py:282-311; scenred.py:357-363, 425-463). *)
From Coq Require Import List Bool Arith Reals.
From Verif Require Import Model.Subsample Model.Stats Model.Metrics Model.Scenred Model.BigData.
Import ListNotations.

(** tree_builders.py:69: powers of two from 4 on; [k] is [int(log(n_scen) / log(2))]. *)
Definition geometric_steps (k : nat) : list nat := skipn 2 (map (fun t => 2 ^ t) (seq 0 k)).
(** tree_builders.py:69-72. [g] is [floor(logspace(-1, log10(len(geometric_steps)), n_steps))]. [None]:
    IndexError, there is nothing to index. *)
Definition geometric_nodes (k : nat) (g : list nat) : option (list nat) :=
  let steps := geometric_steps k in
  match steps with
  | [] => None
  | _ => Some (map (fun x => nth (Nat.min (maximum g - x) (length steps - 1)) steps 0) (rev g))
  end.
(** tree_builders.py:68-75: the argument, else the constructor's schedule, else the default; the default is
    computed first. *)
Definition schedule_of (k : nat) (g : list nat) (arg own : option (list nat)) : option (list nat) :=
  match arg with
  | Some ns => Some ns
  | None =>
      match geometric_nodes k g with
      | None => None
      | Some gs => Some (match own with Some ns => ns | None => gs end)
      end
  end.

(** Kinds of tree builders. [build] is [gen_init_tree], [refine] sets values (initial values
    and, for the last two, the iterations). tree_builders.py:26-33, 144-148, 212-218,
    254-258, 265-270. *)
Inductive tree_kind := KScenred | KQuantile | KGas | KDiff.
(** Used by [prefit_trees], scenarios_generator.py:61-68. *)
Definition gen_tree {S T} (kind : tree_kind) (build : S -> T) (refine : T -> S -> T) (start : option T) (scens : S) : T :=
  match kind with
  | KScenred => build scens
  | _ => refine (match start with Some t => t | None => build scens end) scens
  end.
(** scenarios_generator.py:61-68: hour 0 first; it is the start tree of the others. *)
Definition prefit_trees {S T} (kind : tree_kind) (build : S -> T) (refine : T -> S -> T) (scens : nat -> S) : list T :=
  let t0 := gen_tree kind build refine None (scens 0) in
  map (fun h => gen_tree kind build refine (if h =? 0 then None else Some t0) (scens h)) (seq 0 24).

(** scenarios_generator.py:136-150 and 181-192: trees for all rows, one after the other or
    in parallel on [cpus - 1] workers; [n_cols] is the number of columns of the predictions,
    [order] the order in which workers finish. Trees built online go through an executor that
    keeps the order, on as many workers; one model serves both. [None]: no worker (ValueError). *)
Definition all_trees {R T} (parallel : bool) (cpus n_cols : nat) (order : list nat) (one : R -> T) (rows : list R) : option (list T) :=
  if parallel && (1 <? length rows) then
    let n := Nat.min (cpus - 1) (length rows) in
    if n =? 0 then None else fdf_ray (map one) (make_pieces rows n_cols n) order
  else Some (map one rows).

(** forecaster.py:308-311. *)
Inductive trees_result T := OneTree (t : T) | TreeList (l : list T).
Arguments OneTree {T}. Arguments TreeList {T}.
(** With [trees_result], forecaster.py:308-311. *)
Definition returned {T} (l : list T) : trees_result T := match l with [t] => OneTree t | _ => TreeList l end.

Local Open Scope R_scope.
(** scenred.py:357-363: sum over the samples of the distance to the nearest point. *)
Fixpoint nearest {V} (metric : V -> V -> R) (s : V) (a : V) (l : list V) : R :=
  match l with [] => metric s a | b :: l' => Rmin (metric s a) (nearest metric s b l') end.
(** Used by [refine_values], scenred.py:432-459. *)
Definition set_distance {V} (metric : V -> V -> R) (samples alphas : list V) : R :=
  match alphas with
  | [] => 0
  | a :: l => Rsum (map (fun s => nearest metric s a l) samples)
  end.
(** scenred.py:441-454: candidates replace a point when they are strictly better. [cands i v]
    are the random candidates around the current value [v] of point [i]. *)
Definition replace_at {V} (l : list V) (i : nat) (v : V) : list V := firstn i l ++ v :: skipn (S i) l.
(** Used by [refine_point], scenred.py:432-459. *)
Definition try_candidate {V} (dist : list V -> R) (i : nat) (st : list V * R) (c : V) : list V * R :=
  if Rltb (dist (replace_at (fst st) i c)) (snd st) then (replace_at (fst st) i c, dist (replace_at (fst st) i c)) else st.
(** Used by [refine_step], scenred.py:432-459. *)
Definition refine_point {V} (dist : list V -> R) (cands : nat -> V -> list V) (d0 : V) (st : list V * R) (i : nat) : list V * R :=
  fold_left (try_candidate dist i) (cands i (nth i (fst st) d0)) st.
(** Used by [refine_values], scenred.py:432-459. *)
Definition refine_step {V} (dist : list V -> R) (cands : nat -> V -> list V) (d0 : V) (alphas : list V) : list V :=
  fst (fold_left (refine_point dist cands d0) (seq 0 (length alphas)) (alphas, dist alphas)).
(** scenred.py:432-459: the first step gets the median of the samples. *)
Definition refine_values {V} (metric : V -> V -> R) (median : list V -> V) (cands : nat -> nat -> V -> list V) (d0 : V)
    (samples : nat -> list V) (values : nat -> list V) (t : nat) : list V :=
  match t with
  | O => [median (samples 0%nat)]
  | _ => refine_step (set_distance metric (samples t)) (cands t) d0 (values t)
  end.
