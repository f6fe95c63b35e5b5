(** Model of the remaining parts of [Formatter]: simulation of transforms, the
    threaded path, global form, time limits. *)
From Coq Require Import List ZArith Bool Ascii.
From Verif Require Import Model.Names Model.Series Model.Transformer Model.Formatter.
Import ListNotations.
Local Open Scope Z_scope.

Section G.
Context {V : Type}.

(** Names after lagging (formatter.py:800-801). *)
Definition lag_names (lags : option (list Z)) (names : list text) : list text :=
  match lags with
  | None => names
  | Some ls => flat_map (fun l => map (fun n => lag_name n l) names) ls
  end.

(** Names before lagging (755-760 without bins, formatter.py:785-796 with). *)
Definition base_names (agg : agg_spec) (fs : list (aggfun V)) (name : text) : list text :=
  match fs with
  | [] => [name]
  | _ => map (fun f => name ++ us ++ agg_text agg ++ us ++ fn_name f) fs
  end.

(** formatter.py:733-843 with [simulate=True]: nothing but names and metadata are
    computed; nested transformers are not touched. [idx = None] is a call without
    frame, which needs [dt] (722). *)
Definition simulate_at (c : config V) (s : state) (dt : Z) (name : text) : option (state * list meta) :=
      let agg := resolve_agg (st_agg s) dt in
      match c_bins c with
      | None =>
          let agg_steps := agg_ns agg ÷ dt in
          let spacing := if c_rel c then dt * agg_steps else dt in
          let names := lag_names (c_lags c) (base_names agg (c_functions c) name) in
          let lag_list := match c_lags c with None => [None] | Some ls => map Some ls end in
          let lag_num (o : option Z) := match o with None => 0 | Some l => l end in
          Some (State agg (st_subs s),
                map (fun p => let '(nm, (l, f)) := p in
                     Meta nm f l (- (spacing * lag_num l) - agg_steps * dt + dt)
                                 (- (spacing * lag_num l) + dt) name)
                    (combine names (list_prod lag_list (function_names (c_functions c)))))
      | Some orig =>
          let agg_steps := nth 0 orig 0 - nth (length orig - 1) orig 0 in
          let lag_steps := match c_lags c with
                           | None => [0]
                           | Some ls => map (fun l => if c_rel c then l * agg_steps else l) ls
                           end in
          let names := lag_names (c_lags c)
                         (match c_functions c with [] => [name] | fs => bin_names orig fs name end) in
          let fnames := function_names (c_functions c) in
          let nb := (length orig - 1)%nat in
          let lags_expanded := flat_map (fun l => repeat l nb) lag_steps in
          let fun_lag := list_prod fnames lags_expanded in
          let starts := flat_map (fun i => flat_map (fun _ => map (fun l => - (dt * (nth i orig 0 + l)) + dt) lag_steps) fnames)
                                 (seq 0 nb) in
          let ends := flat_map (fun i => flat_map (fun _ => map (fun l => - (dt * (nth (S i) orig 0 + l)) + dt) lag_steps) fnames)
                               (seq 0 nb) in
          if Nat.eqb (length fun_lag) (length names) then
            Some (State agg (st_subs s),
                  map (fun p => let '(nm, ((f, l), (st, en))) := p in Meta nm f (Some l) st en name)
                      (combine names (combine fun_lag (combine starts ends))))
          else None
      end.
(** formatter.py:737: the sampling time. *)
Definition simulate_name (c : config V) (s : state) (idx : option (list Z)) (name : text)
  : option (state * list meta) :=
  match (match c_dt c with Some d => Some d
                         | None => match idx with Some i => median (diffs i) | None => None end end) with
  | None => None
  | Some dt => simulate_at c s dt name
  end.

(** The loop over names. With a frame, [x[name]] (formatter.py:735) raises for an absent column. *)
Fixpoint simulate_names (c : config V) (s : state) (x : option (frame V)) (names : list text)
  : option (state * list meta) :=
  match names with
  | [] => Some (s, [])
  | nm :: rest =>
      let known := match x with None => true | Some f => existsb (fun o => text_eqb (fst o) nm) (f_cols f) end in
      if known then
        match simulate_name c s (option_map (@f_idx V) x) nm with
        | None => None
        | Some (s1, ms) =>
            match simulate_names c s1 x rest with
            | None => None
            | Some (s2, ms') => Some (s2, ms ++ ms')
            end
        end
      else None
  end.
(** With [simulate_names], formatter.py:735. *)
Definition simulate (c : config V) (s : state) (x : option (frame V)) : option (state * list meta) :=
  simulate_names c s x (c_names c).

(** formatter.py:235-239: the threaded path. Every transformer reads the original
    frame; the results are concatenated in order. *)
Fixpoint parallel_columns (trs : list (config V * state)) (x : frame V)
  : option (list state * list (text * series V) * list (list meta)) :=
  match trs with
  | [] => Some ([], [], [])
  | (c, s) :: rest =>
      match transform c s false x with
      | None => None
      | Some (s', y, ms) =>
          match parallel_columns rest x with
          | None => None
          | Some (ss, cols, mss) => Some (s' :: ss, f_cols y ++ cols, ms :: mss)
          end
      end
  end.
(** With [parallel_columns], formatter.py:235-239. *)
Definition apply_parallel (trs : list (config V * state)) (x : frame V)
  : option (list state * frame V * list (list meta)) :=
  match parallel_columns trs x with
  | None => None
  | Some (ss, cols, mss) => Some (ss, Frame (f_idx x) (f_cols x ++ cols), mss)
  end.

(** ** Global form *)

(** One frame of the long format: its [name] column holds one constant, the
    [target] column one signal, the other columns are shared (formatter.py:621-629). *)
Record gframe := GFrame {
  g_name : text; g_idx : list Z; g_target : series V; g_shared : list (text * series V) }.

(** Used by [global_preprocess], formatter.py:602-604. *)
Definition mem (nm : text) (l : list text) : bool := existsb (text_eqb nm) l.

(** formatter.py:602-604 and 619-629 (single level columns). [shared] is
    [transformed_columns]; its order comes from a python set, so it is an argument
    (any list with the right members). [None] = KeyError of [x[transformed_columns]]. *)
Definition global_preprocess (shared : list text) (x : frame V) : option (list gframe) :=
  if forallb (fun nm => existsb (fun c => text_eqb (fst c) nm) (f_cols x)) shared then
    Some (map (fun c => GFrame (fst c) (f_idx x) (snd c) (select_columns shared (f_cols x)))
              (filter (fun c => negb (mem (fst c) shared)) (f_cols x)))
  else None.

(** formatter.py:640-653 on one row: [x.loc[:, names] = x.loc[:, order].values]. *)
Fixpoint position (nm : text) (l : list text) : option nat :=
  match l with
  | [] => None
  | a :: l' => if text_eqb nm a then Some 0%nat else option_map S (position nm l')
  end.
(** Used by [reorder_training], formatter.py:188-194. *)
Definition reorder_row (names order : list text) (row : text -> V) : text -> V :=
  fun c => match position c names with
           | Some k => row (nth k order c)
           | None => row c
           end.

(** [corr.sort_values(ascending=False).index]: names by decreasing correlation. The
    correlations (numbers computed from the frame) are an argument; ties keep
    their order here (pandas' quicksort leaves their order unspecified). Used by [corr_order], formatter.py:188-194. *)
Fixpoint insert_desc (k : text * Z) (l : list (text * Z)) : list (text * Z) :=
  match l with
  | [] => [k]
  | a :: l' => if snd a <? snd k then k :: a :: l' else a :: insert_desc k l'
  end.
(** Used by [reorder_training], formatter.py:188-194. *)
Definition corr_order (corr : list (text * Z)) : list text :=
  map fst (fold_left (fun acc k => insert_desc k acc) corr []).

(** formatter.py:188-194 with corr_reorder: signals are processed one after the other; the
    stored order (650) is overwritten by each of them. Each signal comes with its
    correlations and rows. *)
Fixpoint reorder_training (names : list text) (stored : option (list text))
    (signals : list (list (text * Z) * list (text -> V))) : option (list text) * list (list (text -> V)) :=
  match signals with
  | [] => (stored, [])
  | (corr, rows) :: rest =>
      let order := corr_order corr in
      let r := reorder_training names (Some order) rest in
      (fst r, map (reorder_row names order) rows :: snd r)
  end.
(** formatter.py:645-647: at prediction time (empty target). *)
Definition reorder_prediction (names : list text) (stored : option (list text)) (rows : list (text -> V))
  : option (list (text -> V)) :=
  match stored with
  | None => None
  | Some order => Some (map (reorder_row names order) rows)
  end.
End G.
Arguments gframe V : clear implicits.

(** formatter.py:579-596 [get_time_lims(extremes=True)]: smallest start and largest
    end over the metadata of all transformers, going through groups by name. *)
Definition opt_lift (sel : Z -> Z -> Z) (a b : option Z) : option Z :=
  match a, b with Some x, Some y => Some (sel x y) | Some x, None => Some x | None, o => o end.
(** With [opt_lift], formatter.py:579-596. *)
Definition min_opt := opt_lift Z.min.
(** With [min_opt], formatter.py:579-596. *)
Definition max_opt := opt_lift Z.max.
(** Used by [group_lims], formatter.py:585-591. *)
Definition group_names (metas : list meta) : list text :=
  nodup (list_eq_dec Ascii.ascii_dec) (map m_name metas).
(** Used by [group_lims], formatter.py:585-591. *)
Definition lim_of (f : meta -> Z) (op : option Z -> option Z -> option Z) (ms : list meta) : option Z :=
  fold_right (fun m acc => op (Some (f m)) acc) None ms.
(** Used by [signal_lims], formatter.py:585-591. *)
Definition group_lims (f : meta -> Z) op (ms : list meta) : list (text * option Z) :=
  map (fun nm => (nm, lim_of f op (filter (fun m => text_eqb (m_name m) nm) ms))) (group_names ms).
(** Per-signal limits: group each transformer, concatenate, group again (formatter.py:585-591). *)
Definition signal_lims (f : meta -> Z) op (metas : list (list meta)) : list (text * option Z) :=
  let firsts := flat_map (group_lims f op) metas in
  map (fun nm => (nm, fold_right (fun p acc => op (snd p) acc) None (filter (fun p => text_eqb (fst p) nm) firsts)))
      (nodup (list_eq_dec Ascii.ascii_dec) (map fst firsts)).
(** With [signal_lims], formatter.py:585-591. *)
Definition time_lims (metas : list (list meta)) : option Z * option Z :=
  (fold_right (fun p acc => min_opt (snd p) acc) None (signal_lims m_start min_opt metas),
   fold_right (fun p acc => max_opt (snd p) acc) None (signal_lims m_end max_opt metas)).
