(** Model of [Formatter] (formatter.py:39-656): row filtering, normalisers, time
    features, holidays, cross-validation folds, pruning and global form. *)
From Coq Require Import List ZArith Bool Ascii.
From Verif Require Import Model.Names Model.Series Model.Transformer.
Import ListNotations.
Local Open Scope Z_scope.

Section Formatter.
Context {V : Type}.

(** formatter.py:241-242: [for tr in self.transformers: x = tr.transform(x)]
    (serial path; augment is True). Each transformer keeps its own state; the
    result also lists each transformer's new metadata. *)
Fixpoint apply_transformers (trs : list (config V * state)) (x : frame V)
  : option (list state * frame V * list (list meta)) :=
  match trs with
  | [] => Some ([], x, [])
  | (c, s) :: rest =>
      match transform c s true x with
      | None => None
      | Some (s', x', ms) =>
          match apply_transformers rest x' with
          | None => None
          | Some (ss, x'', mss) => Some (s' :: ss, x'', ms :: mss)
          end
      end
  end.

(** formatter.py:246-247: all target transformers read the augmented frame. *)
Fixpoint apply_targets (trs : list (config V * state)) (x : frame V)
  : option (list state * list (text * series V) * list (list meta)) :=
  match trs with
  | [] => Some ([], [], [])
  | (c, s) :: rest =>
      match transform c s false x with
      | None => None
      | Some (s', y, ms) =>
          match apply_targets rest x with
          | None => None
          | Some (ss, cols, mss) => Some (s' :: ss, f_cols y ++ cols, ms :: mss)
          end
      end
  end.

(** formatter.py:243: columns whose name was not in the input frame. *)
Definition is_new (orig : list (text * series V)) (c : text * series V) : bool :=
  negb (existsb (fun o => text_eqb (fst o) (fst c)) orig).
(** Used by [formatter_transform], formatter.py:212-268. *)
Definition new_columns (orig cols : list (text * series V)) : list (text * series V) :=
  filter (is_new orig) cols.

(** [x[names]]: every column with each of the names (pandas duplicates columns
    when a name occurs twice). Used by [formatter_transform], formatter.py:212-268. *)
Definition select_columns (names : list text) (cols : list (text * series V)) : list (text * series V) :=
  flat_map (fun nm => filter (fun c => text_eqb (fst c) nm) cols) names.

(** [~np.any(cols.isna(), axis=1)] at row i. Used by [formatter_transform], formatter.py:212-268. *)
Definition complete_row (cols : list (text * series V)) (i : nat) : bool :=
  forallb (fun c => is_some (nth i (snd c) None)) cols.

(** [.loc[mask]]. Used by [keep_cols], formatter.py:212-268. *)
Definition keep_rows {A} (mask : list bool) (l : list A) : list A :=
  map snd (filter fst (combine mask l)).
(** Used by [formatter_transform], formatter.py:212-268. *)
Definition keep_cols (mask : list bool) (cols : list (text * series V)) : list (text * series V) :=
  map (fun c => (fst c, keep_rows mask (snd c))) cols.

(** formatter.py:212-268 without normalisers, time features and holidays (these
    come afterwards and never drop rows). The second filter (257) recomputes the
    feature mask on the already filtered frame; pandas aligns it with the target
    by row label, a missing label counting as False. Row labels are assumed
    unique (pandas refuses to align duplicated labels). *)
Definition formatter_transform (trs ttrs : list (config V * state)) (augment return_target : bool) (x : frame V)
  : option (frame V * frame V) :=
  match apply_transformers trs x with
  | None => None
  | Some (_, x1, _) =>
      let idx := f_idx x1 in
      let rows := seq 0 (length idx) in
      let feats := select_columns (map fst (new_columns (f_cols x) (f_cols x1))) (f_cols x1) in
      let final cols := if augment then cols else select_columns (map fst (new_columns (f_cols x) (f_cols x1))) cols in
      if return_target then
        match apply_targets ttrs x1 with
        | None => None
        | Some (_, tcols, _) =>
            let mask1 := map (fun i => complete_row feats i && complete_row tcols i) rows in
            let kept := keep_rows mask1 idx in
            let mask2 := map (fun i => existsb (Z.eqb (nth i idx 0)) kept && complete_row tcols i) rows in
            Some (Frame kept (final (keep_cols mask1 (f_cols x1))),
                  Frame (keep_rows mask2 idx) (keep_cols mask2 tcols))
        end
      else
        let mask := map (complete_row feats) rows in
        Some (Frame (keep_rows mask idx) (final (keep_cols mask (f_cols x1))), Frame idx [])
  end.

(** ** Normalisers (formatter.py:132-154, 270-355) *)

(** The expression handed to [eval], restricted to row-wise expressions: it sees
    the row's normaliser columns and the value of the column being normalised.
    Used by [eval_column], formatter.py:329. *)
Definition rowexpr := list (option V) -> option V -> option V.

(** [self.normalizing_wrapper(fun, df, c)] and the assignment to column c (343, formatter.py:329):
    [None] is the KeyError for an absent column. *)
Definition eval_column (e : rowexpr) (norms : list (series V)) (col : series V) : series V :=
  map (fun i => e (map (fun n => nth i n None) norms) (nth i col None)) (seq 0 (length col)).
(** Used by [update_columns], formatter.py:346-352. *)
Definition update_column (e : rowexpr) (norms : list (series V)) (cols : list (text * series V)) (c : text)
  : option (list (text * series V)) :=
  if existsb (fun o => text_eqb (fst o) c) cols
  then Some (map (fun o => if text_eqb (fst o) c then (fst o, eval_column e norms (snd o)) else o) cols)
  else None.
(** Used by [normalize_cols], formatter.py:346-352. *)
Fixpoint update_columns (e : rowexpr) (norms : list (series V)) (names : list text) (cols : list (text * series V))
  : option (list (text * series V)) :=
  match names with
  | [] => Some cols
  | c :: rest => match update_column e norms cols c with
                 | None => None
                 | Some cols' => update_columns e norms rest cols'
                 end
  end.

(** formatter.py:334-344 / 323-330. [uniq] are the unique names of normalised
    signals, [metas] the metadata tables of the (target) transformers. The
    selection [(metadata['name'].isin([t])).index] at 340 and 327 is the whole
    index of the table, whatever [t]. *)
Definition normalised_names (uniq : list text) (metas : list (list meta)) : list text :=
  flat_map (fun t : text => flat_map (fun ms => map m_index ms) metas) uniq.
(** Used by [denormalize_cols], formatter.py:346-352. *)
Definition normalize_cols (e : rowexpr) (norms : list (series V)) (uniq : list text) (metas : list (list meta))
    (cols : list (text * series V)) : option (list (text * series V)) :=
  update_columns e norms (normalised_names uniq metas) cols.

(** formatter.py:346-352. *)
Definition denormalize_cols := normalize_cols.
End Formatter.

(** formatter.py:132-154. [lags] as passed by the caller. *)
Inductive lag_arg := LagNone | LagScalar (z : Z) | LagList (l : list Z) | LagArray (l : list Z).
(** With [lag_arg], formatter.py:132-154. *)
Inductive outcome := Added | Ignored | Raised.

(** [np.all(lags > 0)] at formatter.py:149: comparing a python list with an int raises
    TypeError; line 138 turns scalars into lists. *)
Definition lags_accepted (lags : lag_arg) : bool :=
  match lags with
  | LagNone => true
  | LagScalar _ | LagList _ => false
  | LagArray l => Nat.eqb (length l) 1 && forallb (fun z => 0 <? z) l
  end.

(** The registry is the list of (name, target) of [self.target_normalizers]. formatter.py:142-147. *)
Definition add_normalizer (reg : list (text * text)) (targets : list text) (lags : lag_arg) (name : text)
  : list (text * text) * outcome :=
  if existsb (fun r => text_eqb (fst r) name) reg then (reg, Ignored)            (* 142-145 *)
  else match targets with                                                        (* 147 *)
       | [t] => if lags_accepted lags then (reg ++ [(name, t)], Added) else (reg, Raised)
       | _ => (reg, Raised)
       end.

(** ** Time features (formatter.py:58-91) *)
Definition base_time_names : list text :=
  [["h";"o";"u";"r"]; ["d";"a";"y";"o";"f";"w";"e";"e";"k"]; ["m";"i";"n";"u";"t";"e";"o";"f";"d";"a";"y"]]%char.
(** With [base_time_names], formatter.py:58-91. *)
Definition utc_name : text := ["u";"t";"c";"_";"o";"f";"f";"s";"e";"t"]%char.

(** One timestamp: local hour, day of week, minute, and UTC offset if localised. formatter.py:58-91. *)
Record stamp := Stamp { s_hour : Z; s_dow : Z; s_minute : Z; s_offset : option Z }.

(** State: [self.timezone]. Input: number of columns of x and its index. Output:
    names and rows of the added columns; [None] = exception (empty index at 59;
    or [x.apply] on a frame without columns at 80, which yields an empty frame
    that cannot be stacked). A localised index has an offset in every row. formatter.py:62-87. *)
Definition add_time_features (tz_flag : option bool) (ncols : nat) (index : list stamp)
  : option bool * option (list text * list (list Z)) :=
  match index with
  | [] => (tz_flag, None)
  | t0 :: _ =>
      let base t := [s_hour t; s_dow t; s_hour t * 60 + s_minute t] in
      let off t := match s_offset t with Some z => z | None => 0 end in
      let with_off t := base t ++ [off t] in
      match tz_flag, s_offset t0 with
      | None, None => (Some false, Some (base_time_names, map base index))        (* 62-65 *)
      | None, Some _ => (Some true, Some (base_time_names ++ [utc_name], map with_off index)) (* 66-74 *)
      | Some true, Some _ =>                                                       (* 77-78 *)
          match ncols with
          | O => (Some true, None)
          | S _ => (Some true, Some (base_time_names ++ [utc_name], map with_off index))
          end
      | Some true, None =>                                                         (* 79-84 *)
          (Some true, Some (base_time_names ++ [utc_name], map (fun t => base t ++ [0]) index))
      | Some false, _ => (Some false, Some (base_time_names, map base index))      (* 85-87 *)
      end
  end.

(** ** Holidays (formatter.py:100-104): sequential overwrites of a column of days. *)
Definition overwrite (days : list Z) (set : list Z) (v : Z) (col : list Z) : list Z :=
  map (fun p => if existsb (Z.eqb (fst p)) set then v else snd p) (combine days col).
(** With [overwrite], formatter.py:100-104. *)
Definition add_holidays (days bridges long_weekends holidays : list Z) : list Z :=
  let c0 := map (fun _ => 0) days in
  let c1 := overwrite days bridges 1 c0 in
  let c2 := overwrite days long_weekends 2 c1 in
  overwrite days holidays 3 c2.

(** ** Time-series cross validation (formatter.py:416-473) *)

(** [pd.date_range(a, b, n)] for n >= 2: a plus the floor of an even division of
    b - a (pandas goes through float linspace; exact arithmetic here). formatter.py:440-456. *)
Definition date_range (a b : Z) (n : nat) : list Z :=
  map (fun k => a + (Z.of_nat k * (b - a)) / (Z.of_nat n - 1)) (seq 0 n).

(** Used by [deadband], formatter.py:456. *)
Definition zmax_list (l : list Z) : option Z :=
  match l with [] => None | x :: l' => Some (fold_left Z.max l' x) end.

(** formatter.py:456: the largest absolute start time of all feature metadata; [None] = np.max
    of nothing raises. *)
Definition deadband (metas : list (list meta)) : option Z :=
  zmax_list (map (fun m => Z.abs (m_start m)) (concat metas)).

(** The folds, as two masks over the index each. [None] = an exception (no rows,
    n_k < 2, no metadata, dead-band larger than the test window). formatter.py:416-473. *)
Definition time_kfcv (time_index : list Z) (n_k mult : nat) (metas : list (list meta))
  : option (list (list bool * list bool)) :=
  match time_index with
  | [] => None
  | t_start :: _ =>
      if (n_k <? 2)%nat then None else
      let t_end := last time_index 0 in
      let split := date_range t_start t_end n_k in
      let window := nth 1 split 0 - nth 0 split 0 in
      let shifts := date_range t_start (t_end - window) (n_k * mult) in
      match deadband metas with
      | None => None
      | Some db =>
          if window <? db then None else
          Some (map (fun t_i =>
                  (map (fun t => (t <? t_i - db) || (window + t_i + db <? t)) time_index,
                   map (fun t => (t_i <=? t) && (t <=? window + t_i)) time_index))
                shifts)
      end
  end.

(** ** Pruning (formatter.py:493-526) *)
Inductive prune_method := Periodic (period tol : Z) | UpTo | KeepAll.

(** formatter.py:505-523 for one metadata row; times and [keep_last_seconds] in nanoseconds.
    Python's [%] has the sign of the divisor, like Z.modulo. *)
Definition prune_keep (method : prune_method) (keep_last_n_lags keep_last_ns : Z) (t_start t_end : Z) (m : meta) : bool :=
  let k0 := match method with
            | Periodic p tol => ((t_start - m_start m) mod p <=? tol) || ((t_end - m_end m) mod p <=? tol)
            | UpTo => m_end m <=? t_end
            | KeepAll => true
            end in
  let k1 := if 0 <? keep_last_n_lags
            then k0 || match m_lag m with Some l => (0 <=? l) && (l <? keep_last_n_lags) | None => false end
            else k0 in
  if 0 <? keep_last_ns
  then k1 || ((m_end m <=? keep_last_ns) || (m_end m <=? keep_last_ns)) && (m_end m <=? t_end)
  else k1.

(** formatter.py:496-503, 525: the target window is row [target_col_num] of the first target
    transformer's metadata, but every target transformer must have such a row
    ([None] = IndexError). *)
Definition prune_columns (tmetas fmetas : list (list meta)) (target_col_num : nat) (metadata_features : list text)
    (method : prune_method) (keep_last_n_lags keep_last_ns : Z) : option (list text) :=
  if forallb (fun ms => (target_col_num <? length ms)%nat) tmetas then
    match tmetas with
    | [] => None
    | ms :: _ =>
        match nth_error ms target_col_num with
        | None => None
        | Some t => Some (map m_index (filter (prune_keep method keep_last_n_lags keep_last_ns (m_start t) (m_end t)) (concat fmetas))
                          ++ metadata_features)
        end
    end
  else None.

(** formatter.py:525-526 [df[features]]: [None] = KeyError for an absent column. *)
Definition prune_frame {V} (df : frame V) (features : list text) : option (frame V) :=
  if forallb (fun nm => existsb (fun c => text_eqb (fst c) nm) (f_cols df)) features
  then Some (Frame (f_idx df) (select_columns features (f_cols df)))
  else None.
