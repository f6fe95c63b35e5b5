(** Model of [Transformer] (formatter.py:657-848). *)
From Coq Require Import List ZArith Bool Ascii.
From Verif Require Import Model.Names Model.Series.
Import ListNotations.
Local Open Scope Z_scope.

Section Transformer.
Context {V : Type}.

(** An aggregation function with the name [get_fun_name] gives it
    (formatter.py:897-906). The function itself is arbitrary. *)
Record aggfun := AggFun { fn_name : text; fn : series V -> option V }.

(** The [agg_freq] attribute: absent, a number of steps, a frequency string
    (with the duration [pd.Timedelta] parses it to) or a Timedelta. Used by [state], formatter.py:681, 695-702. *)
Inductive agg_spec := AggNone | AggInt (n : Z) | AggStr (s : text) (ns : Z) | AggTime (ns : Z).

(** Constructor arguments that never change (formatter.py:677-705).
    [c_functions = []] stands for [functions=None] (both are falsy at 756);
    [c_bins] is [original_agg_bins] (691), i.e. sorted in descending order.
    Only [nested=True] (the default, and what [Formatter.add_transform] uses)
    is modelled. *)
Record config := Config {
  c_names : list text;
  c_functions : list aggfun;
  c_lags : option (list Z);
  c_rel : bool;
  c_bins : option (list Z);
  c_dt : option Z }.

(** The mutable part: the [agg_freq] attribute and those of the nested
    transformers (formatter.py:681, 695-702). *)
Record state := State { st_agg : agg_spec; st_subs : list agg_spec }.

(** formatter.py:690-705: sorting the bins and building nested transformers
    with [agg_freq = step_from - step_to]. [None] = the assertion at 692 fails. *)
Fixpoint nonincreasing (l : list Z) : bool :=
  match l with a :: ((b :: _) as tl) => (b <=? a) && nonincreasing tl | _ => true end.
(** With [nonincreasing], formatter.py:690-705. *)
Fixpoint nondecreasing (l : list Z) : bool :=
  match l with a :: ((b :: _) as tl) => (a <=? b) && nondecreasing tl | _ => true end.

(** With [nondecreasing], formatter.py:690-705. *)
Definition init_transformer (names : list text) (functions : list aggfun) (agg_freq : agg_spec)
    (lags : option (list Z)) (rel : bool) (agg_bins : option (list Z)) (dt : option Z)
  : option (config * state) :=
  match agg_bins with
  | None => Some (Config names functions lags rel None dt, State agg_freq [])
  | Some bins =>
      if nonincreasing bins || nondecreasing bins then
        let orig := rev (isort bins) in
        Some (Config names functions lags rel (Some orig) dt,
              State agg_freq
                (map (fun i => AggInt (nth i orig 0 - nth (S i) orig 0)) (seq 0 (length orig - 1))))
      else None
  end.

(** formatter.py:737: sampling time of the frame. *)
Definition sampling_time (dt : option Z) (idx : list Z) : option Z :=
  match dt with Some d => Some d | None => median (diffs idx) end.

(** formatter.py:739-742: the attribute is overwritten on first use. *)
Definition resolve_agg (a : agg_spec) (dt : Z) : agg_spec :=
  match a with
  | AggNone => AggTime dt
  | AggInt n => AggTime (n * dt)
  | AggStr _ _ | AggTime _ => a
  end.

(** [pd.Timedelta(self.agg_freq)] of a resolved attribute. Used by [agg_text], formatter.py:759. *)
Definition agg_ns (a : agg_spec) : Z :=
  match a with AggNone => 0 | AggInt n => n | AggStr _ ns => ns | AggTime ns => ns end.

(** formatter.py:759: how the aggregation time is written in column names. *)
Definition agg_text (a : agg_spec) : text :=
  match a with AggStr s _ => s | _ => hr_timedelta false (agg_ns a / 1000000000) end.

(** Used by [base_columns], formatter.py:755-760. *)
Definition us : text := ["_"%char].

(** formatter.py:755-760: base names and aggregated columns, without bins. *)
Definition base_columns (idx : list Z) (agg : agg_spec) (agg_steps : Z) (fs : list aggfun)
    (name : text) (d : series V) : list (text * series V) :=
  match fs with
  | [] => [(name, d)]
  | _ => map (fun f => (name ++ us ++ agg_text agg ++ us ++ fn_name f,
                        rolling idx (agg_ns agg) agg_steps (fn f) d)) fs
  end.

(** formatter.py:799-808: lagging every column, lag outermost. *)
Definition lagged (lags : option (list Z)) (lag_of : Z -> Z) (cols : list (text * series V))
  : list (text * series V) :=
  match lags with
  | None => cols
  | Some ls => flat_map (fun l => map (fun c => (lag_name (fst c) l, shift (lag_of l) (snd c))) cols) ls
  end.

(** A transformer without bins applied to one column (used for the nested
    transformers, which always have one lag and absolute lags: formatter.py:700-702, 772-774). *)
Definition sub_columns (idx : list Z) (dt : Z) (agg : agg_spec) (fs : list aggfun) (step_to : Z)
    (name : text) (d : series V) : list (text * series V) :=
  let steps := agg_ns agg ÷ dt in
  lagged (Some [step_to]) (fun l => l) (base_columns idx agg steps fs name d).

(** One row of the metadata table (formatter.py:813-841). *)
Record meta := Meta {
  m_index : text;           (* row label = column name *)
  m_function : text;
  m_lag : option Z;
  m_start : Z;
  m_end : Z;
  m_name : text }.

(** Used by [function_names], formatter.py:768-770. *)
Definition none_text : text := ["n"; "o"; "n"; "e"]%char.
(** Used by [bin_names], formatter.py:768-770. *)
Definition function_names (fs : list aggfun) : list text :=
  match fs with [] => [none_text] | _ => map fn_name fs end.

(** [str] of an integer bin edge inside a column name (formatter.py:768-769). *)
Definition bin_text (z : Z) : text := fmt_int 0 z.

(** formatter.py:768-770: names of the nested-bin columns, bin outermost. *)
Definition bin_names (orig : list Z) (fs : list aggfun) (name : text) : list text :=
  flat_map (fun i => map (fun p => name ++ us ++ p ++ us ++ bin_text (nth i orig 0) ++ us ++ bin_text (nth (S i) orig 0))
                         (function_names fs))
           (seq 0 (length orig - 1)).

(** formatter.py:771-776: columns of the nested transformers in bin order,
    renamed. Each nested transformer infers its own sampling time (its [dt] is
    None) and freezes its own [agg_freq]. *)
Definition bin_columns (idx : list Z) (dt : Z) (subs : list agg_spec) (orig : list Z) (fs : list aggfun)
    (name : text) (d : series V) : list (text * series V) :=
  combine (bin_names orig fs name)
    (flat_map (fun i => map snd (sub_columns idx dt (resolve_agg (nth i subs AggNone) dt) fs (nth (S i) orig 0) name d))
              (seq 0 (length orig - 1))).

(** Body of the loop over names (733-843) on the column [d] called [name]. The
    result is the new state, the new columns and their metadata; [None] = an
    exception (no sampling time can be inferred, or a length mismatch at formatter.py:827). *)
Definition transform_name (c : config) (s : state) (idx : list Z) (name : text) (d : series V)
  : option (state * list (text * series V) * list meta) :=
  match sampling_time (c_dt c) idx with
  | None => None
  | Some dt =>
      let agg := resolve_agg (st_agg s) dt in                                     (* 739-742 *)
      match c_bins c with
      | None =>
          let agg_steps := agg_ns agg ÷ dt in                                     (* 751 *)
          let spacing := if c_rel c then dt * agg_steps else dt in                (* 752 *)
          let lag_of l := if c_rel c then l * agg_steps else l in                 (* 802 *)
          let cols := lagged (c_lags c) lag_of (base_columns idx agg agg_steps (c_functions c) name d) in
          let lag_list := match c_lags c with None => [None] | Some ls => map Some ls end in
          let lag_num (o : option Z) := match o with None => 0 | Some l => l end in
          let metas :=                                                            (* 814-823, 840 *)
            map (fun p => let '(nm, (l, f)) := p in
                 Meta nm f l (- (spacing * lag_num l) - agg_steps * dt + dt)
                             (- (spacing * lag_num l) + dt) name)
                (combine (map fst cols) (list_prod lag_list (function_names (c_functions c)))) in
          Some (State agg (st_subs s), cols, metas)
      | Some orig =>
          let agg_steps := nth 0 orig 0 - nth (length orig - 1) orig 0 in         (* 748 *)
          let lag_steps := match c_lags c with                                    (* 802, 808 *)
                           | None => [0]
                           | Some ls => map (fun l => if c_rel c then l * agg_steps else l) ls
                           end in
          (* the nested transformers are built without dt (700) and infer their own *)
          match median (diffs idx) with
          | None => None
          | Some dt' =>
          let base := match c_functions c with
                      | [] => [(name, d)]
                      | fs => bin_columns idx dt' (st_subs s) orig fs name d
                      end in
          let cols := lagged (c_lags c) (fun l => if c_rel c then l * agg_steps else l) base in
          let fnames := function_names (c_functions c) in
          let nb := (length orig - 1)%nat in
          let lags_expanded := flat_map (fun l => repeat l nb) lag_steps in       (* 825 *)
          let fun_lag := list_prod fnames lags_expanded in                        (* 826 *)
          let starts := flat_map (fun i => flat_map (fun _ => map (fun l => - (dt * (nth i orig 0 + l)) + dt) lag_steps) fnames)
                                 (seq 0 nb) in                                    (* 831 *)
          let ends := flat_map (fun i => flat_map (fun _ => map (fun l => - (dt * (nth (S i) orig 0 + l)) + dt) lag_steps) fnames)
                               (seq 0 nb) in                                      (* 833 *)
          if Nat.eqb (length fun_lag) (length cols) then                          (* 827: lengths must agree *)
            let metas := map (fun p => let '(nm, ((f, l), (st, en))) := p in Meta nm f (Some l) st en name)
                             (combine (map fst cols) (combine fun_lag (combine starts ends))) in
            let subs' := match c_functions c with
                         | [] => st_subs s
                         | _ => map (fun a => resolve_agg a dt') (st_subs s)
                         end in
            Some (State agg subs', cols, metas)
          else None
          end
      end
  end.

(** A frame: time index and named columns. Used by [transform], formatter.py:711-848. *)
Record frame := Frame { f_idx : list Z; f_cols : list (text * series V) }.

(** Used by [get_col], formatter.py:733-843. *)
Definition text_eqb (a b : text) : bool :=
  if list_eq_dec Ascii.ascii_dec a b then true else false.

(** [x[name]]. Used by [transform_names], formatter.py:733-843. *)
Definition get_col (x : list (text * series V)) (name : text) : option (series V) :=
  option_map snd (find (fun c => text_eqb (fst c) name) x).

(** The loop over names (formatter.py:733-843): all names read the frame passed by the
    caller, the state is threaded. *)
Fixpoint transform_names (c : config) (s : state) (idx : list Z) (x : list (text * series V))
    (names : list text) : option (state * list (text * series V) * list meta) :=
  match names with
  | [] => Some (s, [], [])
  | nm :: rest =>
      match get_col x nm with
      | None => None                                                              (* 726 *)
      | Some d =>
          match transform_name c s idx nm d with
          | None => None
          | Some (s1, cols, ms) =>
              match transform_names c s1 idx x rest with
              | None => None
              | Some (s2, cols', ms') => Some (s2, cols ++ cols', ms ++ ms')
              end
          end
      end
  end.

(** formatter.py:711-848, [simulate=False]. With [augment] the new columns are
    appended to the frame, otherwise they replace it (730, 810). *)
Definition transform (c : config) (s : state) (augment : bool) (x : frame)
  : option (state * frame * list meta) :=
  match transform_names c s (f_idx x) (f_cols x) (c_names c) with
  | None => None
  | Some (s', cols, ms) =>
      Some (s', Frame (f_idx x) ((if augment then f_cols x else []) ++ cols), ms)
  end.

End Transformer.
Arguments aggfun V : clear implicits.
Arguments config V : clear implicits.
Arguments frame V : clear implicits.
