(** Vocabulary for the inputs of a transformer: what the caller asks for. *)
From Coq Require Import List ZArith Bool Ascii Sorted.
From Verif Require Import Model.Names Model.Series Model.Transformer Spec.TransformerSpec.
Import ListNotations.
Local Open Scope Z_scope.

Section I.
Context {V : Type}.

(** How the [agg_freq] argument denotes [a] sampling steps of length [dt]: nothing
    means one step, an integer counts steps, a duration must be a multiple of [dt]. *)
Definition denotes_steps (agg : agg_spec) (dt a : Z) : Prop :=
  match agg with
  | AggNone => a = 1
  | AggInt n => n = a
  | AggStr _ ns | AggTime ns => ns = a * dt
  end.

(** The sampling time is given, or can be inferred from at least two rows. *)
Definition knows_dt (dt0 : option Z) (dt : Z) (n : nat) : Prop :=
  dt0 = Some dt \/ (dt0 = None /\ (2 <= n)%nat).

(** The frame has the columns [names], holding the signals [sig]. *)
Definition has_signals (x : frame V) (names : list text) (sig : text -> series V) : Prop :=
  forall nm, In nm names -> get_col (f_cols x) nm = Some (sig nm) /\ length (sig nm) = length (f_idx x).

(** At least two of the three numbers are one. *)
Definition two_singletons (nl nf nb : nat) : Prop :=
  (nl = 1 /\ nf = 1)%nat \/ (nl = 1 /\ nb = 1)%nat \/ (nf = 1 /\ nb = 1)%nat.

(** One requested feature: source column, function, lag as written and in rows,
    and (for bins) the bin [from .. to) counted backwards in rows; without bins
    [from] is the aggregation length and [to] is 0. *)
Record entry := Entry {
  e_src : text; e_fun : aggfun V; e_lag : option Z; e_rows : Z; e_from : Z; e_to : Z }.

(** Requests in the order source, lag, bin, function. *)
Definition requested (names : list text) (lags : list (option Z * Z)) (bins : list (Z * Z))
    (fs : list (aggfun V)) : list entry :=
  flat_map (fun nm => flat_map (fun l => flat_map (fun b => map (fun f =>
     Entry nm f (fst l) (snd l) (fst b) (snd b)) fs) bins) lags) names.

(** The column of values a request stands for: [f] of the samples
    i - rows - from + 1 .. i - rows - to. *)
Definition entry_values (sig : text -> series V) (e : entry) : series V :=
  feature_column (fn (e_fun e)) (sig (e_src e)) (e_rows e + e_to e) (e_from e - e_to e).

(** Its time window relative to the row, in time units. *)
Definition entry_start (dt : Z) (e : entry) : Z := (1 - e_rows e - e_from e) * dt.
Definition entry_end (dt : Z) (e : entry) : Z := (1 - e_rows e - e_to e) * dt.

(** Labels. *)
Definition with_lag (base : text) (lag : option Z) : text :=
  match lag with None => base | Some l => lag_name base l end.
Definition entry_label (agg : text) (e : entry) : text :=
  with_lag (e_src e ++ us ++ agg ++ us ++ fn_name (e_fun e)) (e_lag e).
Definition bin_label (e : entry) : text :=
  with_lag (e_src e ++ us ++ fn_name (e_fun e) ++ us ++ bin_text (e_from e) ++ us ++ bin_text (e_to e)) (e_lag e).

(** Consecutive pairs of the bin edges. *)
Definition bin_pairs (edges : list Z) : list (Z * Z) := combine edges (tl edges).
Definition decreasing (edges : list Z) : Prop := StronglySorted (fun a b => b < a) edges.
Definition total_span (edges : list Z) : Z := hd 0 edges - last edges 0.
End I.
Arguments entry V : clear implicits.

(** The state reached after any number of successful transforms. *)
Inductive reached {V} (c : config V) (s : state) : list (frame V) -> state -> Prop :=
| reached_nil : reached c s [] s
| reached_cons y ys augment s1 s2 fr ms :
    transform c s augment y = Some (s1, fr, ms) -> reached c s1 ys s2 -> reached c s (y :: ys) s2.

Definition last_seen (w : list (option Z)) : option Z := last w None.
Definition first_seen (w : list (option Z)) : option Z := hd None w.
Definition tx : text := ["x"%char].
Definition f_last : aggfun Z := AggFun ["L"%char] last_seen.
Definition f_first : aggfun Z := AggFun ["F"%char] first_seen.

(** The metadata row [k] is the right one for column [k], which holds request [e]. *)
Definition row_matches {V} (dt : Z) (m : meta) (e : entry V) : Prop :=
  m_function m = fn_name (e_fun e) /\ m_lag m = Some (e_rows e) /\
  m_start m = entry_start dt e /\ m_end m = entry_end dt e.

Definition mislabelled (fs : list (aggfun Z)) (lags : option (list Z)) (edges : list Z) : Prop :=
  exists c s (x : frame Z) sig t0 dt s' metas k m e,
    let entries := requested [tx] (requested_lags lags false (total_span edges)) (bin_pairs edges) fs in
    init_transformer [tx] fs AggNone lags false (Some edges) None = Some (c, s) /\
    regular t0 dt (f_idx x) /\ has_signals x [tx] sig /\ (4 <= length (f_idx x))%nat /\
    transform c s false x = Some (s', Frame (f_idx x) (map (fun e => (bin_label e, entry_values sig e)) entries), metas) /\
    nth_error metas k = Some m /\ nth_error entries k = Some e /\ ~ row_matches dt m e.

Definition x4 : frame Z := Frame [0; 1; 2; 3; 4] [(tx, [Some 10; Some 11; Some 12; Some 13; Some 14])].
Definition sig4 (t : text) : series Z := [Some 10; Some 11; Some 12; Some 13; Some 14].
