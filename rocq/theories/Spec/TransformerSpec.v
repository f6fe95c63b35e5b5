(** What a feature is: an aggregation of consecutive samples of a signal. *)
From Coq Require Import List ZArith Bool Ascii.
Import ListNotations.
Local Open Scope Z_scope.

Section Spec.
Context {V : Type}.

(** Sample number [j] of the signal; [None] before the beginning, after the end,
    or when the observation is missing. *)
Definition sample (d : list (option V)) (j : Z) : option V :=
  if (0 <=? j) && (j <? Z.of_nat (length d)) then nth (Z.to_nat j) d None else None.

(** The [len] samples starting with number [lo]. *)
Definition samples (d : list (option V)) (lo len : Z) : list (option V) :=
  map (fun k => sample d (lo + Z.of_nat k)) (seq 0 (Z.to_nat len)).

Definition present (o : option V) : bool := match o with Some _ => true | None => false end.

(** The feature computed by [f] on the samples [lo .. lo+len-1]: missing unless
    all of them are observed. *)
Definition window_feature (f : list (option V) -> option V) (d : list (option V)) (lo len : Z) : option V :=
  if forallb present (samples d lo len) then f (samples d lo len) else None.

(** Evenly spaced timestamps. *)
Definition regular (t0 dt : Z) (idx : list Z) : Prop :=
  0 < dt /\ forall i, (i < length idx)%nat -> nth i idx 0 = t0 + Z.of_nat i * dt.
End Spec.

(** A (start, end) pair of offsets and a function describe a column of features
    of [d]: row i holds [f] of exactly the samples whose timestamps lie in
    [t_i + start, t_i + end). *)
Definition describes {V} (f : list (option V) -> option V) (dt : Z) (d : list (option V))
    (start_ end_ : Z) (col : list (option V)) : Prop :=
  exists lo len, 1 <= len /\ start_ = lo * dt /\ end_ = (lo + len) * dt /\
    length col = length d /\
    forall i, (i < length d)%nat -> nth i col None = window_feature f d (Z.of_nat i + lo) len.

(** The lags of a request: what the user wrote and how many rows it means.
    Relative lags count aggregation lengths of [a] rows. *)
Definition requested_lags (lags : option (list Z)) (rel : bool) (a : Z) : list (option Z * Z) :=
  match lags with
  | None => [(None, 0)]
  | Some ls => map (fun l => (Some l, if rel then l * a else l)) ls
  end.

(** The column for function [f], lag of [l] rows and aggregation over [a] rows:
    row i is [f] of samples i-l-a+1 .. i-l. *)
Definition feature_column {V} (f : list (option V) -> option V) (d : list (option V)) (l a : Z)
  : list (option V) :=
  map (fun i => window_feature f d (Z.of_nat i - l - a + 1) a) (seq 0 (length d)).

(** Column 1 (computed from signal 1) and column 2 (from signal 2) have the same
    entry in every row i around which the signals agree, "around" meaning on all
    timestamps in [t_i + start, t_i + end). *)
Definition reads_only {V} (idx : list Z) (start_ end_ : Z) (d1 d2 col1 col2 : list (option V)) : Prop :=
  forall i, (i < length idx)%nat ->
    (forall j, (j < length idx)%nat -> nth i idx 0 + start_ <= nth j idx 0 < nth i idx 0 + end_ ->
       nth j d1 None = nth j d2 None) ->
    nth i col1 None = nth i col2 None.

(** Every sample in [t_i + start, t_i + end) is needed: if one of the grid points
    there is missing (or lies outside the data) the entry is missing. *)
Definition needs_all {V} (t0 dt : Z) (start_ end_ : Z) (d col : list (option V)) : Prop :=
  forall i j, (i < length d)%nat ->
    (t0 + Z.of_nat i * dt) + start_ <= t0 + j * dt < (t0 + Z.of_nat i * dt) + end_ ->
    sample d j = None -> nth i col None = None.

(** Two frames with the same column names, whose columns coincide in the first m rows. *)
Definition same_past {V} (m : nat) (cols1 cols2 : list (list ascii * list (option V))) : Prop :=
  Forall2 (fun c1 c2 => fst c1 = fst c2 /\ length (snd c1) = length (snd c2) /\
             forall j, (j < m)%nat -> nth j (snd c1) None = nth j (snd c2) None) cols1 cols2.
