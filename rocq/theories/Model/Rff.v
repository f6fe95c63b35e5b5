(** Model of the random feature regressors (random_fourier_features.py:125-399). A matrix W is the list
    of its columns, one per feature. Random draws and the linear learner are arguments. *)
From Coq Require Import List ZArith Bool Arith Reals.
From Verif Require Import Model.Series Model.Subsample Model.Scaling.
Import ListNotations.
Local Open Scope R_scope.

(** Used by [conv], random_fourier_features.py:212-229. *)
Definition dot (u v : list R) : R := fold_right Rplus 0 (map2 Rmult u v).

(** random_fourier_features.py:212-229: [np.cos(x.values @ W + b)], one row. *)
Definition conv (W : list (list R)) (b : list R) (x : list R) : list R :=
  map2 (fun w c => cos (dot x w + c)) W b.

(** random_fourier_features.py:231-250: existing weights are kept. [draw_w] and [draw_b] are the generators, called with the
    number of inputs and the number of features. One matrix; a tuple of dimensions raises at 256. *)
Definition set_weight (draw_w : nat -> list (list R)) (draw_b : nat -> list R) (dim_in : nat)
    (W : option (list (list R))) (b : option (list R)) : list (list R) * list R :=
  let W' := match W with Some w => w | None => draw_w dim_in end in
  (W', match b with Some c => c | None => draw_b (length W') end).

(** The object: weights and trained learner ([None]: not fitted).
    Used by [rff_fit], random_fourier_features.py:278-293. *)
Record regressor M := Regressor { r_W : option (list (list R)); r_b : option (list R); r_model : option M }.
Arguments Regressor {M}. Arguments r_W {M}. Arguments r_b {M}. Arguments r_model {M}.

(** random_fourier_features.py:278-293. [learn] gets the features and the targets. *)
Definition rff_fit {M} (draw_w : nat -> list (list R)) (draw_b : nat -> list R) (learn : list (list R) -> list (list R) -> M)
    (dim_in : nat) (r : regressor M) (x y : list (list R)) : regressor M :=
  let '(W, b) := set_weight draw_w draw_b dim_in (r_W r) (r_b r) in
  Regressor (Some W) (Some b) (Some (learn (map (conv W b) x) y)).
(** random_fourier_features.py:295-307, for a learner that predicts row by row. *)
Definition rff_predict {M} (draw_w : nat -> list (list R)) (draw_b : nat -> list R) (apply : M -> list R -> list R)
    (dim_in : nat) (r : regressor M) (x : list (list R)) : option (list (list R)) :=
  match r_model r with
  | None => None
  | Some m => let '(W, b) := set_weight draw_w draw_b dim_in (r_W r) (r_b r) in Some (map (fun row => apply m (conv W b row)) x)
  end.

(** scikit-learn's LinearRegression for one target: intercept and coefficients.
    Used by [additive_fit], random_fourier_features.py:373-384. *)
Definition linear_apply (m : R * list R) (features : list R) : R := fst m + dot features (snd m).
(** AdditiveRFFRegression.fit (random_fourier_features.py:373-384) for one target: each model is trained on what its predecessors
    leave; [stages] are the weights of the models and [least_squares] the learner. *)
Fixpoint additive_fit (least_squares : list (list R) -> list R -> R * list R) (stages : list (list (list R) * list R))
    (x : list (list R)) (err : list R) : list (R * list R) * list R :=
  match stages with
  | [] => ([], err)
  | (W, b) :: rest =>
      let feats := map (conv W b) x in
      let m := least_squares feats err in
      let '(ms, e) := additive_fit least_squares rest x (map2 Rminus err (map (linear_apply m) feats)) in
      (m :: ms, e)
  end.
(** random_fourier_features.py:386-394 without the denormalisation. *)
Definition additive_predict (stages : list (list (list R) * list R)) (ms : list (R * list R)) (row : list R) : R :=
  fold_left (fun acc p => acc + linear_apply (snd p) (conv (fst (fst p)) (snd (fst p)) row)) (combine stages ms) 0.

(** random_fourier_features.py:151-173: orthogonal random features. [scales] and [orth] are the draws of each block: the
    chi-distributed scales and the orthogonal matrix (as a function). Column k of the result. *)
Definition orf_entry (dim_in : nat) (std : R) (scales : nat -> nat -> R) (orth : nat -> nat -> nat -> R) (i k : nat) : R :=
  std * (scales (k / dim_in)%nat i * orth (k / dim_in)%nat i (k mod dim_in)%nat).
(** With [orf_entry], random_fourier_features.py:151-173. *)
Definition orf_matrix (dim_in dim_out : nat) (std : R) (scales : nat -> nat -> R) (orth : nat -> nat -> nat -> R) : list (list R) :=
  firstn dim_out (map (fun k => map (fun i => orf_entry dim_in std scales orth i k) (seq 0 dim_in)) (seq 0 ((dim_out / dim_in + 1) * dim_in))).

(** RFFRegression.predict and AdditiveRFFRegression.predict with a formatter that has target
    normalisers (349-353, 386-394; formatter.py:305, 346-352): the frame given to the formatter is the
    scaled one, whose columns are numbered; the formatter selects its normalisers' columns by name,
    which raises for a missing one. A column is named or numbered. *)
Inductive label := named (n : nat) | numbered (k : nat).
(** Used by [select_columns], forecaster.py:345-349. *)
Definition label_eqb (a b : label) : bool :=
  match a, b with named n, named m => (n =? m)%nat | numbered n, numbered m => (n =? m)%nat | _, _ => false end.
(** Used by [denormalizable], forecaster.py:345-349. *)
Definition select_columns (cols : list label) (normalizers : list nat) : option (list label) :=
  if forallb (fun n => existsb (label_eqb (named n)) cols) normalizers then Some (map named normalizers) else None.
(** forecaster.py:345-349: the other forecasters pass the frame itself. *)
Definition denormalizable (cols : list label) (normalizers : list nat) : bool :=
  match select_columns cols normalizers with Some _ => true | None => false end.
(** With [denormalizable], forecaster.py:345-349. *)
Definition rff_denormalizable (cols : list label) (normalizers : list nat) : bool :=
  denormalizable (map numbered (seq 0 (length cols))) normalizers.
