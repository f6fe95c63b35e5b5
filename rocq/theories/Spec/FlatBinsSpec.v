(** Vocabulary for the features of a transformer with [nested=False]. *)
From Coq Require Import List ZArith Bool Ascii.
From Verif Require Import Model.Names Model.Series Model.Transformer Spec.TransformerSpec Spec.TransformerInput.
Import ListNotations.
Local Open Scope Z_scope.

Section S.
Context {V : Type}.

(** Requests for one source column in the order lag, function, bin. *)
Definition flat_requested (name : text) (lags : list (option Z * Z)) (bins : list (Z * Z))
    (fs : list (aggfun V)) : list (entry V) :=
  flat_map (fun l => flat_map (fun f => map (fun b =>
     Entry name f (fst l) (snd l) (fst b) (snd b)) bins) fs) lags.

(** Every observation is there. *)
Definition no_gap (d : list (option V)) : Prop := forall i, (i < length d)%nat -> nth i d None <> None.

(** Exactly observation [g] is missing. *)
Definition gap_at (g : nat) (d : list (option V)) : Prop :=
  (g < length d)%nat /\ forall i, (i < length d)%nat -> (nth i d None = None <-> i = g).

(** An aggregation that is a number whenever all samples are. *)
Definition total_fun (f : list (option V) -> option V) : Prop :=
  forall w, w <> [] -> forallb present w = true -> f w <> None.
End S.

(** Rows in which a request is computed on a series of [n] rows: the row and the
    lagged row leave room for the whole span after them, and the span the bins cover,
    counted back from the lagged row, lies inside the data. *)
Definition computed {V} (n : Z) (edges : list Z) (e : entry V) (i : Z) : Prop :=
  i + total_span edges <= n /\
  0 <= i - e_rows e /\ i - e_rows e + total_span edges <= n /\
  0 <= i - e_rows e - hd 0 edges + 1 /\ i - e_rows e - last edges 0 <= n - 1.
