(** Vocabulary of the feed-forward networks. *)
From Coq Require Import List ZArith Reals.
From Verif Require Import Model.FeedForward.
Import ListNotations.
Local Open Scope R_scope.

(** Parameters that differ only in the heads of the other outputs. *)
Definition same_but_other_heads (k : nat) (p p' : name -> layer) : Prop :=
  (forall i, p (Hidden i) = p' (Hidden i)) /\ p Skip = p' Skip /\ p (SubIn k) = p' (SubIn k) /\ p (SubOut k) = p' (SubOut k).
(** A layer that has learned nothing: weights and biases are zero. *)
Definition zero_layer (l : layer) : Prop := forall w b, In (w, b) l -> b = 0 /\ Forall (fun v => v = 0) w.
(** The positions counted from the start. *)
Definition positions (s : list nat) : list Z := map Z.of_nat s.
(** The same network with another number of outputs, with another choice of shortcuts. *)
Definition with_out (n : option nat) (o : options) : options := Options (o_layers o) n (o_neurons o) (o_split o) (o_selector o) (o_skip o).
Definition with_shortcuts (s : option (list Z)) (skip : bool) (o : options) : options :=
  Options (o_layers o) (o_out o) (o_neurons o) (o_split o) s skip.
(** What a dense layer computes: for each unit the weighted sum of its inputs plus its bias. *)
Definition weighted (w x : list R) : R := fold_right Rplus 0 (map (fun j => nth j w 0 * nth j x 0) (seq 0 (length x))).
Definition affine (p : layer) (x : list R) : list R := map (fun wb => weighted (fst wb) x + snd wb) p.
(** A value if positive, zero otherwise. *)
Definition positive_part (v : R) : R := if Rle_dec 0 v then v else 0.
(** [h i] are the values after [i] hidden layers. *)
Definition hidden_values (par : name -> layer) (norm : nat -> list R -> list R) (n : nat) (x : list R) (h : nat -> list R) : Prop :=
  h O = x /\ forall i, (i < n)%nat -> h (S i) = norm i (map positive_part (affine (par (Hidden i)) (h i))).
(** The number of layers, however it is given. *)
Definition has_layers (o : options) (n : nat) : Prop := match o_layers o with Count m => m = n | Sizes l => length l = n end.
(** The positions counted from the end: 0 is the last one. *)
Definition from_the_end (s : list nat) : list Z := map (fun k => (- Z.of_nat (S k))%Z) s.
