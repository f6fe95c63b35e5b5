(** Which weights must be nonnegative. *)
From Coq Require Import Reals String List Bool.
From Verif Require Import Model.Names Model.Encoder Model.Reproject.
Import ListNotations.
Local Open Scope R_scope.

(** The dense map [key] of layer [inner] in the entry [outer] (equal to [inner] for a plain layer). *)
Definition constrained (rec_stable monotone : bool) (outer inner key : text) : bool :=
  contains (txt "PICNNLayer") outer && (same key (txt "wz") || (same key (txt "wy") && (rec_stable || monotone || contains (txt "monotone") outer || contains (txt "monotone") inner))).
(** Replace every constrained kernel by its positive part, and nothing else. *)
Definition positive_part (d : dense) : dense := Dense (map (map (fun w => if Rle_dec 0 w then w else 0)) (kernel d)) (bias d).
Definition fix_group (c : text -> bool) (g : group) : group := map (fun e => (fst e, if c (fst e) then positive_part (snd e) else snd e)) g.
Definition fixed (rec_stable monotone : bool) (t : tree) : tree :=
  map (fun e => (fst e, match snd e with
    | Flat g => Flat (fix_group (constrained rec_stable monotone (fst e) (fst e)) g)
    | Nested l => Nested (map (fun f => (fst f, fix_group (constrained rec_stable monotone (fst e) (fst f)) (snd f))) l)
    end)) t.
(** [d] is the dense map [key] of layer [inner] in entry [outer]. *)
Definition dense_at (t : tree) (outer inner key : text) (d : dense) : Prop :=
  (exists g, In (outer, Flat g) t /\ inner = outer /\ In (key, d) g) \/ (exists l g, In (outer, Nested l) t /\ In (inner, g) l /\ In (key, d) g).
Definition nonnegative (d : dense) : Prop := Forall (Forall (fun w => 0 <= w)) (kernel d).
(** Every layer of an input-convex entry has its z and y maps, and modules hold layers only. *)
Definition complete (g : group) : Prop := In (txt "wz") (names g) /\ In (txt "wy") (names g).
Definition well_formed (t : tree) : Prop := forall name n, In (name, n) t -> contains (txt "PICNNLayer") name = true ->
  match n with Flat g => complete g | Nested l => ~ In (txt "wz") (names l) /\ forall m g, In (m, g) l -> complete g end.
(** What the projection guarantees. *)
Definition feasible (rs mono : bool) (t : tree) : Prop := well_formed t /\ forall outer inner key d, dense_at t outer inner key d -> constrained rs mono outer inner key = true -> nonnegative d.
