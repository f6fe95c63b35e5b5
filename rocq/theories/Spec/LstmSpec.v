(** Vocabulary for the recurrent forecaster. *)
From Coq Require Import List Arith.
From Verif Require Import Model.Lstm.
Import ListNotations.
(** A frame of [n] rows. *)
Definition rows {T V E} (n : nat) (f : frame T V E) : Prop := length (labels f) = n /\ length (target f) = n /\ length (exog f) = n.
(** The frames agree on their first [q] rows. *)
Definition agree_before {T V E} (q : nat) (f g : frame T V E) : Prop := firstn q (target f) = firstn q (target g) /\ firstn q (exog f) = firstn q (exog g).
(** The values of [l] at [i], ..., [i + k - 1]. *)
Definition slice {A} (i k : nat) (l : list A) (r : list A) : Prop := length r = k /\ forall j, j < k -> nth_error r j = nth_error l (i + j) /\ i + j < length l.
Definition add_row {T V E} (f : frame T V E) (t : T) (v : V) (e : E) : frame T V E := Frame (labels f ++ [t]) (target f ++ [v]) (exog f ++ [e]).
