(** Vocabulary for the columns of the neural forecasters. *)
From Coq Require Import Reals List.
From Verif Require Import Model.Names Model.Optimize.
Import ListNotations.

(** [o] is [r] without the columns [names], in the same order. *)
Inductive rest (names : list text) : row -> row -> Prop :=
| rest_nil : rest names [] []
| rest_drop c v r o : In c names -> rest names r o -> rest names ((c, v) :: r) o
| rest_keep c v r o : ~ In c names -> rest names r o -> rest names ((c, v) :: r) ((c, v) :: o).
