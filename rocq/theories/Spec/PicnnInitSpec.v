(** Vocabulary: layers with their initial weights. *)
From Coq Require Import Reals.
From Verif Require Import Model.Picnn Model.PicnnInit.

(** The layer is as created, for some random draws; the weights that need no sign are arbitrary. *)
Definition as_created (plain : bool) (w : weights) : Prop := exists out dz dy lecun w0, w = new_layer plain out dz dy lecun w0.
