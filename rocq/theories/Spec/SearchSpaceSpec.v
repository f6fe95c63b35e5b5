(** Vocabulary for the claims on tuning trials. *)
From Coq Require Import String List.
From Verif Require Import Model.FkConfig Model.SearchSpace.
Import ListNotations.

(** Forecasters a user can hold: constructed from keyword arguments, then set any number of times. *)
Inductive made (c : tclass) (defaults : string -> val) : tuned -> Prop :=
| made_new kw : made c defaults (create c defaults kw)
| made_set m params : made c defaults m -> made c defaults (assign m params).

(** The classes for which the package registers a search space. *)
Definition registered : list string :=
  ["LinearForecaster"; "LGBForecaster"; "LGBMHybrid"; "PICNN"; "StructuredPICNN"]%string.

(** The description of a registered class. *)
Definition describes (class : string) (c : tclass) : Prop :=
  In (class, c) [("LinearForecaster", linear_class); ("LGBForecaster", lgb_class); ("LGBMHybrid", hybrid_class);
                 ("PICNN", picnn_class); ("StructuredPICNN", structured_class)]%string.
