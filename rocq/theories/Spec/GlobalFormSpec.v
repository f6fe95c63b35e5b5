(** Specifications for global form, simulation, the threaded path and time limits. *)
From Coq Require Import List ZArith Bool Ascii.
From Verif Require Import Model.Names Model.Series Model.Transformer Model.Formatter Model.GlobalForm.
Import ListNotations.
Local Open Scope Z_scope.

(** All (time, signal name, value) of a table. *)
Definition observations {V} (idx : list Z) (cols : list (text * series V)) : list (Z * text * option V) :=
  flat_map (fun c => map (fun p => (fst p, fst c, snd p)) (combine idx (snd c))) cols.

(** The same, read off the long format. *)
Definition long_observations {V} (gs : list (gframe V)) : list (Z * text * option V) :=
  flat_map (fun g => map (fun p => (fst p, g_name g, snd p)) (combine (g_idx g) (g_target g))) gs.

(** [v] is a smallest / largest member of [l]. *)
Definition smallest (v : Z) (l : list Z) : Prop := In v l /\ forall u, In u l -> v <= u.
Definition largest (v : Z) (l : list Z) : Prop := In v l /\ forall u, In u l -> u <= v.
