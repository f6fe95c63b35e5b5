(** Model of the categorical encoding decorator (forecaster.py:26-52) and of the
    estimator parameters (forecaster.py:56-94, 325-331, 358-397). *)
From Coq Require Import List ZArith Bool Arith Ascii String.
From Verif Require Import Model.Names.
Import ListNotations.
Local Open Scope list_scope.

(** Used by [lookup], forecaster.py:33-47. *)
Definition same (a b : text) : bool := if list_eq_dec Ascii.ascii_dec a b then true else false.
(** Used by [encode_col], forecaster.py:33-47. *)
Fixpoint lookup {V} (k : text) (d : list (text * V)) : option V :=
  match d with [] => None | (k', v) :: d' => if same k k' then Some v else lookup k d' end.

(** Python's [<] on strings, on character codes. Used by [tinsert], forecaster.py:33-47. *)
Fixpoint tlt (a b : text) : bool :=
  match a, b with
  | [], [] => false
  | [], _ => true
  | _, [] => false
  | x :: a', y :: b' =>
      if (nat_of_ascii x <? nat_of_ascii y)%nat then true
      else if (nat_of_ascii x =? nat_of_ascii y)%nat then tlt a' b' else false
  end.

(** [LabelEncoder.fit]: sorted distinct values. Used by [classes], forecaster.py:33-47. *)
Fixpoint tinsert (x : text) (l : list text) : list text :=
  match l with
  | [] => [x]
  | a :: l' => if same x a then l else if tlt x a then x :: l else a :: tinsert x l'
  end.
(** Used by [encode_col], forecaster.py:33-47. *)
Definition classes (l : list text) : list text := fold_right tinsert [] l.
(** [LabelEncoder.transform]: position in the classes. Used by [codes], forecaster.py:33-47. *)
Fixpoint position (v : text) (l : list text) : nat :=
  match l with [] => 0 | a :: l' => if same v a then 0 else S (position v l') end.
(** Used by [encode_col], forecaster.py:33-47. *)
Definition member (l : list text) (v : text) : bool := existsb (same v) l.

(** A column is numeric or categorical ([object]/[category], values as [str]). Used by [table], forecaster.py:27-50. *)
Inductive col := Num (l : list Z) | Cat (l : list text).
(** Used by [encode], forecaster.py:27-50. *)
Definition table := list (text * col).
(** Used by [encode_col], forecaster.py:33-47. *)
Definition encoders := list (text * list text).
(** Used by [encode_col], forecaster.py:33-47. *)
Definition codes (cl v : list text) : list Z := map (fun s => Z.of_nat (position s cl)) v.

(** forecaster.py:33-47, one column; the flag is false when an exception is raised. *)
Definition encode_col (le : encoders) (name : text) (c : col) : encoders * col * bool :=
  match c with
  | Num _ => (le, c, true)
  | Cat v =>
      match lookup name le with
      | None => (le ++ [(name, classes v)], Num (codes (classes v) v), true)
      | Some cl => if forallb (member cl) v then (le, Num (codes cl v), true) else (le, c, false)
      end
  end.
(** forecaster.py:27-50: the wrapped method and the caller both see the resulting
    frame, because the columns are assigned in place. *)
Fixpoint encode (le : encoders) (x : table) : encoders * table * bool :=
  match x with
  | [] => (le, [], true)
  | (name, c) :: x' =>
      let '(le1, c1, ok) := encode_col le name c in
      if ok then let '(le2, x2, ok2) := encode le1 x' in (le2, (name, c1) :: x2, ok2)
      else (le1, (name, c1) :: x', false)
  end.
(** A sequence of decorated calls (fit or predict) on an estimator; exceptions may be
    caught by the caller, the encoders created before them stay. forecaster.py:26-52. *)
Fixpoint encode_all (le : encoders) (calls : list table) : encoders * list (table * bool) :=
  match calls with
  | [] => (le, [])
  | x :: calls' =>
      let '(le1, y, ok) := encode le x in
      let '(le2, ys) := encode_all le1 calls' in (le2, (y, ok) :: ys)
  end.

(** ** Parameters *)
Section Params.
Context {V : Type}.
(** An object's [__dict__]. Used by [assign], forecaster.py:90-91. *)
Definition dict := list (text * V).
(** Used by [set_params], forecaster.py:90-91. *)
Fixpoint assign (k : text) (v : V) (d : dict) : dict :=
  match d with
  | [] => [(k, v)]
  | (k', v') :: d' => if same k k' then (k', v) :: d' else (k', v') :: assign k v d'
  end.
(** Used by [set_params], forecaster.py:90-91. *)
Definition has (k : text) (d : dict) : bool := match lookup k d with Some _ => true | None => false end.
(** forecaster.py:90-91. *)
Definition set_params (kw d : dict) : dict :=
  fold_left (fun d kv => if has (fst kv) d then assign (fst kv) (snd kv) d else d) kw d.
(** forecaster.py:93-94; [sig] are the names in the constructor's signature. *)
Definition get_params (sig : list text) (d : dict) : dict :=
  flat_map (fun k => match lookup k d with Some v => [(k, v)] | None => [] end) sig.

(** Arguments: given ones override defaults. forecaster.py:359-389. *)
Definition argument (kw : dict) (p : text * V) : V :=
  match lookup (fst p) kw with Some v => v | None => snd p end.

(** A forecaster: its own attributes, those of its scenario generator, and for
    LightGBM the dictionary of training parameters built in the constructor.
    Used by [linear_init], forecaster.py:57-80, 326-331, 359-389. *)
Record estimator := Estimator { e_attrs : dict; e_scengen : dict; e_training : dict }.

(** Used by [linear_signature], forecaster.py:326-331. *)
Definition txt (s : string) : text := list_ascii_of_string s.

(** Which arguments become attributes: LinearForecaster (forecaster.py:326-331 with
    57-80 and scenarios_generator.py:18-38). [d] gives the default values. *)
Definition linear_signature : list text :=
  map txt ["q_vect"; "val_ratio"; "nodes_at_step"; "kind"; "max_scengen_rows"; "scengen_random_state"; "scengen_kwgs"]%string.
(** Used by [linear_init], forecaster.py:57-80. *)
Definition base_attributes : list text :=
  map txt ["max_scengen_rows"; "scengen_random_state"; "q_vect"; "val_ratio"; "n_scen_fit"; "additional_node";
           "formatter"; "conditional_to_hour"]%string.
(** Used by [linear_init], scenarios_generator.py:18-38. *)
Definition scengen_attributes : list text :=
  map txt ["q_vect"; "nodes_at_step"; "additional_node"; "online_tree_reduction"; "copula_type"; "tree_type"]%string.
(** Used by [linear_init], forecaster.py:326-331. *)
Definition take (d : text -> V) (kw : dict) (names : list text) : dict :=
  map (fun n => (n, argument kw (n, d n))) names.
(** Used by [clone_linear], forecaster.py:326-331. *)
Definition linear_init (d : text -> V) (kw : dict) : estimator :=
  Estimator (take d kw (base_attributes ++ [txt "kind"])) (take d kw scengen_attributes) [].

(** LGBForecaster (forecaster.py:378-389): [lgb_pars] is filled once. *)
Definition lgb_training : list text :=
  map txt ["device_type"; "objective"; "max_depth"; "n_estimators"; "num_leaves"; "learning_rate"; "verbose"; "metric";
           "min_child_samples"; "n_jobs"; "colsample_bytree"; "colsample_bynode"]%string.
(** With [lgb_training], forecaster.py:359-361. *)
Definition lgb_signature : list text :=
  lgb_training ++ map txt ["n_jobs_predict"; "q_vect"; "val_ratio"; "nodes_at_step"; "max_scengen_rows";
                           "scengen_random_state"; "scengen_kwgs"]%string.
(** With [lgb_signature], forecaster.py:359-389. *)
Definition lgb_init (d : text -> V) (kw : dict) : estimator :=
  Estimator (take d kw (base_attributes ++ lgb_training ++ [txt "n_jobs_predict"]))
            (take d kw scengen_attributes) (take d kw lgb_training).

(** [set_params] on the estimator object changes its own attributes only. forecaster.py:90-91. *)
Definition estimator_set (kw : dict) (e : estimator) : estimator :=
  Estimator (set_params kw (e_attrs e)) (e_scengen e) (e_training e).
(** The parameters the booster is trained with (forecaster.py:395). *)
Definition trained_with (e : estimator) : dict := e_training e.
(** [sklearn.clone]-style copy: the constructor applied to [get_params]. forecaster.py:93-94. *)
Definition clone_linear (d : text -> V) (e : estimator) : estimator :=
  linear_init d (get_params linear_signature (e_attrs e)).
End Params.
Arguments dict V : clear implicits.
Arguments estimator V : clear implicits.
