(** Model of the construction of the multi-predictor models (fast_adaptive_models.py:427-499, holtwinters.py:386-426), of
    the slices of the stored basis (fast_adaptive_models.py:196-199, 208-250), and of what reconfiguring and tuning change
    (fast_adaptive_models.py:124-134, 345-405; holtwinters.py:75-118). *)
From Coq Require Import String Reals List Arith ZArith Bool.
From Verif Require Import Model.Stats Model.HoltWinters Model.FourierEs Model.FourierKalman.
Import ListNotations.
Local Open Scope string_scope.
Local Open Scope R_scope.

(** ** Dictionaries of keyword arguments *)
(** Values of keyword arguments; [VOther] stands for any value that is only passed on. fast_adaptive_models.py:81-85. *)
Inductive val := VNat (n : nat) | VReal (r : R) | VBool (b : bool) | VNone | VOther (tag : nat).
(** A python dict, in insertion order. fast_adaptive_models.py:81-85. *)
Definition dict := list (string * val).
(** [d.get(k)], fast_adaptive_models.py:81-85. *)
Fixpoint get (k : string) (d : dict) : option val :=
  match d with [] => None | (k', v) :: d' => if String.eqb k k' then Some v else get k d' end.
(** [d[k] = v], fast_adaptive_models.py:484. *)
Fixpoint set (k : string) (v : val) (d : dict) : dict :=
  match d with [] => [(k, v)] | (k', v') :: d' => if String.eqb k k' then (k, v) :: d' else (k', v') :: set k v d' end.
(** [d.update(d')], fast_adaptive_models.py:87, 484. *)
Definition update (d d' : dict) : dict := fold_left (fun d e => set (fst e) (snd e) d) d' d.

(** ** fast_adaptive_models.py:157-199: Fourier_es from keyword arguments *)
(** A keyword argument that must be a natural number, with its default. fast_adaptive_models.py:157-159. *)
Definition nat_arg (k : string) (default : nat) (d : dict) : option nat :=
  match get k d with None => Some default | Some (VNat n) => Some n | Some _ => None end.
(** A keyword argument that must be a number, with its default. fast_adaptive_models.py:157-159. *)
Definition real_arg (k : string) (default : R) (d : dict) : option R :=
  match get k d with None => Some default | Some (VNat n) => Some (INR n) | Some (VReal r) => Some r | Some _ => None end.
(** fast_adaptive_models.py:177: the periodicity defaults to the number of steps ahead. *)
Definition period_arg (n_sa : nat) (d : dict) : option nat :=
  match get "periodicity" d with None | Some VNone => Some n_sa | Some (VNat n) => Some n | Some _ => None end.
(** fast_adaptive_models.py:181, 197: int(min(n_harmonics, m // 2)). *)
Definition harmonics_int (h : val) (m : nat) : nat :=
  match h with
  | VNat n => Nat.min n (m / 2)
  | VReal r => Z.to_nat (Int_part (Rmin r (INR (m / 2))))
  | _ => O
  end.
(** fast_adaptive_models.py:167-169: the assertions on the parameters. *)
Definition between_0_1 (r : R) : bool := Rltb 0 r && Rltb r 1.
(** fast_adaptive_models.py:80, 167-169. *)
Definition positive_arg (v : val) : bool := match v with VNat n => (0 <? n)%nat | VReal r => Rltb 0 r | _ => false end.
(** fast_adaptive_models.py:10-14: arguments that these models refuse. *)
Definition refused (d : dict) : bool :=
  match get "max_scengen_rows" d, get "scengen_random_state" d with None, None => false | _, _ => true end.
(** fast_adaptive_models.py:157-199: [None] = an exception. Unknown arguments are accepted. *)
Definition fourier_es (d : dict) : option fparams :=
  match nat_arg "m" 24 d, nat_arg "n_sa" 1 d, real_arg "alpha" (8 / 10) d, real_arg "omega" (99 / 100) d with
  | Some m, Some n_sa, Some alpha, Some omega =>
      let h := match get "n_harmonics" d with None => VNat 3 | Some h => h end in
      match period_arg n_sa d with
      | Some period =>
          if between_0_1 alpha && between_0_1 omega && positive_arg h && (0 <? m)%nat && negb (refused d)
          then Some (FParams m n_sa period (harmonics_int h m) alpha omega) else None
      | None => None
      end
  | _, _, _, _ => None
  end.

(** ** fast_adaptive_models.py:427-499: FK_multi with its default base_predictor *)
(** The arguments of the constructor; [kwargs] are the remaining ones. fast_adaptive_models.py:427-430. *)
Record multi_args := MultiArgs {
  a_target : val; a_targets : val; a_n_sa : nat; a_n_predictors : nat; a_alphas : val; a_m : nat; a_omegas : val;
  a_ns_harmonics : val; a_val_ratio : val; a_nodes : val; a_q_vect : val; a_periodicity : option nat;
  a_optimize : bool; a_optimize_sub : bool; a_budget : val; a_r : val; a_q : val; a_verbose : bool;
  a_submodels_pars : option (list dict); a_kwargs : dict }.
(** fast_adaptive_models.py:82-87: the arguments recorded by the base class. *)
Definition base_pars (a : multi_args) : dict :=
  update
    [("target_name", a_target a); ("targets_names", a_targets a); ("n_sa", VNat (a_n_sa a)); ("m", VNat (a_m a));
     ("val_ratio", a_val_ratio a); ("optimize_hyperpars", VBool (a_optimize a)); ("optimization_budget", a_budget a);
     ("verbose", VBool (a_verbose a)); ("nodes_at_step", a_nodes a); ("q_vect", a_q_vect a)]
    (a_kwargs a).
(** fast_adaptive_models.py:445, 471-472: the copy made before the parameters of the whole model are added (448-452), and
    its update. *)
Definition submodels_init_pars (a : multi_args) : dict :=
  update (base_pars a) [("optimize_hyperpars", VBool (a_optimize_sub a)); ("verbose", VBool true)].
(** fast_adaptive_models.py:455: [self.periodicity]. *)
Definition period_of (a : multi_args) : nat := match a_periodicity a with Some p => p | None => a_n_sa a end.
(** fast_adaptive_models.py:474-475: np.linspace(1, m, n + 1).astype(int)[1:], in exact arithmetic, and the maximum with
    the number of steps ahead. *)
Definition histories (a : multi_args) : list nat :=
  map (fun k => Nat.max (1 + (S k * (a_m a - 1)) / a_n_predictors a) (a_n_sa a)) (seq 0 (a_n_predictors a)).
(** fast_adaptive_models.py:478-482. *)
Definition adjusted (a : multi_args) : list nat :=
  if existsb (fun m => (m <? period_of a)%nat) (histories a)
  then map (fun m => Nat.max m (period_of a)) (histories a) else histories a.
(** Building a list of objects, any of which may raise. fast_adaptive_models.py:496-499. *)
Fixpoint build {A B} (f : A -> option B) (l : list A) : option (list B) :=
  match l with
  | [] => Some []
  | x :: l' => match f x, build f l' with Some y, Some ys => Some (y :: ys) | _, _ => None end
  end.
(** fast_adaptive_models.py:438-499: the predictors. With [submodels_pars], entry i is read for i < n_predictors. *)
Definition fk_multi (a : multi_args) : option (list fparams) :=
  if (0 <? a_m a)%nat && negb (refused (a_kwargs a)) && (period_of a <? a_m a)%nat then
    match a_submodels_pars a with
    | Some ds =>
        if (length ds <? a_n_predictors a)%nat then None else build fourier_es (firstn (a_n_predictors a) ds)
    | None => build (fun m => fourier_es (update (submodels_init_pars a) [("m", VNat m)])) (adjusted a)
    end
  else None.

(** fast_adaptive_models.py:157, 82-87: whether a predictor with these arguments tunes itself when fitted. *)
Definition tunes (d : dict) : bool := match get "optimize_hyperpars" d with None => true | Some (VBool b) => b | Some VNone => false | Some (VNat n) => (0 <? n)%nat | Some (VReal r) => Rltb 0 r || Rltb r 0 | Some (VOther _) => true end.
(** fast_adaptive_models.py:471-499: which of the predictors tune themselves. *)
Definition predictors_tune (a : multi_args) : list bool :=
  match a_submodels_pars a with
  | Some ds => map tunes (firstn (a_n_predictors a) ds)
  | None => map (fun m => tunes (update (submodels_init_pars a) [("m", VNat m)])) (adjusted a)
  end.

(** ** holtwinters.py:386-426: HoltWintersMulti *)
(** The arguments that concern its models. holtwinters.py:386-389. *)
Record hw_args := HwArgs {
  h_periods : nat * nat; h_n_sa : nat; h_constraints : option (R * R); h_models_periods : option (list nat);
  h_alphas : option (list R); h_gammas_1 : option (list R); h_gammas_2 : option (list R) }.
(** holtwinters.py:409. *)
Definition horizons (a : hw_args) : list nat := match h_models_periods a with Some l => l | None => seq 1 (h_n_sa a) end.
(** holtwinters.py:410-412. *)
Definition or_default (l : option (list R)) (n : nat) : list R := match l with Some l => l | None => repeat (1 / 100) n end.
(** holtwinters.py:418-426: beta has its default, 0, and there is no argument for the constraints, whose default is none;
    a list that is too short raises. *)
Definition hw_multi (a : hw_args) : option (list params) :=
  let n := length (horizons a) in
  let al := or_default (h_alphas a) n in
  let g1 := or_default (h_gammas_1 a) n in
  let g2 := or_default (h_gammas_2 a) n in
  build (fun ih => match nth_error al (fst ih), nth_error g1 (fst ih), nth_error g2 (fst ih) with
                   | Some x, Some y, Some z => Some (Params x 0 y z None None (fst (h_periods a)) (snd (h_periods a)) (snd ih))
                   | _, _, _ => None
                   end)
    (combine (seq 0 n) (horizons a)).

(** ** fast_adaptive_models.py:208-250 with the slices of the stored basis *)
(** A python index or slice bound: negative ones count from the end; bounds are clipped. fast_adaptive_models.py:226-228. *)
Definition bound (n : nat) (b : Z) : nat :=
  Z.to_nat (Z.min (Z.of_nat n) (Z.max 0 (if b <? 0 then b + Z.of_nat n else b)%Z)).
(** [l[a:b]], fast_adaptive_models.py:226-228. *)
Definition py_slice {V} (l : list V) (a b : Z) : list V :=
  firstn (bound (length l) b - bound (length l) a) (skipn (bound (length l) a) l).
(** fast_adaptive_models.py:196-199: the stored rows of the basis. *)
Definition stored_basis (p : fparams) : list (list R) :=
  map (fun t => map (basis (fm p) t) (seq 0 (dim p))) (seq 0 (2 * fm p + Nat.max (fsa p) (fperiod p))).
(** Product of a vector with a list of rows, used at fast_adaptive_models.py:236-238. *)
Definition dot (a b : list R) : R := rsum (fun k => nth k a 0 * nth k b 0) (length a).
(** numpy's addition of two vectors: equal lengths, or one of them of length one. fast_adaptive_models.py:240. *)
Definition broadcast (f : R -> R -> R) (a b : list R) : option (list R) :=
  if (length a =? length b)%nat then Some (map (fun ab => f (fst ab) (snd ab)) (combine a b))
  else match a, b with
       | [x], _ => Some (map (f x) b)
       | _, [y] => Some (map (fun x => f x y) a)
       | _, _ => None
       end.
(** fast_adaptive_models.py:226-240: one row; [None] = an exception. The window has as many values as the slice rows. *)
Definition step_sliced (p : fparams) (y w0 : list R) (s : fstate) (i : nat) : option (fstate * list R) :=
  let P := stored_basis p in
  let im := Z.of_nat (i mod fm p) in
  let m := Z.of_nat (fm p) in
  let past := py_slice P im (im + m) in
  let first := (im + m - Z.of_nat (fperiod p))%Z in
  let fut := py_slice P first (first + Z.of_nat (fsa p)) in
  let w := window_at y w0 i in
  let eps := fomega p * (last w 0 - flast s) + (1 - fomega p) * feps s in
  let c := map (fun j => dot w (map (fun row => nth j row 0) past)) (seq 0 (dim p)) in
  let x := mix (falpha p) c (fx s) in
  let pr := map (fun row => dot row x) fut in
  match pr with
  | [] => None
  | v :: _ =>
      match broadcast Rplus pr (map (fun h => eps * (INR (fsa p - h) ^ 2) / INR (fsa p) ^ 2) (seq 0 (fsa p))) with
      | Some row => Some (FState x eps v w, row)
      | None => None
      end
  end.
(** fast_adaptive_models.py:226-240: all the rows. *)
Fixpoint steps_sliced (p : fparams) (y w0 : list R) (s : fstate) (is : list nat) : option (list (list R) * fstate) :=
  match is with
  | [] => Some ([], s)
  | i :: is' =>
      match step_sliced p y w0 s i with
      | Some (s1, r) => match steps_sliced p y w0 s1 is' with Some (rs, s2) => Some (r :: rs, s2) | None => None end
      | None => None
      end
  end.
(** fast_adaptive_models.py:208-250. *)
Definition run_sliced (p : fparams) (st : fstored) (y : list R) (fit : bool) : option (list (list R) * fstored) :=
  match steps_sliced p y (st_w st) (fstart p st y) (seq 0 (length y)) with
  | Some (rows, s) => Some (rows, if fit then FStored (Some (fx s)) (feps s) (flast s) (fw s) else st)
  | None => None
  end.

(** ** fast_adaptive_models.py:345-405: reconfiguring FK *)
(** The number of harmonics with the state and the record of the coefficients. fast_adaptive_models.py:341-363. *)
Record fk_object (C : Type) := FkObject { ob_harmonics : nat; ob_fk : fk (list R) C }.
Arguments FkObject {C}. Arguments ob_harmonics {C}. Arguments ob_fk {C}.
(** fast_adaptive_models.py:349-363: the states are those of a new object ([fresh_state]), the record is kept. *)
Definition reinit {C} (fresh_state : nat -> kstate (list R) C) (h : nat) (o : fk_object C) : fk_object C :=
  FkObject h (Fk (fresh_state h) (fk_history (ob_fk o))).
(** fast_adaptive_models.py:341-346. *)
Definition create {C} (fresh_state : nat -> kstate (list R) C) (h : nat) : fk_object C := FkObject h (Fk (fresh_state h) []).
(** fast_adaptive_models.py:376-409: np.vstack at 393 requires rows of equal length. *)
Definition run_object {C} (o : nat -> ops (list R) C) (m n_sa : nat) (omega : R) (ob : fk_object C) (y : list R) (fit : bool)
  : option (list (list R) * fk_object C) :=
  let h := ob_harmonics ob in
  if forallb (fun row => (length row =? 2 * h + 1)%nat) (fk_history (ob_fk ob)) then
    let '(rows, f) := krun (o h) m n_sa omega (ob_fk ob) y fit in Some (rows, FkObject h f)
  else None.

(** ** fast_adaptive_models.py:124-134 and holtwinters.py:75-118: tuning *)
(** A forecaster: the attributes named like arguments of the constructor, and the recorded arguments. The conversion of
    arguments into attributes (a periodicity of None becomes n_sa) is left out. fast_adaptive_models.py:80-93. *)
Record tunable := Tunable { t_attrs : dict; t_init : dict }.
(** forecaster.py:90-91: only existing attributes are set. *)
Definition set_params (attrs new : dict) : dict :=
  map (fun e => (fst e, match get (fst e) new with Some v => v | None => snd e end)) attrs.
(** holtwinters.py:75, 110-111, 118: the arguments of the best model; [best] are the parameters of the best trial. Its
    get_params reads attributes that hold these arguments. *)
Definition tuned_args (init best : dict) : dict := update (update init [("optimize_hyperpars", VBool false)]) best.
(** fast_adaptive_models.py:124-134 (and holtwinters.py:183-186): the part of fit that concerns the parameters;
    [search] is the best trial found on the data. *)
Definition fit_tune {D} (search : D -> dict) (o : tunable) (data : D) : tunable :=
  match get "optimize_hyperpars" (t_attrs o) with
  | Some (VBool true) =>
      let args := tuned_args (t_init o) (search data) in
      Tunable (set_params (t_attrs o) args) args
  | _ => o
  end.
