(** Model of scenario reduction and of the networks built from it (scenred.py).
    Scenarios are numbered 0..N-1, steps 0..T-1; matrices are functions of their indices.
    A value of a scenario at a step is an array, compared as a whole (type [V]).
    Exact arithmetic. *)
From Coq Require Import List Bool Arith Reals.
From Verif Require Import Model.Subsample Model.Stats Model.Metrics.
Import ListNotations.
Local Open Scope R_scope.

(** First position of the smallest of [f 0 .. f n] (numpy's argmin), and the minimum.
    Used by [argmin], scenred.py:135-140. *)
Fixpoint argmin_upto (f : nat -> R) (n : nat) : nat :=
  match n with
  | O => O
  | S m => if Rltb (f (S m)) (f (argmin_upto f m)) then S m else argmin_upto f m
  end.
(** Used by [column_min], scenred.py:135-140. *)
Definition argmin (f : nat -> R) (n : nat) : nat := argmin_upto f (n - 1).
(** Used by [max_of], scenred.py:84-87. *)
Fixpoint max_upto (f : nat -> R) (n : nat) : R :=
  match n with O => f O | S m => Rmax (max_upto f m) (f (S m)) end.
(** Used by [largest], scenred.py:84-87. *)
Definition max_of (f : nat -> R) (n : nat) : R := max_upto f (n - 1).

(** scenred.py:88. *)
Definition infty : R := 1000000000000.

Section Reduction.
Context {V : Type} (T N : nat)
  (dist : nat -> nat -> nat -> R)        (* get_dist on the first i+1 steps: scenario, scenario *)
  (nearest : (nat -> R) -> nat -> nat)   (* first entry of np.argsort; ties are broken at will *)
  (tol : nat -> R) (nodes : nat -> nat).

(** Used by [masked], scenred.py:125-130. *)
Record reduction := Reduction {
  J : nat -> nat -> bool;     (* step, scenario *)
  P : nat -> nat -> R;
  L : nat -> nat -> bool;
  SC : nat -> nat -> V }.

(** scenred.py:84-87: the diagonal is larger than every distance. *)
Definition largest : R := max_of (fun r => max_of (dist (T - 1) r) N) N.
(** Used by [masked], scenred.py:125-130. *)
Definition distance0 (r c : nat) : R := dist (T - 1) r c + (if (r =? c)%nat then 1 + largest else 0).

(** scenred.py:125-130: distances between surviving scenarios; smallest of a column. *)
Definition masked (st : reduction) (i c r : nat) : R := if J st i r && J st i c then distance0 r c else infty.
(** Used by [cost], scenred.py:135-140. *)
Definition column_min (st : reduction) (i c : nat) : R := masked st i c (argmin (masked st i c) N).
(** scenred.py:135-140. *)
Definition cost (st : reduction) (i c : nat) : R := if J st i c then column_min st i c * P st i c else infty.
(** Used by [augmented], scenred.py:124-164. *)
Definition removed (st : reduction) (i : nat) : nat := argmin (cost st i) N.
(** Used by [merge], scenred.py:124-164. *)
Definition augmented (st : reduction) (i : nat) : nat := nearest (masked st i (removed st i)) N.

(** scenred.py:141-159: one merge. *)
Definition set2 {A} (f : nat -> nat -> A) (i c : nat) (v : A) : nat -> nat -> A :=
  fun i' c' => if (i' =? i)%nat && (c' =? c)%nat then v else f i' c'.
(** Used by [reduce_loop], scenred.py:124-164. *)
Definition merge (i : nat) (st : reduction) : reduction :=
  let rem := removed st i in
  let aug := augmented st i in
  let J1 := set2 (J st) i rem false in
  let P1 := set2 (P st) i aug (P st i rem + P st i aug) in
  let P2 := set2 P1 i rem 0 in
  let L1 := set2 (L st) aug rem true in
  let L2 := fun a c => if (a =? aug)%nat && L1 rem c then true else L1 a c in
  let S1 := fun u c => if (u <=? i)%nat && (c =? rem)%nat then SC st u aug else SC st u c in
  let S2 := fun u c => if (u <=? i)%nat && L2 rem c then S1 u aug else S1 u c in
  Reduction J1 P2 L2 S2.

(** scenred.py:146: remaining branches. *)
Definition branches (st : reduction) (i : nat) : nat := length (filter (fun c => Rltb 0 (P st i c)) (seq 0 N)).

(** scenred.py:120-122: [delta_max]. *)
Definition alive (st : reduction) (i : nat) : list nat := filter (J st i) (seq 0 N).
(** Used by [reduce_step], scenred.py:109-172. *)
Definition delta_max (st : reduction) (i : nat) : R :=
  let l := alive st i in
  let cost c := Rsum (map (fun r => if (r =? c)%nat then 0 else dist i r c) l) in
  match l with [] => 0 | c0 :: l' => fold_left (fun m c => Rmin m (cost c)) l' (cost c0) end.
(** scenred.py:162-164: [delta_rel]; with a zero denominator it is NaN or infinite and below nothing. *)
Definition ratio (a b : R) : option R := if Req_EM_T b 0 then None else Some (a / b).
(** Used by [reduce_loop], scenred.py:124-164. *)
Definition below_tol (d : option R) (t : R) : bool := match d with Some v => Rltb v t | None => false end.

(** scenred.py:124-164: the loop of one step. [delta] is the pair (delta_p, delta_rel); [fuel]
    bounds the number of merges. *)
Fixpoint reduce_loop (fuel i : nat) (dmax delta_p : R) (delta_rel : option R) (st : reduction) : reduction :=
  match fuel with
  | O => st
  | S fuel' =>
      if below_tol delta_rel (tol i) && (nodes i <? branches st i)%nat then
        let st' := merge i st in
        let dp := if Req_EM_T (tol i) infty then delta_p else delta_p + cost st i (removed st i) in
        reduce_loop fuel' i dmax dp (ratio dp dmax) st'
      else st
  end.
(** Used by [reduce_from], scenred.py:109-172. *)
Definition reduce_step (i : nat) (st : reduction) : reduction :=
  reduce_loop N i (delta_max st i) 0 (Some 0) st.
(** scenred.py:166-172. *)
Definition carry (i : nat) (st : reduction) : reduction :=
  match i with
  | O => st
  | S i' => Reduction (fun u c => if (u =? i')%nat then J st i c else J st u c)
                      (fun u c => if (u =? i')%nat then P st i c else P st u c) (L st) (SC st)
  end.
(** scenred.py:109-172: steps [k-1 .. 0]. *)
Fixpoint reduce_from (k : nat) (st : reduction) : reduction :=
  match k with O => st | S i => reduce_from i (carry i (reduce_step i st)) end.
(** Used by [reduce], scenred.py:18-195. *)
Definition initial (samples : nat -> nat -> V) : reduction :=
  Reduction (fun _ _ => true) (fun _ _ => / INR N) (fun _ _ => false) samples.
(** Used by [scenred], scenred.py:18-195. *)
Definition reduce (samples : nat -> nat -> V) : reduction := reduce_from T (initial samples).
(** scenred.py:176-177: the scenarios kept. *)
Definition kept (st : reduction) : list nat := filter (J st (T - 1)) (seq 0 N).
End Reduction.
Arguments reduction : clear implicits.

(** scenred.py:90-96, 98-101: tolerances and node counts; [None] nodes = one per step
    and a tolerance. The first count is forced to one. *)
Definition all_ones (T : nat) (ns : nat -> nat) : bool := forallb (fun i => (ns i =? 1)%nat) (seq 0 T).
(** Used by [scenred], scenred.py:18-195. *)
Definition tolerance (T : nat) (t : R) (ns : nat -> nat) (i : nat) : R :=
  if all_ones T ns then match i with O => infty | _ => t / (3 / 2) ^ (i + 2) end else infty.
(** Used by [scenred], scenred.py:18-195. *)
Definition node_counts (ns : option (nat -> nat)) : nat -> nat := match ns with None => fun _ => 1%nat | Some f => f end.
(** Used by [scenred], scenred.py:18-195. *)
Definition forced (ns : nat -> nat) (i : nat) : nat := match i with O => 1%nat | _ => ns i end.

(** A network: node [k] has a time, a probability and a value; edges are pairs. Used by [visit], scenred.py:305-341. *)
Record graph V := Graph { g_nodes : list (nat * R * V); g_edges : list (nat * nat) }.
Arguments Graph {V}. Arguments g_nodes {V}. Arguments g_edges {V}.

Section Network.
Context {V : Type} (eqd : forall a b : V, {a = b} + {a <> b}).
(** Used by [same], scenred.py:305-341. *)
Definition n_time (x : nat * R * V) : nat := fst (fst x).
(** With [n_time], scenred.py:305-341. *)
Definition n_prob (x : nat * R * V) : R := snd (fst x).
(** Used by [same], scenred.py:305-341. *)
Definition n_val (x : nat * R * V) : V := snd x.
(** Used by [visit], scenred.py:305-341. *)
Definition same (t : nat) (v : V) (x : nat * R * V) : bool := (n_time x =? t)%nat && (if eqd (n_val x) v then true else false).
(** Used by [visit], scenred.py:305-341. *)
Fixpoint find_index {A} (f : A -> bool) (l : list A) : option nat :=
  match l with [] => None | a :: l' => if f a then Some 0%nat else option_map S (find_index f l') end.

(** scenred.py:305-341: one point. [None] = ValueError. The separate lists [times] and
    [values] hold the nodes other than the root, whose time 0 is never looked up. *)
Definition visit (SS : nat -> nat -> V) (PP : nat -> nat -> R) (t s : nat) (g : graph V) : option (graph V) :=
  if Req_EM_T (PP t s) 0 then Some g
  else if existsb (same t (SS t s)) (g_nodes g) then Some g
  else match find_index (same (t - 1) (SS (t - 1)%nat s)) (g_nodes g) with
       | None => None
       | Some x => Some (Graph (g_nodes g ++ [(t, PP t s, SS t s)]) (g_edges g ++ [(x, length (g_nodes g))]))
       end.
(** Used by [get_network], scenred.py:291-304. *)
Definition visit_all (SS : nat -> nat -> V) (PP : nat -> nat -> R) (l : list (nat * nat)) (g : option (graph V)) : option (graph V) :=
  fold_left (fun g p => match g with Some g => visit SS PP (fst p) (snd p) g | None => None end) l g.
(** scenred.py:291-304; 343-354: nodes without an edge are not in the graph. [None]: AssertionError
    (the number of positive probabilities at step 0 is not one) or ValueError. *)
Definition get_network (T n : nat) (SS : nat -> nat -> V) (PP : nat -> nat -> R) : option (graph V) :=
  match filter (fun s => Rltb 0 (PP 0%nat s)) (seq 0 n) with
  | [r] =>
      match visit_all SS PP (list_prod (seq 1 (T - 1)) (seq 0 n)) (Some (Graph [(0%nat, 1, SS 0%nat r)] [])) with
      | None => None
      | Some g => match g_edges g with [] => Some (Graph [] []) | _ => Some g end
      end
  | _ => None
  end.
End Network.

(** scenred.py:18-195 (nodes counts given or not): reduction followed by the network of the kept
    scenarios. *)
Definition scenred {V} (eqd : forall a b : V, {a = b} + {a <> b}) (T N : nat) (dist : nat -> nat -> nat -> R)
    (nearest : (nat -> R) -> nat -> nat) (t : R) (ns : option (nat -> nat)) (samples : nat -> nat -> V)
  : (nat * (nat -> nat -> V) * (nat -> nat -> R)) * option (graph V) :=
  let counts := node_counts ns in
  let st := reduce T N dist nearest (tolerance T t counts) (forced counts) samples in
  let cols := kept T N st in
  let SS u k := SC st u (nth k cols 0%nat) in
  let PP u k := P st u (nth k cols 0%nat) in
  ((length cols, SS, PP), get_network eqd T (length cols) SS PP).

(** scenred.py:366-381 (without [dyn_offset]): ancestors by following edges backwards. *)
Definition parents (edges : list (nat * nat)) (x : nat) : list nat :=
  map fst (filter (fun e => (snd e =? x)%nat) edges).
(** Used by [retrieve], scenred.py:366-378. *)
Fixpoint ancestors (fuel : nat) (edges : list (nat * nat)) (x : nat) : list nat :=
  match fuel with
  | O => []
  | S fuel' => flat_map (fun p => p :: ancestors fuel' edges p) (parents edges x)
  end.
(** [None]: ValueError, the path does not fill the column (a path of one node would be
    broadcast), or the maximum of an empty array. scenred.py:366-378. *)
Definition retrieve {V} (g : graph V) : option (list (list nat) * list nat) :=
  match g_nodes g with
  | [] => None
  | _ =>
      let times := map n_time (g_nodes g) in
      let tmax := maximum times in
      let leaves := filter (fun x => (nth x times 0%nat =? tmax)%nat) (seq 0 (length times)) in
      let column x := let path := uniq_sorted (ancestors (length times) (g_edges g) x) ++ [x] in
                      if (length path =? tmax + 1)%nat then Some path
                      else if (length path =? 1)%nat then Some (repeat x (tmax + 1)) else None in
      option_map (fun cols => (cols, leaves))
        (fold_right (fun x acc => match column x, acc with Some c, Some l => Some (c :: l) | _, _ => None end) (Some []) leaves)
  end.
