(** Model of the row subsampling and splitting of [ScenarioGenerator]
    (forecaster.py:96-195, 313-321). Rows are addressed by position; hours and
    timestamps are integers. *)
From Coq Require Import List ZArith Bool Arith Reals.
From Verif Require Import Model.Series.
Import ListNotations.
Local Open Scope nat_scope.

(** numpy's random generator. The outcome of every call is arbitrary; the first
    argument numbers the calls so that equal arguments may give different draws.
    Used by [subsample_uniform], forecaster.py:118-120. *)
Record rng := Rng {
  r_multinomial : nat -> list nat -> list nat;     (* multinomial(m, counts / sum) *)
  r_choice : nat -> list nat -> nat -> list nat    (* call number, population, size; replace=False *) }.

(** [np.argsort(idx_vals, kind='mergesort')] applied to the positions (forecaster.py:112-115):
    stable insertion sort by time. *)
Fixpoint insert_by (time : nat -> Z) (p : nat) (l : list nat) : list nat :=
  match l with
  | [] => [p]
  | a :: l' => if (time p <=? time a)%Z then p :: a :: l' else a :: insert_by time p l'
  end.
(** Used by [uniq_sorted], forecaster.py:104-116. *)
Definition sort_by (time : nat -> Z) (l : list nat) : list nat := fold_right (insert_by time) [] l.

(** forecaster.py:104-116. [np.unique] (sorted, without repetitions) is applied only
    when positions repeat. *)
Definition uniq_sorted (l : list nat) : list nat := sort_by Z.of_nat (nodup Nat.eq_dec l).
(** Used by [subsample_uniform], forecaster.py:118-120. *)
Definition order_rows (times : list Z) (pos : list nat) : list nat :=
  match pos with
  | [] => []
  | _ =>
      let pos' := if (length (nodup Nat.eq_dec pos) <? length pos) then uniq_sorted pos else pos in
      sort_by (fun p => nth p times 0%Z) pos'
  end.

(** forecaster.py:118-120. *)
Definition subsample_uniform (g : rng) (call : nat) (times : list Z) (m : nat) : list nat :=
  order_rows times (r_choice g call (seq 0 (length times)) m).

(** [np.unique(hours, return_inverse)] and [np.bincount] (forecaster.py:127-128). *)
Definition unique_hours (hours : list Z) : list Z := isort (nodup Z.eq_dec hours).
(** Used by [subsample_stratified], forecaster.py:122-169. *)
Definition count_hour (hours : list Z) (h : Z) : nat := length (filter (Z.eqb h) hours).

(** Used by [fill], forecaster.py:139-145. *)
Definition map2 {A B C} (f : A -> B -> C) (la : list A) (lb : list B) : list C :=
  map (fun p => f (fst p) (snd p)) (combine la lb).
(** Used by [trim], forecaster.py:147-151. *)
Definition sum (l : list nat) : nat := fold_right Nat.add 0 l.
(** Used by [argmax], forecaster.py:139-145. *)
Definition maximum (l : list nat) : nat := fold_right Nat.max 0 l.
(** [np.argmax]: first position of the maximum. Used by [fill], forecaster.py:139-145. *)
Fixpoint argmax (l : list nat) : nat :=
  match l with
  | [] => 0
  | a :: l' => if (maximum l' <=? a) then 0 else S (argmax l')
  end.
(** Used by [fill], forecaster.py:139-145. *)
Fixpoint update (l : list nat) (j : nat) (f : nat -> nat) : list nat :=
  match l, j with
  | [], _ => []
  | a :: l', O => f a :: l'
  | a :: l', S j' => a :: update l' j' f
  end.

(** forecaster.py:139-145: [None] = no spare capacity (uniform fallback). *)
Fixpoint fill (deficit : nat) (counts alloc : list nat) : option (list nat) :=
  match deficit with
  | O => Some alloc
  | S d =>
      let spare := map2 Nat.sub counts alloc in
      if maximum spare =? 0 then None
      else fill d counts (update alloc (argmax spare) S)
  end.

(** forecaster.py:147-151; [fuel] bounds the iterations, each of which removes one. *)
Fixpoint trim (fuel m : nat) (alloc : list nat) : list nat :=
  match fuel with
  | O => alloc
  | S k => if (m <? sum alloc) && (0 <? maximum alloc)
           then trim k m (update alloc (argmax alloc) pred)
           else alloc
  end.

(** [np.flatnonzero(hours == h)] (forecaster.py:159). *)
Definition positions_of (hours : list Z) (h : Z) : list nat :=
  filter (fun i => Z.eqb (nth i hours 0%Z) h) (seq 0 (length hours)).

(** forecaster.py:152-166: draws from each hour; [selected] concatenated. *)
Definition draw_hours (g : rng) (hours : list Z) (u : list Z) (alloc : list nat) : list nat :=
  flat_map (fun p => let '(k, (h, c)) := p in
              let pos := positions_of hours h in
              let c' := Nat.min c (length pos) in
              if c' =? 0 then [] else r_choice g (S k) pos c')
           (combine (seq 0 (length u)) (combine u alloc)).

(** forecaster.py:122-169; the result is the list of chosen positions in order. *)
Definition subsample_stratified (g : rng) (times hours : list Z) (m : nat) : list nat :=
  let n := length times in
  let u := unique_hours hours in
  let counts := map (count_hour hours) u in
  if (n <=? m) || (length u =? 0) then seq 0 n
  else if m <? length u then subsample_uniform g 0 times m
  else
    let alloc0 := map2 Nat.min (r_multinomial g m counts) counts in
    match fill (m - sum alloc0) counts alloc0 with
    | None => subsample_uniform g 0 times m
    | Some alloc1 =>
        let alloc := trim (sum alloc1) m alloc1 in
        let pos := draw_hours g hours u alloc in
        match pos with
        | [] => subsample_uniform g 0 times m
        | _ =>
            let pos' := if m <? length pos
                        then sort_by Z.of_nat (r_choice g (S (S (length u))) pos m) else pos in
            order_rows times pos'
        end
    end.

(** forecaster.py:171-195 on rows [x], [y]. [hours = None] when the index is not a
    DatetimeIndex. [None] = ValueError for different indices. *)
Definition maybe_subsample {X Y} (g : rng) (cap : option nat) (times ytimes : list Z) (hours : option (list Z))
    (dx : X) (dy : Y) (x : list X) (y : list Y) : option (list X * list Y) :=
  match cap with
  | None => Some (x, y)
  | Some m =>
      if length x <=? m then Some (x, y)
      else if list_eq_dec Z.eq_dec times ytimes then
        let pos := match hours with
                   | Some hs => subsample_stratified g times hs m
                   | None => subsample_uniform g 0 times m
                   end in
        Some (map (fun i => nth i x dx) pos, map (fun i => nth i y dy) pos)
      else None
  end.

(** forecaster.py:96-102. *)
Definition subsample_seed (scengen_state random_state : option Z) : Z :=
  match scengen_state, random_state with
  | Some s, _ => s
  | None, Some r => r
  | None, None => 0%Z
  end.

(** forecaster.py:313-321; [int(n * val_ratio)] in exact arithmetic. *)
Definition n_val (n : nat) (ratio : R) : nat := Z.to_nat (Int_part (INR n * ratio)).
(** forecaster.py:313-321. *)
Definition train_val_split {X Y} (ratio : option R) (x : list X) (y : list Y)
  : list X * list Y * (list X * list Y) :=
  match ratio with
  | None => (x, y, (x, y))
  | Some r =>
      let n_tr := length x - n_val (length x) r in
      (firstn n_tr x, firstn n_tr y, (skipn n_tr x, skipn n_tr y))
  end.
