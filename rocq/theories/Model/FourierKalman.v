(** Model of fast_adaptive_models.py: FK and histories of calls. The Kalman filter, the correlation
    matrix and the Fourier transforms are parameters. *)
From Coq Require Import Reals List Arith Bool.
From Verif Require Import Model.FourierEs.
Import ListNotations.
Local Open Scope R_scope.

(** External operations: [kalman x P Q R c] (F and H are identities), [corr] of recorded
    coefficients, [rescale] (R = Q * 0.01), and the products with the basis at row [i].
    Used by [kstep], fast_adaptive_models.py:267-297. *)
Record ops (X C : Type) := Ops {
  kalman_op : X -> C -> C -> C -> X -> X * C; corr_op : list X -> C; rescale_op : C -> C;
  analyse : nat -> list R -> X; synthesise : nat -> X -> list R; zero_x : X }.
Arguments kalman_op {X C}. Arguments corr_op {X C}. Arguments rescale_op {X C}. Arguments analyse {X C}. Arguments synthesise {X C}. Arguments zero_x {X C}.
(** Used by [kstep], fast_adaptive_models.py:267-297. *)
Record kstate (X C : Type) := KState { kx : X; kP : C; kQ : C; kR : C; keps : R; klast : R; kw : list R }.
Arguments KState {X C}. Arguments kx {X C}. Arguments kP {X C}. Arguments kQ {X C}. Arguments kR {X C}. Arguments keps {X C}. Arguments klast {X C}. Arguments kw {X C}.

(** fast_adaptive_models.py:267-297: one row, with the recorded coefficients [hist]. *)
Definition kstep {X C} (o : ops X C) (m n_sa : nat) (omega : R) (y w0 : list R) (sh : kstate X C * list X) (i : nat)
  : (kstate X C * list X) * list R :=
  let s := fst sh in
  let w := window_at y w0 i in
  let '(x, P) := kalman_op o (kx s) (kP s) (kQ s) (kR s) (analyse o i w) in
  let pr := synthesise o i x in
  let eps := omega * (last w 0 - hd 0 pr) + (1 - omega) * keps s in
  let row := map (fun hv => snd hv + eps * (INR (n_sa - fst hv) ^ 2) / INR n_sa ^ 2) (combine (seq 0 n_sa) pr) in
  let hist := firstn i (snd sh) ++ x :: skipn (S i) (snd sh) in
  let upd := (i mod m =? 0)%nat && (m <=? i)%nat in
  let Q := if upd then corr_op o (firstn i hist) else kQ s in
  let Rm := if upd then rescale_op o Q else kR s in
  ((KState x P Q Rm eps (hd 0 pr) w, hist), row).
(** Used by [krun], fast_adaptive_models.py:376-409. *)
Fixpoint ksteps {X C} (o : ops X C) (m n_sa : nat) (omega : R) (y w0 : list R) (sh : kstate X C * list X) (is : list nat)
  : list (list R) * (kstate X C * list X) :=
  match is with
  | [] => ([], sh)
  | i :: is' => let '(sh1, r) := kstep o m n_sa omega y w0 sh i in let '(rs, sh2) := ksteps o m n_sa omega y w0 sh1 is' in (r :: rs, sh2)
  end.
(** The object: stored state and recorded coefficients (fast_adaptive_models.py:341-346). *)
Record fk (X C : Type) := Fk { fk_state : kstate X C; fk_history : list X }.
Arguments Fk {X C}. Arguments fk_state {X C}. Arguments fk_history {X C}.
(** fast_adaptive_models.py:376-409: the record is extended and kept also when predicting. *)
Definition krun {X C} (o : ops X C) (m n_sa : nat) (omega : R) (f : fk X C) (y : list R) (fit : bool) : list (list R) * fk X C :=
  let '(rows, (s, h)) := ksteps o m n_sa omega y (kw (fk_state f)) (fk_state f, fk_history f ++ repeat (zero_x o) (length y)) (seq 0 (length y)) in
  (rows, Fk (if fit then s else fk_state f) h).

(** Histories of calls on an object. fast_adaptive_models.py:376-409. *)
Inductive call := Fit (y : list R) | Predict (y : list R).
(** fast_adaptive_models.py:376-409. *)
Definition is_fit (c : call) : bool := match c with Fit _ => true | Predict _ => false end.
(** fast_adaptive_models.py:376-409. *)
Definition after {O} (run : O -> list R -> bool -> list (list R) * O) (o : O) (cs : list call) : O :=
  fold_left (fun o c => match c with Fit y => snd (run o y true) | Predict y => snd (run o y false) end) cs o.
