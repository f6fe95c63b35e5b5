(** The bootstrap: C125, C126. *)
From Coq Require Import List Arith Bool Reals Lia Lra.
From Verif Require Import Model.Bootstrap Spec.BootstrapSpec Proof.BootstrapProof.
Import ListNotations.
Local Open Scope R_scope.

(** C125 *)
Theorem C125_summary_partial :
  forall (L V : Type) (eqb : L -> L -> bool) (series : list (L * V)) (stat : list V -> R) (samples : list (list L)),
  (100 < length samples)%nat ->
  exists k r, (100 + 500 * k < length samples <= 600 + 500 * k)%nat /\ bootstrap eqb series stat samples = Some r /\
    mean_and_std (map (fun s => stat (loc eqb series s)) (firstn (100 + 500 * k) samples)) r.
Proof. exact (@bootstrap_partial). Qed.
Print Assumptions C125_summary_partial.
Theorem C125_few_refuted :
  forall (L V : Type) (eqb : L -> L -> bool) (series : list (L * V)) (stat : list V -> R) (samples : list (list L)),
  (length samples <= 100)%nat -> bootstrap eqb series stat samples = None.
Proof. exact (@bootstrap_few). Qed.
Print Assumptions C125_few_refuted.
Theorem C125_last_ignored_refuted :
  forall (L V : Type) (eqb : L -> L -> bool) (series : list (L * V)) (stat : list V -> R) (samples : list (list L)) (s s' : list L),
  bootstrap eqb series stat (samples ++ [s]) = bootstrap eqb series stat (samples ++ [s']).
Proof. exact (@bootstrap_ignores). Qed.
Print Assumptions C125_last_ignored_refuted.
Example C125_case : (100 < length (repeat [0; 1]%nat 150))%nat /\
  bootstrap Nat.eqb [(0%nat, 4); (1%nat, 6)] (fun l => hd 0 l) (repeat [0; 1]%nat 150) = Some (4, 0).
Proof.
  split; [rewrite repeat_length; lia|].
  destruct (bootstrap_partial Nat.eqb [(0%nat, 4); (1%nat, 6)] (fun l => hd 0 l) (repeat [0; 1]%nat 150)) as (k & [m s] & Hk & E & M);
    [rewrite repeat_length; lia|].
  rewrite repeat_length in Hk. assert (k = 0)%nat as -> by lia. rewrite E.
  replace (map (fun s => hd 0 (loc Nat.eqb [(0%nat, 4); (1%nat, 6)] s)) (firstn (100 + 500 * 0) (repeat [0; 1]%nat 150)))
    with (repeat 4 100) in M by reflexivity.
  destruct M as (M1 & M2 & M3). cbn [fst snd] in *. rewrite repeat_length in *.
  assert (T : forall n c, fold_right Rplus 0 (repeat c n) = c * INR n).
  { induction n as [|n IH]; intros c; [cbn; lra|]. cbn [repeat fold_right]. rewrite IH, S_INR. lra. }
  rewrite T in M1. assert (H100 : 0 < INR 100) by (apply lt_0_INR; lia).
  assert (m = 4) as -> by (apply (Rmult_eq_reg_r (INR 100)); lra).
  assert (map (fun v => (v - 4) * (v - 4)) (repeat 4 100) = repeat 0 100) as Z.
  { cut (forall n, map (fun v => (v - 4) * (v - 4)) (repeat 4 n) = repeat 0 n); [intros C; apply C|].
    induction n as [|n IH]; [reflexivity|]. cbn [repeat map]. rewrite IH. f_equal. lra. }
  rewrite Z, T in M3. assert (s * s = 0) by (apply (Rmult_eq_reg_r (INR 100)); lra). assert (s = 0) as -> by nra. reflexivity.
Qed.

(** C126 *)
Theorem C126_values_partial :
  forall (L V : Type) (eqb : L -> L -> bool) (series : list (L * V)) (s : list L),
  (forall a b, eqb a b = true <-> a = b) -> NoDup (map fst series) -> Forall (fun l => In l (map fst series)) s ->
  Forall2 (drawn series) s (loc eqb series s).
Proof. exact (@loc_unique). Qed.
Print Assumptions C126_values_partial.
Theorem C126_size_partial :
  forall (L V : Type) (eqb : L -> L -> bool) (series : list (L * V)) (s : list L),
  (forall a b, eqb a b = true <-> a = b) -> NoDup (map fst series) -> Forall (fun l => In l (map fst series)) s ->
  length (loc eqb series s) = length s.
Proof. exact (@loc_length). Qed.
Print Assumptions C126_size_partial.
Theorem C126_duplicates_refuted :
  forall (L V : Type) (eqb : L -> L -> bool) (series : list (L * V)) (l : L) (n c : nat),
  length (filter (fun r => eqb l (fst r)) series) = c -> length (loc eqb series (repeat l n)) = (n * c)%nat.
Proof. exact (@loc_duplicates). Qed.
Print Assumptions C126_duplicates_refuted.
Example C126_case : NoDup (map fst [(0%nat, 4); (1%nat, 6)]) /\ loc Nat.eqb [(0%nat, 4); (1%nat, 6)] [1; 1]%nat = [6; 6] /\
  length (loc Nat.eqb [(0%nat, 4); (0%nat, 6)] [0; 0]%nat) = 4%nat.
Proof. split; [|split; reflexivity]. repeat constructor; cbn; intuition discriminate. Qed.
