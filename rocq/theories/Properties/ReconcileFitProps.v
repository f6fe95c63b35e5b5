(** Properties of the training of reconciled forecasts: C118, C119, C120, C121, C212. *)
From mathcomp Require Import all_ssreflect all_algebra.
From Verif Require Import Model.Hierarchy Model.Reconcile Model.ReconcileScen Model.ReconcileFit
  Spec.ReconcileSpec Spec.ReconcileFitSpec Proof.ReconcileProof2 Proof.ReconcileProof3 Proof.ReconcileFitProof Proof.ReconcileUnitProof.
Set Implicit Arguments.
Unset Strict Implicit.
Unset Printing Implicit Defensive.
Import Order.Theory GRing.Theory Num.Theory.

(** C118 *)
Theorem C118_own_model_partial :
  forall (N : eqType) (X M P : Type) (train : seq X -> M) (predict : M -> X -> P) bottom (h : hierarchy N) rows rows' c,
  bottom \notin aggregates h ->
  (is_aggregate h c -> exists l l', rows_with (eq c) rows l /\ rows_with (eq c) rows' l' /\
     series_forecast predict bottom h (fit_models train bottom h rows) rows' c = Some (map (predict (train l)) l')) /\
  (~ is_aggregate h c -> exists l l', rows_with (fun c => ~ is_aggregate h c) rows l /\ rows_with (eq c) rows' l' /\
     series_forecast predict bottom h (fit_models train bottom h rows) rows' c = Some (map (predict (train l)) l')).
Proof. exact (@own_models). Qed.
Print Assumptions C118_own_model_partial.
Theorem C118_name_refuted :
  forall (N : eqType) (X M P : Type) (train : seq X -> M) (predict : M -> X -> P) bottom (h : hierarchy N) rows rows',
  is_aggregate h bottom ->
  exists l l', rows_with (fun c => ~ is_aggregate h c) rows l /\ rows_with (eq bottom) rows' l' /\
    series_forecast predict bottom h (fit_models train bottom h rows) rows' bottom = Some (map (predict (train l)) l').
Proof. exact (@bottom_collision). Qed.
Print Assumptions C118_name_refuted.
(** Models remember the rows they were trained on; series 9 plays 'bottom'. *)
Example C118_case : let h := [:: (0, [:: 1; 2])] in let rows := [:: (1, 10); (0, 30); (2, 20)] in
  9 \notin aggregates h /\
  series_forecast (fun m x => m ++ [:: x]) 9 h (fit_models id 9 h rows) rows 0 = Some [:: [:: 30; 30]] /\
  series_forecast (fun m x => m ++ [:: x]) 9 h (fit_models id 9 h rows) rows 1 = Some [:: [:: 10; 20; 10]] /\
  series_forecast (fun m x => m ++ [:: x]) 0 h (fit_models id 0 h rows) rows 0 = Some [:: [:: 10; 20; 30]].
Proof. by []. Qed.

Local Open Scope ring_scope.
(** C119 *)
Theorem C119_coherent :
  forall (F : fieldType) (N : eqType) (h : seq (N * seq N)) bs train (y yt y_hat y_tilde : seq (@wide F N)) n_scen draw res,
  size y = size train -> size yt = size train ->
  (forall k s j, (draw k s j < length (List.filter (Nat.eqb k) train))%coq_nat \/ length (List.filter (Nat.eqb k) train) = 0%N) ->
  (forall i s, (i < size train)%N -> coherent h bs (fun c => nth (fun _ _ => 0) y i c s) /\ coherent h bs (fun c => nth (fun _ _ => 0) yt i c s)) ->
  (forall i s, (i < size y_tilde)%N -> coherent h bs (fun c => nth (fun _ _ => 0) y_tilde i c s)) ->
  scenarios ReconciledScen train (errs_tilde y yt) y_hat y_tilde n_scen draw = Some res ->
  forall i vals v s, List.In (i, vals) res -> List.In v vals -> coherent h bs (fun c => v c s).
Proof. exact (@returned_scenarios_coherent). Qed.
Print Assumptions C119_coherent.
Theorem C119_returned :
  forall (F : fieldType) (N : eqType) (h : seq (N * seq N)) bs train (y yt y_hat y_tilde : seq (@wide F N)) n_scen draw, (0 < n_scen)%N ->
  size y = size train -> size yt = size train -> size y_tilde = size train ->
  (forall k s j, (draw k s j < length (List.filter (Nat.eqb k) train))%coq_nat \/ length (List.filter (Nat.eqb k) train) = 0%N) ->
  (forall i s, (i < size train)%N -> coherent h bs (fun c => nth (fun _ _ => 0) y i c s) /\
     coherent h bs (fun c => nth (fun _ _ => 0) yt i c s) /\ coherent h bs (fun c => nth (fun _ _ => 0) y_tilde i c s)) ->
  exists res, scenarios ReconciledScen train (errs_tilde y yt) y_hat y_tilde n_scen draw = Some res /\
    forall i vals v s, List.In (i, vals) res -> List.In v vals -> coherent h bs (fun c => v c s).
Proof. exact (@scenarios_coherent). Qed.
Print Assumptions C119_returned.
(** C120 *)
Theorem C120_errors_refuted :
  forall (F : fieldType) (N : eqType) train (errs y_hat y_tilde : seq (@wide F N)) n_scen draw, (0 < n_scen)%N ->
  size errs = size train -> size y_hat = size train ->
  (forall k s j, (draw k s j < length (List.filter (Nat.eqb k) train))%coq_nat \/ length (List.filter (Nat.eqb k) train) = 0%N) ->
  exists res, scenarios VanillaScen train errs y_hat y_tilde n_scen draw = Some res /\
    forall i vals v, List.In (i, vals) res -> List.In v vals ->
      exists e, (e < size train)%N /\ nth 0%N train e = nth 0%N train i /\ forall c s, v c s = nth (fun _ _ => 0) y_hat i c s + nth (fun _ _ => 0) errs e c s.
Proof. exact (@vanilla_scenarios). Qed.
Print Assumptions C120_errors_refuted.
Theorem C120_own_errors_refuted :
  forall (F : fieldType) (N : eqType) (y yh yt : @wide F N) n_scen draw, (0 < n_scen)%N -> (forall k s j, draw k s j = 0%N) ->
  exists res, scenarios VanillaScen [:: 5%N] (errs_tilde [:: y] [:: yt]) [:: yh] [:: yt] n_scen draw = Some res /\
    (exists vals v, List.In (0%N, vals) res /\ List.In v vals) /\
    forall i vals v c s, List.In (i, vals) res -> List.In v vals -> yt c s <> yh c s -> v c s <> y c s.
Proof. exact (@vanilla_wrong). Qed.
Print Assumptions C120_own_errors_refuted.
Theorem C120_unchanged_partial :
  forall (F : fieldType) (N : eqType) train (y y_hat : seq (@wide F N)) n_scen draw, (0 < n_scen)%N ->
  size y = size train -> size y_hat = size train ->
  (forall k s j, (draw k s j < length (List.filter (Nat.eqb k) train))%coq_nat \/ length (List.filter (Nat.eqb k) train) = 0%N) ->
  exists res, scenarios VanillaScen train (errs_tilde y y_hat) y_hat y_hat n_scen draw = Some res /\
    forall i vals v, List.In (i, vals) res -> List.In v vals ->
      exists e, (e < size train)%N /\ nth 0%N train e = nth 0%N train i /\
        forall c s, v c s = nth (fun _ _ => 0) y_hat i c s + (nth (fun _ _ => 0) y e c s - nth (fun _ _ => 0) y_hat e c s).
Proof. exact (@vanilla_own_errors). Qed.
Print Assumptions C120_unchanged_partial.
Example C120_unchanged_case : forall k s j : nat, ((fun _ _ _ => 0%N) k s j < length (List.filter (Nat.eqb k) [:: 5%N; 5%N]))%coq_nat \/ length (List.filter (Nat.eqb k) [:: 5%N; 5%N]) = 0%N.
Proof. move=> k s j /=. case: (Nat.eqb k 5) => /=; [left; apply/ssrnat.ltP|right]; by []. Qed.

Local Close Scope ring_scope.
(** The total 0 of the series 1 and 2; two rows at hour 5. *)
Example C119_case : let h := [:: (0, [:: 1; 2])] in
  let v := fun i c s : nat => if c == 0 then i + 3 else if c == 1 then i else 3 in
  let y := fun i c s : nat => ((v i c s)%:R : rat)%R in
  let draw := fun k s j : nat => 0 in
  (forall i s, i < 2 -> coherent h [:: 1; 2] (fun c => nth (fun _ _ => 0%R) [:: y 0; y 1] i c s)) /\
  (forall k s j, (draw k s j < length (List.filter (Nat.eqb k) [:: 5; 5]))%coq_nat \/ length (List.filter (Nat.eqb k) [:: 5; 5]) = 0).
Proof.
  split.
  - move=> i s Hi a below [l]. rewrite inE => /eqP [-> _] Hb.
    have H1 : below 1. { apply/Hb. apply: (leaf_member (l := [:: 1; 2])); rewrite ?inE // => -[l']. by rewrite inE => /eqP. }
    have H2 : below 2. { apply/Hb. apply: (leaf_member (l := [:: 1; 2])); rewrite ?inE // => -[l']. by rewrite inE => /eqP. }
    rewrite !big_cons big_nil H1 H2 addr0. case: i Hi => [|[|i]] //= _; by rewrite -natrD.
  - move=> k s j. case: k => [|[|[|[|[|[|k]]]]]]; [by right|by right|by right|by right|by right| |by right]. left. by apply/ssrnat.ltP.
Qed.

Local Open Scope ring_scope.
(** C121 *)
Theorem C121_weights_partial :
  forall (F : realFieldType) m n k pinv (A : 'M[F]_(m, n)) (E : 'M[F]_(k, m + n)), pseudo_inverse pinv -> (0 < k)%N ->
  ~ constant_columns E -> positive_definite (pinv (shrunk_cov E)) /\ exists P, mint_weights pinv (col_mx A 1%:M) E = Some P.
Proof. exact (@mint_exists). Qed.
Print Assumptions C121_weights_partial.
Theorem C121_constant_errors_refuted :
  forall (F : realFieldType) m n k pinv (A : 'M[F]_(m, n)) (E : 'M[F]_(k, m + n)), pseudo_inverse pinv -> (0 < k)%N ->
  (0 < n)%N -> constant_columns E -> mint_weights pinv (col_mx A 1%:M) E = None.
Proof. exact (@mint_constant). Qed.
Print Assumptions C121_constant_errors_refuted.
Example C121_case : ~ constant_columns (\matrix_(i < 2, j < 2) ((i : nat) * j)%:R : 'M[rat]_2) /\ pseudo_inverse (fun C : 'M[rat]_2 => invmx C).
Proof.
  split; first by move/(_ 0 1 1); rewrite !mxE. split=> //. by rewrite /invmx unitmxE det0 unitr0.
Qed.

(** C212 *)
Theorem C212_weights :
  forall (F : realFieldType) m n k pinv (A : 'M[F]_(m, n)) (E : 'M[F]_(k, m + n)) c (b : 'I_(m + n) -> F),
  pseudo_inverse pinv -> (0 < k)%N -> c != 0 ->
  mint_weights pinv (col_mx A 1%:M) (\matrix_(i, j) (c * E i j + b j)) = mint_weights pinv (col_mx A 1%:M) E.
Proof. exact (@mint_affine). Qed.
Print Assumptions C212_weights.
Theorem C212_offset :
  forall (F : fieldType) (N : eqType) (h : seq (N * seq N)) flat (bs : seq N) W P (y z : N -> F) c,
  well_formed h -> unroll_dict h = Some flat -> uniq (aggregates h ++ bs) -> p_matrix (s_matrix (aggregates h) bs flat) W = Some P ->
  exists out out', reconcile (s_matrix (aggregates h) bs flat) P (aggregates h ++ bs) y = Some out /\
    reconcile (s_matrix (aggregates h) bs flat) P (aggregates h ++ bs) (fun n => c * y n + z n) = Some out' /\
    ({in aggregates h ++ bs, forall n, out' n = c * out n + z n} <-> coherent h bs z).
Proof. exact (@reconcile_affine). Qed.
Print Assumptions C212_offset.
Theorem C212_linear :
  forall (F : fieldType) (N : eqType) (h : seq (N * seq N)) flat (bs : seq N) P (y z : N -> F) a b,
  uniq (aggregates h ++ bs) ->
  exists oy oz out, reconcile (s_matrix (aggregates h) bs flat) P (aggregates h ++ bs) y = Some oy /\
    reconcile (s_matrix (aggregates h) bs flat) P (aggregates h ++ bs) z = Some oz /\
    reconcile (s_matrix (aggregates h) bs flat) P (aggregates h ++ bs) (fun n => a * y n + b * z n) = Some out /\
    {in aggregates h ++ bs, forall n, out n = a * oy n + b * oz n}.
Proof. exact (@reconcile_linear). Qed.
Print Assumptions C212_linear.
Example C212_case : let h := [:: (0, [:: 1; 2])]%N in let z := fun n : nat => if n == 0%N then 3%:R else if n == 1%N then 1 else 2%:R : rat in
  unroll_dict h = Some [:: [:: 1; 2]]%N /\ uniq (aggregates h ++ [:: 1; 2]%N) /\ z 0%N = \sum_(b <- [:: 1; 2]%N) z b /\
  exists P, p_matrix (s_matrix (aggregates h) [:: 1; 2]%N [:: [:: 1; 2]]%N) (1%:M : 'M[rat]_(1 + 2)) = Some P.
Proof. split=> //. split=> //. split; first by rewrite !big_cons big_nil. apply: weights_exist. exact: pd_one. Qed.
