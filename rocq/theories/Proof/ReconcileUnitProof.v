(** Reconciliation in another unit and with an offset. *)
From mathcomp Require Import all_ssreflect all_algebra.
From Verif Require Import Model.Hierarchy Model.Reconcile Model.ReconcileScen Model.ReconcileFit
  Spec.ReconcileSpec Spec.ReconcileFitSpec Proof.ReconcileProof Proof.ReconcileProof2 Proof.ReconcileFitProof.
Set Implicit Arguments.
Unset Strict Implicit.
Unset Printing Implicit Defensive.
Import Order.Theory GRing.Theory Num.Theory.
Local Open Scope ring_scope.

Lemma centred_affine {F : realFieldType} n p (E : 'M[F]_(n, p)) c (b : 'I_p -> F) : (0 < n)%N ->
  centred (\matrix_(i, j) (c * E i j + b j)) = c *: centred E.
Proof.
  move=> Hn. have Hn0 : (n%:R : F) != 0 by rewrite pnatr_eq0 -lt0n. apply/matrixP => i j. rewrite !mxE.
  have -> : \sum_k (\matrix_(i0, j0) (c * E i0 j0 + b j0)) k j = c * (\sum_k E k j) + n%:R * b j.
  { rewrite (eq_bigr (fun k => c * E k j + b j)); last by move=> k _; rewrite mxE.
    rewrite big_split /= -mulr_sumr sumr_const card_ord mulr_natl. by []. }
  rewrite mulrDl (mulrC n%:R) mulfK // mulrBr mulrA opprD addrACA. by rewrite subrr addr0.
Qed.
Lemma shrunk_affine {F : realFieldType} n p (E : 'M[F]_(n, p)) c (b : 'I_p -> F) : (0 < n)%N ->
  shrunk_cov (\matrix_(i, j) (c * E i j + b j)) = (c ^+ 2) *: shrunk_cov E.
Proof.
  move=> Hn. rewrite /shrunk_cov. have -> : emp_cov (\matrix_(i, j) (c * E i j + b j)) = (c ^+ 2) *: emp_cov E.
  { rewrite /emp_cov centred_affine //. have -> : (c *: centred E)^T = c *: (centred E)^T by rewrite linearZ.
    rewrite -scalemxAr -scalemxAl !scalerA. congr (_ *: _). by rewrite expr2 [RHS]mulrC mulrA. }
  move: (emp_cov E) => C. rewrite scalerDr !scalerA mxtraceZ. congr (_ + _).
  - by rewrite mulrC.
  - congr (_ *: _). by rewrite -(mulrA (c ^+ 2)) mulrCA.
Qed.
Lemma mint_affine {F : realFieldType} m n k pinv (A : 'M[F]_(m, n)) (E : 'M[F]_(k, m + n)) c (b : 'I_(m + n) -> F) :
  pseudo_inverse pinv -> (0 < k)%N -> c != 0 ->
  mint_weights pinv (col_mx A 1%:M) (\matrix_(i, j) (c * E i j + b j)) = mint_weights pinv (col_mx A 1%:M) E.
Proof.
  move=> [Hi H0] Hk Hc. rewrite /mint_weights shrunk_affine //. have Hc2 : c ^+ 2 != 0 by rewrite expf_neq0.
  have [Hz|Hz] := eqVneq (centred E) 0.
  { have -> : shrunk_cov E = 0 by rewrite /shrunk_cov /emp_cov Hz mulmx0 scaler0 scaler0 mxtrace0 mul0r mulr0 scale0r addr0.
    by rewrite scaler0. }
  have Hn : ~ constant_columns E. { move/(centred_zero E Hk) => H. by rewrite H eqxx in Hz. }
  have Hu := pd_unit (shrunk_pd Hk Hn). have Hu2 : c ^+ 2 *: shrunk_cov E \in unitmx by rewrite unitmxZ // unitfE.
  rewrite (Hi _ Hu2) (Hi _ Hu) invmxZ //. by rewrite weights_scale // invr_eq0.
Qed.

Lemma reconcile_linear {F : fieldType} {N : eqType} (h : seq (N * seq N)) flat (bs : seq N) P (y z : N -> F) a b :
  uniq (aggregates h ++ bs) ->
  exists oy oz out, reconcile (s_matrix (aggregates h) bs flat) P (aggregates h ++ bs) y = Some oy /\
    reconcile (s_matrix (aggregates h) bs flat) P (aggregates h ++ bs) z = Some oz /\
    reconcile (s_matrix (aggregates h) bs flat) P (aggregates h ++ bs) (fun n => a * y n + b * z n) = Some out /\
    {in aggregates h ++ bs, forall n, out n = a * oy n + b * oz n}.
Proof.
  move=> Hu. do 3 eexists. do 3 (split; first exact: reconcile_ok). move=> n Hn.
  have -> : ordered_row (aggregates h) bs (fun n => a * y n + b * z n) = a *: ordered_row (aggregates h) bs y + b *: ordered_row (aggregates h) bs z.
  { apply/matrixP => i j. by rewrite !mxE. }
  rewrite mulmxDr -!scalemxAr /placed.
  have Hs : (index n (aggregates h ++ bs) < size (enum 'I_(size (aggregates h) + size bs)))%N by rewrite size_enum_ord -size_cat index_mem.
  have [i0] : exists i0 : 'I_(size (aggregates h) + size bs), True by move: Hs; rewrite size_enum_ord => Hs; exists (Ordinal Hs).
  move=> _. rewrite !(nth_map i0) //. move: (_ *m _ *m ordered_row _ _ y) (_ *m _ *m ordered_row _ _ z) => u v. by rewrite !mxE.
  all: by rewrite -enumT.
Qed.
Lemma reconcile_affine {F : fieldType} {N : eqType} (h : seq (N * seq N)) flat (bs : seq N) W P (y z : N -> F) c :
  well_formed h -> unroll_dict h = Some flat -> uniq (aggregates h ++ bs) -> p_matrix (s_matrix (aggregates h) bs flat) W = Some P ->
  exists out out', reconcile (s_matrix (aggregates h) bs flat) P (aggregates h ++ bs) y = Some out /\
    reconcile (s_matrix (aggregates h) bs flat) P (aggregates h ++ bs) (fun n => c * y n + z n) = Some out' /\
    ({in aggregates h ++ bs, forall n, out' n = c * out n + z n} <-> coherent h bs z).
Proof.
  move=> H1 H2 H3 H4.
  have [oy [C1 C2]] := @reconciled_coherent F N h flat bs P y H1 H2 H3. have [oo [D1 D2]] := @reconciled_coherent F N h flat bs P (fun n => c * y n + z n) H1 H2 H3.
  exists oy, oo. split=> //. split=> //. split.
  - move=> E a below Ha Hb.
    have Em : forall n, n \in aggregates h ++ bs -> z n = oo n - c * oy n by move=> n Hn; rewrite E // addrC addKr.
    have Ma : a \in aggregates h ++ bs. { case: Ha => l Hl. rewrite mem_cat. apply/orP; left. by apply/mapP; exists (a, l). }
    rewrite Em // (D2 a below Ha Hb) (C2 a below Ha Hb) mulr_sumr -sumrB big_seq_cond [RHS]big_seq_cond.
    apply: eq_bigr => n /andP [Hn _]. by rewrite Em // mem_cat Hn orbT.
  - move=> Hz. have [oz [Z1 Z2]] := @reconciled_unchanged F N h flat bs W P z H1 H2 H3 H4 Hz.
    have [oy' [oz' [out [Y1 [Y2 [Y3 Y4]]]]]] := @reconcile_linear F N h flat bs P y z c 1 H3.
    have EQ : reconcile (s_matrix (aggregates h) bs flat) P (aggregates h ++ bs) (fun n => c * y n + z n) =
              reconcile (s_matrix (aggregates h) bs flat) P (aggregates h ++ bs) (fun n => c * y n + 1 * z n).
    { rewrite !reconcile_ok. congr (Some (placed _ (_ *m _ *m _))). apply/matrixP => i j. by rewrite !mxE mul1r. }
    move=> n Hn. have -> : oo = out by move: EQ; rewrite D1 Y3 => -[].
    rewrite Y4 //. have -> : oy' = oy by move: Y1; rewrite C1 => -[]. have -> : oz' = oz by move: Y2; rewrite Z1 => -[]. by rewrite mul1r Z2.
Qed.
