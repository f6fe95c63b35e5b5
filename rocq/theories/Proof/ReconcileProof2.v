From mathcomp Require Import all_ssreflect all_algebra.
From Verif Require Import Model.Hierarchy Model.Reconcile Spec.ReconcileSpec Proof.ReconcileProof.
Set Implicit Arguments.
Unset Strict Implicit.
Unset Printing Implicit Defensive.
Import Order.Theory GRing.Theory Num.Theory.
Local Open Scope ring_scope.

Section Rows.
Context {F : fieldType} {N : eqType} (h : seq (N * seq N)) (flat : seq (seq N)) (bs : seq N).
Context (Hwf : well_formed h) (Hflat : unroll_dict h = Some flat).
Let ks := aggregates h.
Context (Huniq : uniq (ks ++ bs)).
Let S := @s_matrix F N ks bs flat.

Lemma nth_row n (r : 'cV[F]_n) k (Hk : (k < n)%N) : nth 0 [seq r i 0 | i <- enum 'I_n] k = r (Ordinal Hk) 0.
Proof.
  rewrite (nth_map (Ordinal Hk)) ?size_enum_ord //. congr (r _ 0). exact: (nth_ord_enum (Ordinal Hk) (Ordinal Hk)).
Qed.
Lemma tnth_cat_l (i : 'I_(size ks)) : tnth [tuple of in_tuple ks ++ in_tuple bs] (lshift (size bs) i) = tnth (in_tuple ks) i.
Proof. have x0 := tnth (in_tuple ks) i. by rewrite !(tnth_nth x0) /= nth_cat ltn_ord. Qed.
Lemma tnth_cat_r (j : 'I_(size bs)) : tnth [tuple of in_tuple ks ++ in_tuple bs] (rshift (size ks) j) = tnth (in_tuple bs) j.
Proof. have x0 := tnth (in_tuple bs) j. by rewrite !(tnth_nth x0) /= nth_cat ltnNge leq_addr /= addKn. Qed.
Lemma index_ordered (i : 'I_(size ks + size bs)) : index (tnth [tuple of in_tuple ks ++ in_tuple bs] i) (ks ++ bs) = i.
Proof.
  have x0 : N. { case: (ks) (bs) i => [|x ?] // [|x ?] // [m Hm]; exfalso; by rewrite ltn0 in Hm. }
  rewrite (tnth_nth x0) /= index_uniq //. by rewrite size_cat.
Qed.
Lemma leaves_iff (i : 'I_(size ks)) b : b \in nth [::] flat i <-> leaf_below h (tnth (in_tuple ks) i) b.
Proof.
  have [flat' [E [Hs Hl]]] := hierarchy_leaves Hwf. rewrite Hflat in E. case: E => E. subst flat'.
  have Hi : (i < size h)%N by apply: leq_trans (ltn_ord i) _; rewrite /ks /aggregates size_map. 
  set a := tnth (in_tuple ks) i.
  have Hn : nth (a, members h a) h i = (a, members h a).
  { have Ha : a = (nth (a, members h a) h i).1. { rewrite {1}/a; have x0 := a; rewrite (tnth_nth x0) /= /ks /aggregates (nth_map (a, members h a)) //. }
    have Hin : nth (a, members h a) h i \in h by exact: mem_nth.
    case E : (nth (a, members h a) h i) Ha Hin => [b' l] /= <- Hin. congr (_, _). rewrite (members_in (proj1 Hwf) Hin) //. }
  exact: (Hl i a _ Hi Hn).
Qed.
Lemma leaves_of (i : 'I_(size ks)) b : reflect (leaf_below h (tnth (in_tuple ks) i) b) (b \in nth [::] flat i).
Proof. apply: (iffP idP) => H; exact/leaves_iff. Qed.
Lemma coherentE (y : N -> F) : coherent h bs y <-> ordered_row ks bs y = S *m (\col_j y (tnth (in_tuple bs) j)).
Proof.
  split=> H.
  - apply/colP => i. rewrite /S /s_matrix mul_col_mx mul1mx. case: (splitP i) => [i' Ei|j Ej].
    + have -> : i = lshift (size bs) i' by apply: val_inj. rewrite col_mxEu !mxE tnth_cat_l.
      rewrite (H _ (fun b => b \in nth [::] flat i')); [|by apply/aggregateP; exact: mem_tnth|by move=> b; exact: leaves_of].
      rewrite [LHS]big_tnth [LHS]big_mkcond /=. apply: eq_bigr => j _. rewrite !mxE /=. case: ifP => Hb; rewrite ?mul1r ?mul0r //.
    + have -> : i = rshift (size ks) j by apply: val_inj. by rewrite col_mxEd !mxE tnth_cat_r.
  - move=> a below /aggregateP Ha Hb. have Hi : (index a ks < size ks)%N by rewrite index_mem.
    have Et : tnth (in_tuple ks) (Ordinal Hi) = a by rewrite (tnth_nth a) /= nth_index.
    have := congr1 (fun r : 'cV_(_ + _) => r (lshift (size bs) (Ordinal Hi)) 0) H. rewrite /S /s_matrix mul_col_mx col_mxEu !mxE tnth_cat_l Et => ->.
    rewrite [RHS]big_tnth [RHS]big_mkcond /=. apply: eq_bigr => j _. rewrite !mxE.
    have -> : tnth (in_tuple bs) j \in nth [::] flat (Ordinal Hi) = below (tnth (in_tuple bs) j).
    { apply/idP/idP => [/leaves_of|/Hb] HH; first by apply/Hb; rewrite Et in HH. by apply/leaves_of; rewrite Et. }
    by case: (below _); rewrite ?mul1r ?mul0r.
Qed.
Definition placed (cols : seq N) (r : 'cV[F]_(size ks + size bs)) (c : N) : F := nth 0 [seq r i 0 | i <- enum 'I_(size ks + size bs)] (index c cols).
Lemma placed_row r : ordered_row ks bs (placed (ks ++ bs) r) = r.
Proof.
  apply/colP => i. rewrite mxE /placed index_ordered. rewrite (nth_row r (ltn_ord i)). congr (r _ _). exact: val_inj.
Qed.
Lemma placed_bottom r : \col_j placed (ks ++ bs) r (tnth (in_tuple bs) j) = dsubmx r.
Proof.
  apply/colP => j. rewrite !mxE. rewrite -tnth_cat_r /placed index_ordered. rewrite (nth_row r (ltn_ord _)). congr (r _ _). exact: val_inj.
Qed.
Lemma reconcile_ok P y : reconcile S P (ks ++ bs) y = Some (placed (ks ++ bs) (S *m P *m ordered_row ks bs y)).
Proof. rewrite /reconcile. have -> : all (mem (ks ++ bs)) (ks ++ bs) by apply/allP. by rewrite size_cat eqxx. Qed.
Lemma placed_coherent P y : coherent h bs (placed (ks ++ bs) (S *m P *m ordered_row ks bs y)).
Proof. apply/coherentE. rewrite placed_row placed_bottom -mulmxA. congr (_ *m _). by rewrite /S /s_matrix mul_col_mx col_mxKd mul1mx. Qed.
Lemma ordered_eq (y z : N -> F) : ordered_row ks bs y = ordered_row ks bs z -> {in ks ++ bs, y =1 z}.
Proof.
  move=> E c Hc. have Hi : (index c (ks ++ bs) < size ks + size bs)%N by rewrite -size_cat index_mem.
  have := congr1 (fun r : 'cV_(_ + _) => r (Ordinal Hi) 0) E. rewrite !mxE. by rewrite (tnth_nth c) /= nth_index.
Qed.
Lemma fixed P (y : N -> F) : P *m S = 1%:M -> coherent h bs y -> S *m P *m ordered_row ks bs y = ordered_row ks bs y.
Proof. move=> E /coherentE ->. by rewrite -mulmxA (mulmxA P) E mul1mx. Qed.
End Rows.

Lemma reconciled_coherent {F : fieldType} {N : eqType} (h : seq (N * seq N)) flat (bs : seq N) P (y : N -> F) :
  well_formed h -> unroll_dict h = Some flat -> uniq (aggregates h ++ bs) ->
  exists out, reconcile (s_matrix (aggregates h) bs flat) P (aggregates h ++ bs) y = Some out /\ coherent h bs out.
Proof.
  move=> H1 H2 H3. eexists. split; first exact: reconcile_ok. exact: placed_coherent.
Qed.
Lemma projection {F : fieldType} m n (S : 'M[F]_(m, n)) W P : p_matrix S W = Some P -> P *m S = 1%:M.
Proof.
  rewrite /p_matrix. case: ifP => // Hk [<-]. by rewrite -!mulmxA (mulmxA _ W S) mulVmx.
Qed.
Lemma reconciled_unchanged {F : fieldType} {N : eqType} (h : seq (N * seq N)) flat (bs : seq N) W P (y : N -> F) :
  well_formed h -> unroll_dict h = Some flat -> uniq (aggregates h ++ bs) -> p_matrix (s_matrix (aggregates h) bs flat) W = Some P -> coherent h bs y ->
  exists out, reconcile (s_matrix (aggregates h) bs flat) P (aggregates h ++ bs) y = Some out /\ {in aggregates h ++ bs, out =1 y}.
Proof.
  move=> H1 H2 H3 H4 H5. eexists. split; first exact: reconcile_ok. apply: ordered_eq. rewrite placed_row //. apply: (fixed H1 H2) => //. exact: projection H4.
Qed.
Lemma reconciled_twice {F : fieldType} {N : eqType} (h : seq (N * seq N)) flat (bs : seq N) W P (y : N -> F) :
  well_formed h -> unroll_dict h = Some flat -> uniq (aggregates h ++ bs) -> p_matrix (s_matrix (aggregates h) bs flat) W = Some P ->
  exists out out', reconcile (s_matrix (aggregates h) bs flat) P (aggregates h ++ bs) y = Some out /\
    reconcile (s_matrix (aggregates h) bs flat) P (aggregates h ++ bs) out = Some out' /\ {in aggregates h ++ bs, out' =1 out}.
Proof.
  move=> H1 H2 H3 H4. have [out [E Hc]] := @reconciled_coherent F N h flat bs P y H1 H2 H3. have [out' [E' H']] := reconciled_unchanged H1 H2 H3 H4 Hc. by exists out, out'.
Qed.

Lemma quadratic_add {F : fieldType} m (W : 'M[F]_m) u v : W^T = W -> u^T *m W *m v = 0 -> quadratic W (u + v) = quadratic W u + quadratic W v.
Proof.
  move=> Hs Huv. rewrite /quadratic. have -> : (u + v)^T = u^T + v^T by apply/matrixP => i j; rewrite !mxE. rewrite !mulmxDl !mulmxDr Huv addr0.
  have -> : v^T *m W *m u = 0. { apply: trmx_inj. by rewrite trmx_mul trmx_mul trmxK Hs trmx0 mulmxA. }
  by rewrite add0r mxE.
Qed.
Lemma weights_exist {F : realFieldType} m n (A : 'M[F]_(m, n)) W : positive_definite W -> exists P, p_matrix (col_mx A 1%:M) W = Some P.
Proof.
  move=> [_ Hp]. rewrite /p_matrix. set S := col_mx A 1%:M. case: ifP => [_|/negbT Hk]; first by eexists.
  exfalso. move: Hk. rewrite -row_free_unit -kermx_eq0 => /rowV0Pn [v /sub_kermxP Hv Hv0].
  have Hq : quadratic W (S *m v^T) = 0.
  { rewrite /quadratic trmx_mul trmxK. have -> : v *m S^T *m W *m (S *m v^T) = v *m (S^T *m W *m S) *m v^T by rewrite !mulmxA. by rewrite Hv mul0mx mxE. }
  have Hz : S *m v^T = 0. { apply/eqP/negPn/negP => /eqP Hne. have := Hp _ Hne. by rewrite Hq ltxx. }
  move/negP: Hv0 => []. apply/eqP/trmx_inj. rewrite trmx0. move: Hz. rewrite /S mul_col_mx mul1mx => /(congr1 dsubmx). by rewrite col_mxKd linear0.
Qed.
Lemma reconciled_nearest {F : realFieldType} {N : eqType} (h : seq (N * seq N)) flat (bs : seq N) W (y : N -> F) :
  well_formed h -> unroll_dict h = Some flat -> uniq (aggregates h ++ bs) -> positive_definite W ->
  exists P out, p_matrix (s_matrix (aggregates h) bs flat) W = Some P /\ reconcile (s_matrix (aggregates h) bs flat) P (aggregates h ++ bs) y = Some out /\ coherent h bs out /\
    forall z, coherent h bs z -> deviation W y out <= deviation W y z /\ (deviation W y z = deviation W y out -> {in aggregates h ++ bs, z =1 out}).
Proof.
  move=> H1 H2 H3 Hpd. have [P EP] := @weights_exist F _ _ (a_matrix (aggregates h) bs flat) W Hpd. exists P. eexists. split; first exact: EP.
  split; first exact: reconcile_ok. split; first exact: placed_coherent. move=> z Hz. set out := (X in deviation W y X <= _).
  have Eo : ordered_row (aggregates h) bs out = s_matrix (aggregates h) bs flat *m P *m ordered_row (aggregates h) bs y by rewrite /out placed_row.
  set S := s_matrix _ _ _ in EP Eo. set v := ordered_row _ _ y in Eo.
  have Ed : forall w, \col_i (y (tnth [tuple of in_tuple (aggregates h) ++ in_tuple bs] i) - w (tnth [tuple of in_tuple (aggregates h) ++ in_tuple bs] i)) = v - ordered_row (aggregates h) bs w.
  { move=> w. apply/colP => i. by rewrite !mxE. }
  rewrite /deviation !Ed Eo.
  have Ez : ordered_row (aggregates h) bs z = S *m (\col_j z (tnth (in_tuple bs) j)) by apply/coherentE.
  set x := \col_j _ in Ez. case: Hpd => Hs Hp.
  have Horth : (v - S *m P *m v)^T *m W *m (S *m P *m v - S *m x) = 0.
  { have Eq : S *m P *m v - S *m x = S *m (P *m v - x) by rewrite mulmxBr mulmxA. rewrite Eq.
    suff E0 : (v - S *m P *m v)^T *m W *m S = 0 by rewrite mulmxA E0 mul0mx.
    apply: trmx_inj. rewrite trmx0 !trmx_mul trmxK Hs !mulmxBr. move: EP. rewrite /p_matrix. case: ifP => // Hk [<-].
    have -> : S^T *m (W *m (S *m (invmx (S^T *m W *m S) *m (S^T *m W)) *m v)) = (S^T *m W *m S) *m invmx (S^T *m W *m S) *m (S^T *m (W *m v)) by rewrite !mulmxA.
    by rewrite mulmxV // mul1mx subrr. }
  have Esum : v - ordered_row (aggregates h) bs z = (v - S *m P *m v) + (S *m P *m v - S *m x) by rewrite Ez addrA subrK.
  rewrite Esum (quadratic_add Hs Horth). have Hnn : forall u, 0 <= quadratic W u.
  { move=> u. case: (eqVneq u 0) => [->|/eqP Hu]; last by rewrite ltW // Hp. by rewrite /quadratic mulmx0 mxE. }
  split; first by rewrite ler_addl. move=> E. have Hq : quadratic W (S *m P *m v - S *m x) = 0.
  { move: E. move/(congr1 (fun t => t - quadratic W (v - S *m P *m v))). by rewrite addrAC subrr add0r. }
  apply: ordered_eq. rewrite Eo Ez. apply/eqP. rewrite eq_sym -subr_eq0. apply/negPn/negP => /eqP Hne. have := Hp _ Hne. by rewrite Hq ltxx.
Qed.

Lemma reconciled_labels {F : fieldType} {N : eqType} (h : seq (N * seq N)) flat (bs cols : seq N) W P (y : N -> F) (d : N) :
  well_formed h -> unroll_dict h = Some flat -> uniq (aggregates h ++ bs) -> p_matrix (s_matrix (aggregates h) bs flat) W = Some P -> coherent h bs y ->
  perm_eq cols (aggregates h ++ bs) ->
  exists out, reconcile (s_matrix (aggregates h) bs flat) P cols y = Some out /\ forall c, c \in cols -> out c = y (nth d (aggregates h ++ bs) (index c cols)).
Proof.
  move=> H1 H2 H3 H4 H5 Hp. rewrite /reconcile. have -> : all (mem cols) (aggregates h ++ bs) by apply/allP => x; rewrite /= (perm_mem Hp).
  rewrite (perm_size Hp) size_cat eqxx /=. eexists. split; first reflexivity. move=> c Hc.
  have Hi : (index c cols < size (aggregates h) + size bs)%N by rewrite -size_cat -(perm_size Hp) index_mem.
  rewrite (nth_row _ Hi). rewrite (fixed H1 H2 (projection H4) H5). by rewrite mxE (tnth_nth d).
Qed.
Lemma bayes_raises {N : eqType} (ks bs aggregated : seq N) : ks <> [::] -> size aggregated = size ks -> bayes_rows ks bs aggregated = None.
Proof.
  move=> Hk Hs. rewrite /bayes_rows /product_rows size_map eqxx.
  have -> : size (aligned (map inl aggregated) (map inr (iota 0 (size ks)) : seq (N + nat))) = (size ks + size ks)%N.
  { rewrite /aligned. case: eqP => [E|_]. { move: E Hs Hk. case: ks => // k ks'. by case: aggregated => // a l. }
    rewrite size_cat size_map Hs. congr (_ + _)%N. rewrite size_filter. transitivity (size [seq inr i : N + nat | i <- iota 0 (size ks)]); last by rewrite size_map size_iota.
    apply/eqP. rewrite -all_count. apply/allP => x /mapP [i _ ->]. apply/negP => /mapP [c _]. by []. }
  case: eqP => // E. exfalso. move: E. case: ks Hk {Hs} => // k l _ /= /eqP. by rewrite -[X in _ == X]add0n eqn_add2r.
Qed.
Lemma last_step {F : fieldType} m n (S : 'M[F]_(m, n)) ws w k P : fit_steps S (ws ++ [:: w]) k = Some P -> p_matrix S w = Some P.
Proof.
  elim: ws k => [|w' ws IH] k /=; first by case: (p_matrix S w). case: (p_matrix S w') => // P'. exact: IH.
Qed.
(** Steps whose weights are proportional to those of the last step are reconciled with their own. *)
Lemma weights_scale {F : fieldType} m n (S : 'M[F]_(m, n)) w (c : F) : c != 0 -> p_matrix S (c *: w) = p_matrix S w.
Proof.
  move=> Hc. rewrite /p_matrix. have -> : S^T *m (c *: w) = c *: (S^T *m w) by rewrite -scalemxAr. rewrite -scalemxAl.
  have Hu : c \is a GRing.unit by rewrite unitfE. set K := S^T *m w *m S.
  have -> : (c *: K \in unitmx) = (K \in unitmx) by rewrite !unitmxE detZ unitrM unitrX.
  case: ifP => // HK. rewrite invmxZ ?unitmxZ //. by rewrite -scalemxAl -scalemxAr scalerA mulVf // scale1r.
Qed.
Lemma own_step_proportional {F : realFieldType} m n (A : 'M[F]_(m, n)) ws w : (forall v, v \in rcons ws w -> positive_definite v) ->
  exists P, fit_steps (col_mx A 1%:M) (rcons ws w) None = Some P /\ p_matrix (col_mx A 1%:M) w = Some P /\
    forall v c, v \in rcons ws w -> c != 0 -> v = c *: w -> p_matrix (col_mx A 1%:M) v = Some P.
Proof.
  move=> H. have [P EP] := @weights_exist F _ _ A w (H w ltac:(by rewrite mem_rcons mem_head)). exists P. split; last first.
  { split=> // v c _ Hc ->. by rewrite weights_scale. }
  have G : forall k, fit_steps (col_mx A 1%:M) (rcons ws w) k = Some P; last exact: G.
  elim: ws H => [|v ws IH] H k /=; first by rewrite EP.
  have [Q ->] := @weights_exist F _ _ A v (H v ltac:(by rewrite mem_head)). apply: IH => u Hu. apply: H. by rewrite in_cons Hu orbT.
Qed.
