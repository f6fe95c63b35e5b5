(** Proofs about the training of reconciled forecasts. *)
From mathcomp Require Import all_ssreflect all_algebra.
From Verif Require Import Model.Hierarchy Model.Reconcile Model.ReconcileScen Model.ReconcileFit
  Spec.ReconcileSpec Spec.ReconcileFitSpec Proof.ReconcileProof Proof.ReconcileProof2 Proof.ReconcileProof3 Proof.ReconcileScenProof.
Set Implicit Arguments.
Unset Strict Implicit.
Unset Printing Implicit Defensive.
Import Order.Theory GRing.Theory Num.Theory.

(** * Models *)
Lemma fetch_cons {N : eqType} {M : Type} (d : seq (N * M)) p k : fetch (p :: d) k = if p.1 == k then Some p.2 else fetch d k.
Proof. rewrite /fetch /=. by case: (p.1 == k). Qed.
Lemma fetch_assign {N : eqType} {M : Type} (d : seq (N * M)) k m k' : fetch (assign d k m) k' = if k' == k then Some m else fetch d k'.
Proof.
  rewrite /assign. case: ifP => Hk.
  - elim: d Hk => [|[a b] d IH] //=. rewrite in_cons fetch_cons fetch_cons /=. case: (altP (a =P k)) => [->|Hne] /=.
    + move=> _. rewrite (eq_sym k). case: (altP (k' =P k)) => // Hne'.
      case Hd: (k \in map fst d); first by rewrite IH // (negbTE Hne').
      congr fetch. elim: d Hd {IH} => [|[a' b'] d IH] //=. rewrite in_cons eq_sym. case: (altP (a' =P k)) => //= _ /IH ->. by [].
    + rewrite eq_sym (negbTE Hne) /=. move=> /IH ->. case: (altP (k' =P k)) => // ->. by rewrite (negbTE Hne).
  - elim: d Hk => [|[a b] d IH] /=; first by rewrite fetch_cons /= eq_sym.
    rewrite in_cons !fetch_cons /= => /norP [Hne Hd]. rewrite IH; last exact: negbTE. case: (altP (k' =P k)) => // ->. by rewrite eq_sym (negbTE Hne).
Qed.

Lemma fetch_fold {N : eqType} {M : Type} (f : N -> M) ks d k :
  fetch (foldl (fun d k => assign d k (f k)) d ks) k = if k \in ks then Some (f k) else fetch d k.
Proof.
  elim: ks d => [|a ks IH] d //=. rewrite IH in_cons fetch_assign. case: (altP (k =P a)) => [->|_] //=. by case: (a \in ks).
Qed.

Lemma rows_of_with {N : eqType} {X} (c : N) (rows : seq (N * X)) : rows_with (eq c) rows (rows_of c rows).
Proof.
  rewrite /rows_of. elim: rows => [|[a x] rows IH] /=; first exact: rows_nil.
  case: (altP (a =P c)) => [->|/eqP Hne] /=; [exact: rows_take|apply: rows_skip => //; by move=> E; apply: Hne].
Qed.
Lemma mem_first_seen {N : eqType} (l : seq N) : first_seen l =i l.
Proof.
  elim: l => [|a l IH] x //=. rewrite !in_cons mem_filter IH. by case: (x == a).
Qed.
Lemma filter_names {N : eqType} {X} (P Q : pred N) (rows : seq (N * X)) : {in map fst rows, P =1 Q} ->
  [seq r <- rows | P r.1] = [seq r <- rows | Q r.1].
Proof.
  elim: rows => [|[a x] rows IH] //= H. rewrite (H a) ?mem_head // IH // => c Hc. apply: H. by rewrite in_cons Hc orbT.
Qed.
Lemma bottom_rows_with {N : eqType} {X} (h : hierarchy N) (rows : seq (N * X)) :
  rows_with (fun c => ~ is_aggregate h c) rows [seq r.2 | r <- rows & r.1 \in bottoms h (first_seen (map fst rows))].
Proof.
  have Hb : forall c, (c \in aggregates h) = true <-> is_aggregate h c.
  { move=> c. split; first by move=> /mapP [[a l] Hin ->]; exists l. by move=> [l Hl]; apply/mapP; exists (c, l). }
  have E : [seq r <- rows | r.1 \in bottoms h (first_seen (map fst rows))] = [seq r <- rows | r.1 \notin aggregates h].
  { apply: (filter_names (P := mem (bottoms h (first_seen (map fst rows)))) (Q := fun c => c \notin aggregates h)) => c Hc.
    by rewrite inE /= mem_filter mem_first_seen Hc andbT. }
  rewrite E. elim: rows {E} => [|[a x] rows IH] /=; first exact: rows_nil.
  case Ha: (a \in aggregates h) => /=.
  - apply: rows_skip => // H. by apply: H; apply/Hb.
  - apply: rows_take => // H. move/Hb: H. by rewrite Ha.
Qed.

Lemma own_models {N : eqType} {X M P} (train : seq X -> M) (predict : M -> X -> P) bottom (h : hierarchy N) rows rows' c :
  bottom \notin aggregates h ->
  (is_aggregate h c -> exists l l', rows_with (eq c) rows l /\ rows_with (eq c) rows' l' /\
     series_forecast predict bottom h (fit_models train bottom h rows) rows' c = Some (map (predict (train l)) l')) /\
  (~ is_aggregate h c -> exists l l', rows_with (fun c => ~ is_aggregate h c) rows l /\ rows_with (eq c) rows' l' /\
     series_forecast predict bottom h (fit_models train bottom h rows) rows' c = Some (map (predict (train l)) l')).
Proof.
  move=> Hb. rewrite /series_forecast /fit_models fetch_assign fetch_fold.
  have Ha : (c \in aggregates h) <-> is_aggregate h c.
  { split; first by move=> /mapP [[a l] Hin ->]; exists l. by move=> [l Hl]; apply/mapP; exists (c, l). }
  split=> H.
  - exists (rows_of c rows), (rows_of c rows'). split; first exact: rows_of_with. split; first exact: rows_of_with.
    move/Ha: H => H. rewrite H. case: eqP => [E|_]; first by move: Hb; rewrite -E H. by rewrite H.
  - eexists _, (rows_of c rows'). split; first exact: bottom_rows_with. split; first exact: rows_of_with.
    case Hc: (c \in aggregates h); first by move/Ha: Hc. by rewrite eqxx.
Qed.

Lemma bottom_collision {N : eqType} {X M P} (train : seq X -> M) (predict : M -> X -> P) bottom (h : hierarchy N) rows rows' :
  is_aggregate h bottom ->
  exists l l', rows_with (fun c => ~ is_aggregate h c) rows l /\ rows_with (eq bottom) rows' l' /\
    series_forecast predict bottom h (fit_models train bottom h rows) rows' bottom = Some (map (predict (train l)) l').
Proof.
  move=> H. rewrite /series_forecast /fit_models if_same fetch_assign eqxx. exists [seq r.2 | r <- rows & r.1 \in bottoms h (first_seen (map fst rows))], (rows_of bottom rows').
  split; first exact: bottom_rows_with. by split; first exact: rows_of_with.
Qed.

(** * Scenarios *)
Local Open Scope ring_scope.
Lemma coherent_plus {F : fieldType} {N : eqType} (h : seq (N * seq N)) bs (x y : N -> F) : coherent h bs x -> coherent h bs y ->
  coherent h bs (fun c => x c + y c).
Proof. move=> Hx Hy a below Ha Hb. by rewrite (Hx a below Ha Hb) (Hy a below Ha Hb) big_split. Qed.
Lemma coherent_minus {F : fieldType} {N : eqType} (h : seq (N * seq N)) bs (x y : N -> F) : coherent h bs x -> coherent h bs y ->
  coherent h bs (fun c => x c - y c).
Proof. move=> Hx Hy a below Ha Hb. by rewrite (Hx a below Ha Hb) (Hy a below Ha Hb) sumrB. Qed.

Lemma List_nth {A} (d : A) l i : List.nth i l d = nth d l i.
Proof. elim: l i => [|a l IH] [|i] //=. Qed.

Lemma errs_length {F : fieldType} {N : eqType} (y yt : seq (@wide F N)) : size y = size yt -> size (errs_tilde y yt) = size y.
Proof. move=> E. by rewrite size_map size_zip E minnn. Qed.

Lemma errs_coherent {F : fieldType} {N : eqType} (h : seq (N * seq N)) bs (y yt : seq (@wide F N)) e s : size y = size yt ->
  (forall i s, (i < size y)%N -> coherent h bs (fun c => nth (fun _ _ => 0) y i c s)) ->
  (forall i s, (i < size y)%N -> coherent h bs (fun c => nth (fun _ _ => 0) yt i c s)) ->
  (e < size y)%N -> coherent h bs (fun c => nth (fun _ _ => 0) (errs_tilde y yt) e c s).
Proof.
  move=> E Hy Hyt He. rewrite /errs_tilde.
  rewrite (nth_map ((fun _ _ => 0), (fun _ _ => 0))); last by rewrite size_zip E minnn -E.
  rewrite nth_zip //. apply: coherent_minus; [exact: Hy|exact: Hyt].
Qed.

Lemma scenarios_coherent {F : fieldType} {N : eqType} (h : seq (N * seq N)) bs train (y yt y_hat y_tilde : seq (@wide F N)) n_scen draw : (0 < n_scen)%N ->
  size y = size train -> size yt = size train -> size y_tilde = size train ->
  (forall k s j, (draw k s j < length (List.filter (Nat.eqb k) train))%coq_nat \/ length (List.filter (Nat.eqb k) train) = 0%N) ->
  (forall i s, (i < size train)%N -> coherent h bs (fun c => nth (fun _ _ => 0) y i c s) /\
     coherent h bs (fun c => nth (fun _ _ => 0) yt i c s) /\ coherent h bs (fun c => nth (fun _ _ => 0) y_tilde i c s)) ->
  exists res, scenarios ReconciledScen train (errs_tilde y yt) y_hat y_tilde n_scen draw = Some res /\
    forall i vals v s, List.In (i, vals) res -> List.In v vals -> coherent h bs (fun c => v c s).
Proof.
  move=> /ssrnat.ltP Hn E1 E2 E3 Hd Hc. have Ee : size (errs_tilde y yt) = size train by rewrite errs_length E1.
  have [res [Hr [_ [Hi Hv]]]] := @scenarios_training_hours _ plus train _ _ n_scen draw (fun _ _ => 0) Hn Ee E3 Hd. exists res. split; first exact: Hr.
  move=> i vals v s Hin Hvin. have [_ H] := Hv i vals Hin. have [e [/ssrnat.ltP He [_ ->]]] := H v Hvin.
  have Hit : (i < size train)%N. { apply/ssrnat.ltP. apply (proj1 (proj1 (Hi i) (List.in_map fst _ _ Hin))). }
  rewrite /plus. rewrite !List_nth. apply: coherent_plus; first by case: (Hc i s Hit) => [_ []].
  apply: errs_coherent; rewrite ?E1 //; move=> i' s' Hi'; by case: (Hc i' s' Hi') => [? []].
Qed.

Lemma vanilla_scenarios {F : fieldType} {N : eqType} train (errs y_hat y_tilde : seq (@wide F N)) n_scen draw : (0 < n_scen)%N ->
  size errs = size train -> size y_hat = size train ->
  (forall k s j, (draw k s j < length (List.filter (Nat.eqb k) train))%coq_nat \/ length (List.filter (Nat.eqb k) train) = 0%N) ->
  exists res, scenarios VanillaScen train errs y_hat y_tilde n_scen draw = Some res /\
    forall i vals v, List.In (i, vals) res -> List.In v vals ->
      exists e, (e < size train)%N /\ nth 0%N train e = nth 0%N train i /\ forall c s, v c s = nth (fun _ _ => 0) y_hat i c s + nth (fun _ _ => 0) errs e c s.
Proof.
  move=> /ssrnat.ltP Hn E1 E2 Hd. have [res [Hr [_ [_ Hv]]]] := @scenarios_training_hours _ plus train _ _ n_scen draw (fun _ _ => 0) Hn E1 E2 Hd. exists res. split; first exact: Hr.
  move=> i vals v Hin Hvin. have [_ H] := Hv i vals Hin. have [e [/ssrnat.ltP He [Et ->]]] := H v Hvin. exists e. split=> //.
  by rewrite -!List_nth.
Qed.

(** * Covariance *)
Lemma quadratic_add {F : fieldType} m (A B : 'M[F]_m) v : quadratic (A + B) v = quadratic A v + quadratic B v.
Proof. by rewrite /quadratic mulmxDr mulmxDl mxE. Qed.
Lemma quadratic_scale {F : fieldType} m (A : 'M[F]_m) a v : quadratic (a *: A) v = a * quadratic A v.
Proof. by rewrite /quadratic -scalemxAr -scalemxAl mxE. Qed.
Lemma quadratic_gram {F : fieldType} n p (B : 'M[F]_(n, p)) v : quadratic (B^T *m B) v = \sum_i ((B *m v) i 0) ^+ 2.
Proof.
  rewrite /quadratic. have -> : v^T *m (B^T *m B) *m v = (B *m v)^T *m (B *m v) by rewrite trmx_mul !mulmxA.
  rewrite mxE. apply: eq_bigr => i _. by rewrite mxE expr2.
Qed.
Lemma quadratic_one {F : fieldType} m (v : 'cV[F]_m) : quadratic 1%:M v = \sum_i (v i 0) ^+ 2.
Proof. rewrite -[1%:M]mul1mx -{1}trmx1 quadratic_gram mul1mx. by []. Qed.

Lemma sum_sq_pos {F : realFieldType} m (v : 'cV[F]_m) : v <> 0 -> 0 < \sum_i (v i 0) ^+ 2.
Proof.
  move=> Hv. have H0 : 0 <= \sum_i (v i 0) ^+ 2 by apply: sumr_ge0 => i _; exact: sqr_ge0.
  rewrite lt0r H0 andbT. apply/negP => /eqP Hs. apply: Hv. apply/colP => i. rewrite mxE. apply/eqP.
  rewrite -sqrf_eq0. move/eqP: Hs. rewrite psumr_eq0; last by move=> j _; exact: sqr_ge0. move/allP => /(_ i). rewrite mem_index_enum => /(_ isT). by [].
Qed.

Lemma trace_emp {F : fieldType} n p (E : 'M[F]_(n, p)) : \tr (emp_cov E) = n%:R^-1 * \sum_j \sum_i (centred E i j) ^+ 2.
Proof.
  rewrite /emp_cov mxtraceZ. congr (_ * _). rewrite /mxtrace. apply: eq_bigr => j _. rewrite mxE. apply: eq_bigr => i _. by rewrite mxE expr2.
Qed.

Lemma centred_zero {F : realFieldType} n p (E : 'M[F]_(n, p)) : (0 < n)%N -> constant_columns E <-> centred E = 0.
Proof.
  move=> Hn. have Hn0 : (n%:R : F) != 0 by rewrite pnatr_eq0 -lt0n. split.
  - move=> Hc. apply/matrixP => i j. rewrite !mxE. have -> : \sum_k E k j = n%:R * E i j.
    { rewrite (eq_bigr (fun _ => E i j)); last by move=> k _; exact: Hc. rewrite sumr_const card_ord mulr_natl. by []. }
    by rewrite mulrAC mulfV // mul1r subrr.
  - move=> H i i' j. move/matrixP: H => H. have := H i j. have := H i' j. rewrite !mxE => /eqP + /eqP. rewrite !subr_eq0 => /eqP -> /eqP ->. by [].
Qed.

Lemma pd_unit {F : realFieldType} m (W : 'M[F]_m) : positive_definite W -> W \in unitmx.
Proof.
  move=> [_ Hp]. apply/negPn/negP. rewrite -row_free_unit -kermx_eq0 => /rowV0Pn [v /sub_kermxP Hv Hv0].
  have Hne : v^T <> 0 by move=> E; move/negP: Hv0 => []; apply/eqP/trmx_inj; rewrite E trmx0.
  have := Hp _ Hne. rewrite /quadratic trmxK Hv mul0mx mxE ltxx. by [].
Qed.
Lemma pd_inv {F : realFieldType} m (W : 'M[F]_m) : positive_definite W -> positive_definite (invmx W).
Proof.
  move=> Hpd. have Hu := pd_unit Hpd. case: Hpd => Hs Hp. have Hi : (invmx W)^T = invmx W by rewrite trmx_inv Hs. split; first exact: Hi.
  move=> v Hv. have Hw : invmx W *m v <> 0. { move=> E. apply: Hv. by rewrite -[v](mulKVmx Hu) E mulmx0. }
  have := Hp _ Hw. rewrite /quadratic trmx_mul Hi. by rewrite mulmxKV // mulmxA.
Qed.

Lemma shrunk_pd {F : realFieldType} n p (E : 'M[F]_(n, p)) : (0 < n)%N -> ~ constant_columns E -> positive_definite (shrunk_cov E).
Proof.
  move=> Hn Hc. have Hn0 : (0 : F) < n%:R by rewrite ltr0n.
  have Hz : centred E <> 0 by move/(centred_zero _ Hn) => H; apply: Hc.
  have Ht : 0 < \tr (emp_cov E).
  { rewrite trace_emp mulr_gt0 ?invr_gt0 //.
    have H0 : 0 <= \sum_j \sum_i (centred E i j) ^+ 2 by apply: sumr_ge0 => j _; apply: sumr_ge0 => i _; exact: sqr_ge0.
    rewrite lt0r H0 andbT. apply/negP => /eqP Hs. apply: Hz. apply/matrixP => i j. rewrite [RHS]mxE. apply/eqP. rewrite -sqrf_eq0.
    move/eqP: Hs. rewrite psumr_eq0; last by move=> j' _; apply: sumr_ge0 => i' _; exact: sqr_ge0.
    move/allP => /(_ j). rewrite mem_index_enum => /(_ isT) /= /eqP/eqP. rewrite psumr_eq0; last by move=> i' _; exact: sqr_ge0.
    move/allP => /(_ i). by rewrite mem_index_enum => /(_ isT). }
  have Hp : (0 < p)%N. { case: p E Hc Hz Ht => // E Hc Hz. exfalso. apply: Hc => i i' [] //. }
  split.
  - rewrite /shrunk_cov linearD /= !linearZ /= trmx1 /emp_cov linearZ /= trmx_mul trmxK. by [].
  - move=> v Hv. rewrite /shrunk_cov quadratic_add !quadratic_scale quadratic_gram quadratic_one.
    apply: ltr_paddl.
    + rewrite mulr_ge0 // ?divr_ge0 ?ler0n // mulr_ge0 ?invr_ge0 ?ler0n //. by apply: sumr_ge0 => i _; exact: sqr_ge0.
    + apply: mulr_gt0; last exact: sum_sq_pos. by rewrite mulr_gt0 ?divr_gt0 ?ltr01 ?ltr0n.
Qed.

Lemma mint_exists {F : realFieldType} m n k pinv (A : 'M[F]_(m, n)) (E : 'M[F]_(k, m + n)) : pseudo_inverse pinv -> (0 < k)%N ->
  ~ constant_columns E -> positive_definite (pinv (shrunk_cov E)) /\ exists P, mint_weights pinv (col_mx A 1%:M) E = Some P.
Proof.
  move=> [Hi _] Hk Hc. have Hp := shrunk_pd Hk Hc. rewrite /mint_weights (Hi _ (pd_unit Hp)). have Hpi := pd_inv Hp.
  split; first exact: Hpi. exact: weights_exist.
Qed.

Lemma mint_constant {F : realFieldType} m n k pinv (A : 'M[F]_(m, n)) (E : 'M[F]_(k, m + n)) : pseudo_inverse pinv -> (0 < k)%N ->
  (0 < n)%N -> constant_columns E -> mint_weights pinv (col_mx A 1%:M) E = None.
Proof.
  move=> [_ H0] Hk Hn Hc. rewrite /mint_weights.
  have -> : shrunk_cov E = 0. { rewrite /shrunk_cov /emp_cov. move/(centred_zero _ Hk): Hc => ->. rewrite mulmx0 scaler0 scaler0 mxtrace0 mul0r mulr0 scale0r addr0. by []. }
  rewrite H0 /p_matrix mulmx0 mul0mx. case: ifP => //. rewrite -row_free_unit /row_free mxrank0 eq_sym. by case: (n) Hn.
Qed.

(** One training row: adding its own base error to its base forecast would give the observation. *)
Lemma vanilla_wrong {F : fieldType} {N : eqType} (y yh yt : @wide F N) n_scen draw : (0 < n_scen)%N -> (forall k s j, draw k s j = 0%N) ->
  exists res, scenarios VanillaScen [:: 5%N] (errs_tilde [:: y] [:: yt]) [:: yh] [:: yt] n_scen draw = Some res /\
    (exists vals v, List.In (0%N, vals) res /\ List.In v vals) /\
    forall i vals v c s, List.In (i, vals) res -> List.In v vals -> yt c s <> yh c s -> v c s <> y c s.
Proof.
  case: n_scen => // n _ Hd. eexists. split; first reflexivity. split.
  - eexists _, _. split; first by left. by left.
  - move=> i vals v c s Hin Hv Hne. case: Hin => [E|[]]. move: (f_equal snd E) => /= {}E. rewrite -E in Hv.
    have Hx : exists s', v = plus yh (List.nth (draw 5%N s' 0%N) (errs_tilde [:: y] [:: yt]) (fun _ _ => 0)).
    { case: Hv => [<-|Hv]; first by exists 0%N. move/List.in_map_iff: Hv => [s' [<- _]]. by exists s'. }
    case: Hx => s' ->. rewrite Hd /plus /= => Hy. apply: Hne. apply/eqP. rewrite -subr_eq0.
    have -> : yt c s - yh c s = - (yh c s + (y c s - yt c s) - y c s) by rewrite addrA addrAC addrK opprB.
    by rewrite Hy subrr oppr0.
Qed.

Lemma returned_scenarios_coherent {F : fieldType} {N : eqType} (h : seq (N * seq N)) bs train (y yt y_hat y_tilde : seq (@wide F N)) n_scen draw res :
  size y = size train -> size yt = size train ->
  (forall k s j, (draw k s j < length (List.filter (Nat.eqb k) train))%coq_nat \/ length (List.filter (Nat.eqb k) train) = 0%N) ->
  (forall i s, (i < size train)%N -> coherent h bs (fun c => nth (fun _ _ => 0) y i c s) /\ coherent h bs (fun c => nth (fun _ _ => 0) yt i c s)) ->
  (forall i s, (i < size y_tilde)%N -> coherent h bs (fun c => nth (fun _ _ => 0) y_tilde i c s)) ->
  scenarios ReconciledScen train (errs_tilde y yt) y_hat y_tilde n_scen draw = Some res ->
  forall i vals v s, List.In (i, vals) res -> List.In v vals -> coherent h bs (fun c => v c s).
Proof.
  case: n_scen => [|n_scen]; first by []. move=> E1 E2 Hd Hc Ht Hr. case E3: (size y_tilde == size train); last first.
  - move: Hr. rewrite /scenarios /= (@scenarios_other_length _ plus train _ _ n_scen.+1 draw (fun _ _ => 0)) //. by move=> E; move/eqP: E3; apply.
  - move/eqP: E3 => E3. have [res' [Hr' H]] := @scenarios_coherent _ _ h bs train y yt y_hat y_tilde n_scen.+1 draw isT E1 E2 E3 Hd
      (fun i s Hi => conj (proj1 (Hc i s Hi)) (conj (proj2 (Hc i s Hi)) (Ht i s (eq_ind_r (fun n => (i < n)%N) Hi E3)))).
    move: Hr. rewrite Hr' => -[<-]. exact: H.
Qed.
(** Where reconciliation changes nothing in training, the errors are those of the base forecasts. *)
Lemma vanilla_own_errors {F : fieldType} {N : eqType} train (y y_hat : seq (@wide F N)) n_scen draw : (0 < n_scen)%N ->
  size y = size train -> size y_hat = size train ->
  (forall k s j, (draw k s j < length (List.filter (Nat.eqb k) train))%coq_nat \/ length (List.filter (Nat.eqb k) train) = 0%N) ->
  exists res, scenarios VanillaScen train (errs_tilde y y_hat) y_hat y_hat n_scen draw = Some res /\
    forall i vals v, List.In (i, vals) res -> List.In v vals ->
      exists e, (e < size train)%N /\ nth 0%N train e = nth 0%N train i /\
        forall c s, v c s = nth (fun _ _ => 0) y_hat i c s + (nth (fun _ _ => 0) y e c s - nth (fun _ _ => 0) y_hat e c s).
Proof.
  move=> Hn Hy Hh Hd. have Hs : size (errs_tilde y y_hat) = size train by rewrite /errs_tilde size_map size_zip Hy Hh minnn.
  have [res [Hr Hv]] := @vanilla_scenarios F N train (errs_tilde y y_hat) y_hat y_hat n_scen draw Hn Hs Hh Hd. exists res. split=> // i vals v Hi Hv'.
  have [e [He [Ht Hc]]] := Hv i vals v Hi Hv'. exists e. split=> //. split=> // c s. rewrite Hc. congr (_ + _).
  rewrite /errs_tilde (nth_map ((fun _ _ => 0), (fun _ _ => 0))) ?size_zip ?Hy ?Hh ?minnn //. by rewrite nth_zip ?Hy ?Hh.
Qed.
