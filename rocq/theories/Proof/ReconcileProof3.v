From mathcomp Require Import all_ssreflect all_algebra.
From Verif Require Import Model.Hierarchy Model.Reconcile Spec.ReconcileSpec Proof.ReconcileProof Proof.ReconcileProof2.
Set Implicit Arguments.
Unset Strict Implicit.
Unset Printing Implicit Defensive.
Import Order.Theory GRing.Theory Num.Theory.

(** * Levels *)
Section Levels.
Context {N : eqType} (h : seq (N * seq N)).
Lemma steps_cons a l c n d : (a, l) \in h -> c \in l -> steps_down h c n d -> steps_down h a n d.+1.
Proof.
  move=> Ha Hc H. elim: H Hc => {c n d} [c|c b l' n d _ IH Hb Hn] Hc; first exact: (down_step (down_zero _ a) Ha Hc). exact: (down_step (IH Hc) Hb Hn).
Qed.
Lemma steps_first a n d : steps_down h a n d.+1 -> exists l c, (a, l) \in h /\ c \in l /\ steps_down h c n d.
Proof.
  elim: d n => [|d IH] n H; inversion H as [|? b l ? ? Hab Hb Hn]; subst.
  - inversion Hab; subst. exists l, n. split=> //. split=> //. exact: down_zero.
  - have [l' [c [A [B C]]]] := IH _ Hab. exists l', c. split=> //. split=> //. exact: (down_step C Hb Hn).
Qed.
Context (Hu : uniq (map fst h)).
Lemma fold_levels (sub : N -> option (levels N)) lv ms : (forall m, m \in ms -> m \in aggregates h -> exists l, sub m = Some l) ->
  forall acc, exists l', foldl (fun acc n => if acc is Some acc then if n \in aggregates h then omap (fun l => acc ++ (n, lv) :: l) (sub n) else Some (acc ++ [:: (n, lv)]) else None) (Some acc) ms = Some (acc ++ l') /\
    forall p, p \in l' <-> exists2 m, m \in ms & p = (m, lv) \/ (m \in aggregates h /\ exists2 l, sub m = Some l & p \in l).
Proof.
  elim: ms => [|m ms IH] Hs acc; first by exists [::]; rewrite cats0; split=> // p; split=> // -[].
  have Hs' : forall m, m \in ms -> m \in aggregates h -> exists l, sub m = Some l by move=> x Hx; apply: Hs; rewrite in_cons Hx orbT.
  rewrite /=. case: ifP => Hm.
  - have [l El] := Hs m (mem_head _ _) Hm. rewrite El /=. have [l' [-> Hl']] := IH Hs' (acc ++ (m, lv) :: l). exists ((m, lv) :: l ++ l'). split; first by rewrite -catA.
    move=> p. rewrite in_cons mem_cat. split.
    + case/orP => [/eqP ->|/orP [Hp|/Hl' [x Hx Hp]]]; [exists m; [exact: mem_head|by left]| |exists x => //; by rewrite in_cons Hx orbT].
      exists m; first exact: mem_head. right. split=> //. by exists l.
    + case=> x. rewrite in_cons => /orP [/eqP ->|Hx] Hp; last by apply/orP; right; apply/orP; right; apply/Hl'; exists x.
      case: Hp => [->|[_ [l2 E2 Hp]]]; first by rewrite eqxx. move: E2. rewrite El => -[E2]. subst l2. by rewrite Hp !orbT.
  - have [l' [-> Hl']] := IH Hs' (acc ++ [:: (m, lv)]). exists ((m, lv) :: l'). split; first by rewrite -catA.
    move=> p. rewrite in_cons. split.
    + case/orP => [/eqP ->|/Hl' [x Hx Hp]]; [exists m; [exact: mem_head|by left]|exists x => //; by rewrite in_cons Hx orbT].
    + case=> x. rewrite in_cons => /orP [/eqP ->|Hx] Hp; last by apply/orP; right; apply/Hl'; exists x.
      case: Hp => [->|[Hx _]]; first by rewrite eqxx. by rewrite Hm in Hx.
Qed.
Lemma explore_unfold fuel k lv : 0 < lv -> explore fuel.+1 h k lv =
  foldl (fun acc n => if acc is Some acc then if n \in aggregates h then omap (fun l => acc ++ (n, lv) :: l) (explore fuel h n lv.+1) else Some (acc ++ [:: (n, lv)]) else None) (Some [::]) (members h k).
Proof. by case: lv. Qed.
Context (rank : N -> nat) (Hr : forall a l c, (a, l) \in h -> c \in l -> is_aggregate h c -> rank c < rank a).
Lemma explore_ok : forall fuel k vs lv, 0 < lv -> uniq (k :: vs) -> {subset k :: vs <= aggregates h} -> (forall v, v \in vs -> rank k < rank v) -> size h <= size vs + fuel ->
  exists r, explore fuel h k lv = Some r /\ forall n d, (n, d) \in r <-> exists2 e, steps_down h k n e.+1 & d = (lv + e)%N.
Proof.
  elim=> [|fuel IH] k vs lv Hlv Huv Hsub Hrk Hsz.
  - exfalso. have := uniq_leq_size Huv Hsub. rewrite /aggregates size_map /=. rewrite addn0 in Hsz. move=> H. have := leq_trans H Hsz. by rewrite ltnn.
  - have Hk : k \in aggregates h by apply: Hsub; rewrite mem_head. have Hm := members_of Hu Hk.
    have Hch : forall i, i \in members h k -> i \in aggregates h -> exists r, explore fuel h i lv.+1 = Some r /\ forall n d, (n, d) \in r <-> exists2 e, steps_down h i n e.+1 & d = (lv.+1 + e)%N.
    { move=> i Hi Ha. have Hlt : rank i < rank k by apply: (Hr Hm Hi); apply/aggregateP.
      apply: (IH i (k :: vs)) => //.
      + rewrite cons_uniq Huv andbT in_cons negb_or. apply/andP; split; first by apply/eqP=> E; move: Hlt; rewrite E ltnn.
        apply/negP => Hv. have := Hrk _ Hv. by move/(ltn_trans Hlt); rewrite ltnn.
      + move=> x. rewrite in_cons => /orP [/eqP ->|Hx] //. exact: Hsub.
      + move=> v. rewrite in_cons => /orP [/eqP ->|Hv] //. exact: ltn_trans Hlt (Hrk _ Hv).
      + by rewrite /= addSnnS. }
    rewrite explore_unfold //.
    have [|r [-> Hrr]] := @fold_levels (fun n => explore fuel h n lv.+1) lv (members h k) _ [::].
    { move=> m Hm' Ha. have [r [-> _]] := Hch m Hm' Ha. by exists r. }
    exists r. split=> // n d. rewrite Hrr. split.
    + case=> m Hmk [[-> ->]|[Ha [l El Hin]]].
      * exists 0; last by rewrite addn0. exact: (down_step (down_zero _ k) Hm Hmk).
      * have [r' [Er' Hr']] := Hch m Hmk Ha. rewrite El in Er'. case: Er' => Er'. subst r'. move/Hr': Hin => [e Hs ->]. exists e.+1; last by rewrite addnS addSn.
        exact: (steps_cons Hm Hmk Hs).
    + case=> e Hs ->. have [l [c [A [B C]]]] := steps_first Hs. rewrite (members_in Hu A). exists c => //. case: e Hs C => [|e] Hs C.
      * inversion C; subst. left. by rewrite addn0.
      * right. have [l' [c' [A' _]]] := steps_first C. have Hca : c \in aggregates h by apply/aggregateP; exists l'. split=> //.
        have [|r' [Er' Hr']] := Hch c _ Hca; first by rewrite (members_in Hu A). exists r' => //. apply/Hr'. exists e => //. by rewrite addnS addSn.
Qed.
Lemma rank_down a b d : steps_down h a b d.+1 -> is_aggregate h b -> rank b < rank a.
Proof.
  elim: d b => [|d IH] b H Hb; inversion H as [|? b' l ? ? Hab Hb' Hn]; subst.
  - inversion Hab; subst. exact: (Hr Hb' Hn Hb).
  - apply: (ltn_trans (Hr Hb' Hn Hb)). apply: IH => //. by exists l.
Qed.
Lemma parent_unique : one_parent h -> forall b l b' l' c, (b, l) \in h -> c \in l -> (b', l') \in h -> c \in l' -> b = b'.
Proof.
  rewrite /one_parent. elim: (h) => [|[x m] h' IH] //=. rewrite cat_uniq => /andP [_ /andP [Hd Hu']] b l b' l' c.
  have Hdis : forall b l, (b, l) \in h' -> c \in l -> c \in m -> False.
  { move=> b0 l0 Hin Hc Hcm. move/negP: Hd => []. apply/hasP. exists c => //. apply/flattenP. exists l0 => //. by apply/mapP; exists (b0, l0). }
  rewrite !in_cons => /orP [/eqP [-> ->]|Hin] Hc /orP [/eqP [-> ->]|Hin'] Hc' //.
  - by case: (Hdis _ _ Hin').
  - by case: (Hdis _ _ Hin).
  - exact: (IH Hu' _ _ _ _ _ Hin Hc Hin' Hc').
Qed.
Lemma depth_unique k n : one_parent h -> is_aggregate h k -> forall d d', steps_down h k n d -> steps_down h k n d' -> d = d'.
Proof.
  move=> H1 Hk d. elim: d n => [|d IH] n d' H H'.
  - inversion H; subst. case: d' H' => // d' H'. have := rank_down H' Hk. by rewrite ltnn.
  - case: d' H' => [|d'] H'; first by inversion H'; subst; have := rank_down H Hk; rewrite ltnn.
    inversion H as [|? b l ? ? Hab Hb Hn]; subst. inversion H' as [|? b' l' ? ? Hab' Hb' Hn']; subst.
    have E := parent_unique H1 Hb Hn Hb' Hn'. subst b'. by rewrite (IH b d').
Qed.
End Levels.
Lemma level_of_some {N : eqType} (l : levels N) n d : (n, d) \in l -> (forall d', (n, d') \in l -> d' = d) -> level_of l n = Some d.
Proof.
  rewrite /level_of. elim/last_ind: l => [|l [m e] IH] //. rewrite foldl_rcons /= mem_rcons in_cons => Hin Hd. case: eqP => [E|Hne].
  - subst m. by rewrite (Hd e) // mem_rcons in_cons eqxx.
  - apply: IH; first by case/orP: Hin => // /eqP [E _]; case: Hne. move=> d' Hin'. apply: Hd. by rewrite mem_rcons in_cons Hin' orbT.
Qed.
Lemma level_of_none {N : eqType} (l : levels N) n : (forall d, (n, d) \notin l) -> level_of l n = None.
Proof.
  rewrite /level_of. elim/last_ind: l => [|l [m e] IH] Hn //. rewrite foldl_rcons /=. case: eqP => [E|Hne].
  - subst m. have := Hn e. by rewrite mem_rcons in_cons eqxx.
  - apply: IH => d. have := Hn d. by rewrite mem_rcons in_cons negb_or => /andP [].
Qed.
Lemma levels_correct {N : eqType} (h : seq (N * seq N)) k : well_formed h -> one_parent h -> is_aggregate h k ->
  exists l, explore (size h) h k 0 = Some l /\ forall n d, level_of l n = Some d <-> steps_down h k n d.
Proof.
  move=> [Hu [Hne [rank Hr]]] H1 Hk.
  have Hsz : exists m, size h = m.+1 by case: Hk => l; case: (h) => // x h' _; exists (size h').
  have [m Em] := Hsz.
  have Hex : exists r, explore m.+1 h k 1 = Some r /\ forall n d, (n, d) \in r <-> exists2 e, steps_down h k n e.+1 & d = (1 + e)%N.
  { apply: (@explore_ok N h Hu rank Hr m.+1 k [::] 1) => //; last by rewrite Em. move=> x. rewrite inE => /eqP ->. exact/aggregateP. }
  have [r [E Hin]] := Hex.
  rewrite Em. exists ((k, 0) :: r). split.
  { rewrite /=. move: E. rewrite /=. 
    have Hg : forall ms (f : N -> option (levels N)) acc p, foldl (fun acc n => if acc is Some acc then if n \in aggregates h then omap (fun l => acc ++ (n, 1) :: l) (f n) else Some (acc ++ [:: (n, 1)]) else None) (Some (p :: acc)) ms =
      omap (cons p) (foldl (fun acc n => if acc is Some acc then if n \in aggregates h then omap (fun l => acc ++ (n, 1) :: l) (f n) else Some (acc ++ [:: (n, 1)]) else None) (Some acc) ms).
    { move=> ms f. elim: ms => [|x ms IH] acc p //=. case: ifP => _; last exact: IH. case: (f x) => [s|] /=; first exact: IH.
      by elim: ms {IH}. }
    by rewrite Hg => ->. }
  have Hall : forall n d, (n, d) \in (k, 0) :: r <-> steps_down h k n d.
  { move=> n d. rewrite in_cons. split.
    - case/orP => [/eqP [-> ->]|/Hin [e He ->]]; [exact: down_zero|by rewrite add1n].
    - case: d => [|d] H; first by inversion H; subst; rewrite eqxx. apply/orP; right. apply/Hin. exists d => //. }
  move=> n d. split.
  - move=> El. apply/Hall. move: El. rewrite /level_of. elim/last_ind: ((k, 0) :: r) => [|l [x e] IH] //. rewrite foldl_rcons /= mem_rcons in_cons. case: eqP => [-> [->]|_ /IH ->]; by rewrite ?eqxx ?orbT.
  - move=> H. apply: level_of_some; first exact/Hall. move=> d' /Hall H'. by rewrite (depth_unique Hr H1 Hk H' H).
Qed.
(** The root is searched by the number of leaves; the top aggregate may lose against its only
    member. *)
Lemma levels_miss_top :
  exists (h : seq (nat * seq nat)) flat r l, well_formed h /\ one_parent h /\ unroll_dict h = Some flat /\
    (forall n, n \in [:: 1; 2; 3] -> exists d, steps_down h 0 n d) /\
    root_of h flat = Some r /\ explore (size h) h r 0 = Some l /\ level_of l 0 = None.
Proof.
  pose h : seq (nat * seq nat) := [:: (1, [:: 2; 3]); (0, [:: 1])].
  exists h, [:: [:: 2; 3]; [:: 2; 3]], 1, [:: (1, 0); (2, 1); (3, 1)]. split; last split; last split; last split; last by [].
  - split=> //. split; first by move=> a l; rewrite !in_cons => /orP [/eqP [_ ->]|/orP [/eqP [_ ->]|]].
    exists (fun a => 2 - a) => a l c. rewrite !in_cons => /orP [/eqP [-> ->]|/orP [/eqP [-> ->]|//]]; rewrite !inE.
    + case/orP => /eqP -> [l']; by rewrite !inE.
    + by move/eqP => ->.
  - by [].
  - by [].
  - have H0 : (0, [:: 1]) \in h by []. have H1 : (1, [:: 2; 3]) \in h by [].
    have D1 : steps_down h 0 1 1 by apply: (down_step (down_zero _ 0) H0).
    move=> n. rewrite !inE => /orP [/eqP ->|/orP [/eqP ->|/eqP ->]]; [by exists 1|exists 2; exact: (down_step D1 H1)|exists 2; exact: (down_step D1 H1)].
Qed.

(** * Weights and labels *)
Local Open Scope ring_scope.
Lemma pd_diag {F : realFieldType} m (d : 'rV[F]_m) : (forall i, 0 < d 0 i) -> positive_definite (diag_mx d).
Proof.
  move=> Hd. split; first exact: tr_diag_mx. move=> v Hv. rewrite /quadratic.
  have -> : (v^T *m diag_mx d *m v) 0 0 = \sum_i d 0 i * v i 0 ^+ 2.
  { rewrite mul_mx_diag mxE. apply: eq_bigr => i _. rewrite !mxE expr2. by rewrite mulrA [X in X * _]mulrC. }
  have Hnn : forall i, true -> 0 <= d 0 i * v i 0 ^+ 2 by move=> i _; apply: mulr_ge0; [apply: ltW; exact: Hd|exact: sqr_ge0].
  rewrite lt_neqAle sumr_ge0 // andbT eq_sym. apply/negP => /eqP Hz. apply: Hv. apply/colP => i. rewrite mxE.
  have /eqP := Hz. rewrite psumr_eq0 // => /allP /(_ i (mem_index_enum _)) /=. rewrite mulf_eq0 (gt_eqF (Hd i)) /= sqrf_eq0 => /eqP //.
Qed.
Lemma pd_one {F : realFieldType} m : positive_definite (1%:M : 'M[F]_m).
Proof. rewrite -diag_const_mx. apply: pd_diag => i. by rewrite mxE ltr01. Qed.
Lemma p_matrix_eq {F : fieldType} m n (S : 'M[F]_(m, n)) W P : p_matrix S W = Some P -> (S^T *m W *m S) *m P = S^T *m W.
Proof. rewrite /p_matrix. case: ifP => // Hk [<-]. by rewrite mulmxA mulmxV // mul1mx. Qed.

Lemma labels_example :
  exists (h : seq (nat * seq nat)) names names' flat W P (y out : nat -> rat),
    well_formed h /\ unroll_dict h = Some flat /\ uniq names /\ perm_eq names' names /\ positive_definite W /\
    p_matrix (s_matrix (aggregates h) (bottoms h (first_seen names)) flat) W = Some P /\
    coherent h (bottoms h (first_seen names)) y /\
    reconcile (s_matrix (aggregates h) (bottoms h (first_seen names)) flat) P (forecast_columns h names') y = Some out /\
    ~ coherent h (bottoms h (first_seen names)) out.
Proof.
  pose h : seq (nat * seq nat) := [:: (0%N, [:: 1; 4]%N); (1%N, [:: 2; 3]%N)].
  have Hwf : well_formed h.
  { split=> //. split; first by move=> a l; rewrite !in_cons => /orP [/eqP [_ ->]|/orP [/eqP [_ ->]|]].
    exists (fun a => 2 - a)%N => a l c. rewrite !in_cons => /orP [/eqP [-> ->]|/orP [/eqP [-> ->]|//]]; rewrite !inE.
    + case/orP => /eqP -> [l']; by rewrite !inE.
    + case/orP => /eqP -> [l']; by rewrite !inE. }
  pose bs := [:: 2; 3; 4]%N. pose flat := [:: [:: 2; 3; 4]; [:: 2; 3]]%N.
  have Hf : unroll_dict h = Some flat by []. have Hu : uniq (aggregates h ++ bs) by [].
  have [P EP] := @weights_exist [realFieldType of rat] _ _ (a_matrix (aggregates h) bs flat) 1%:M (pd_one _).
  pose y := fun a : nat => (if (a <= 2)%N then 1 else 0) : rat.
  have Hc : coherent h bs y.
  { apply: (proj2 (@coherentE _ _ h flat bs Hwf Hf y)). apply/colP => i. rewrite mxE. rewrite /s_matrix mul_col_mx. case: (splitP i) => [i' Ei|j Ej].
    - have -> : i = lshift (size bs) i' by apply: val_inj. rewrite col_mxEu tnth_cat_l !mxE. rewrite !big_ord_recl big_ord0 !mxE.
      case: i' {Ei} => [[|[|i']] Hi'] //=.
    - have -> : i = rshift (size (aggregates h)) j by apply: val_inj. rewrite col_mxEd tnth_cat_r mul1mx mxE //. }
  have [out [Eo Ho]] := @reconciled_labels _ _ h flat bs [:: 0; 1; 4; 2; 3]%N 1%:M P y 0%N Hwf Hf Hu EP Hc isT.
  exists h, [:: 0; 1; 2; 3; 4]%N, [:: 0; 1; 4; 2; 3]%N, flat, 1%:M, P, y, out. split; first exact: Hwf. split; first exact: Hf. split; first by []. split; first by []. split; first exact: pd_one.
  split; first exact: EP. split; first exact: Hc. split; first exact: Eo.
  move=> Hco. have := Hco 1%N (fun b => b \in [:: 2; 3]%N). have H1 : is_aggregate h 1%N by exists [:: 2; 3]%N.
  move/(_ H1). have Hb : forall b, reflect (leaf_below h 1%N b) (b \in [:: 2; 3]%N).
  { move=> b. have Hi : (1 < size (aggregates h))%N by []. exact: (@leaves_of _ h flat Hwf Hf (Ordinal Hi) b). }
  move/(_ Hb). rewrite /= !big_cons big_nil !Ho //=.
Qed.
Lemma weights_differ (S : 'M[rat]_(1 + 1, 1)) (P : 'M[rat]_(1, 1 + 1)) : (forall i j, S i j = 1) ->
  (S^T *m 1%:M *m S) *m P = S^T *m 1%:M -> (S^T *m diag_mx (\row_i (if i == lshift 1 0 then 3%:R else 1)) *m S) *m P = S^T *m diag_mx (\row_i (if i == lshift 1 0 then 3%:R else 1)) -> False.
Proof.
  move=> ES. move/(congr1 (fun M : 'M_(1, 1 + 1) => M 0 (lshift 1 0))) => Q1. move/(congr1 (fun M : 'M_(1, 1 + 1) => M 0 (lshift 1 0))) => Q2. move: Q1 Q2.
  rewrite mulmx1 mul_mx_diag !mxE !big_ord_recl !big_ord0 !mxE !big_ord_recl !big_ord0 !mxE !ES /=. set x := P _ _. rewrite !mulr1 !mul1r !addr0 => H1 H2.
  have : (3%:R + 1) * x = (1 + 1) * x + (1 + 1) * x by rewrite -mulrDl. by rewrite H1 H2 => /eqP.
Qed.
Lemma own_step_example :
  exists (S : 'M[rat]_(1 + 1, 1)) W1 W2 P1 P2, positive_definite W1 /\ positive_definite W2 /\
    S = s_matrix [:: 0%N] [:: 1%N] [:: [:: 1%N]] /\
    p_matrix S W1 = Some P1 /\ fit_steps S [:: W1; W2] None = Some P2 /\ P1 <> P2.
Proof.
  pose S : 'M[rat]_(1 + 1, 1) := s_matrix [:: 0%N] [:: 1%N] [:: [:: 1%N]].
  pose d : 'rV[rat]_(1 + 1) := \row_i (if i == lshift 1 0 then 3%:R else 1).
  have P1d : positive_definite (1%:M : 'M[rat]_(1 + 1)) := pd_one _.
  have P2d : positive_definite (diag_mx d). { apply: pd_diag => i. rewrite mxE. by case: ifP. }
  have [P1 E1] := @weights_exist [realFieldType of rat] 1 1 (a_matrix [:: 0%N] [:: 1%N] [:: [:: 1%N]]) _ P1d.
  have [P2 E2] := @weights_exist [realFieldType of rat] 1 1 (a_matrix [:: 0%N] [:: 1%N] [:: [:: 1%N]]) _ P2d.
  exists S, 1%:M, (diag_mx d), P1, P2. split=> //. split=> //. split=> //. split; first exact: E1. split.
  { rewrite /=. have -> : p_matrix S 1%:M = Some P1 by exact: E1. have -> : p_matrix S (diag_mx d) = Some P2 by exact: E2. by []. }
  move=> E. subst P2. apply: (@weights_differ S P1); last exact: (p_matrix_eq E2); last by rewrite (p_matrix_eq E1).
  move=> i j. rewrite /S /s_matrix mxE. case: splitP => k _; rewrite !mxE ?ord1 //.
Qed.
