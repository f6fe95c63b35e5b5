(** Proofs about the levels of a hierarchy and the scores by level. *)
From Coq Require Lia.
From mathcomp Require Import all_ssreflect all_algebra.
From Verif Require Import Model.Hierarchy Model.Reconcile Model.ReconcileKpi Spec.ReconcileSpec Spec.ReconcileKpiSpec
  Proof.ReconcileProof Proof.ReconcileProof2 Proof.ReconcileProof3.
Set Implicit Arguments.
Unset Strict Implicit.
Unset Printing Implicit Defensive.
Import Order.Theory GRing.Theory Num.Theory.

Ltac nat_lia := repeat match goal with H : is_true (leq _ _) |- _ => move/ssrnat.leP: H; rewrite -?plusE => H end; try apply/ssrnat.leP;
  rewrite -?plusE; Lia.lia.
(** * The top has the most leaves *)
Section Top.
Context {N : eqType} (h : seq (N * seq N)).
Lemma join_some (f : N -> option (seq N)) l r : foldr (fun i acc => join (f i) acc) (Some [::]) l = Some r ->
  forall i, i \in l -> exists s, f i = Some s.
Proof.
  elim: l r => [|j l IH] r //=. case Ej: (f j) => [s|] //=. case E: (foldr _ _ l) => [r'|] //= _ i.
  rewrite in_cons => /orP [/eqP ->|Hi]; [by exists s|exact: IH E i Hi].
Qed.
Lemma join_size (f : N -> option (seq N)) l r : foldr (fun i acc => join (f i) acc) (Some [::]) l = Some r ->
  (forall i s, i \in l -> f i = Some s -> 0 < size s) ->
  size l <= size r /\ forall i s, i \in l -> f i = Some s -> size s + size l <= size r + 1.
Proof.
  elim: l r => [|j l IH] r /=; first by move=> [<-] _.
  case Ej: (f j) => [s|] //=. case E: (foldr _ _ l) => [r'|] //= [<-] Hp.
  have [|H1 H2] := IH r' E; first by move=> i s' Hi; apply: Hp; rewrite in_cons Hi orbT.
  have Hs : 0 < size s by apply: (Hp j); rewrite ?mem_head.
  rewrite size_cat. split; first nat_lia.
  move=> i s'. rewrite in_cons => /orP [/eqP ->|Hi]; first by rewrite Ej => -[<-]; nat_lia.
  move=> Es'. have := H2 i s' Hi Es'. move=> H. nat_lia.
Qed.
Lemma unroll_more fuel k r : unroll fuel h k = Some r -> unroll fuel.+1 h k = Some r.
Proof.
  elim: fuel k r => [|fuel IH] k r //. rewrite /=. case: ifP => // _. case: (members h k) => // m ms.
  have G : forall l r, foldr (fun i acc => join (if i \in aggregates h then unroll fuel h i else Some [:: i]) acc) (Some [::]) l = Some r ->
    foldr (fun i acc => join (if i \in aggregates h then unroll fuel.+1 h i else Some [:: i]) acc) (Some [::]) l = Some r.
  { elim=> [|i l IHl] r' //=. case Ei: (if i \in aggregates h then _ else _) => [s|] //=.
    case E: (foldr _ _ l) => [r''|] //= [<-]. rewrite (IHl r'' E).
    have -> : (if i \in aggregates h then unroll fuel.+1 h i else Some [:: i]) = Some s; last by [].
    by move: Ei; case: ifP => // _ /IH. }
  exact: G.
Qed.
Lemma unroll_size fuel k r : unroll fuel h k = Some r -> 0 < size r.
Proof.
  elim: fuel k r => [|fuel IH] k r //=. case: ifP => // _. case: (members h k) => // m ms /join_size [].
  - move=> i s _. case: ifP => _; [exact: IH|by move=> [<-]].
  - by move=> + _; case: (size r).
Qed.
Lemma unroll_member fuel b rb c : uniq (map fst h) -> unroll fuel h b = Some rb -> b \in aggregates h -> c \in members h b -> c \in aggregates h ->
  exists rc, unroll fuel h c = Some rc /\ size rc + size (members h b) <= size rb + 1.
Proof.
  case: fuel => [|fuel] //= Hu. case: ifP => // Hb. move=> E _ Hc Ha.
  have [Hne E'] : members h b <> [::] /\ foldr (fun i acc => join (if i \in aggregates h then unroll fuel h i else Some [:: i]) acc) (Some [::]) (members h b) = Some rb.
  { by move: E; case: (members h b). }
  have [|_ H2] := join_size E'. { move=> i s _. case: ifP => _; [exact: unroll_size|by move=> [<-]]. }
  have [rc] := join_some E' Hc. move: (H2 c). rewrite Ha => H Ec. exists rc. split; last exact: H Ec.
  move: (unroll_more Ec). by rewrite /= Ha.
Qed.
End Top.

Lemma first_max_top {N : eqType} (l : seq (N * nat)) best top m : (top, m) \in best :: l ->
  (forall x k, (x, k) \in best :: l -> if x == top then k = m else k < m) -> first_max l best = top.
Proof.
  elim: l best => [|[x k] l IH] [b n] /=.
  - rewrite inE => /eqP [<- _]. by [].
  - move=> Hin Hk. have Hb := Hk b n. rewrite mem_head in Hb. have {Hb} := Hb isT => Hb.
    have Hx := Hk x k. rewrite !in_cons eqxx orbT in Hx. have {Hx} := Hx isT => Hx.
    apply: IH.
    + move: Hin. rewrite !in_cons => /orP [/eqP [E1 E2]|/orP [/eqP [E1 E2]|->]]; last by rewrite orbT.
      * subst b n. have -> : (m < k) = false. { move: Hx. case: eqP => _ H; [by rewrite H ltnn|by apply/negbTE; rewrite -leqNgt ltnW]. }
        by rewrite eqxx.
      * subst x k. move: Hb. case: (b =P top) => [-> ->|_ ->]; by rewrite ?ltnn eqxx.
    + move=> y j Hy. apply: Hk. move: Hy. rewrite !in_cons. case: ifP => _ /orP [->|->]; by rewrite ?orbT.
Qed.

Lemma aggregate_on_path {N : eqType} (h : seq (N * seq N)) c a d : steps_down h c a d -> is_aggregate h a -> is_aggregate h c.
Proof. move=> H Ha. elim: H Ha => // {c a d} c b l a n _ IH Hb _ _. apply: IH. by exists l. Qed.
Lemma path_sizes {N : eqType} (h : seq (N * seq N)) fuel c a d : uniq (map fst h) -> (forall k, k \in aggregates h -> exists r, unroll fuel h k = Some r) ->
  steps_down h c a d -> is_aggregate h a -> forall rc ra, unroll fuel h c = Some rc -> unroll fuel h a = Some ra -> size ra <= size rc.
Proof.
  move=> Hu Hun H. elim: H => {c a d} [a _ rc ra -> [->] //|c b l a n H IH Hb Ha Hagg rc ra Ec Ea].
  have Hbin : b \in aggregates h by apply/aggregateP; exists l. have [rb Eb] := Hun b Hbin.
  have Hm : a \in members h b by rewrite (members_in Hu Hb). have Ha' : a \in aggregates h by exact/aggregateP.
  have [ra' [Ea' Hs]] := unroll_member Hu Eb Hbin Hm Ha'. move: Ea'. rewrite Ea => -[E]. subst ra'.
  have Hl : 0 < size (members h b) by move: Hm; case: (members h b).
  have := IH (ex_intro _ l Hb) rc rb Ec Eb => Hcb. nat_lia.
Qed.

(** The aggregate above all others is found if it has two members. *)
Lemma root_top {N : eqType} (h : seq (N * seq N)) top l : well_formed h -> is_top h top -> (top, l) \in h -> 1 < size l ->
  exists flat, unroll_dict h = Some flat /\ root_of h flat = Some top.
Proof.
  move=> [Hu [Hne [rank Hr]]] [Htop [Hall Honly]] Hin Hl.
  have Hun : forall k, k \in aggregates h -> exists r, unroll (size h) h k = Some r.
  { move=> k Hk. have [||||r [E _]] := unroll_ok Hu Hne Hr (vs := [::]) (k := k) (fuel := size h) => //; last by exists r.
    move=> x. by rewrite inE => /eqP ->. }
  have [|flat [E [Hs Hf]]] := @sequence_some _ _ (unroll (size h) h) [::] (aggregates h); first by exact: Hun.
  exists flat. split; first exact: E.
  have Ht : top \in aggregates h by exact/aggregateP.
  have [rt Et] := Hun top Ht.
  have Hbig : forall k r, k \in aggregates h -> unroll (size h) h k = Some r -> if k == top then size r = size rt else size r < size rt.
  { move=> k r Hk Ek. case: eqP => [Ekt|Hk']; first by move: Ek; rewrite Ekt Et => -[->].
    have [[|d] Hd] := Hall k (elimT (aggregateP _ _) Hk). { by inversion Hd; subst; case: Hk'. }
    have [l' [c [Hl' [Hc Hcd]]]] := steps_first Hd.
    have Hca : is_aggregate h c := aggregate_on_path Hcd (elimT (aggregateP _ _) Hk).
    have Hc' : c \in members h top by rewrite (members_in Hu Hl').
    have [rc [Ec Hsz]] := unroll_member Hu Et Ht Hc' (introT (aggregateP _ _) Hca).
    have := path_sizes Hu Hun Hcd (elimT (aggregateP _ _) Hk) Ec Ek.
    move: Hsz. rewrite (members_in Hu Hin). move=> H1 H2. nat_lia. }
  have Hz : forall i k0 n0, i < size (aggregates h) -> nth (k0, n0) (zip (aggregates h) (map size flat)) i = (nth k0 (aggregates h) i, nth n0 (map size flat) i).
  { move=> i k0 n0 _. apply: nth_zip. by rewrite size_map Hs. }
  have Hzs : size (zip (aggregates h) (map size flat)) = size (aggregates h) by rewrite size_zip size_map Hs minnn.
  rewrite /root_of. case Ez: (zip _ _) => [|x0 z].
  { exfalso. move: Hzs. rewrite Ez /=. by move: Ht; case: (aggregates h). }
  congr Some. apply: (first_max_top (m := size rt)).
  - rewrite -Ez. have Hi : index top (aggregates h) < size (aggregates h) by rewrite index_mem.
    have := Hf (index top (aggregates h)) top Hi. rewrite nth_index // Et => -[Er].
    have Q : nth (top, 0) (zip (aggregates h) (map size flat)) (index top (aggregates h)) = (top, size rt).
    { rewrite Hz // nth_index // (nth_map [::]) ?Hs //. by rewrite -Er. }
    rewrite -Q. apply: mem_nth. by rewrite Hzs.
  - move=> k n. rewrite -Ez => Hkn. have Hi : index (k, n) (zip (aggregates h) (map size flat)) < size (aggregates h) by rewrite -Hzs index_mem.
    set i := index _ _ in Hi. have Q : nth (k, n) (zip (aggregates h) (map size flat)) i = (k, n) by rewrite nth_index.
    move: Q. rewrite Hz // (nth_map [::]) ?Hs // => -[Ek En].
    have Hfi := Hf i k Hi. rewrite Ek in Hfi. rewrite -En. apply: Hbig Hfi. by rewrite -Ek mem_nth.
Qed.
Lemma levels_from_top {N : eqType} (h : seq (N * seq N)) top l : well_formed h -> one_parent h -> is_top h top -> (top, l) \in h -> 1 < size l ->
  exists ls, hierarchy_levels h = Some ls /\ forall n d, level_of ls n = Some d <-> steps_down h top n d.
Proof.
  move=> Hw H1 Ht Hin Hl. have [flat [Ef Er]] := root_top Hw Ht Hin Hl. have [ls [El Hls]] := levels_correct Hw H1 (proj1 Ht).
  exists ls. rewrite /hierarchy_levels Ef Er. split; [exact: El|exact: Hls].
Qed.

(** * Scores *)
Local Open Scope ring_scope.
Section Scores.
Context {F : fieldType} {N : eqType} {P Y : Type} (metric : P -> Y -> F).
Lemma first_seen_mem (l : seq N) c : (c \in first_seen l) = (c \in l).
Proof.
  elim: l => [|a l IH] //=. rewrite !in_cons mem_filter IH. by case: (c == a).
Qed.
Lemma first_seen_uniq (l : seq N) : uniq (first_seen l).
Proof. elim: l => [|a l IH] //=. rewrite mem_filter eqxx /=. exact: filter_uniq. Qed.
Lemma target_columns_mem (h : hierarchy N) names c : {subset aggregates h <= names} -> (c \in target_columns h names) = (c \in names).
Proof.
  move=> Hs. rewrite /target_columns mem_cat /bottoms mem_filter first_seen_mem. case Ha: (c \in aggregates h) => //=. by rewrite (Hs _ Ha).
Qed.
Lemma target_columns_uniq (h : hierarchy N) names : uniq (map fst h) -> uniq (target_columns h names).
Proof.
  move=> Hu. rewrite /target_columns cat_uniq Hu (filter_uniq _ (first_seen_uniq _)) andbT /=. apply/hasPn => c. by rewrite mem_filter => /andP [].
Qed.
Lemma level_mean_frame (ls : levels N) cols hat y d v : uniq cols ->
  level_mean ls (frame_scores metric cols hat y) d = Some v <->
  exists cs, uniq cs /\ cs <> [::] /\ (forall c, c \in cs <-> c \in cols /\ level_of ls c = Some d) /\ v = (\sum_(c <- cs) metric (hat c) (y c)) / (size cs)%:R.
Proof.
  move=> Hu. have E : [seq q.2 | q <- frame_scores metric cols hat y & level_of ls q.1 == Some d] = [seq metric (hat c) (y c) | c <- cols & level_of ls c == Some d].
  { rewrite /frame_scores filter_map -map_comp. by []. }
  rewrite /level_mean E. set cs := [seq c <- cols | _]. have Hcs : uniq cs by exact: filter_uniq.
  have Hm : forall c, c \in cs <-> c \in cols /\ level_of ls c = Some d.
  { move=> c. rewrite mem_filter. split; [by case/andP => /eqP -> ->|by case=> -> ->; rewrite eqxx]. }
  have Hv : forall cs', uniq cs' -> (forall c, c \in cs' <-> c \in cols /\ level_of ls c = Some d) -> perm_eq cs' cs.
  { move=> cs' Hu' Hm'. apply: uniq_perm => // c. apply/idP/idP => H; [by apply/Hm; apply/Hm'|by apply/Hm'; apply/Hm]. }
  have Hsum : \sum_(u <- [seq metric (hat c) (y c) | c <- cs]) u = \sum_(c <- cs) metric (hat c) (y c) by rewrite big_map.
  split.
  - move=> H. have Hne : cs <> [::] by move=> C; move: H; rewrite C.
    exists cs. split=> //. split=> //. split; first exact: Hm. move: H. rewrite -Hsum. move: Hne. case: (cs) => // c cs' _ /= [<-]. by rewrite /= size_map.
  - move=> [cs' [Hu' [Hne [Hm' ->]]]]. have Hp := Hv cs' Hu' Hm'.
    have Hne' : cs <> [::] by move=> C; move: Hp; rewrite C => /perm_nilP.
    rewrite (perm_big _ Hp) (perm_size Hp) /= -Hsum. move: Hne'. case: (cs) => // c cs'' _ /=. by rewrite /= size_map.
Qed.
End Scores.

Lemma point_kpis {F : fieldType} {N : eqType} {P Y : Type} (metric : P -> Y -> F) leN (h : seq (N * seq N)) top l names hat y :
  well_formed h -> one_parent h -> is_top h top -> (top, l) \in h -> (1 < size l)%N -> {subset map fst h <= names} ->
  exists kpi, compute_kpis metric leN Points h names hat y = Some kpi /\
    forall d v, kpi d = Some v <-> mean_at h names (fun c => metric (hat c) (y c)) top d v.
Proof.
  move=> Hw H1 Ht Hin Hl Hs. have [ls [E Hls]] := levels_from_top Hw H1 Ht Hin Hl. rewrite /compute_kpis E. eexists. split; first reflexivity.
  move=> d v. rewrite level_mean_frame; last by apply: target_columns_uniq; case: Hw.
  split; move=> [cs [Hu [Hne [Hm Hv]]]]; exists cs; split=> //; split=> //; split=> // c; rewrite Hm target_columns_mem //; split; by case=> -> /Hls.
Qed.
Lemma quantile_kpis {F : fieldType} {N : eqType} {P Y : Type} (metric : P -> Y -> F) leN (h : seq (N * seq N)) top l names hat y :
  well_formed h -> one_parent h -> is_top h top -> (top, l) \in h -> (1 < size l)%N -> {subset map fst h <= names} ->
  sort leN (target_columns h names) = target_columns h names ->
  exists kpi, compute_kpis metric leN Quantiles h names hat y = Some kpi /\
    forall d v, kpi d = Some v <-> mean_at h names (fun c => metric (hat c) (y c)) top d v.
Proof.
  move=> Hw H1 Ht Hin Hl Hs Hso. have [kpi [E H]] := point_kpis metric leN hat y Hw H1 Ht Hin Hl Hs. exists kpi. split=> //. rewrite -E /compute_kpis Hso.
  have -> : array_scores metric (target_columns h names) (target_columns h names) hat y = frame_scores metric (target_columns h names) hat y; last by [].
  rewrite /array_scores /frame_scores. elim: (target_columns h names) => [|c cs IH] //=. by rewrite IH.
Qed.
(** In general the quantiles scored for a series are those of the series at its place in alphabetical order. *)
Lemma quantile_kpis_paired {F : fieldType} {N : eqType} {P Y : Type} (metric : P -> Y -> F) leN (h : seq (N * seq N)) top l names hat y :
  well_formed h -> one_parent h -> is_top h top -> (top, l) \in h -> (1 < size l)%N -> {subset map fst h <= names} ->
  exists kpi, compute_kpis metric leN Quantiles h names hat y = Some kpi /\
    forall d v, kpi d = Some v <-> mean_at h names (fun c => metric (hat (at_place_of leN (target_columns h names) c)) (y c)) top d v.
Proof.
  move=> Hw H1 Ht Hin Hl Hs. set cols := target_columns h names. have Hu : uniq cols by apply: target_columns_uniq; case: Hw.
  have [kpi [E H]] := point_kpis metric leN (fun c => hat (at_place_of leN cols c)) y Hw H1 Ht Hin Hl Hs. exists kpi. split=> //. rewrite -E /compute_kpis -/cols.
  have -> : array_scores metric (sort leN cols) cols hat y = frame_scores metric cols (fun c => hat (at_place_of leN cols c)) y; last by [].
  have Hsz : size (sort leN cols) = size cols by rewrite size_sort.
  have Hz : size (zip (sort leN cols) cols) = size cols by rewrite size_zip Hsz minnn.
  case Ec : cols => [|c0 cs]; first by rewrite /array_scores /frame_scores; case: (sort leN [::]).
  rewrite -Ec /array_scores /frame_scores. apply: (@eq_from_nth _ (c0, metric (hat c0) (y c0))); first by rewrite !size_map Hz.
  move=> i. rewrite size_map Hz => Hi. rewrite (nth_map (c0, c0)); last by rewrite Hz.
  rewrite nth_zip //= (nth_map c0) //. rewrite /at_place_of index_uniq //. have -> : nth c0 (sort leN cols) i = nth (nth c0 cols i) (sort leN cols) i by apply: set_nth_default; rewrite Hsz. by [].
Qed.
(** Exact forecasts of a total 2 of the series 0 and 1 get the scores of other series. *)
Lemma quantile_kpis_mixed : exists (metric : nat -> nat -> rat) (h : seq (nat * seq nat)) top l names (y : nat -> nat) kpi,
  well_formed h /\ one_parent h /\ is_top h top /\ (top, l) \in h /\ (1 < size l)%N /\ {subset map fst h <= names} /\
  (forall a, metric a a = 0) /\ compute_kpis metric leq Quantiles h names y y = Some kpi /\ kpi 0%N = Some 1 /\ kpi 1%N = Some 1.
Proof.
  pose h : seq (nat * seq nat) := [:: (2, [:: 0; 1])]%N.
  pose metric (a b : nat) : rat := if a == b then 0 else 1.
  exists metric, h, 2%N, [:: 0; 1]%N, [:: 2; 0; 1]%N, id.
  exists (level_mean [:: (2, 0); (0, 1); (1, 1)]%N (array_scores metric [:: 0; 1; 2]%N [:: 2; 0; 1]%N id id)).
  split. { split=> //. split; first by move=> a l; rewrite inE => /eqP [_ ->]. exists (fun a => a) => a l c. rewrite inE => /eqP [-> ->]. rewrite !inE => /orP [/eqP ->|/eqP ->] [l']; by rewrite inE => /eqP. }
  split=> //. split.
  { split; first by exists [:: 0; 1]%N. split.
    - move=> c [l]. rewrite inE => /eqP [-> _]. exists 0%N. exact: down_zero.
    - move=> c d H. inversion H as [|a b l0 c0 n0 A B C]; subst => //. move: B C. rewrite inE => /eqP [_ ->]. by rewrite !inE. }
  split=> //. split=> //. split. { move=> x. rewrite inE => /eqP ->. by []. }
  split; first by move=> a; rewrite /metric eqxx. split; first by [].
  split; rewrite /level_mean /=; congr Some; rewrite !big_cons big_nil; by apply/eqP.
Qed.
