From mathcomp Require Import all_ssreflect all_algebra.
From Verif Require Import Model.Hierarchy Model.Reconcile Spec.ReconcileSpec.
Set Implicit Arguments.
Unset Strict Implicit.
Unset Printing Implicit Defensive.
Import GRing.Theory Num.Theory.

Section Unroll.
Context {N : eqType} (h : seq (N * seq N)) (Hu : uniq (map fst h)).

Lemma aggregateP a : reflect (is_aggregate h a) (a \in aggregates h).
Proof.
  apply: (iffP mapP) => [[[a' l] Hin /= ->]|[l Hin]]; [by exists l|by exists (a, l)].
Qed.
Lemma members_in a l : (a, l) \in h -> members h a = l.
Proof.
  rewrite /members /aggregates. elim: h Hu => [|[b m] h' IH] //= /andP [Hb Hu']. rewrite in_cons => /orP [/eqP [-> ->]|Hin]; first by rewrite eqxx.
  case: eqP => [E|_]; last by apply: IH. subst b. exfalso. move/negP: Hb => []. by apply/mapP; exists (a, l).
Qed.
Lemma members_of a : a \in aggregates h -> (a, members h a) \in h.
Proof. by move/aggregateP => [l Hl]; rewrite (members_in Hl). Qed.

Lemma foldr_join (f : N -> option (seq N)) l :
  (forall i, i \in l -> exists r, f i = Some r) ->
  exists r, foldr (fun i acc => join (f i) acc) (Some [::]) l = Some r /\ forall b, b \in r <-> exists2 i, i \in l & exists2 s, f i = Some s & b \in s.
Proof.
  elim: l => [|i l IH] Hl /=; first by exists [::]; split=> // b; split=> // -[].
  have [|r [-> Hr]] := IH; first by move=> j Hj; apply: Hl; rewrite in_cons Hj orbT.
  have [s Es] := Hl i (mem_head _ _). rewrite Es /=. exists (s ++ r); split=> // b. rewrite mem_cat. split.
  - case/orP => [Hb|/Hr [j Hj Hb]]; [exists i; rewrite ?mem_head //; by exists s|exists j => //; by rewrite in_cons Hj orbT].
  - case=> j. rewrite in_cons => /orP [/eqP -> [s' Es' Hb]|Hj [s' Es' Hb]]; apply/orP; [left|right].
    + by move: Es'; rewrite Es => -[->].
    + apply/Hr. exists j => //. by exists s'.
Qed.
Lemma unroll_ok : (forall a l, (a, l) \in h -> l <> [::]) -> forall rank : N -> nat,
  (forall a l c, (a, l) \in h -> c \in l -> is_aggregate h c -> rank c < rank a) ->
  forall fuel k vs, uniq (k :: vs) -> {subset k :: vs <= aggregates h} -> (forall v, v \in vs -> rank k < rank v) -> size h <= size vs + fuel ->
  exists r, unroll fuel h k = Some r /\ forall b, b \in r <-> leaf_below h k b.
Proof.
  move=> Hne rank Hr. elim=> [|fuel IH] k vs Huv Hsub Hrk Hsz.
  - exfalso. have := uniq_leq_size Huv Hsub. rewrite /aggregates size_map /=. rewrite addn0 in Hsz. move=> H. have := leq_trans H Hsz. by rewrite ltnn.
  - have Hk : k \in aggregates h by apply: Hsub; rewrite mem_head. have Hm := members_of Hk. rewrite /= Hk.
    have Hch : forall i, i \in members h k -> i \in aggregates h -> exists r, unroll fuel h i = Some r /\ forall b, b \in r <-> leaf_below h i b.
    { move=> i Hi Ha. have Hlt : rank i < rank k by apply: (Hr _ _ _ Hm Hi); apply/aggregateP.
      apply: (IH i (k :: vs)).
      + rewrite cons_uniq Huv andbT in_cons negb_or. apply/andP; split; first by apply/eqP=> E; move: Hlt; rewrite E ltnn.
        apply/negP => Hv. have := Hrk _ Hv. by move/(ltn_trans Hlt); rewrite ltnn.
      + move=> x. rewrite in_cons => /orP [/eqP ->|Hx] //. exact: Hsub.
      + move=> v. rewrite in_cons => /orP [/eqP ->|Hv] //. exact: ltn_trans Hlt (Hrk _ Hv).
      + by rewrite /= addSnnS. }
    have [|r [E Hb]] := @foldr_join (fun i => if i \in aggregates h then unroll fuel h i else Some [:: i]) (members h k).
    { move=> i Hi. case: ifP => [Ha|_]; last by exists [:: i]. have [r [-> _]] := Hch i Hi Ha. by exists r. }
    exists r. split; first by move: E; case: (members h k) (Hne _ _ Hm).
    move=> b. rewrite Hb. split.
    + case=> i Hi [s]. case: ifP => [Ha|Ha] Es Hbs.
      * have [r' [Er' Hb']] := Hch i Hi Ha.
        rewrite Er' in Es. case: Es => Es. subst s. apply: (leaf_deeper Hm Hi); [exact/aggregateP|exact/Hb'].
      * case: Es => Es. subst s. move: Hbs. rewrite inE => /eqP ->. apply: (leaf_member Hm Hi) => /aggregateP. by rewrite Ha.
    + move=> Hlb. case: Hlb Hch {E Hb Hk Hm Hrk Huv Hsub} => {k b} [k l b Hin Hbl Hnb|k l c b Hin Hcl Hc Hcb] Hch.
      * rewrite (members_in Hin). exists b => //. have -> : (b \in aggregates h) = false by apply/negP => /aggregateP. exists [:: b] => //. by rewrite inE.
      * rewrite (members_in Hin). exists c => //. have Hca : c \in aggregates h by apply/aggregateP. rewrite Hca.
        have [|r' [Er' Hb']] := Hch c _ Hca; first by rewrite (members_in Hin).
        exists r' => //. exact/Hb'.
Qed.
End Unroll.

Lemma sequence_some {A} (T : eqType) (f : T -> option A) (x0 : A) l : (forall i, i \in l -> exists r, f i = Some r) ->
  exists r, sequence (map f l) = Some r /\ size r = size l /\ forall i k0, i < size l -> f (nth k0 l i) = Some (nth x0 r i).
Proof.
  elim: l => [|i l IH] Hl; first by exists [::].
  have [|r [E [Hs Hr]]] := IH; first by move=> j Hj; apply: Hl; rewrite in_cons Hj orbT.
  have [s Es] := Hl i (mem_head _ _). exists (s :: r). rewrite /= Es E /=. split=> //. split; first by rewrite Hs.
  case=> [|j] k0 //= Hj. exact: Hr.
Qed.
Lemma hierarchy_leaves {N : eqType} (h : seq (N * seq N)) : well_formed h ->
  exists flat, unroll_dict h = Some flat /\ size flat = size h /\
    forall i a l, i < size h -> nth (a, l) h i = (a, l) -> forall b, b \in nth [::] flat i <-> leaf_below h a b.
Proof.
  move=> [Hu [Hne [rank Hr]]].
  have Hun : forall k, k \in aggregates h -> exists r, unroll (size h) h k = Some r /\ forall b, b \in r <-> leaf_below h k b.
  { move=> k Hk. apply: (unroll_ok Hu Hne Hr (vs := [::])) => //. move=> x. by rewrite inE => /eqP ->. }
  have [|flat [E [Hs Hf]]] := @sequence_some _ _ (unroll (size h) h) [::] (aggregates h); first by move=> k /Hun [r [-> _]]; exists r.
  exists flat. split; first exact: E. split; first by rewrite Hs size_map.
  move=> i a l Hi Hnth. have Ha : a \in aggregates h by apply/mapP; exists (a, l) => //; rewrite -Hnth mem_nth.
  have [r [Er Hr']] := Hun a Ha. have := Hf i a. rewrite size_map => /(_ Hi). rewrite (nth_map (a, l)) // Hnth /= Er => -[<-]. exact: Hr'.
Qed.
Lemma hierarchy_cycle {N : eqType} (h : seq (N * seq N)) C a fuel : uniq (map fst h) -> goes_round h C -> C a -> unroll fuel h a = None.
Proof.
  move=> Hu Hc. elim: fuel a => [|fuel IH] a Ha //=. have [Hagg Hm] := Hc a Ha.
  have /(members_of Hu) Hin : a \in aggregates h by exact/aggregateP. rewrite (introT (aggregateP _ _) Hagg). have [c Hcl Cc] := Hm _ Hin.
  move: Hcl. case: (members h a) => // x l. have : forall l, c \in l -> foldr (fun i acc => join (if i \in aggregates h then unroll fuel h i else Some [:: i]) acc) (Some [::]) l = None.
  { elim=> [|i l' IHl] //=. rewrite in_cons => /orP [/eqP <-|/IHl ->]; last by case: (if _ then _ else _).
    have [Hca _] := Hc c Cc. by rewrite (introT (aggregateP _ _) Hca) (IH _ Cc). }
  by apply.
Qed.
