From Coq Require Import List ZArith Bool Ascii Lia Sorted.
From Verif Require Import Model.Names Model.Series Model.Transformer Model.FlatBins.
From Verif Require Import Spec.TransformerSpec Spec.TransformerInput Spec.FlatBinsSpec.
From Verif Require Import Proof.SeriesProof Proof.TransformerProof Proof.TransformerProof2 Proof.TransformerProof4 Proof.FlatBinsProof.
Import ListNotations.
Local Open Scope Z_scope.

Lemma combine_app_same {A B} (a1 a2 : list A) (b1 b2 : list B) : length a1 = length b1 ->
  combine (a1 ++ a2) (b1 ++ b2) = combine a1 b1 ++ combine a2 b2.
Proof.
  revert b1. induction a1 as [|x a1 IH]; intros [|y b1] L; try discriminate; [reflexivity|].
  cbn. f_equal. apply IH. cbn in L. lia.
Qed.

Lemma combine_flat_map_map {A B C D} (f : A -> B -> C) (g : A -> B -> D) (L : list B) (l : list A) :
  combine (flat_map (fun x => map (f x) L) l) (flat_map (fun x => map (g x) L) l) =
  flat_map (fun x => map (fun y => (f x y, g x y)) L) l.
Proof.
  induction l as [|x l IH]; [reflexivity|]. cbn. rewrite combine_app_same by (rewrite !map_length; reflexivity).
  rewrite IH. f_equal. apply combine_map_map.
Qed.

Lemma flat_meta_one (V : Type) : forall lags rel edges dt (fs : list (aggfun V)) name (d : series V) cols,
  flat_columns lags rel edges fs name d = Some cols ->
  let entries := flat_requested name (requested_lags lags rel (total_span edges)) (bin_pairs edges) fs in
  length (requested_lags lags rel (total_span edges)) = 1%nat ->
  flat_meta lags rel edges dt fs name (map fst cols) =
  map (fun e => Meta (bin_label e) (fn_name (e_fun e)) (Some (e_rows e)) (entry_start dt e) (entry_end dt e) (e_src e)) entries.
Proof.
  intros lags rel edges dt fs name d cols H entries L1.
  pose proof (total_span_nth edges) as T. fold (flat_steps edges) in T.
  rewrite flat_closed in H.
  assert (C : map fst cols = map bin_label entries).
  { destruct (kept_rows _ d); [discriminate|]. injection H as <-. rewrite map_map. reflexivity. }
  rewrite C. clear C H cols d.
  assert (E : exists o l, requested_lags lags rel (total_span edges) = [(o, l)] /\
     match lags with None => [0] | Some ls => map (fun l => if rel then l * flat_steps edges else l) ls end = [l]).
  { destruct lags as [ls|]; cbn in L1 |- *.
    - rewrite map_length in L1. destruct ls as [|l [|? ?]]; try discriminate. cbn.
      exists (Some l), (if rel then l * total_span edges else l). rewrite T. split; reflexivity.
    - exists None, 0. split; reflexivity. }
  destruct E as (o & l & E1 & E2). unfold flat_meta. rewrite E2. unfold entries. rewrite E1.
  unfold flat_requested. cbn [flat_map fst snd]. rewrite !app_nil_r.
  rewrite bin_pairs_seq.
  set (nb := (length edges - 1)%nat).
  rewrite !map_flat_map.
  assert (P : list_prod (map fn_name fs) (repeat l nb) =
              flat_map (fun f => map (fun _ : nat => (fn_name f, l)) (seq 0 nb)) fs).
  { rewrite repeat_map_seq. induction fs as [|f fs IH]; [reflexivity|]. cbn. rewrite IH. f_equal.
    rewrite map_map. reflexivity. }
  rewrite P.
  rewrite !flat_map_map_in.
  assert (S1 : forall q : nat -> Z, flat_map (fun _ : aggfun V => flat_map (fun i => [q i]) (seq 0 nb)) fs =
     flat_map (fun _ => map q (seq 0 nb)) fs).
  { intros q. apply flat_map_ext. intros _. apply flat_map_single. }
  cbn [map]. rewrite !S1.
  rewrite !combine_flat_map_map.
  assert (S2 : flat_map (fun f => map bin_label (map (fun b => Entry name f o l (fst b) (snd b)) (map (fun i => (nth i edges 0, nth (S i) edges 0)) (seq 0 nb)))) fs =
    flat_map (fun f => map (fun i => bin_label (Entry name f o l (nth i edges 0) (nth (S i) edges 0))) (seq 0 nb)) fs).
  { apply flat_map_ext. intros f. rewrite !map_map. reflexivity. }
  rewrite S2, combine_flat_map_map, map_flat_map.
  apply flat_map_ext. intros f. rewrite !map_map. apply map_ext. intros i.
  unfold entry_start, entry_end. cbn -[Z.mul Z.add Z.opp Z.sub nth bin_label]. f_equal; ring.
Qed.

Lemma flat_meta_wrong (V : Type) : forall a b l1 l2 dt (f1 f2 : aggfun V) fs name (d : series V) cols,
  l1 <> l2 -> 0 < dt ->
  flat_columns (Some [l1; l2]) false [a; b] (f1 :: f2 :: fs) name d = Some cols ->
  exists m e,
    nth_error (flat_meta (Some [l1; l2]) false [a; b] dt (f1 :: f2 :: fs) name (map fst cols)) 1 = Some m /\
    nth_error (flat_requested name (requested_lags (Some [l1; l2]) false (total_span [a; b])) (bin_pairs [a; b]) (f1 :: f2 :: fs)) 1 = Some e /\
    m_index m = bin_label e /\
    m_function m = fn_name f1 /\ e_fun e = f2 /\
    m_lag m = Some l2 /\ e_rows e = l1 /\
    m_start m <> entry_start dt e /\ m_end m <> entry_end dt e.
Proof.
  intros a b l1 l2 dt f1 f2 fs name d cols N P H.
  rewrite flat_closed in H.
  set (entries := flat_requested name (requested_lags (Some [l1; l2]) false (total_span [a; b])) (bin_pairs [a; b]) (f1 :: f2 :: fs)) in *.
  assert (C : map fst cols = map bin_label entries).
  { destruct (kept_rows _ d); [discriminate|]. apply (f_equal (fun o => match o with Some c => c | None => cols end)) in H. rewrite <- H, map_map. reflexivity. }
  rewrite C. unfold entries, flat_meta, flat_requested. cbn.
  do 2 eexists. split; [reflexivity|]. split; [reflexivity|]. cbn. unfold entry_start, entry_end.
  cbn -[Z.mul Z.add Z.opp Z.sub].
  repeat split; try reflexivity; intros E; apply N; apply (Z.mul_reg_l _ _ dt); lia.
Qed.
