From Coq Require Import List ZArith Bool Arith Lia Sorted Permutation Reals Lra.
From Verif Require Import Model.Series Model.Subsample Spec.SubsampleSpec
  Proof.SeriesProof Proof.TransformerProof3 Proof.TransformerProof4 Proof.FormatterProof.
Import ListNotations.
Local Open Scope nat_scope.

(** Sorting. *)
Lemma insert_by_perm t p l : Permutation (insert_by t p l) (p :: l).
Proof.
  induction l as [|a l IH]; [reflexivity|]. cbn. destruct (t p <=? t a)%Z; [reflexivity|].
  rewrite IH. apply perm_swap.
Qed.
Lemma sort_by_perm t l : Permutation (sort_by t l) l.
Proof. induction l as [|a l IH]; [reflexivity|]. cbn. rewrite insert_by_perm. now constructor. Qed.
Lemma insert_by_sorted t p l :
  StronglySorted (fun p q => (t p <= t q)%Z) l -> StronglySorted (fun p q => (t p <= t q)%Z) (insert_by t p l).
Proof.
  induction l as [|a l IH]; intros Hs; [repeat constructor|].
  inversion Hs as [|? ? Hs' Hf]; subst. cbn. destruct (t p <=? t a)%Z eqn:E.
  - apply Z.leb_le in E. constructor; [exact Hs|]. constructor; [exact E|].
    eapply Forall_impl; [|exact Hf]. intros b Hb. cbn in *. lia.
  - apply Z.leb_gt in E. constructor; [now apply IH|].
    apply Forall_forall. intros b Hb. apply (Permutation_in _ (insert_by_perm t p l)) in Hb.
    destruct Hb as [<-|Hb]; [lia|]. rewrite Forall_forall in Hf. now apply Hf.
Qed.
Lemma sort_by_sorted t l : StronglySorted (fun p q => (t p <= t q)%Z) (sort_by t l).
Proof. induction l as [|a l IH]; [constructor|]. cbn. now apply insert_by_sorted. Qed.

Lemma nodup_len (l : list nat) : NoDup l -> length (nodup Nat.eq_dec l) = length l.
Proof. intros H. now rewrite nodup_fixed_point. Qed.

Lemma order_rows_nodup times pos : NoDup pos -> order_rows times pos = sort_by (fun p => nth p times 0%Z) pos.
Proof.
  intros H. unfold order_rows. destruct pos as [|p pos]; [reflexivity|].
  rewrite nodup_len by exact H. rewrite Nat.ltb_irrefl. reflexivity.
Qed.
Lemma order_rows_ok times pos n m :
  NoDup pos -> (forall p, In p pos -> p < n) -> length pos = m -> ordered_sample times n m (order_rows times pos).
Proof.
  intros Hn Hlt Hm. rewrite order_rows_nodup by exact Hn. unfold ordered_sample.
  pose proof (sort_by_perm (fun p => nth p times 0%Z) pos) as Hp.
  split; [now rewrite (Permutation_length Hp)|].
  split; [now apply (Permutation_NoDup (Permutation_sym Hp))|].
  split; [intros p Hin; apply Hlt; now apply (Permutation_in _ Hp)|]. apply sort_by_sorted.
Qed.

Lemma uniform_ok g k times m :
  honest g -> m <= length times -> ordered_sample times (length times) m (subsample_uniform g k times m).
Proof.
  intros [_ Hc] Hm. destruct (Hc k (seq 0 (length times)) m (seq_NoDup _ _)) as (H1 & H2 & H3); [now rewrite seq_length|].
  apply order_rows_ok; [exact H2| |exact H1]. intros p Hp. apply H3, in_seq in Hp. lia.
Qed.

(** Lists of counts. *)
Lemma maximum_cons a l : maximum (a :: l) = Nat.max a (maximum l).
Proof. reflexivity. Qed.
Lemma sum_cons a l : sum (a :: l) = a + sum l.
Proof. reflexivity. Qed.
Lemma maximum_ge l a : In a l -> a <= maximum l.
Proof. induction l as [|b l IH]; [intros []|]. rewrite maximum_cons. intros [->|H]; [lia|]. specialize (IH H). lia. Qed.
Lemma argmax_lt l : 0 < maximum l -> argmax l < length l.
Proof.
  induction l as [|a l IH]; [cbn; lia|]. rewrite maximum_cons. cbn [argmax length]. intros H.
  destruct (maximum l <=? a) eqn:E; [lia|].
  apply Nat.leb_gt in E. specialize (IH ltac:(lia)). lia.
Qed.
Lemma argmax_nth l : 0 < maximum l -> nth (argmax l) l 0 = maximum l.
Proof.
  induction l as [|a l IH]; [cbn; lia|]. rewrite maximum_cons. cbn [argmax]. intros H.
  destruct (maximum l <=? a) eqn:E.
  - apply Nat.leb_le in E. cbn [nth]. lia.
  - apply Nat.leb_gt in E. cbn [nth]. rewrite IH by lia. lia.
Qed.
Lemma sum_pos_maximum l : 0 < sum l -> 0 < maximum l.
Proof.
  induction l as [|a l IH]; [cbn; lia|]. rewrite sum_cons, maximum_cons. intros H.
  destruct a; [|lia]. specialize (IH H). lia.
Qed.
Lemma update_length l j f : length (update l j f) = length l.
Proof. revert j. induction l as [|a l IH]; intros [|j]; cbn; auto. Qed.
Lemma update_sum_S l j : j < length l -> sum (update l j S) = S (sum l).
Proof.
  revert j. induction l as [|a l IH]; intros [|j] H; cbn [length] in H; try lia; cbn [update]; rewrite !sum_cons; try lia.
  rewrite IH by lia. lia.
Qed.

Definition dominated (a b : list nat) : Prop := Forall2 le a b.
Lemma map2_sub_sum counts alloc : dominated alloc counts -> sum (map2 Nat.sub counts alloc) + sum alloc = sum counts.
Proof. induction 1 as [|a c la lc H _ IH]; [reflexivity|].
  change (map2 Nat.sub (c :: lc) (a :: la)) with ((c - a) :: map2 Nat.sub lc la). rewrite !sum_cons. lia. Qed.
Lemma update_dominated counts alloc j :
  dominated alloc counts -> 0 < nth j (map2 Nat.sub counts alloc) 0 -> dominated (update alloc j S) counts.
Proof.
  intros H. revert j. induction H as [|a c la lc H Hf IH]; intros j Hj; [constructor|].
  destruct j as [|j]; cbn in *.
  - constructor; [lia|exact Hf].
  - constructor; [exact H|]. now apply IH.
Qed.
Lemma update_above alloc j : dominated alloc (update alloc j S).
Proof.
  revert j. induction alloc as [|a l IH]; intros [|j]; cbn; constructor; try lia; [|apply IH].
  clear. induction l; constructor; auto.
Qed.
Lemma dominated_trans a b c : dominated a b -> dominated b c -> dominated a c.
Proof.
  intros H. revert c. induction H as [|x y la lb Hxy _ IH]; intros c Hc; inversion Hc; subst; constructor; [lia|].
  now apply IH.
Qed.
Lemma dominated_refl a : dominated a a.
Proof. induction a; constructor; auto. Qed.
Lemma map2_length {A B C} (f : A -> B -> C) la lb : length la = length lb -> length (map2 f la lb) = length la.
Proof. intros H. unfold map2. rewrite map_length, combine_length. lia. Qed.

Lemma fill_ok d counts : forall alloc,
  dominated alloc counts -> sum alloc + d <= sum counts ->
  exists alloc', fill d counts alloc = Some alloc' /\ dominated alloc alloc' /\ dominated alloc' counts /\
    sum alloc' = sum alloc + d.
Proof.
  induction d as [|d IH]; intros alloc Hd Hs; cbn [fill].
  - exists alloc. repeat split; auto using dominated_refl.
  - pose proof (map2_sub_sum counts alloc Hd) as Hsub.
    assert (Hmax : 0 < maximum (map2 Nat.sub counts alloc)) by (apply sum_pos_maximum; lia).
    destruct (maximum (map2 Nat.sub counts alloc) =? 0) eqn:E; [apply Nat.eqb_eq in E; lia|].
    assert (Hlen : length alloc = length counts) by (clear -Hd; induction Hd; cbn; congruence).
    assert (Hj : argmax (map2 Nat.sub counts alloc) < length alloc).
    { pose proof (argmax_lt _ Hmax) as Hl. rewrite map2_length in Hl by auto. lia. }
    destruct (IH (update alloc (argmax (map2 Nat.sub counts alloc)) S)) as (alloc' & H1 & H2 & H3 & H4).
    + apply update_dominated; [exact Hd|]. rewrite argmax_nth; assumption.
    + rewrite update_sum_S by exact Hj. lia.
    + exists alloc'. split; [exact H1|]. split; [eapply dominated_trans; [apply update_above|exact H2]|].
      split; [exact H3|]. rewrite H4, update_sum_S by exact Hj. lia.
Qed.

Lemma trim_id fuel m alloc : sum alloc <= m -> trim fuel m alloc = alloc.
Proof.
  intros H. destruct fuel as [|k]; [reflexivity|]. cbn [trim].
  destruct (m <? sum alloc) eqn:E; [apply Nat.ltb_lt in E; lia|]. reflexivity.
Qed.

Lemma min_dominated a c : length a = length c -> dominated (map2 Nat.min a c) c /\ sum (map2 Nat.min a c) <= sum a.
Proof.
  revert c. induction a as [|x a IH]; intros [|y c] H; cbn in H; try lia; [split; [constructor|cbn; lia]|].
  destruct (IH c ltac:(lia)) as [H1 H2].
  change (map2 Nat.min (x :: a) (y :: c)) with (Nat.min x y :: map2 Nat.min a c). rewrite !sum_cons.
  split; [constructor; [lia|exact H1]|lia].
Qed.

(** Hours. *)
Lemma positions_count hours h : length (positions_of hours h) = count_hour hours h.
Proof.
  unfold positions_of, count_hour.
  transitivity (length (map (fun i => nth i hours 0%Z) (filter (fun i => Z.eqb (nth i hours 0%Z) h) (seq 0 (length hours))))).
  - now rewrite map_length.
  - rewrite <- (filter_map_swap (fun i => nth i hours 0%Z) (fun z => Z.eqb z h)).
    rewrite map_seq_nth. f_equal. apply filter_ext. intros z. apply Z.eqb_sym.
Qed.
Lemma unique_hours_nodup hours : NoDup (unique_hours hours).
Proof. unfold unique_hours. apply isort_nodup, NoDup_nodup. Qed.
Lemma unique_hours_in hours h : In h (unique_hours hours) <-> In h hours.
Proof. unfold unique_hours. rewrite isort_in. apply nodup_In. Qed.

Lemma counts_total hours : sum (map (count_hour hours) (unique_hours hours)) = length hours.
Proof.
  assert (Hg : forall u, NoDup u -> forall hs, incl hs u -> sum (map (count_hour hs) u) = length hs).
  { intros u Hu. induction hs as [|h hs IH]; intros Hincl.
    - clear. induction u as [|k u IHu]; [reflexivity|]. exact IHu.
    - assert (Hh : In h u) by (apply Hincl; now left).
      assert (Hrest : incl hs u) by (intros z Hz; apply Hincl; now right).
      specialize (IH Hrest). cbn [length]. rewrite <- IH. clear IH Hincl Hrest.
      assert (Hadd : forall v, sum (map (count_hour (h :: hs)) v) = length (filter (Z.eqb h) v) + sum (map (count_hour hs) v)).
      { induction v as [|k v IHv]; [reflexivity|]. cbn [map sum filter]. unfold sum in *. cbn [fold_right]. rewrite IHv.
        unfold count_hour at 1. cbn [filter]. rewrite (Z.eqb_sym k h).
        destruct (Z.eqb h k); cbn [length]; fold (count_hour hs k); unfold count_hour; lia. }
      rewrite Hadd. enough (length (filter (Z.eqb h) u) = 1) by lia. clear Hadd.
      induction u as [|k u IHu]; [destruct Hh|]. inversion Hu as [|? ? Hk Hu']; subst. cbn.
      destruct (Z.eqb_spec h k) as [->|Hne].
      + cbn. f_equal. rewrite filter_none; [reflexivity|]. intros z Hz. apply Z.eqb_neq. intros <-. contradiction.
      + apply IHu; [exact Hu'|]. destruct Hh; [congruence|assumption]. }
  apply Hg; [apply unique_hours_nodup|]. intros h Hh. now apply unique_hours_in.
Qed.

Lemma draw_ok g hours : honest g -> forall u alloc s,
  NoDup u -> Forall2 (fun h c => c <= count_hour hours h) u alloc ->
  let L := flat_map (fun p => let '(k, (h, c)) := p in
              let pos := positions_of hours h in
              let c' := Nat.min c (length pos) in
              if c' =? 0 then [] else r_choice g (S k) pos c')
           (combine (seq s (length u)) (combine u alloc)) in
  NoDup L /\ length L = sum alloc /\ (forall i, In i L -> i < length hours /\ In (nth i hours 0%Z) u) /\
  Forall2 (fun h c => rows_in_hour hours h L = c) u alloc.
Proof.
  intros [_ Hc]. induction u as [|h u IH]; intros alloc s Hu Hf L; inversion Hf as [|? c ? alloc' Hle Hf']; subst.
  - cbn in L. subst L. repeat split; try constructor; try (intros i []); destruct H.
  - inversion Hu as [|? ? Hh Hu']; subst.
    destruct (IH alloc' (S s) Hu' Hf') as (I1 & I2 & I3 & I4).
    set (L' := flat_map _ (combine (seq (S s) (length u)) (combine u alloc'))) in *.
    set (B := if Nat.min c (length (positions_of hours h)) =? 0 then []
              else r_choice g (S s) (positions_of hours h) (Nat.min c (length (positions_of hours h)))).
    assert (HL : L = B ++ L') by reflexivity.
    assert (Hmin : Nat.min c (length (positions_of hours h)) = c) by (rewrite positions_count; lia).
    assert (HB : length B = c /\ NoDup B /\ incl B (positions_of hours h)).
    { unfold B. rewrite Hmin. destruct (c =? 0) eqn:E.
      - apply Nat.eqb_eq in E. subst. split; [reflexivity|]. split; [constructor|intros i []].
      - apply Hc; [apply NoDup_filter, seq_NoDup|]. rewrite positions_count. exact Hle. }
    destruct HB as (B1 & B2 & B3).
    assert (HBh : forall i, In i B -> i < length hours /\ nth i hours 0%Z = h).
    { intros i Hi. apply B3 in Hi. unfold positions_of in Hi. apply filter_In in Hi. destruct Hi as [Hi He].
      apply in_seq in Hi. apply Z.eqb_eq in He. split; [lia|exact He]. }
    rewrite HL. split; [|split; [|split]].
    + assert (Hdis : forall i, In i B -> ~ In i L').
      { intros i Hi Hi'. apply HBh in Hi. apply I3 in Hi'. destruct Hi as [_ Hi], Hi' as [_ Hi']. congruence. }
      clear -B2 I1 Hdis. induction B as [|b B IHB]; [exact I1|]. cbn. inversion B2; subst. constructor.
      * intros Hin. apply in_app_or in Hin. destruct Hin as [Hin|Hin]; [contradiction|]. apply (Hdis b); [now left|exact Hin].
      * apply IHB; [assumption|]. intros i Hi. apply Hdis. now right.
    + rewrite app_length, B1, I2. reflexivity.
    + intros i Hi. apply in_app_or in Hi. destruct Hi as [Hi|Hi].
      * apply HBh in Hi. destruct Hi as [H1 H2]. split; [exact H1|]. left. now rewrite H2.
      * apply I3 in Hi. destruct Hi. split; [assumption|now right].
    + constructor.
      * unfold rows_in_hour. rewrite filter_app, app_length.
        rewrite filter_all. 2:{ intros i Hi. apply HBh in Hi. apply Z.eqb_eq. tauto. }
        rewrite filter_none; [cbn; lia|]. intros i Hi. apply I3 in Hi. apply Z.eqb_neq. intros E. rewrite E in Hi. tauto.
      * assert (Hne : forall k, In k u -> rows_in_hour hours k (B ++ L') = rows_in_hour hours k L').
        { intros k Hk. unfold rows_in_hour. rewrite filter_app, app_length. rewrite filter_none; [reflexivity|].
          intros i Hi. apply HBh in Hi. apply Z.eqb_neq. intros E. destruct Hi as [_ Hi]. rewrite Hi in E. subst k. contradiction. }
        clear -I4 Hne. clearbody L' B. clear -I4 Hne. revert alloc' I4. induction u as [|k u IHu]; intros al I4; inversion I4; subst; constructor.
        -- apply Hne. now left.
        -- apply IHu; [|assumption]. intros q Hq. apply Hne. now right.
Qed.

Lemma rows_in_hour_perm hours h l1 l2 : Permutation l1 l2 -> rows_in_hour hours h l1 = rows_in_hour hours h l2.
Proof.
  intros H. unfold rows_in_hour. induction H; cbn; auto.
  - destruct (Z.eqb (nth x hours 0%Z) h); cbn; lia.
  - destruct (Z.eqb (nth x hours 0%Z) h), (Z.eqb (nth y hours 0%Z) h); reflexivity.
  - lia.
Qed.

Lemma stratified_full g times hours m :
  honest g -> length hours = length times -> m < length times ->
  ordered_sample times (length times) m (subsample_stratified g times hours m) /\
  (length (unique_hours hours) <= m ->
     Forall2 (fun h c => c <= rows_in_hour hours h (subsample_stratified g times hours m))
       (unique_hours hours)
       (map2 Nat.min (r_multinomial g m (map (count_hour hours) (unique_hours hours))) (map (count_hour hours) (unique_hours hours)))).
Proof.
  intros Hg Hlen Hm. unfold subsample_stratified.
  destruct (length times <=? m) eqn:E1; [apply Nat.leb_le in E1; lia|]. cbn [orb].
  assert (Hu : 0 < length (unique_hours hours)).
  { destruct (unique_hours hours) as [|h u] eqn:Eu; [|cbn; lia]. destruct hours as [|h hs]; [cbn in *; lia|].
    pose proof (proj2 (unique_hours_in (h :: hs) h) (or_introl eq_refl)) as Hin. rewrite Eu in Hin. destruct Hin. }
  destruct (length (unique_hours hours) =? 0) eqn:E2; [apply Nat.eqb_eq in E2; lia|].
  destruct (m <? length (unique_hours hours)) eqn:E3.
  - apply Nat.ltb_lt in E3. split; [apply uniform_ok; [exact Hg|lia]|]. intros. lia.
  - apply Nat.ltb_ge in E3.
    set (u := unique_hours hours) in *. set (counts := map (count_hour hours) u).
    set (al0 := map2 Nat.min (r_multinomial g m counts) counts).
    destruct (proj1 Hg m counts) as [Hml Hms]; [unfold counts; now rewrite map_length|].
    destruct (min_dominated _ _ Hml) as [Hd0 Hs0]. fold al0 in Hd0, Hs0. fold (sum (r_multinomial g m counts)) in Hms.
    assert (Htot : sum counts = length times) by (unfold counts, u; rewrite counts_total; exact Hlen).
    destruct (fill_ok (m - sum al0) counts al0 Hd0) as (al1 & F1 & F2 & F3 & F4); [lia|].
    rewrite F1. rewrite trim_id by lia.
    assert (Hf : Forall2 (fun h c => c <= count_hour hours h) u al1).
    { clear -F3. unfold counts in F3. revert al1 F3. induction u as [|h u IH]; intros al F; inversion F; subst; constructor; auto. }
    pose proof (draw_ok g hours Hg u al1 0 (unique_hours_nodup hours) Hf
      : let L := draw_hours g hours u al1 in
        NoDup L /\ length L = sum al1 /\ (forall i, In i L -> i < length hours /\ In (nth i hours 0%Z) u) /\
        Forall2 (fun h c => rows_in_hour hours h L = c) u al1) as DD.
    cbv zeta in DD. destruct DD as (D1 & D2 & D3 & D4).
    destruct (draw_hours g hours u al1) as [|p0 ps] eqn:Ed.
    + cbn [length] in D2. lia.
    + rewrite <- Ed in *. clear Ed. set (L := draw_hours g hours u al1) in *.
      assert (EL : (m <? length L) = false) by (apply Nat.ltb_ge; lia). rewrite EL.
      split.
      * apply order_rows_ok; [exact D1| |lia]. intros p Hp. apply D3 in Hp. lia.
      * intros _. rewrite order_rows_nodup by exact D1.
        assert (D4' : Forall2 (fun h c => rows_in_hour hours h (sort_by (fun p => nth p times 0%Z) L) = c) u al1).
        { clearbody L. clear -D4. induction D4 as [|h c hs cs H _ IH]; constructor; [|exact IH].
          rewrite <- H. apply rows_in_hour_perm, sort_by_perm. }
        change (fun h c => c <= rows_in_hour hours h (sort_by (fun p => nth p times 0%Z) L)) with
          (fun (h : Z) (c : nat) => c <= rows_in_hour hours h (sort_by (fun p : nat => nth p times 0%Z) L)).
        clearbody L al0. clear -D4' F2. revert al0 F2. induction D4' as [|h c hs cs H _ IH]; intros al0 F2; inversion F2; subst; constructor; [lia|now apply IH].
Qed.

Lemma strictly_sorted_unique (u v : list Z) :
  StronglySorted Z.lt u -> StronglySorted Z.lt v -> (forall h, In h u <-> In h v) -> u = v.
Proof.
  revert v. induction u as [|a u IH]; intros [|b v] Hu Hv Hi; [reflexivity| | |].
  - destruct (proj2 (Hi b) (or_introl eq_refl)).
  - destruct (proj1 (Hi a) (or_introl eq_refl)).
  - inversion Hu as [|? ? Hu' Fu]; inversion Hv as [|? ? Hv' Fv]; subst.
    rewrite Forall_forall in Fu, Fv.
    assert (a = b).
    { destruct (proj1 (Hi a) (or_introl eq_refl)) as [H|H]; [now symmetry|].
      destruct (proj2 (Hi b) (or_introl eq_refl)) as [H'|H']; [assumption|].
      specialize (Fu _ H'). specialize (Fv _ H). lia. }
    subst b. f_equal. apply IH; [assumption..|]. intros h. split; intros Hh.
    + destruct (proj1 (Hi h) (or_intror Hh)) as [<-|H]; [|exact H]. specialize (Fu _ Hh). lia.
    + destruct (proj2 (Hi h) (or_intror Hh)) as [<-|H]; [|exact H]. specialize (Fv _ Hh). lia.
Qed.

Lemma unique_hours_sorted hours : StronglySorted Z.lt (unique_hours hours).
Proof.
  pose proof (unique_hours_nodup hours) as Hn. unfold unique_hours in *.
  pose proof (isort_ascending (nodup Z.eq_dec hours)) as Ha.
  induction (isort (nodup Z.eq_dec hours)) as [|a l IH]; [constructor|].
  inversion Hn; subst. destruct Ha as [H1' H2']. constructor; [now apply IH|].
  apply Forall_forall. intros y Hy. specialize (H1' y Hy). assert (a <> y) by (intros <-; contradiction). lia.
Qed.

Lemma available_count hours h : available hours h = count_hour hours h.
Proof. exact (positions_count hours h). Qed.

Lemma subsample_exact (X Y : Type) :
  forall (g : rng) m times hours (dx : X) (dy : Y) x y,
  honest g -> length x = length times -> length y = length times ->
  (forall hs, hours = Some hs -> length hs = length times) ->
  m < length x ->
  exists pos, ordered_sample times (length x) m pos /\
    maybe_subsample g (Some m) times times hours dx dy x y = Some (rows dx x pos, rows dy y pos) /\
    (forall hs, hours = Some hs -> forall h, rows_in_hour hs h pos <= available hs h) /\
    (forall hs u, hours = Some hs -> distinct_hours hs u -> length u <= m ->
       let counts := map (available hs) u in
       forall k, k < length u ->
         Nat.min (nth k (r_multinomial g m counts) 0) (nth k counts 0) <= rows_in_hour hs (nth k u 0%Z) pos).
Proof.
  intros g m times hours dx dy x y Hg Hx Hy Hh Hm. unfold maybe_subsample.
  destruct (length x <=? m) eqn:E; [apply Nat.leb_le in E; lia|].
  destruct (list_eq_dec Z.eq_dec times times) as [_|Hn]; [|congruence].
  assert (Hle : forall pos, ordered_sample times (length x) m pos -> forall hs, hours = Some hs ->
            forall h, rows_in_hour hs h pos <= available hs h).
  { intros pos (_ & Hnd & Hlt & _) hs Ehs h. specialize (Hh hs Ehs). unfold available, rows_in_hour.
    apply NoDup_incl_length; [now apply NoDup_filter|]. intros p Hp. apply filter_In in Hp. destruct Hp as [Hp He].
    apply filter_In. split; [|exact He]. apply in_seq. specialize (Hlt p Hp). lia. }
  destruct hours as [hs|].
  - destruct (stratified_full g times hs m Hg (Hh hs eq_refl) ltac:(lia)) as [H1 H2].
    exists (subsample_stratified g times hs m). rewrite Hx in *. split; [exact H1|]. split; [reflexivity|].
    split; [exact (Hle _ H1)|].
    intros hs' u E' [Hu1 Hu2] Hl k Hk. apply (f_equal (fun o => match o with Some z => z | None => hs end)) in E'.
    subst hs'.
    assert (Eu : u = unique_hours hs).
    { apply strictly_sorted_unique; [exact Hu1|apply unique_hours_sorted|]. intros h. rewrite Hu2. symmetry. apply unique_hours_in. }
    subst u. specialize (H2 Hl).
    rewrite (map_ext _ _ (available_count hs)).
    set (counts := map (count_hour hs) (unique_hours hs)) in *.
    assert (Hml : length (r_multinomial g m counts) = length counts).
    { apply (proj1 Hg). unfold counts. rewrite map_length. lia. }
    clear -H2 Hk Hml. assert (Hcl : length counts = length (unique_hours hs)) by (unfold counts; apply map_length).
    clearbody counts. remember (r_multinomial g m counts) as mu eqn:Emu. clear Emu.
    revert mu counts k Hml Hcl Hk H2. generalize (subsample_stratified g times hs m) as pos. intros pos.
    induction (unique_hours hs) as [|h u IH]; intros mu counts k Hml Hcl Hk H2; [cbn in Hk; lia|].
    destruct counts as [|c counts]; [cbn in Hcl; lia|]. destruct mu as [|a mu]; [cbn in Hml; lia|].
    change (map2 Nat.min (a :: mu) (c :: counts)) with (Nat.min a c :: map2 Nat.min mu counts) in H2.
    inversion H2; subst. destruct k as [|k]; [assumption|]. cbn [nth]. apply IH; cbn [length] in *; try lia. assumption.
  - exists (subsample_uniform g 0 times m). rewrite Hx in *.
    assert (H1 : ordered_sample times (length times) m (subsample_uniform g 0 times m)) by (apply uniform_ok; [exact Hg|lia]).
    split; [exact H1|]. split; [reflexivity|]. split; [exact (Hle _ H1)|]. intros hs u [=].
Qed.

Lemma subsample_unchanged (X Y : Type) :
  forall (g : rng) cap times ytimes hours (dx : X) (dy : Y) x y,
  (cap = None \/ exists m, cap = Some m /\ length x <= m) ->
  maybe_subsample g cap times ytimes hours dx dy x y = Some (x, y).
Proof.
  intros g cap times ytimes hours dx dy x y [->|(m & -> & H)]; [reflexivity|]. cbn.
  destruct (length x <=? m) eqn:E; [reflexivity|apply Nat.leb_gt in E; lia].
Qed.

Lemma subsample_index_mismatch (X Y : Type) :
  forall (g : rng) m times ytimes hours (dx : X) (dy : Y) x y,
  m < length x -> times <> ytimes -> maybe_subsample g (Some m) times ytimes hours dx dy x y = None.
Proof.
  intros g m times ytimes hours dx dy x y H Hne. cbn.
  destruct (length x <=? m) eqn:E; [apply Nat.leb_le in E; lia|].
  destruct (list_eq_dec Z.eq_dec times ytimes); [contradiction|reflexivity].
Qed.

Lemma greedy_honest : honest greedy.
Proof.
  split.
  - intros m counts H. destruct counts as [|c cs]; [cbn in H; lia|]. cbn. rewrite map_length. split; [reflexivity|].
    enough (fold_right Nat.add 0 (map (fun _ : nat => 0) cs) = 0) by lia. induction cs; cbn; auto.
    apply IHcs. cbn. lia.
  - intros k pop c Hn Hc. cbn. split; [rewrite firstn_length; lia|]. split.
    + clear Hc. revert c. induction pop as [|a pop IH]; intros [|c]; cbn; try constructor; inversion Hn; subst; auto.
      intros Hin. apply H1. clear -Hin. revert c Hin. induction pop as [|b pop IH]; intros [|c] Hin; cbn in Hin; try tauto.
      destruct Hin as [<-|Hin]; [now left|right; eauto].
    + intros a Ha. clear -Ha. revert c Ha. induction pop as [|b pop IH]; intros [|c] Hin; cbn in Hin; try tauto.
      destruct Hin as [<-|Hin]; [now left|right; eauto].
Qed.

(** An hour of the data may get no row although there is room for all hours. *)
Lemma subsample_starved_hour :
  exists (g : rng) m times hours u kept,
    honest g /\ length hours = length times /\ distinct_hours hours u /\ length u <= m /\ m < length times /\
    maybe_subsample g (Some m) times times (Some hours) 0%Z 0%Z hours hours = Some (kept, kept) /\
    exists h, In h hours /\ ~ In h kept.
Proof.
  exists greedy, 2, [0; 1; 2; 3]%Z, [5; 5; 6; 6]%Z, [5; 6]%Z, [5; 5]%Z.
  split; [apply greedy_honest|]. split; [reflexivity|]. split.
  { split; [repeat constructor; lia|]. intros h. cbn. tauto. }
  split; [cbn; lia|]. split; [cbn; lia|]. split; [vm_compute; reflexivity|].
  exists 6%Z. split; [right; right; now left|]. cbn. intros [H|[H|[]]]; lia.
Qed.

(** ** Splitting *)
Lemma n_val_bounds n r : (0 <= r <= 1)%R ->
  (INR (n_val n r) <= INR n * r < INR (n_val n r) + 1)%R /\ n_val n r <= n.
Proof.
  intros Hr. unfold n_val. set (v := (INR n * r)%R).
  assert (Hv : (0 <= v)%R) by (apply Rmult_le_pos; [apply pos_INR|tauto]).
  assert (Hv2 : (v <= INR n)%R).
  { unfold v. rewrite <- (Rmult_1_r (INR n)) at 2. apply Rmult_le_compat_l; [apply pos_INR|tauto]. }
  pose proof (base_Int_part v) as [B1 B2].
  assert (Hz : (0 <= Int_part v)%Z).
  { assert ((-1 < Int_part v)%Z); [|lia]. apply lt_IZR. lra. }
  assert (Hi : INR (Z.to_nat (Int_part v)) = IZR (Int_part v)) by (rewrite INR_IZR_INZ, Z2Nat.id; auto).
  split; [rewrite Hi; lra|].
  apply INR_le. rewrite Hi. lra.
Qed.

Lemma split_partition (X Y : Type) :
  forall (r : R) (x : list X) (y : list Y), (0 <= r <= 1)%R -> length x = length y ->
  let '(xt, yt, (xv, yv)) := train_val_split (Some r) x y in
  xt ++ xv = x /\ yt ++ yv = y /\ length xt = length yt /\ length xv = length yv /\
  (INR (length xv) <= INR (length x) * r < INR (length xv) + 1)%R.
Proof.
  intros r x y Hr Hl. cbn. destruct (n_val_bounds (length x) r Hr) as [Hb Hn].
  repeat split.
  - apply firstn_skipn.
  - apply firstn_skipn.
  - rewrite !firstn_length. lia.
  - rewrite !skipn_length. lia.
  - rewrite skipn_length. replace (length x - (length x - n_val (length x) r)) with (n_val (length x) r) by lia. tauto.
  - rewrite skipn_length. replace (length x - (length x - n_val (length x) r)) with (n_val (length x) r) by lia. tauto.
Qed.
Lemma split_none (X Y : Type) :
  forall (x : list X) (y : list Y), train_val_split None x y = (x, y, (x, y)).
Proof. reflexivity. Qed.

(** ** Hours that are kept *)
Lemma rows_in_hour_pos hours h pos : 0 < rows_in_hour hours h pos -> exists p, In p pos /\ nth p hours 0%Z = h.
Proof.
  unfold rows_in_hour. destruct (filter _ pos) as [|p l] eqn:E; cbn; [lia|]. intros _. exists p.
  assert (I : In p (filter (fun p => Z.eqb (nth p hours 0%Z) h) pos)) by (rewrite E; now left). apply filter_In in I as [I J]. split; [exact I|]. now apply Z.eqb_eq.
Qed.
Lemma rows_in_hour_room hours h n m pos : length hours = n -> length pos = m -> NoDup pos -> (forall p, In p pos -> p < n) -> m <= n ->
  available hours h <= rows_in_hour hours h pos + (n - m).
Proof.
  intros Lh Lp Nd Hp Hm. unfold available, rows_in_hour. rewrite Lh.
  set (f := fun p => Z.eqb (nth p hours 0%Z) h).
  assert (G : forall l, NoDup l -> forall pos', NoDup pos' -> incl pos' l -> length (filter f l) + length pos' <= length (filter f pos') + length l).
  { clear. intros l Hl pos' Hp I.
    assert (P : forall l, length (filter f l) + length (filter (fun x => negb (f x)) l) = length l).
    { induction l0 as [|a l0 IH]; [reflexivity|]. cbn. destruct (f a); cbn; lia. }
    pose proof (P l). pose proof (P pos').
    assert (length (filter (fun x => negb (f x)) pos') <= length (filter (fun x => negb (f x)) l)).
    { apply NoDup_incl_length; [now apply NoDup_filter|]. intros x J. apply filter_In in J as [J K]. apply filter_In. auto. }
    lia. }
  specialize (G (seq 0 n) (seq_NoDup n 0) pos Nd). rewrite seq_length, Lp in G. assert (incl pos (seq 0 n)) by (intros p I; apply in_seq; specialize (Hp p I); lia). specialize (G H). lia.
Qed.
(** An hour stays represented if it has more rows than are left out, or if the draw over the hours gives it one. *)
Lemma subsample_hour_kept (g : rng) m times hours u (k : nat) h : honest g -> length hours = length times -> m < length times ->
  distinct_hours hours u -> nth_error u k = Some h ->
  (length times - m < available hours h \/ length u <= m /\ 0 < nth k (r_multinomial g m (map (available hours) u)) 0) ->
  exists kept, maybe_subsample g (Some m) times times (Some hours) 0%Z 0%Z hours hours = Some (kept, kept) /\ length kept = m /\ In h kept.
Proof.
  intros Hg Lh Hm Hu Hk Or.
  destruct (subsample_exact Z Z g m times (Some hours) 0%Z 0%Z hours hours Hg Lh Lh) as [pos [[L [Nd [Hb _]]] [E [_ Q]]]]; [intros hs [= <-]; exact Lh|lia|].
  exists (rows 0%Z hours pos). split; [exact E|]. split; [unfold rows; now rewrite map_length|].
  assert (P : 0 < rows_in_hour hours h pos).
  { destruct Or as [A|[A B]].
    - pose proof (rows_in_hour_room hours h (length times) m pos Lh L Nd ltac:(intros p I; specialize (Hb p I); lia) ltac:(lia)). lia.
    - assert (Kl : k < length u) by (apply nth_error_Some; rewrite Hk; discriminate). specialize (Q hours u eq_refl Hu A k Kl).
      rewrite (nth_error_nth u k 0%Z Hk) in Q. assert (Av : 0 < nth k (map (available hours) u) 0).
      { rewrite (nth_indep _ 0 (available hours 0%Z)) by (rewrite map_length; exact Kl). rewrite map_nth, (nth_error_nth u k 0%Z Hk), available_count. unfold count_hour.
        assert (I : In h hours) by (apply Hu; now apply nth_error_In in Hk).
        assert (J : In h (filter (Z.eqb h) hours)) by (apply filter_In; split; [exact I|apply Z.eqb_refl]). destruct (filter (Z.eqb h) hours); [destruct J|cbn; lia]. }
      lia. }
  destruct (rows_in_hour_pos _ _ _ P) as [p [I <-]]. unfold rows. now apply (in_map (fun p => nth p hours 0%Z)).
Qed.
