From Coq Require Import List Arith Bool Lia.
From Verif Require Import Model.ReconcileScen Proof.SeriesProof.
Import ListNotations.

Lemma masked_none {A} mask (l : list A) : length mask <> length l -> masked mask l = None.
Proof.
  revert l. induction mask as [|b mask IH]; intros [|a l] H; cbn in *; try reflexivity; try lia. rewrite IH by lia. reflexivity.
Qed.
Lemma masked_some {A} (d : A) mask (l : list A) : length mask = length l -> exists r, masked mask l = Some r /\
  (forall a, In a r <-> exists i, i < length l /\ nth i mask false = true /\ nth i l d = a) /\ length r = length (filter (fun b => b) mask).
Proof.
  revert l. induction mask as [|b mask IH]; intros [|a l] H; cbn in *; try lia.
  - exists []. split; [reflexivity|]. split; [|reflexivity]. intros a. split; [intros []|]. intros (i & Hi & _). lia.
  - destruct (IH l ltac:(lia)) as (r & -> & Hr & Hl). cbn. exists (if b then a :: r else r). split; [reflexivity|]. split; [|destruct b; cbn; lia].
    intros x. split.
    + intros Hx. destruct b; [destruct Hx as [<-|Hx]; [exists 0; repeat split; lia|]|]; apply Hr in Hx; destruct Hx as (i & Hi & A1 & A2); exists (S i); repeat split; auto; lia.
    + intros ([|i] & Hi & A1 & A2).
      * subst b. left. exact A2.
      * assert (In x r) by (apply Hr; exists i; repeat split; auto; lia). destruct b; [right|]; assumption.
Qed.
Lemma nth_map_eqb h l i : nth i (map (Nat.eqb h) l) false = true <-> i < length l /\ nth i l 0 = h.
Proof.
  revert i. induction l as [|a l IH]; intros [|i]; cbn; try (rewrite Nat.eqb_eq); try rewrite IH; split; try lia; try discriminate; intuition lia.
Qed.
Lemma combine_seq_nth {A} (d : A) i0 (l : list A) i : i < length l -> nth i (combine (seq i0 (length l)) l) (0, d) = (i0 + i, nth i l d).
Proof. intros H. rewrite combine_nth by apply seq_length. rewrite seq_nth by exact H. reflexivity. Qed.

Lemma hour_ok {V} (add : V -> V -> V) train errs y n_scen draw d h : length errs = length train -> length y = length train ->
  (forall s j, draw h s j < length (filter (Nat.eqb h) train) \/ length (filter (Nat.eqb h) train) = 0) ->
  exists res, hour_scenarios add train errs y n_scen draw d h = Some res /\
    (forall i, In i (map fst res) <-> i < length train /\ nth i train 0 = h) /\
    forall i vals, In (i, vals) res -> length vals = n_scen /\ forall v, In v vals -> exists e, e < length train /\ nth e train 0 = h /\ v = add (nth i y d) (nth e errs d).
Proof.
  intros He Hy Hd. unfold hour_scenarios.
  destruct (masked_some (0, d) (map (Nat.eqb h) train) (combine (seq 0 (length y)) y)) as (yh & -> & Hyh & Lyh). { rewrite map_length, combine_length, seq_length. lia. }
  destruct (masked_some d (map (Nat.eqb h) train) errs) as (eh & -> & Heh & Leh). { rewrite map_length. lia. }
  assert (Hcnt : length (filter (fun b => b) (map (Nat.eqb h) train)) = length (filter (Nat.eqb h) train)).
  { clear. induction train as [|a l IH]; cbn; [reflexivity|]. destruct (h =? a); cbn; lia. }
  assert (Hin : forall p, In p yh <-> exists i, i < length train /\ nth i train 0 = h /\ p = (i, nth i y d)).
  { intros p. rewrite Hyh. split.
    - intros (i & Hi & A & B). rewrite combine_length, seq_length in Hi. apply nth_map_eqb in A. rewrite combine_seq_nth in B by lia. exists i. intuition.
    - intros (i & Hi & A & ->). exists i. rewrite combine_length, seq_length. split; [lia|]. split; [apply nth_map_eqb; auto|]. apply combine_seq_nth. lia. }
  eexists. split; [reflexivity|].
  assert (Hpair : forall q, In q (combine (seq 0 (length yh)) yh) -> In (snd q) yh). { intros [a b] Hq. apply in_combine_r in Hq. exact Hq. }
  split.
  - intros i. rewrite map_map. cbn. split.
    + intros Hi. apply in_map_iff in Hi. destruct Hi as (q & <- & Hq). apply Hpair, Hin in Hq. destruct Hq as (i & A & B & E). rewrite E. cbn. auto.
    + intros [Hi Hh]. assert (Hp : In (i, nth i y d) yh) by (apply Hin; eauto). apply (In_nth _ _ (0, d)) in Hp. destruct Hp as (k & Hk & Ek).
      apply in_map_iff. exists (k, (i, nth i y d)). split; [reflexivity|]. rewrite <- Ek. pose proof (combine_seq_nth (0, d) 0 yh k Hk) as Ec. cbn [plus] in Ec. rewrite <- Ec.
      apply nth_In. rewrite combine_length, seq_length. lia.
  - intros i vals Hiv. apply in_map_iff in Hiv. destruct Hiv as (q & E & Hq). injection E as <- <-. rewrite map_length, seq_length. split; [reflexivity|].
    intros v Hv. apply in_map_iff in Hv. destruct Hv as (s & <- & Hs). pose proof (Hpair _ Hq) as Hq2. apply Hin in Hq2. destruct Hq2 as (i & A & B & E). rewrite E. cbn [fst snd].
    assert (Hne : 0 < length eh). { rewrite Leh, <- Lyh. pose proof (Hpair _ Hq) as Z. destruct yh; [contradiction|cbn; lia]. }
    assert (Hlt : draw h s (fst q) < length eh) by (rewrite Leh, Hcnt in *; destruct (Hd s (fst q)); lia).
    assert (Hine : In (nth (draw h s (fst q)) eh d) eh) by (apply nth_In; exact Hlt). apply Heh in Hine. destruct Hine as (e & E1 & E2 & E3).
    apply nth_map_eqb in E2. exists e. split; [lia|]. split; [apply E2|]. rewrite E3. reflexivity.
Qed.
Lemma masked_in_order {A} (mask : list bool) (l r : list A) (key : A -> nat) : masked mask l = Some r -> NoDup (map key l) -> NoDup (map key r).
Proof.
  revert l r. induction mask as [|b mask IH]; intros [|a l] r H N; cbn in H; try discriminate.
  - injection H as <-. exact N.
  - destruct (masked mask l) as [r'|] eqn:E; [|discriminate]. injection H as <-. cbn in N. inversion N as [|x y N1 N2]; subst.
    specialize (IH l r' E N2). destruct b; [|exact IH]. cbn. constructor; [|exact IH]. intros C. apply N1.
    clear -C E. revert l r' E C. induction mask as [|b mask IH]; intros [|c l] r E C; cbn in E; try discriminate.
    + injection E as <-. contradiction.
    + destruct (masked mask l) as [r''|] eqn:E'; [|discriminate]. injection E as <-. destruct b; [destruct C as [C|C]; [left; exact C|]|]; right; eapply IH; eauto.
Qed.
Lemma hour_once {V} (add : V -> V -> V) train errs y n_scen draw d h res : hour_scenarios add train errs y n_scen draw d h = Some res -> NoDup (map fst res).
Proof.
  unfold hour_scenarios. destruct (masked _ (combine _ y)) as [yh|] eqn:E; [|discriminate]. destruct (masked _ errs) as [eh|]; [|discriminate].
  intros [= <-]. rewrite map_map. cbn [fst]. apply (masked_in_order _ _ _ fst) in E.
  - assert (K : forall k, map (fun x => fst (snd x)) (combine (seq k (length yh)) yh) = map fst yh).
    { clear. induction yh as [|p l IH]; intros k; cbn; [reflexivity|]. f_equal. apply IH. }
    rewrite K. exact E.
  - assert (K : forall k, map fst (combine (seq k (length y)) y) = seq k (length y)).
    { clear. induction y as [|p l IH]; intros k; cbn; [reflexivity|]. f_equal. apply IH. }
    rewrite K. apply seq_NoDup.
Qed.
Lemma nodup_app {A} (l l' : list A) : NoDup l -> NoDup l' -> (forall a, In a l -> ~ In a l') -> NoDup (l ++ l').
Proof.
  induction l as [|a l IH]; cbn; intros N N' D; [exact N'|]. inversion N as [|x y N1 N2]; subst. constructor.
  - intros C. apply in_app_or in C as [C|C]; [contradiction|]. apply (D a); auto.
  - apply IH; auto.
Qed.
Lemma scenarios_training_hours {V} (add : V -> V -> V) train errs y n_scen draw d : 0 < n_scen -> length errs = length train -> length y = length train ->
  (forall h s j, draw h s j < length (filter (Nat.eqb h) train) \/ length (filter (Nat.eqb h) train) = 0) ->
  exists res, predict_scenarios add train errs y n_scen draw d = Some res /\
    NoDup (map fst res) /\ (forall i, In i (map fst res) <-> i < length train /\ nth i train 0 < 24) /\
    forall i vals, In (i, vals) res -> length vals = n_scen /\
      forall v, In v vals -> exists e, e < length train /\ nth e train 0 = nth i train 0 /\ v = add (nth i y d) (nth e errs d).
Proof.
  intros Hn He Hy Hd. unfold predict_scenarios. replace (n_scen =? 0) with false by (symmetry; apply Nat.eqb_neq; lia).
  assert (Hg : forall k m, exists res, fold_right (fun h acc => match hour_scenarios add train errs y n_scen draw d h, acc with Some a, Some b => Some (a ++ b) | _, _ => None end) (Some []) (seq m k) = Some res /\ NoDup (map fst res) /\
    (forall i, In i (map fst res) <-> i < length train /\ m <= nth i train 0 < m + k) /\
    forall i vals, In (i, vals) res -> length vals = n_scen /\ forall v, In v vals -> exists e, e < length train /\ nth e train 0 = nth i train 0 /\ v = add (nth i y d) (nth e errs d)).
  { induction k as [|k IH]; intros m.
    - exists []. split; [reflexivity|]. split; [constructor|]. split; [|intros i vals []]. intros i. cbn. lia.
    - destruct (IH (S m)) as (r & E & Hd' & Hi & Hv). destruct (hour_ok add train errs y n_scen draw d m He Hy (Hd m)) as (r0 & E0 & Hi0 & Hv0).
      cbn [seq fold_right]. rewrite E, E0. exists (r0 ++ r). split; [reflexivity|]. split; [|split].
      + rewrite map_app. apply nodup_app; [apply (hour_once _ _ _ _ _ _ _ _ _ E0)|exact Hd'|]. intros i A B. apply Hi0 in A. apply Hi in B. lia.
      + intros i. rewrite map_app, in_app_iff, Hi, Hi0. intuition lia.
      + intros i vals Hin. apply in_app_or in Hin. destruct Hin as [Hin|Hin]; [|apply Hv, Hin]. destruct (Hv0 i vals Hin) as [A B]. split; [exact A|].
        intros v Hv'. destruct (B v Hv') as (e & B1 & B2 & B3). exists e. split; [exact B1|]. split; [|exact B3]. assert (Hii : In i (map fst r0)) by (apply in_map_iff; exists (i, vals); auto). apply Hi0 in Hii. lia. }
  destruct (Hg 24 0) as (res & E & Hd' & Hi & Hv). exists res. split; [exact E|]. split; [exact Hd'|]. split; [|exact Hv]. intros i. rewrite Hi. intuition lia.
Qed.
Lemma scenarios_other_length {V} (add : V -> V -> V) train errs y n_scen draw d : length y <> length train -> predict_scenarios add train errs y n_scen draw d = None.
Proof.
  intros H. unfold predict_scenarios. destruct (n_scen =? 0); [reflexivity|]. cbn [seq fold_right]. unfold hour_scenarios at 1. rewrite masked_none; [reflexivity|]. rewrite map_length, combine_length, seq_length. lia.
Qed.
Lemma scenarios_none {V} (add : V -> V -> V) train errs y draw d : predict_scenarios add train errs y 0 draw d = None.
Proof. reflexivity. Qed.

Lemma errors_at_in {V} (d : V) h train errs e : length errs = length train ->
  In e (errors_at h train errs) <-> exists i, i < length train /\ nth i train 0 = h /\ nth i errs d = e.
Proof.
  intros L. unfold errors_at. rewrite in_map_iff. split.
  - intros ([a b] & E & H). cbn in E. subst b. apply filter_In in H as [H T]. cbn in T. apply Nat.eqb_eq in T. subst a.
    apply (In_nth _ _ (0, d)) in H as (i & Hi & E). rewrite combine_length in Hi. rewrite combine_nth in E by auto. injection E as E1 E2.
    exists i. repeat split; auto; lia.
  - intros (i & Hi & E1 & E2). exists (h, e). split; [reflexivity|]. apply filter_In. split; [|apply Nat.eqb_refl].
    rewrite <- E1, <- E2, <- combine_nth by auto. apply nth_In. rewrite combine_length. lia.
Qed.
Lemma drawn_errors {V} (add : V -> V -> V) train errs test y n_scen draw d :
  length errs = length train -> length y = length test -> 0 < n_scen ->
  (forall i, i < length test -> exists e, e < length train /\ nth e train 0 = nth i test 0) ->
  (forall h s j, draw h s j < length (filter (Nat.eqb h) train) \/ length (filter (Nat.eqb h) train) = 0) ->
  exists rows, get_scenarios add Unconditional train errs test y n_scen draw d = Some (Rows rows) /\
    length rows = length test /\
    forall i, i < length test -> length (nth i rows []) = n_scen /\
      forall s, s < n_scen -> exists e, e < length train /\ nth e train 0 = nth i test 0 /\
        nth s (nth i rows []) d = add (nth i y d) (nth e errs d).
Proof.
  intros He Hy Hn Hs Hd. unfold get_scenarios.
  assert (Z : forall h, length (errors_at h train errs) = length (filter (Nat.eqb h) train)).
  { clear -He. intros h. unfold errors_at. rewrite map_length. revert errs He.
    induction train as [|a l IH]; intros [|e errs] He; cbn in *; try lia. destruct (h =? a); cbn; rewrite IH; lia. }
  assert (B : Nat.eqb n_scen 0 || existsb (fun h => match errors_at h train errs with [] => true | _ => false end) test = false).
  { apply orb_false_intro; [apply Nat.eqb_neq; lia|]. apply not_true_is_false. intros C. apply existsb_exists in C as (h & Hh & C).
    apply (In_nth _ _ 0) in Hh as (i & Hi & <-). destruct (Hs i Hi) as (e & He' & E).
    assert (Q : In (nth e errs d) (errors_at (nth i test 0) train errs)) by (apply (errors_at_in d); eauto).
    destruct (errors_at _ _ _); [contradiction|discriminate]. }
  rewrite B. eexists. split; [reflexivity|]. rewrite map_length, seq_length. split; [reflexivity|].
  intros i Hi. rewrite nth_map_seq by exact Hi. cbv zeta. rewrite map_length, seq_length. split; [reflexivity|].
  intros s Hs'. rewrite nth_map_seq by exact Hs'. cbn [plus].
  set (h := nth i test 0) in *.
  assert (Q : draw h s (place test i) < length (errors_at h train errs)).
  { rewrite Z. destruct (Hd h s (place test i)) as [Q|Q]; [exact Q|]. destruct (Hs i Hi) as (e & He' & E).
    assert (In (nth e errs d) (errors_at h train errs)) by (apply (errors_at_in d); eauto).
    rewrite <- Z in Q. destruct (errors_at h train errs); [contradiction|discriminate]. }
  apply nth_In with (d := d) in Q. apply (errors_at_in d) in Q as (e & A & B1 & B2); [|exact He]. exists e. rewrite B2. auto.
Qed.
Lemma drawn_unseen {V} (add : V -> V -> V) train errs test y n_scen draw d i :
  i < length test -> ~ In (nth i test 0) train -> get_scenarios add Unconditional train errs test y n_scen draw d = None.
Proof.
  intros Hi Hn. unfold get_scenarios.
  assert (B : existsb (fun h => match errors_at h train errs with [] => true | _ => false end) test = true).
  { apply existsb_exists. exists (nth i test 0). split; [apply nth_In, Hi|]. destruct (errors_at _ train errs) as [|e l] eqn:E; [reflexivity|].
    exfalso. assert (Q : In e (errors_at (nth i test 0) train errs)) by (rewrite E; left; reflexivity).
    unfold errors_at in Q. apply in_map_iff in Q as ([a b] & _ & Q). apply filter_In in Q as [Q T]. apply Nat.eqb_eq in T. cbn in T. subst a.
    apply in_combine_l in Q. contradiction. }
  rewrite B, orb_true_r. reflexivity.
Qed.
Lemma drawn_conditional {V} (add : V -> V -> V) train errs test y n_scen draw d :
  get_scenarios add Conditional train errs test y n_scen draw d = Some ZeroNumber.
Proof. reflexivity. Qed.
Lemma count_prefix h (l : list nat) i i' : i < i' -> i' <= length l -> nth i l 0 = h ->
  length (filter (Nat.eqb h) (firstn i l)) < length (filter (Nat.eqb h) (firstn i' l)).
Proof.
  revert i i'. induction l as [|a l IH]; intros i i' L Hl E; cbn in Hl; [lia|]. destruct i' as [|i']; [lia|]. destruct i as [|i]; cbn in *.
  - subst a. rewrite Nat.eqb_refl. cbn. lia.
  - assert (Q : length (filter (Nat.eqb h) (firstn i l)) < length (filter (Nat.eqb h) (firstn i' l))) by (apply IH; auto; lia).
    destruct (h =? a); cbn; lia.
Qed.
Lemma place_inj test i i' : i < length test -> i' < length test -> nth i test 0 = nth i' test 0 -> place test i = place test i' -> i = i'.
Proof.
  intros Hi Hi' E P. unfold place in P. rewrite E in P. destruct (Nat.lt_total i i') as [L|[L|L]]; [|exact L|].
  - pose proof (count_prefix (nth i' test 0) test i i' L ltac:(lia) E). lia.
  - pose proof (count_prefix (nth i' test 0) test i' i L ltac:(lia) eq_refl). lia.
Qed.
Lemma drawn_turns {V} (add : V -> V -> V) train errs test y n_scen draw d rows :
  length errs = length train -> get_scenarios add Unconditional train errs test y n_scen draw d = Some (Rows rows) ->
  exists (turn : nat -> nat) (pool : nat -> list V),
    (forall i i', i < length test -> i' < length test -> nth i test 0 = nth i' test 0 -> turn i = turn i' -> i = i') /\
    (forall h e, In e (pool h) <-> exists k, k < length train /\ nth k train 0 = h /\ nth k errs d = e) /\
    forall i s, i < length test -> s < n_scen ->
      nth s (nth i rows []) d = add (nth i y d) (nth (draw (nth i test 0) s (turn i)) (pool (nth i test 0)) d).
Proof.
  intros L. unfold get_scenarios. destruct (_ || _); [discriminate|]. intros [= <-].
  exists (place test), (fun h => errors_at h train errs). split; [apply place_inj|]. split; [intros h e; now apply errors_at_in|].
  intros i s Hi Hs. rewrite nth_map_seq by exact Hi. cbv zeta. rewrite nth_map_seq by exact Hs. reflexivity.
Qed.
