From Coq Require Import Reals List Arith Bool Lia Lra.
From Verif Require Import Model.HoltWinters Spec.HoltWintersSpec Proof.SeriesProof Proof.HoltWintersProof.
Import ListNotations.
Local Open Scope R_scope.

Definition flat : params := Params 0 0 0 0 None None 1 1 1.
Lemma flat_wf : well_formed flat.
Proof. repeat split; cbn; try lia. discriminate. Qed.

Lemma after_missing_not_causal : exists p s s' ys ys', well_formed p /\ healthy p s /\
  snd (predict p (Some s) [None] None) = Some s' /\ all_numbers ys /\ all_numbers ys' /\ length ys = length ys' /\ hd None ys = hd None ys' /\
  nth 0 (fst (predict p (Some s') ys None)) [] <> nth 0 (fst (predict p (Some s') ys' None)) [].
Proof.
  exists flat, (State (Some 0) (Some 0) [Some 0] [Some 0]), (State None None [None] [None]), [Some 1; Some 2], [Some 1; Some 3].
  split; [exact flat_wf|]. split.
  { unfold healthy, all_numbers, number. cbn. repeat split; eauto; intros x [<-|[]]; eauto. }
  split; [reflexivity|]. split; [intros x [<-|[<-|[]]]; eexists; reflexivity|]. split; [intros x [<-|[<-|[]]]; eexists; reflexivity|].
  split; [reflexivity|]. split; [reflexivity|]. cbn. intros E. injection E as E. lra.
Qed.

Lemma predict_same_recursion p st ys : beta p = 0 -> fst (predict p st ys None) = fst (run_from p st ys).
Proof. intros H. unfold predict, no_trend. rewrite <- H. destruct p. cbn in *. now destruct (run_from _ st ys). Qed.
Lemma predict_other_recursion : exists p s ys, well_formed p /\ healthy p s /\ all_numbers ys /\
  fst (predict p (Some s) ys None) <> fst (run_from p (Some s) ys).
Proof.
  exists (Params 1 1 0 0 None None 1 1 1), (State (Some 0) (Some 0) [Some 0] [Some 0]), [Some 1].
  split; [repeat split; cbn; try lia; discriminate|]. split.
  { unfold healthy, all_numbers, number. cbn. repeat split; eauto; intros x [<-|[]]; eauto. }
  split; [intros x [<-|[]]; eexists; reflexivity|]. cbn. intros E. injection E as E. lra.
Qed.

(** The second fit continues from the state the first one left. *)
Lemma refit_keeps_state : exists p ys zs, well_formed p /\ all_numbers ys /\ all_numbers zs /\
  (steps p < length ys)%nat /\ (steps p < length zs)%nat /\
  snd (fit_rows p None zs) <> snd (fit_rows p (snd (fit_rows p None ys)) zs).
Proof.
  exists flat, [Some 1; Some 1], [Some 5; Some 5]. split; [exact flat_wf|].
  split; [intros x [<-|[<-|[]]]; eexists; reflexivity|]. split; [intros x [<-|[<-|[]]]; eexists; reflexivity|].
  split; [cbn; lia|]. split; [cbn; lia|].
  assert (S1 : forall a s1 s2 y, step flat (State (Some a) (Some 0) [Some s1] [Some s2]) (Some y) (Some y)
      = (State (Some a) (Some 0) [Some s1] [Some s2], [Some (a + s1 + s2)])).
  { intros. unfold step. cbn. do 2 f_equal; [f_equal; ring|f_equal; ring|f_equal; f_equal; ring|f_equal; f_equal; ring|f_equal; ring]. }
  assert (R1 : forall a s1 s2 ys, exists r, run flat (State (Some a) (Some 0) [Some s1] [Some s2]) (map Some ys) = (r, State (Some a) (Some 0) [Some s1] [Some s2])).
  { intros a s1 s2 ys. induction ys as [|y ys [r IH]]; [now exists []|]. cbn [map run]. rewrite S1, IH. eexists. reflexivity. }
  assert (R2 : forall n a s1 s2 ys, rerun n flat (Some (State (Some a) (Some 0) [Some s1] [Some s2])) (map Some ys) = Some (State (Some a) (Some 0) [Some s1] [Some s2])).
  { induction n as [|n IH]; intros a s1 s2 ys; [reflexivity|]. cbn [rerun]. unfold run_from.
    change (initial flat (Some (State (Some a) (Some 0) [Some s1] [Some s2])) (map Some ys)) with (State (Some a) (Some 0) [Some s1] [Some s2]).
    destruct (R1 a s1 s2 ys) as [r ->]. cbn [snd]. apply IH. }
  assert (F : forall st a s1 s2 y, initial flat st [Some y; Some y] = State (Some a) (Some 0) [Some s1] [Some s2] ->
      snd (fit_rows flat st [Some y; Some y]) = Some (State (Some a) (Some 0) [Some s1] [Some s2])).
  { intros st a s1 s2 y E. unfold fit_rows, run_from. rewrite E. destruct (R1 a s1 s2 [y; y]) as [r Er]. cbn [map] in Er. rewrite Er. cbn [snd].
    unfold reinit. change (last_values (Nat.max (period1 flat) (period2 flat)) [Some y; Some y]) with (map Some [y]). apply R2. }
  rewrite (F None 0 5 5 5) by reflexivity. rewrite (F None 0 1 1 1) by reflexivity. rewrite (F _ 0 1 1 5) by reflexivity.
  intros E. injection E as E. lra.
Qed.

(** ** Several models *)
Lemma assign_length {V} ms next k (out r : list V) : Forall (fun m => length (snd m) = fst m) ms ->
  assign ms next k out = Some r -> length r = length out.
Proof.
  revert k out. induction ms as [|m ms IH]; intros k out Hm; cbn [assign]; [now intros [= <-]|].
  inversion Hm as [|? ? Hm1 Hm2]; subst.
  destruct ((k <? fst m)%nat && (length out <? fst m)%nat) eqn:E; [discriminate|]. intros H. apply IH in H; [|exact Hm2]. rewrite H.
  rewrite !app_length, !firstn_length, !skipn_length. apply andb_false_iff in E. rewrite !Nat.ltb_ge in E. lia.
Qed.
Lemma write_nth {V} (k n : nat) (row out : list V) i d : length row = n -> ((k < n)%nat -> (n <= length out)%nat) -> 
  nth i (firstn k out ++ firstn (n - k) (skipn k row) ++ skipn (Nat.max k n) out) d = if (k <=? i)%nat && (i <? n)%nat then nth i row d else nth i out d.
Proof.
  intros Hr Ho. destruct (Nat.le_gt_cases n k) as [Hk|Hk].
  - replace (n - k)%nat with 0%nat by lia. rewrite Nat.max_l by lia. cbn [firstn app]. rewrite firstn_skipn.
    destruct (Nat.leb_spec k i), (Nat.ltb_spec i n); cbn; [lia|reflexivity..].
  - specialize (Ho Hk). rewrite Nat.max_r by lia. destruct (Nat.leb_spec k i); cbn [andb].
    + rewrite app_nth2; rewrite firstn_length_le by lia; [|lia]. destruct (Nat.ltb_spec i n).
      * rewrite app_nth1 by (rewrite firstn_length, skipn_length; lia). rewrite nth_firstn by lia. rewrite nth_skipn. f_equal. lia.
      * rewrite app_nth2; rewrite firstn_length, skipn_length; [|lia]. rewrite nth_skipn. f_equal. lia.
    + rewrite app_nth1 by (rewrite firstn_length_le; lia). now apply nth_firstn.
Qed.

Lemma increasing_cons a l : increasing (a :: l) -> increasing l /\ forall x, In x l -> (a < x)%nat.
Proof.
  revert a. induction l as [|b l IH]; intros a H; [split; [exact I|easy]|]. destruct H as [H1 H2]. split; [exact H2|].
  intros x [<-|Hx]; [exact H1|]. destruct (IH b H2) as [_ K]. specialize (K x Hx). lia.
Qed.

Lemma assign_first_reaching {V} (ms : list (nat * list V)) k (out : list V) d : Forall (fun m => length (snd m) = fst m) ms ->
  increasing (k :: map fst ms) \/ (k = 0%nat /\ increasing (map fst ms)) -> Forall (fun m => (fst m <= length out)%nat) ms ->
  exists r, assign ms fst k out = Some r /\ length r = length out /\
    forall i, nth i r d = if (i <? k)%nat then nth i out d else match first_reaching ms i with Some m => nth i (snd m) d | None => nth i out d end.
Proof.
  intros Hl Hi Ho.
  enough (G : exists r, assign ms fst k out = Some r /\
    forall i, nth i r d = if (i <? k)%nat then nth i out d else match first_reaching ms i with Some m => nth i (snd m) d | None => nth i out d end).
  { destruct G as [r [G1 G2]]. exists r. split; [exact G1|]. split; [|exact G2]. now apply (assign_length _ _ _ _ _ Hl) in G1. }
  revert k out Hi Ho. induction ms as [|m ms IH]; intros k out Hi Ho; cbn [assign].
  - exists out. split; [reflexivity|]. intros i. cbn [first_reaching find]. now destruct (i <? k)%nat.
  - inversion Hl as [|? ? Hl1 Hl2]; subst. inversion Ho as [|? ? Ho1 Ho2]; subst.
    replace ((k <? fst m)%nat && (length out <? fst m)%nat) with false.
    2:{ symmetry. apply andb_false_iff. right. now apply Nat.ltb_ge. }
    set (out' := firstn k out ++ _). 
    assert (Lo : length out' = length out) by (unfold out'; rewrite !app_length, !firstn_length, !skipn_length; lia).
    assert (Hinc : increasing (fst m :: map fst ms)) by (destruct Hi as [Hi|[_ Hi]]; [apply increasing_cons in Hi; apply Hi|exact Hi]).
    destruct (IH Hl2 (fst m) out' (or_introl Hinc)) as [r [G1 G2]]; [rewrite Lo; exact Ho2|].
    exists r. split; [exact G1|]. intros i. rewrite G2. unfold out'. rewrite !write_nth by auto.
    cbn [first_reaching find]. fold (first_reaching ms i).
    destruct (Nat.ltb_spec i (fst m)) as [H1|H1].
    + destruct (Nat.leb_spec k i), (Nat.ltb_spec i k); cbn [andb]; try lia; reflexivity.
    + rewrite andb_false_r. destruct (Nat.ltb_spec i k) as [H2|H2].
      * destruct Hi as [Hi|[Hi _]]; [|lia]. cbn [map] in Hi. destruct Hi as [Hi _]. lia.
      * reflexivity.
Qed.

Lemma multi_first_reaching {V} n_sa (zero : V) (ms : list (nat * list V)) : Forall (fun m => length (snd m) = fst m) ms ->
  increasing (map fst ms) -> Forall (fun m => (fst m <= n_sa)%nat) ms ->
  exists r, multi_row n_sa zero ms = Some r /\ length r = n_sa /\
    forall i, (i < n_sa)%nat -> nth i r zero = match first_reaching ms i with Some m => nth i (snd m) zero | None => zero end.
Proof.
  intros Hl Hi Ho. unfold multi_row. destruct (assign_first_reaching ms 0 (repeat zero n_sa) zero Hl) as (r & R1 & R2 & R3).
  - right. auto.
  - now rewrite repeat_length.
  - exists r. rewrite repeat_length in R2. split; [exact R1|]. split; [exact R2|]. intros i H. rewrite R3. cbn [Nat.ltb Nat.leb].
    destruct (first_reaching ms i); [reflexivity|]. apply nth_repeat.
Qed.

Lemma multi_unsorted_refuted : exists (ms : list (nat * list nat)) r i m, Forall (fun m => length (snd m) = fst m) ms /\
  Forall (fun m => (fst m <= 3)%nat) ms /\ multi_row 3 0%nat ms = Some r /\ first_reaching ms i = Some m /\ (i < 3)%nat /\ nth i r 0%nat <> nth i (snd m) 0%nat.
Proof.
  exists [(3, [30; 31; 32]); (1, [10]); (2, [20; 21])]%nat, [30; 21; 32]%nat, 1%nat, (3, [30; 31; 32])%nat.
  split; [repeat constructor|]. split; [repeat constructor|]. repeat split; cbn; lia.
Qed.

(** Error distributions: steps from the first model's horizon up to the number of quantiles are
    never filled. *)
Lemma assign_keeps {V} (ms : list (nat * list V)) q out r i d : Forall (fun m => length (snd m) = fst m) ms ->
  assign ms (fun _ => q) q out = Some r -> (i < q)%nat -> nth i r d = nth i out d.
Proof.
  revert out. induction ms as [|m ms IH]; intros out Hl; cbn [assign]; [now intros [= <-]|].
  inversion Hl as [|? ? Hl1 Hl2]; subst. destruct ((q <? fst m)%nat && (length out <? fst m)%nat) eqn:E; [discriminate|].
  intros H Hi. rewrite (IH _ Hl2 H Hi). rewrite write_nth; [|exact Hl1|].
  - destruct (Nat.leb_spec q i); [lia|reflexivity].
  - intros Hq. apply andb_false_iff in E. rewrite !Nat.ltb_ge in E. lia.
Qed.
Lemma multi_errors_unfilled {V} n_sa q (zero : V) m ms r i : Forall (fun m => length (snd m) = fst m) (m :: ms) ->
  multi_errors n_sa q zero (m :: ms) = Some r -> (fst m <= i < q)%nat -> nth i r zero = zero.
Proof.
  intros Hl H Hi. unfold multi_errors in H. cbn [assign] in H. inversion Hl as [|? ? Hl1 Hl2]; subst.
  destruct ((0 <? fst m)%nat && (length (repeat zero n_sa) <? fst m)%nat) eqn:E; [discriminate|].
  rewrite (assign_keeps _ _ _ _ i zero Hl2 H) by lia.
  assert (Ho : (0 < fst m)%nat -> (fst m <= length (repeat zero n_sa))%nat).
  { intros Hm. apply andb_false_iff in E. rewrite !Nat.ltb_ge in E. lia. }
  replace (_ ++ _) with (firstn 0 (repeat zero n_sa) ++ firstn (fst m - 0) (skipn 0 (snd m)) ++ skipn (Nat.max 0 (fst m)) (repeat zero n_sa)) by reflexivity.
  rewrite write_nth by assumption. destruct (Nat.ltb_spec i (fst m)); [lia|]. cbn [Nat.leb andb]. apply nth_repeat.
Qed.
(** One model, or quantiles as many as each model's steps: correct. *)
Lemma multi_errors_single {V} n_sa q (zero : V) m : length (snd m) = fst m -> (fst m <= n_sa)%nat ->
  exists r, multi_errors n_sa q zero [m] = Some r /\ forall i, (i < fst m)%nat -> nth i r zero = nth i (snd m) zero.
Proof.
  intros Hl Ho. unfold multi_errors. cbn [assign]. rewrite repeat_length.
  replace ((0 <? fst m)%nat && (n_sa <? fst m)%nat) with false by (symmetry; apply andb_false_iff; right; now apply Nat.ltb_ge).
  eexists. split; [reflexivity|]. intros i Hi.
  replace (_ ++ _) with (firstn 0 (repeat zero n_sa) ++ firstn (fst m - 0) (skipn 0 (snd m)) ++ skipn (Nat.max 0 (fst m)) (repeat zero n_sa)) by reflexivity.
  rewrite write_nth; [|exact Hl|rewrite repeat_length; lia]. destruct (Nat.ltb_spec i (fst m)); [reflexivity|lia].
Qed.

(** ** Random search *)
Lemma argmin_from_spec l : forall best v k all, (best < k)%nat -> nth best all 0 = v -> skipn k all = l ->
  (forall j, (j < k)%nat -> v <= nth j all 0) -> (forall j, (j < best)%nat -> v < nth j all 0) -> (k <= length all)%nat ->
  let b := argmin_from best v k l in (b < length all)%nat /\ (forall j, (j < length all)%nat -> nth b all 0 <= nth j all 0) /\
    (forall j, (j < b)%nat -> nth b all 0 < nth j all 0).
Proof.
  induction l as [|x l IH]; intros best v k all Hb Hv Hs H1 H2 Hk; cbn [argmin_from]; cbn zeta.
  - assert (length all = k). { apply (f_equal (@length R)) in Hs. rewrite skipn_length in Hs. cbn in Hs. lia. }
    split; [lia|]. rewrite Hv. split; [intros j Hj; apply H1; lia|exact H2].
  - assert (Hx : nth k all 0 = x). { rewrite <- (Nat.add_0_r k), <- nth_skipn, Hs. reflexivity. }
    assert (Hk' : (S k <= length all)%nat). { apply (f_equal (@length R)) in Hs. rewrite skipn_length in Hs. cbn in Hs. lia. }
    assert (Hs' : skipn (S k) all = l). { clear - Hs. revert all Hs. induction k as [|k IHk]; intros [|a all] Hs; cbn in *; try discriminate; [congruence|now apply IHk]. }
    destruct (Rlt_dec x v) as [Hlt|Hge]; apply IH; try assumption; try lia.
    + intros j Hj. destruct (Nat.eq_dec j k) as [->|]; [lra|]. specialize (H1 j ltac:(lia)). lra.
    + intros j Hj. specialize (H1 j Hj). lra.
    + intros j Hj. destruct (Nat.eq_dec j k) as [->|]; [lra|]. apply H1. lia.
Qed.
Lemma argmin_first l i : argmin l = Some i -> (i < length l)%nat /\ (forall j, (j < length l)%nat -> nth i l 0 <= nth j l 0) /\
  (forall j, (j < i)%nat -> nth i l 0 < nth j l 0).
Proof.
  destruct l as [|x l]; [discriminate|]. unfold argmin. intros [= <-].
  apply (argmin_from_spec l 0 x 1 (x :: l)); try reflexivity; try lia; cbn; try lia; intros j Hj; destruct j; try lia; cbn; lra.
Qed.
Lemma scores_parallel_map {T N} (score : list N -> T -> R) names ts : scores_parallel score (Some names) ts = Some (map (score names) ts).
Proof. induction ts as [|t ts IH]; [reflexivity|]. cbn [scores_parallel]. rewrite IH. reflexivity. Qed.

Lemma tune_parallel_best {T N} (score : list N -> T -> R) names ts : ts <> [] ->
  exists i t, nth_error ts i = Some t /\ tune true score (Some names) ts = Some t /\
    (forall u, In u ts -> score names t <= score names u) /\
    (forall j u, (j < i)%nat -> nth_error ts j = Some u -> score names t < score names u).
Proof.
  intros H. unfold tune. rewrite scores_parallel_map. destruct (argmin (map (score names) ts)) as [i|] eqn:E; [|destruct ts; [congruence|discriminate]].
  destruct (argmin_first _ _ E) as (A & B & C). rewrite map_length in *.
  destruct (nth_error ts i) as [t|] eqn:Et; [|apply nth_error_None in Et; lia].
  assert (S : forall j u, nth_error ts j = Some u -> nth j (map (score names) ts) 0 = score names u).
  { intros j u Hu. apply nth_error_nth. now apply map_nth_error. }
  exists i, t. split; [exact Et|]. split; [reflexivity|]. rewrite (S i t Et) in B, C. split.
  - intros u Hu. apply In_nth_error in Hu. destruct Hu as [j Hj]. rewrite <- (S j u Hj). apply B. apply nth_error_Some. congruence.
  - intros j u Hj Hu. rewrite <- (S j u Hu). now apply C.
Qed.
Lemma tune_serial_fails {T N} (score : list N -> T -> R) targets t u ts : tune false score targets (t :: u :: ts) = None.
Proof. unfold tune. cbn [scores_serial]. destruct targets; cbn [fit_sample]; reflexivity. Qed.
Lemma tune_serial_one {T N} (score : list N -> T -> R) names t : tune false score (Some names) [t] = Some t.
Proof. reflexivity. Qed.
