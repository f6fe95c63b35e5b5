From Coq Require Import Reals List Arith Bool Lia Lra Permutation Sorting.Sorted.
From Verif Require Import Model.Stats Model.HoltWinters Model.Training Spec.TrainingSpec Proof.ActivationsProof Proof.StatsProof Proof.FormatterProof2.
Import ListNotations.

(** Batches. *)
Lemma skipn_add {A} a b (l : list A) : skipn a (skipn b l) = skipn (b + a) l.
Proof. revert l; induction b; intros l; cbn; [reflexivity|]. destruct l; [now rewrite skipn_nil|apply IHb]. Qed.
Lemma slices_concat {A} b m (l : list A) : concat (map (fun i => firstn b (skipn (i * b) l)) (seq 0 m)) = firstn (m * b) l.
Proof.
  induction m as [|m IH]; [reflexivity|]. rewrite seq_S, map_app, concat_app, IH. cbn [concat map plus]. rewrite app_nil_r.
  rewrite <- (firstn_skipn (m * b) (firstn (S m * b) l)). rewrite firstn_firstn. replace (Nat.min (m * b) (S m * b)) with (m * b)%nat by (cbn; lia). f_equal.
  rewrite skipn_firstn_comm. f_equal. cbn. lia.
Qed.
Lemma epoch_cover given n perm bs : shuffle n perm -> epoch_batches given perm = Some bs ->
  let b := batch_len given n in
  (0 < b)%nat /\ length bs = (n / b)%nat /\ Forall (fun r => length r = b) bs /\
  exists unused, Permutation (concat bs ++ unused) (seq 0 n) /\ length unused = (n mod b)%nat.
Proof.
  intros Hp H b. assert (L : length perm = n) by (rewrite (Permutation_length Hp); apply seq_length). unfold epoch_batches, num_batches in H. rewrite L in H. fold b in H.
  destruct b as [|b'] eqn:Eb; [discriminate|]. cbn [option_map] in H. rewrite <- Eb in H |- *. assert (b <> 0)%nat by lia. clear Eb. injection H as <-.
  split; [lia|]. split; [now rewrite map_length, seq_length|]. split.
  - apply Forall_forall. intros r Hr. apply in_map_iff in Hr. destruct Hr as [i [<- Hi]]. apply in_seq in Hi. rewrite firstn_length, skipn_length, L.
    pose proof (Nat.mul_div_le n b ltac:(assumption)). assert (S i * b <= n / b * b)%nat by (apply Nat.mul_le_mono_r; lia). cbn in *. lia.
  - exists (skipn (n / b * b) perm). rewrite slices_concat, firstn_skipn. split; [exact Hp|]. rewrite skipn_length, L. pose proof (Nat.div_mod n b ltac:(assumption)). lia.
Qed.
Lemma epoch_once given n perm bs : shuffle n perm -> epoch_batches given perm = Some bs -> NoDup (concat bs) /\ forall i, In i (concat bs) -> (i < n)%nat.
Proof.
  intros Hp H. destruct (epoch_cover _ _ _ _ Hp H) as [_ [_ [_ [un [P _]]]]]. split.
  - assert (N : NoDup (concat bs ++ un)) by (eapply Permutation_NoDup; [symmetry; exact P|apply seq_NoDup]). clear - N. induction (concat bs); [constructor|]. inversion N; subst. constructor; [rewrite in_app_iff in *; tauto|auto].
  - intros i Hi. assert (Hs : In i (seq 0 n)) by (eapply Permutation_in; [exact P|apply in_or_app; now left]). apply in_seq in Hs. lia.
Qed.
(** A tenth of the rows: none when there are fewer than ten. *)
Lemma small_sample perm : (length perm < 10)%nat -> epoch_batches None perm = None.
Proof. intros H. unfold epoch_batches, num_batches, batch_len. now rewrite Nat.div_small. Qed.
Lemma rows_dropped b n perm bs : shuffle n perm -> (n mod b <> 0)%nat -> epoch_batches (Some b) perm = Some bs -> exists i, (i < n)%nat /\ ~ In i (concat bs).
Proof.
  intros Hp Hm H. destruct (epoch_cover _ _ _ _ Hp H) as [_ [_ [_ [un [P L]]]]]. cbn [batch_len] in L. destruct un as [|i un]; [cbn in L; congruence|]. exists i.
  assert (Hi : In i (seq 0 n)) by (eapply Permutation_in; [exact P|apply in_or_app; right; now left]). apply in_seq in Hi. split; [lia|].
  intros C. assert (N : NoDup (concat bs ++ i :: un)) by (eapply Permutation_NoDup; [symmetry; exact P|apply seq_NoDup]). apply NoDup_remove_2 in N. apply N. apply in_or_app. now left.
Qed.

Local Open Scope R_scope.
Lemma Rltb_case a b : {Rltb a b = true /\ a < b} + {Rltb a b = false /\ b <= a}.
Proof. unfold Rltb. destruct (Rlt_dec a b); [left|right]; split; auto; lra. Qed.
Lemma ratio_improves tol a d : 0 <= tol -> ratio_below tol a d = false -> 0 <= a.
Proof.
  intros Ht. unfold ratio_below. destruct (Req_EM_T d 0).
  - destruct (Rltb_case a 0) as [[-> ?]|[-> ?]]; [discriminate|lra].
  - destruct (Rltb_case (a / Rabs d) tol) as [[-> ?]|[-> ?]]; [discriminate|]. intros _. assert (0 < Rabs d) by now apply Rabs_pos_lt.
    replace a with (a / Rabs d * Rabs d) by (field; lra). apply Rmult_le_pos; lra.
Qed.
Lemma reals_cons x l rs : reals (x :: l) = Some rs -> exists v rs', x = Some v /\ reals l = Some rs' /\ rs = v :: rs'.
Proof. cbn. destruct x as [v|]; [|discriminate]. destruct (reals l) as [rs'|]; [|discriminate]. cbn. intros H. injection H as <-. eauto. Qed.
Lemma reals_in l rs : reals l = Some rs -> forall x, In x l -> exists v, x = Some v /\ In v rs.
Proof.
  revert rs. induction l as [|y l IH]; intros rs H x [].
  - subst. apply reals_cons in H. destruct H as [v [rs' [-> [_ ->]]]]. exists v. split; [reflexivity|now left].
  - apply reals_cons in H. destruct H as [v [rs' [-> [H ->]]]]. destruct (IH _ H x H0) as [w [-> Hw]]. exists w. split; [reflexivity|now right].
Qed.
Lemma since_best_zero x l : Forall (Rle x) l -> since_best (x :: l) = 0%nat.
Proof. intros H. cbn. replace (forallb _ l) with true; [reflexivity|]. symmetry. apply forallb_forall. intros y Hy. rewrite Forall_forall in H. apply Rleb_t. auto. Qed.

Section Run.
Context {P O : Type} (step : P -> O -> list nat -> P * O) (loss : nat -> P -> num) (stats_step : nat) (tol : R).
Implicit Type s : @state P O.

Definition tracks s : Prop := match evals s with [] => True | (p, _) :: r => kept s = Some p /\ match r with [] => True | (q, _) :: _ => old s = Some q end end.
Definition improving (es : list (P * num)) : Prop := (2 <= length es)%nat -> exists rs, reals (map snd es) = Some rs /\ StronglySorted Rle rs.

Lemma stop_improving rounds k p l es b : 0 <= tol -> improving es -> (1 <= length es)%nat -> stop rounds tol k (map snd ((p, l) :: es)) = Some b ->
  exists cur prev rs q rest, l = Some cur /\ es = (q, Some prev) :: rest /\ reals (map snd es) = Some (prev :: rs) /\ StronglySorted Rle (prev :: rs) /\
    b = ratio_below tol (prev - cur) (prev + / 10 ^ 6) /\ (b = false -> cur <= prev).
Proof.
  intros Ht Hi Hl H. destruct es as [|[q m] rest]; [cbn in Hl; lia|]. unfold stop in H. destruct (reals (map snd ((p, l) :: (q, m) :: rest))) as [rs0|] eqn:R0; [|discriminate].
  apply reals_cons in R0. destruct R0 as [cur [rs1 [El [R1 ->]]]]. pose proof R1 as R1'. apply reals_cons in R1. destruct R1 as [prev [rs [Em [R2 ->]]]]. cbn [snd] in El, Em. subst l m.
  assert (Ss : StronglySorted Rle (prev :: rs)).
  { destruct rest as [|x rest]; [cbn in R2; injection R2 as <-; repeat constructor|]. destruct (Hi ltac:(cbn; lia)) as [rs' [E Ss]]. assert (E' : Some rs' = Some (prev :: rs)) by (rewrite <- E; exact R1'). injection E' as ->. exact Ss. }
  exists cur, prev, rs, q, rest. split; [reflexivity|]. split; [reflexivity|]. split; [exact R1'|]. split; [exact Ss|].
  apply some_inj in H. subst b. destruct (ratio_below tol (prev - cur) (prev + / 10 ^ 6)) eqn:E; [split; [reflexivity|discriminate]|]. cbn [orb].
  apply ratio_improves in E; [|exact Ht]. rewrite since_best_zero.
  - rewrite andb_comm. split; [reflexivity|]. intros _. lra.
  - inversion Ss; subst. constructor; [lra|]. rewrite Forall_forall in *. intros y Hy. specialize (H2 y Hy). lra.
Qed.
Lemma loop_unfold rounds b bs s : loop step loss stats_step rounds tol (b :: bs) s =
    let (p, o) := step (pars s) (opt s) b in
    if (0 <? iter s)%nat && (iter s mod stats_step =? 0)%nat then
      let s' := State p o (Some p) (kept s) (iter s) ((p, loss (iter s) p) :: evals s) in
      if (2 <=? length (evals s'))%nat then
        match stop rounds tol (iter s) (map snd (evals s')) with
        | None => None
        | Some true => Some (true, s')
        | Some false => loop step loss stats_step rounds tol bs (State p o (Some p) (kept s) (S (iter s)) (evals s'))
        end
      else loop step loss stats_step rounds tol bs (State p o (Some p) (kept s) (S (iter s)) (evals s'))
    else loop step loss stats_step rounds tol bs (State p o (kept s) (old s) (S (iter s)) (evals s)).
Proof. reflexivity. Qed.
Lemma next_tracks s p o k l : tracks s -> tracks (State p o (Some p) (kept s) k ((p, l) :: evals s)).
Proof. unfold tracks. cbn. intros H. split; [reflexivity|]. destruct (evals s) as [|[q m] r]; [exact I|]. apply H. Qed.
Lemma next_improving p l es : 0 <= tol -> improving es -> forall rounds k, stop rounds tol k (map snd ((p, l) :: es)) = Some false -> (1 <= length es)%nat -> improving ((p, l) :: es).
Proof.
  intros Ht Hi rounds k H Hl _. destruct (stop_improving _ _ _ _ _ _ Ht Hi Hl H) as [cur [prev [rs [q [rest [-> [-> [R [Ss [_ Hc]]]]]]]]]]. specialize (Hc eq_refl).
  exists (cur :: prev :: rs). split; [etransitivity; [|exact (f_equal (option_map (cons cur)) R)]; reflexivity|].
  constructor; [exact Ss|]. inversion Ss; subst. constructor; [exact Hc|]. rewrite Forall_forall in *. intros y Hy. specialize (H3 y Hy). lra.
Qed.
Lemma loop_rounds r1 r2 bs : forall s, 0 <= tol -> improving (evals s) -> loop step loss stats_step r1 tol bs s = loop step loss stats_step r2 tol bs s.
Proof.
  induction bs as [|b bs IH]; intros s Ht Hi; [reflexivity|]. rewrite !loop_unfold. destruct (step _ _ b) as [p o]. destruct (_ && _); [|now apply IH]. cbv zeta. cbn [evals].
  destruct (2 <=? length _)%nat eqn:L; [|apply IH; [exact Ht|]; cbn [evals]; intros C; apply Nat.leb_gt in L; lia].
  apply Nat.leb_le in L. cbn in L. assert (L' : (1 <= length (evals s))%nat) by lia.
  destruct (stop r1 tol (iter s) _) as [b1|] eqn:S1; destruct (stop r2 tol (iter s) _) as [b2|] eqn:S2.
  - pose proof S1 as S1'. apply stop_improving in S1; auto. apply stop_improving in S2; auto. destruct S1 as [c1 [p1 [rs1 [q1 [t1 [E1 [F1 [_ [_ [-> _]]]]]]]]]]. destruct S2 as [c2 [p2 [rs2 [q2 [t2 [E2 [F2 [_ [_ [-> _]]]]]]]]]].
    assert (c1 = c2) by congruence. assert (p1 = p2) by congruence. subst c2 p2. destruct (ratio_below _ _ _) eqn:E; [reflexivity|]. apply IH; [exact Ht|]. cbn [evals]. eapply next_improving; eauto.
  - exfalso. unfold stop in S1, S2. destruct (reals _) as [[|? [|? ?]]|]; discriminate.
  - exfalso. unfold stop in S1, S2. destruct (reals _) as [[|? [|? ?]]|]; discriminate.
  - reflexivity.
Qed.
Lemma loop_best rounds bs : forall s s', 0 <= tol -> improving (evals s) -> tracks s -> loop step loss stats_step rounds tol bs s = Some (true, s') ->
  exists p, chosen s' = Some p /\ best_evaluated (evals s') p.
Proof.
  induction bs as [|b bs IH]; intros s s' Ht Hi Hk; [discriminate|]. rewrite !loop_unfold. destruct (step _ _ b) as [p o]. destruct (_ && _); [|intros H; eapply IH; [exact Ht| | |exact H]; assumption]. cbv zeta. cbn [evals].
  destruct (2 <=? length _)%nat eqn:L; [|intros H; eapply IH; [exact Ht| | |exact H]; [intros C; apply Nat.leb_gt in L; cbn [evals] in C; lia|now apply next_tracks]].
  apply Nat.leb_le in L. cbn in L. assert (L' : (1 <= length (evals s))%nat) by lia. destruct (stop _ _ _ _) as [[|]|] eqn:S1; [| |discriminate].
  - intros H. injection H as <-. apply stop_improving in S1; auto. destruct S1 as [cur [prev [rs [q [rest [El [Ee [R [Ss [_ _]]]]]]]]]]. unfold chosen. cbn [evals map snd old pars]. rewrite El, Ee. cbn [map snd].
    unfold tracks in Hk. rewrite Ee in Hk. destruct Hk as [Hk _]. inversion Ss as [|? ? _ Hmin]; subst.
    assert (Hall : forall q' m, In (q', m) ((q, Some prev) :: rest) -> exists r, m = Some r /\ prev <= r).
    { intros q' m Hin. rewrite Ee in R. destruct (reals_in _ _ R m) as [v [-> Hv]]; [change m with (snd (q', m)); now apply in_map|]. exists v. split; [reflexivity|]. destruct Hv as [<-|Hv]; [lra|]. rewrite Forall_forall in Hmin. auto. }
    destruct (Rltb_case prev cur) as [[-> ?]|[-> ?]].
    + exists q. split; [exact Hk|]. exists prev. split; [right; now left|]. intros q' m [E|Hin]; [injection E as <- <-; exists cur; split; [reflexivity|lra]|]. now apply Hall with q'.
    + exists p. split; [reflexivity|]. exists cur. split; [now left|]. intros q' m [E|Hin]; [injection E as <- <-; exists cur; split; [reflexivity|lra]|]. destruct (Hall q' m Hin) as [r [-> Hr]]. exists r. split; [reflexivity|lra].
  - intros H. eapply IH; [exact Ht| | |exact H]; [cbn [evals]; eapply next_improving; eauto|now apply next_tracks].
Qed.
(** Everything the loop can return was produced by a step. *)
Lemma loop_made (Q : P -> Prop) rounds bs : (forall p o b, Q p -> Q (fst (step p o b))) -> forall s f s', Q (pars s) -> (forall p, In p (map fst (evals s)) -> Q p) -> tracks s ->
  loop step loss stats_step rounds tol bs s = Some (f, s') -> Q (pars s') /\ (forall p, In p (map fst (evals s')) -> Q p) /\ tracks s'.
Proof.
  intros Hs. induction bs as [|b bs IH]; intros s f s' Hp He Hk; [cbn; intros H; injection H as <- <-; auto|]. rewrite loop_unfold. pose proof (Hs (pars s) (opt s) b Hp) as Hq. destruct (step _ _ b) as [p o]. cbn [fst] in Hq.
  assert (He' : forall x, In x (map fst ((p, loss (iter s) p) :: evals s)) -> Q x) by (intros x [<-|Hx]; [exact Hq|auto]).
  destruct (_ && _); [|intros H; eapply IH; [ | | |exact H]; assumption]. cbv zeta. cbn [evals].
  assert (Hk' : forall k, tracks (State p o (Some p) (kept s) k ((p, loss (iter s) p) :: evals s))) by (intros k; now apply next_tracks).
  destruct (2 <=? _)%nat; [|intros H; eapply IH; [ | | |exact H]; cbn [pars evals]; auto]. destruct (stop _ _ _ _) as [[|]|]; [| |discriminate].
  - intros H. injection H as <- <-. cbn [pars evals]. auto.
  - intros H. eapply IH; [ | | |exact H]; cbn [pars evals]; auto.
Qed.
End Run.

(** Early stopping returns the best evaluated parameters. *)
Lemma early_stop_best {P O} (step : P -> O -> list nat -> P * O) loss stats_step rounds tol given n perms before init s :
  0 <= tol -> fit step loss stats_step rounds tol given n perms before init = Some (true, s) -> exists p, chosen s = Some p /\ best_evaluated (evals s) p.
Proof.
  intros Ht H. unfold fit in H. destruct (num_batches given n); [|discriminate]. destruct (all_batches given perms) as [[|b bs]|]; [discriminate| |discriminate]. destruct (stats_step =? 0)%nat; [discriminate|].
  eapply loop_best; [exact Ht| | |exact H]; cbn; [intros C; cbn in C; lia|exact I].
Qed.
(** The patience parameter never matters. *)
Lemma patience_ignored {P O} (step : P -> O -> list nat -> P * O) loss stats_step r1 r2 tol given n perms before init : 0 <= tol ->
  fit step loss stats_step r1 tol given n perms before init = fit step loss stats_step r2 tol given n perms before init.
Proof.
  intros Ht. unfold fit. destruct (num_batches given n); [|reflexivity]. destruct (all_batches given perms) as [[|b bs]|]; [reflexivity| |reflexivity]. destruct (stats_step =? 0)%nat; [reflexivity|].
  apply loop_rounds; [exact Ht|]. intros C; cbn in C; lia.
Qed.
(** A property of the fresh parameters and of every step's output holds of the parameters kept. *)
Lemma fit_keeps {P O} (Q : P -> Prop) (step : P -> O -> list nat -> P * O) loss stats_step rounds tol given n perms before init f s :
  Q (fst init) -> (forall p o b, Q p -> Q (fst (step p o b))) -> fit step loss stats_step rounds tol given n perms before init = Some (f, s) -> exists p, chosen s = Some p /\ Q p.
Proof.
  intros Hi Hs H. assert (Q (pars s) /\ (forall p, In p (map fst (evals s)) -> Q p) /\ tracks s) as [H1 [H2 H3]].
  { unfold fit in H. destruct (num_batches given n); [|discriminate]. destruct (all_batches given perms) as [[|b bs]|]; [|destruct (stats_step =? 0)%nat; [discriminate|]|discriminate].
    - injection H as <- <-. cbn. split; [exact Hi|]. split; [contradiction|exact I].
    - eapply loop_made; [exact Hs| | | |exact H]; cbn; [exact Hi|contradiction|exact I]. }
  unfold chosen, tracks in *. destruct (evals s) as [|[p [cur|]] [|[q [prev|]] r]]; cbn [map snd]; try (eexists; split; [reflexivity|exact H1]).
  destruct (Rltb prev cur); [|eauto]. destruct H3 as [_ ->]. exists q. split; [reflexivity|]. apply H2. right. now left.
Qed.
(** No epoch, or batches larger than the sample: the fresh parameters come back untrained. *)
Lemma all_batches_large b perms : (0 < b)%nat -> Forall (fun p => (length p < b)%nat) perms -> all_batches (Some b) perms = Some [].
Proof.
  intros Hb. induction 1 as [|p ps Hp _ IH]; [reflexivity|]. cbn [all_batches]. rewrite IH. unfold epoch_batches, num_batches, batch_len. destruct b; [lia|]. rewrite Nat.div_small by exact Hp. reflexivity.
Qed.
Lemma oversized_batch {P O} (step : P -> O -> list nat -> P * O) loss stats_step rounds tol b n perms before init : (n < b)%nat -> Forall (shuffle n) perms ->
  exists s, fit step loss stats_step rounds tol (Some b) n perms before init = Some (false, s) /\ chosen s = Some (fst init).
Proof.
  intros Hb Hp. unfold fit. rewrite all_batches_large.
  - unfold num_batches, batch_len. destruct b; [lia|]. eexists. split; [reflexivity|]. reflexivity.
  - lia.
  - eapply Forall_impl; [|exact Hp]. cbn. intros p Hs. rewrite (Permutation_length Hs), seq_length. exact Hb.
Qed.
(** Running out of epochs: the last parameters are kept even when an evaluated set was better. *)
Lemma exhausted_not_best : exists (step : nat -> unit -> list nat -> nat * unit) (loss : nat -> nat -> num) perms s q,
  Forall (shuffle 2) perms /\ fit step loss 2 5 (/ 10 ^ 4) (Some 1%nat) 2 perms None (0%nat, tt) = Some (false, s) /\
  In (q, Some 1) (evals s) /\ exists p, chosen s = Some p /\ forall k, loss k p = Some 100 /\ loss k q = Some 1.
Proof.
  pose (loss := fun (_ : nat) p => Some (match p with 3%nat => 3 | 5%nat => 1 | _ => 100 end) : num).
  exists (fun p _ _ => (S p, tt)), loss, [[0%nat; 1%nat]; [1%nat; 0%nat]; [0%nat; 1%nat]].
  exists (State 6%nat tt (Some 5%nat) (Some 3%nat) 6 [(5%nat, Some 1); (3%nat, Some 3)]), 5%nat.
  split; [repeat constructor|]. split; [|split; [now left|]].
  - unfold fit. cbn -[ratio_below]. unfold ratio_below. destruct (Req_EM_T _ 0) as [E|E].
    + exfalso. lra.
    + rewrite Rltb_f; [|]. rewrite ?Rleb_t by lra. reflexivity. 
      apply Rle_trans with ((3 - 1) / 4); [lra|]. rewrite Rabs_pos_eq by lra. unfold Rdiv. apply Rmult_le_compat_l; [lra|]. apply Rinv_le_contravar; lra.
  - exists 6%nat. split; [|intros k; split; reflexivity]. unfold chosen. cbn. now rewrite Rltb_f by lra.
Qed.
