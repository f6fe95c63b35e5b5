From Coq Require Import Reals String List Arith Bool Lia Lra.
From Verif Require Import Model.Names Model.Encoder Model.Quantiles Model.FourierEs Model.Trainer Spec.TrainerSpec Proof.ReprojectProof Proof.QuantilesProof Proof.FourierProof.
Import ListNotations.
Local Open Scope R_scope.

Lemma mean_spec l : l <> [] -> is_mean l (mean l).
Proof.
  intros H. unfold is_mean, mean. assert (INR (length l) <> 0) by (apply not_0_INR; destruct l; [congruence|discriminate]).
  replace (fold_right Rplus 0 l) with (rsum (fun i => nth i l 0) (length l)); [field; assumption|]. clear.
  assert (G : forall m f, (forall i, f i = nth i m 0) -> rsum f (length m) = fold_right Rplus 0 m).
  { induction m as [|a m IH]; intros f Hf; [reflexivity|]. cbn [length fold_right]. rewrite <- (IH (fun i => f (S i))) by (intros i; apply (Hf (S i))).
    assert (S' : forall n g, rsum g (S n) = g 0%nat + rsum (fun i => g (S i)) n). { intros n g. induction n as [|n IHn]; [cbn; lra|]. cbn in *. rewrite IHn. lra. }
    rewrite S', (Hf 0%nat). reflexivity. }
  now apply G.
Qed.
Lemma lookup_app {V} k (a b : list (text * V)) : ~ In k (keys a) -> lookup k (a ++ b) = lookup k b.
Proof. induction a as [|[k' v] a IH]; [reflexivity|]. cbn. intros H. destruct (same k k') eqn:E; [apply same_spec in E; exfalso; apply H; left; congruence|]. apply IH. tauto. Qed.
Lemma lookup_missing {V} k (a : list (text * V)) : ~ In k (keys a) -> lookup k a = None.
Proof. intros H. rewrite <- (app_nil_r a). now rewrite lookup_app. Qed.
Lemma txt_app_inj p (a b : text) : p ++ a = p ++ b -> a = b. Proof. apply app_inv_head. Qed.
Lemma member_false l v : ~ In v l -> member l v = false.
Proof. intros H. destruct (member l v) eqn:E; [apply member_in in E; contradiction|reflexivity]. Qed.
(** One scorer: the mean of its score over the folds. *)
Lemma cv_single {S F} (run : F -> S -> R) folds s : folds <> [] -> exists m, cv_full run folds (Single s) None = Some m /\ is_mean (map (fun f => run f s) folds) m.
Proof.
  intros Hf. unfold cv_full, get_score_key. change (rev (keys (sklearn_cv run folds (Single s)))) with [test_score; txt "score_time"; txt "fit_time"]. cbv beta iota zeta.
  replace (member _ test_score) with true by reflexivity. unfold sklearn_cv. rewrite lookup_app; [|intros [C|[C|[]]]; discriminate]. cbn [lookup]. rewrite (proj2 (same_spec _ _) eq_refl). eexists. split; [reflexivity|]. apply mean_spec. destruct folds; [congruence|discriminate].
Qed.
(** A dictionary of scorers: the mean of the first one. *)
Lemma test_neq n : test_ n <> txt "fit_time" /\ test_ n <> txt "score_time".
Proof. split; intros C; discriminate. Qed.
Lemma cv_several {S F} (run : F -> S -> R) folds n s d : folds <> [] -> ~ In (txt "score") (keys ((n, s) :: d)) ->
  exists m, cv_full run folds (Several ((n, s) :: d)) None = Some m /\ is_mean (map (fun f => run f s) folds) m.
Proof.
  intros Hf Hn. unfold cv_full, get_score_key. set (res := sklearn_cv run folds (Several ((n, s) :: d))).
  rewrite member_false.
  - unfold res, sklearn_cv. rewrite lookup_app; [|destruct (test_neq n) as [A B]; intros [C|[C|[]]]; cbn in C; congruence]. cbn [map lookup fst snd]. rewrite (proj2 (same_spec _ _) eq_refl). eexists. split; [reflexivity|]. apply mean_spec. destruct folds; [congruence|discriminate].
  - unfold res, sklearn_cv, keys. rewrite map_app, map_map. cbn [map fst]. intros [C|[C|C]]; [discriminate|discriminate|]. cbn in C.
    apply Hn. destruct C as [C|C]; [left; exact (txt_app_inj (txt "test_") n (txt "score") C)|].
    right. apply in_map_iff in C. destruct C as [[k v] [C H]]. assert (k = txt "score") by exact (txt_app_inj (txt "test_") k (txt "score") C). subst k. apply in_map_iff. exists (txt "score", v). auto.
Qed.
(** Random fold with a dictionary: the key asked for is not among the results. *)
Lemma test_longer n : test_ n <> n.
Proof. intros H. apply (f_equal (@length _)) in H. unfold test_ in H. rewrite app_length in H. cbn in H. lia. Qed.
Lemma cv_random_dict {S F} (run : F -> S -> option R) fold n s d : ~ In (test_ n) (keys ((n, s) :: d)) -> ~ In test_score (keys ((n, s) :: d)) ->
  cv_random run fold (Several ((n, s) :: d)) None = None.
Proof.
  intros H1 H2. unfold cv_random. destruct (all_some _) as [results|] eqn:E; [|reflexivity].
  assert (K : keys results = keys ((n, s) :: d)).
  { clear - E. revert results E. generalize ((n, s) :: d). induction l as [|[k v] l IH]; intros results E; cbn in E; [injection E as <-; reflexivity|].
    destruct (run fold v) as [x|]; [|discriminate]. cbn in E. destruct (all_some _) as [r|]; [|discriminate]. cbn in E. injection E as <-. cbn. f_equal. now apply IH. }
  unfold get_score_key. rewrite K, (member_false _ _ H2). 
  replace (lookup (test_ n) results) with (@None (list R)); [reflexivity|]. rewrite <- K in H1. symmetry. now apply lookup_missing.
Qed.
Lemma cv_random_single {S F} (run : F -> S -> option R) fold s v : run fold s = Some v -> cv_random run fold (Single s) None = Some v.
Proof. intros H. unfold cv_random. rewrite H. cbn. unfold mean. cbn. f_equal. field. Qed.

(** Selecting the rows of a fold. *)
Lemma mask_same {L A} (label_of : nat -> option L) eqb (frame : list (L * A)) m : loc label_of eqb frame (Mask m) = by_position frame (Mask m).
Proof. reflexivity. Qed.
Lemma datetime_positions {L A} (label_of : nat -> option L) eqb (frame : list (L * A)) i p : (forall k, label_of k = None) -> loc label_of eqb frame (Positions (i :: p)) = None.
Proof. intros H. cbn. now rewrite H. Qed.
Lemma integer_labels_wrong : exists (frame : list (nat * nat)) p r, NoDup (map fst frame) /\ by_position frame (Positions p) = Some r /\
  exists r', loc (fun k => Some k) Nat.eqb frame (Positions p) = Some r' /\ r' <> r.
Proof.
  exists [(1, 10); (0, 20)]%nat, [0]%nat, [10]%nat. split; [repeat constructor; cbn; intuition discriminate|]. split; [reflexivity|]. exists [20]%nat. split; [reflexivity|discriminate].
Qed.
Lemma range_labels {A} (rows : list A) p : Forall (fun i => (i < length rows)%nat) p ->
  let frame := combine (seq 0 (length rows)) rows in loc (fun k => Some k) Nat.eqb frame (Positions p) = by_position frame (Positions p).
Proof.
  intros Hp frame. unfold loc, by_position. f_equal. apply map_ext_in. intros i Hi. rewrite Forall_forall in Hp. specialize (Hp i Hi). f_equal. unfold frame. clear - Hp.
  assert (G : forall b (l : list A) i, (i < length l)%nat -> find (fun e => Nat.eqb (b + i) (fst e)) (combine (seq b (length l)) l) = nth_error (combine (seq b (length l)) l) i).
  { intros b l. revert b. induction l as [|a l IH]; intros b j H; [cbn in H; lia|]. cbn [length seq combine find fst]. destruct j as [|j].
    - now rewrite Nat.add_0_r, Nat.eqb_refl.
    - replace (Nat.eqb (b + S j) b) with false by (symmetry; apply Nat.eqb_neq; lia). cbn [nth_error]. replace (b + S j)%nat with (S b + j)%nat by lia. apply IH. cbn in H. lia. }
  apply (G 0%nat rows i Hp).
Qed.
(** Search. *)
Lemma search_best {P} allowed (score_of : list (text * P) -> option R) best trials : reports_minimum best -> trials <> [] ->
  (forall p, In p trials -> Forall (fun k => In k allowed) (keys p)) -> (forall p, In p trials -> exists v, score_of p = Some v) ->
  exists p v, search allowed score_of best trials = Some (p, v) /\ In p trials /\ score_of p = Some v /\ forall q w, In q trials -> score_of q = Some w -> v <= w.
Proof.
  intros Hb Hne Hk Hs.
  assert (O : forall p, In p trials -> objective allowed score_of p = score_of p). { intros p Hp. unfold objective. replace (forallb _ _) with true; [reflexivity|]. symmetry. apply forallb_forall. intros k Hin. apply member_in. specialize (Hk p Hp). rewrite Forall_forall in Hk. auto. }
  assert (G : exists values, all_some (map (objective allowed score_of) trials) = Some values /\ length values = length trials /\ forall i p, nth_error trials i = Some p -> exists v, nth_error values i = Some v /\ score_of p = Some v).
  { clear Hne Hb Hk. induction trials as [|p ts IH]; [exists []; repeat split; intros [|i] q Hq; discriminate|]. destruct IH as [vs [E [L V]]]; [intros; apply Hs; now right|intros; apply O; now right|].
    destruct (Hs p (or_introl eq_refl)) as [v Hv]. exists (v :: vs). cbn [map all_some]. rewrite (O p (or_introl eq_refl)), Hv, E. split; [reflexivity|]. split; [cbn; lia|]. intros [|i] q Hq; cbn in Hq |- *; [injection Hq as <-; eauto|auto]. }
  destruct G as [values [E [L V]]]. unfold search. rewrite E. assert (values <> []) by (destruct values; [destruct trials; [congruence|discriminate]|discriminate]).
  destruct (Hb values H) as [v [Hv Hm]]. assert (Hlt : (best values < length trials)%nat) by (rewrite <- L; apply nth_error_Some; congruence).
  destruct (nth_error trials (best values)) as [p|] eqn:Ep; [|apply nth_error_None in Ep; lia]. rewrite Hv. exists p, v. split; [reflexivity|]. split; [eapply nth_error_In; eauto|].
  destruct (V _ _ Ep) as [v' [Ev Sv]]. assert (v' = v) by congruence. subst v'. split; [exact Sv|]. intros q w Hq Hw. apply In_nth_error in Hq. destruct Hq as [i Hq]. destruct (V _ _ Hq) as [w' [Ew Sw]].
  assert (w' = w) by congruence. subst w'. rewrite Forall_forall in Hm. apply Hm. eapply nth_error_In; eauto.
Qed.
Lemma search_unknown_name {P} allowed (score_of : list (text * P) -> option R) best trials p k : In p trials -> In k (keys p) -> ~ In k allowed -> search allowed score_of best trials = None.
Proof.
  intros Hp Hk Ha. unfold search. replace (all_some (map (objective allowed score_of) trials)) with (@None (list R)); [reflexivity|]. symmetry. induction trials as [|q ts IH]; [contradiction|]. cbn [map all_some].
  destruct Hp as [->|Hp].
  - unfold objective at 1. replace (forallb _ _) with false; [reflexivity|]. symmetry. destruct (forallb _ _) eqn:E; [|reflexivity]. rewrite forallb_forall in E. specialize (E k Hk). apply member_in in E. contradiction.
  - rewrite (IH Hp). now destruct (objective allowed score_of q).
Qed.
