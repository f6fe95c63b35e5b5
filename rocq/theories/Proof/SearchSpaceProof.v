From Coq Require Import String List Arith Bool Lia.
From Verif Require Import Model.FkConfig Model.ScenConfig Model.Forest Model.SearchSpace Spec.SearchSpaceSpec
  Proof.FkConfigProof2 Proof.ForestProof Proof.ScenConfigProof.
Import ListNotations.
Local Open Scope string_scope.
Local Open Scope list_scope.

Lemma get_created (f : string -> val) (names : list string) (k : string) :
  get k (map (fun n => (n, f n)) names) = if mem k names then Some (f k) else None.
Proof.
  induction names as [|n names IH]; [reflexivity|]. cbn. unfold mem in *. cbn.
  destruct (String.eqb_spec k n) as [->|N]; [reflexivity|]. exact IH.
Qed.

Lemma mem_true k names : In k names -> mem k names = true.
Proof. intros H. unfold mem. apply existsb_exists. exists k. split; [exact H|apply String.eqb_refl]. Qed.
Lemma mem_false k names : ~ In k names -> mem k names = false.
Proof.
  intros H. unfold mem. destruct (existsb (String.eqb k) names) eqn:E; [|reflexivity].
  apply existsb_exists in E. destruct E as (n & I & E). apply String.eqb_eq in E. subst. contradiction.
Qed.

Lemma made_has c d m k : made c d m -> In k (t_stored c) ->
  (exists v, get k (u_attrs m) = Some v) /\ (exists v, get k (u_built m) = Some v).
Proof.
  intros M I. induction M as [kw|m params M IH].
  - unfold create. cbn [u_attrs u_built].
    rewrite (get_created (fun k => match get k kw with Some v => v | None => d k end)), (mem_true _ _ I). split; eexists; reflexivity.
  - destruct IH as [[v A] [w B]]. cbn [assign u_attrs u_built]. rewrite get_map_attrs, A. split; eexists; [reflexivity|exact B].
Qed.

Lemma get_entries_out k names d : ~ In k names -> get k (entries names d) = None.
Proof.
  intros H. unfold entries. induction names as [|n names IH]; [reflexivity|]. cbn [flat_map].
  assert (k <> n) by (intros ->; apply H; left; reflexivity).
  destruct (get n d); cbn [app get]; [destruct (String.eqb_spec k n); [contradiction|]|]; apply IH; intros J; apply H; right; exact J.
Qed.

Lemma full_trial (c : tclass) (defaults : string -> val) (params : dict) (m m' t : tuned) :
  made c defaults m -> trial c defaults Full params m = Some (m', t) ->
  forall k, In k (t_signature c) -> In k (t_stored c) ->
    (forall v, get k params = Some v -> get k (u_attrs t) = Some v /\ get k (reported c m') = Some v) /\
    (get k params = None -> get k (u_attrs t) = get k (reported c m) /\ get k (reported c m') = get k (reported c m)) /\
    (In k (t_learner c) -> learner_value c t k = get k (u_attrs t)).
Proof.
  intros M T k S I. unfold trial in T. destruct (names_accepted _ _); [|discriminate].
  injection T as <- <-. destruct (made_has _ _ _ _ M I) as [[w A] _].
  assert (E : get k (u_attrs (copy c defaults (assign m params))) = get k (u_attrs (assign m params))).
  { unfold copy, create. cbn [u_attrs]. set (kw := reported c (assign m params)).
    rewrite (get_created (fun k => match get k kw with Some v => v | None => defaults k end)), (mem_true _ _ I).
    subst kw. unfold reported. rewrite get_entries_in by exact S. cbn [assign u_attrs]. rewrite get_map_attrs, A. reflexivity. }
  assert (P : forall m0, get k (reported c m0) = get k (u_attrs m0)) by (intros; apply get_entries_in; exact S).
  split; [|split].
  - intros v G. rewrite P, E. cbn [assign u_attrs]. rewrite get_map_attrs, A, G. split; reflexivity.
  - intros G. rewrite !P, E. cbn [assign u_attrs]. rewrite get_map_attrs, A, G. split; reflexivity.
  - intros L. unfold learner_value. rewrite (mem_true _ _ L). destruct (t_frozen c); reflexivity.
Qed.

Lemma fold_trial_live (c : tclass) (defaults : string -> val) (params : dict) (m m' t : tuned) :
  In c [linear_class; hybrid_class; dense_class; lstm_class; picnn_class; structured_class] ->
  made c defaults m -> trial c defaults RandomFold params m = Some (m', t) ->
  t = m' /\ forall k v, In k (t_learner c) -> get k params = Some v -> learner_value c t k = Some v.
Proof.
  intros C M T. unfold trial in T. destruct (names_accepted _ _); [|discriminate]. injection T as <- <-.
  split; [reflexivity|]. intros k v L G.
  assert (I : In k (t_stored c)).
  { repeat (destruct C as [<-|C]; [cbn in L |- *; intuition congruence|]). destruct C. }
  assert (F : t_frozen c = false) by (repeat (destruct C as [<-|C]; [reflexivity|]); destruct C).
  unfold learner_value. rewrite (mem_true _ _ L), F. cbn [assign u_attrs].
  destruct (made_has _ _ _ _ M I) as [[w A] _]. rewrite get_map_attrs, A, G. reflexivity.
Qed.

Lemma fold_trial_frozen (c : tclass) (defaults : string -> val) (cv : cv_type) (params : dict) (m m' t : tuned) :
  In c [lgb_class; qrf_class] -> trial c defaults cv params m = Some (m', t) ->
  (forall k, learner_value c m' k = learner_value c m k) /\ (cv = RandomFold -> forall k, learner_value c t k = learner_value c m k).
Proof.
  intros C T. unfold trial in T. destruct (names_accepted _ _); [|discriminate]. injection T as <- <-.
  assert (F : t_frozen c = true) by (repeat (destruct C as [<-|C]; [reflexivity|]); destruct C).
  split; [|intros ->]; intros k; unfold learner_value; rewrite F; reflexivity.
Qed.

Lemma copies_lose (c : tclass) (defaults : string -> val) (params : dict) (m m' t : tuned) (k : string) :
  In k (t_stored c) -> ~ In k (t_signature c) -> trial c defaults Full params m = Some (m', t) ->
  get k (u_attrs t) = Some (defaults k).
Proof.
  intros I S T. unfold trial in T. destruct (names_accepted _ _); [|discriminate]. injection T as <- <-.
  unfold copy, create. cbn [u_attrs]. set (kw := reported c (assign m params)).
  rewrite (get_created (fun k => match get k kw with Some v => v | None => defaults k end)), (mem_true _ _ I).
  subst kw. unfold reported. rewrite get_entries_out by exact S. reflexivity.
Qed.

Lemma network_copies (c : tclass) (defaults : string -> val) (params : dict) (m m' t : tuned) (k : string) :
  In c [dense_class; lstm_class] ->
  In k ["n_layers"; "n_hidden_x"; "stopping_rounds"; "normalize_target"; "unnormalized_inputs"; "probabilistic"; "probabilistic_loss_kind"; "rel_tol";
        "stats_step"; "subtract_mean_when_normalizing"; "n_scen_fit"; "formatter"; "conditional_to_hour"; "additional_node"] ->
  trial c defaults Full params m = Some (m', t) ->
  get k (u_attrs t) = Some (defaults k) /\ (In k ["n_layers"; "n_hidden_x"] -> learner_value c t k = Some (defaults k)) /\
  forall cv v, get k params = Some v -> trial c defaults cv params m = None.
Proof.
  intros C K T.
  assert (I : In k (t_stored c)).
  { destruct C as [<-|[<-|[]]]; cbn in K |- *; intuition congruence. }
  assert (S : ~ In k (t_signature c)).
  { destruct C as [<-|[<-|[]]]; cbn in K |- *; intuition (subst; discriminate). }
  pose proof (copies_lose _ _ _ _ _ _ _ I S T) as E. split; [exact E|]. split.
  - intros L. unfold learner_value. assert (J : In k (t_learner c)) by (destruct C as [<-|[<-|[]]]; cbn in L |- *; intuition congruence).
    rewrite (mem_true _ _ J). destruct C as [<-|[<-|[]]]; exact E.
  - intros cv v G. exfalso. unfold trial in T. destruct (names_accepted _ _) eqn:A; [|discriminate].
    unfold names_accepted in A. rewrite forallb_forall in A. apply S.
    assert (In k (map fst params)) as J.
    { clear -G. induction params as [|[a b] params IH]; [discriminate|]. cbn in *. destruct (String.eqb_spec k a) as [->|]; [left; reflexivity|right; auto]. }
    specialize (A k J). unfold mem in A. apply existsb_exists in A. destruct A as (x & X & Y). apply String.eqb_eq in Y. subst. exact X.
Qed.

Lemma default_spaces (class : string) (c : tclass) :
  describes class c ->
  default_search class (t_signature c) = true /\ In (class, t_signature c) signatures /\
  forall k, In k (default_space class) -> In k (t_signature c) /\ In k (t_stored c) /\ In k (t_learner c).
Proof.
  intros H. unfold describes in H.
  repeat (destruct H as [H|H]; [injection H as <- <-; split; [vm_compute; reflexivity|split; [cbn; tauto|]];
    intros k K; cbn in K; repeat (destruct K as [<-|K]; [cbn; tauto|]); destruct K|]). destruct H.
Qed.

Lemma no_default_space (class : string) (sig : list string) :
  In (class, sig) signatures -> ~ In class registered -> default_search class sig = false.
Proof.
  intros H N. unfold signatures in H.
  repeat (destruct H as [H|H]; [injection H as <- <-; first [vm_compute; reflexivity | exfalso; apply N; cbn; tauto]|]). destruct H.
Qed.

Lemma convex_stale (controls : list string) (augment : bool) (rate : nat) (c : option (list string)) (a : option bool) (r : option nat) :
  let v := convex_set c a r (convex_create controls augment rate) in
  v_width v = control_width controls augment /\ v_optimiser v = rate /\
  (forall c', c = Some c' -> v_controls v = c') /\ (forall r', r = Some r' -> v_rate v = r').
Proof. cbn. split; [reflexivity|]. split; [reflexivity|]. split; intros ? ->; reflexivity. Qed.

Lemma convex_fresh (controls : list string) (augment : bool) (rate : nat) :
  let v := convex_create controls augment rate in
  v_width v = (if augment then length controls + length controls else length controls) /\ v_optimiser v = v_rate v /\ v_controls v = controls.
Proof. cbn. split; [unfold control_width; destruct augment; lia|]. split; reflexivity. Qed.

Lemma copies_keep (c : tclass) (defaults : string -> val) (params : dict) (m m' t : tuned) (k : string) :
  In c [linear_class; lgb_class; hybrid_class; qrf_class; dense_class; lstm_class; picnn_class; structured_class] ->
  made c defaults m -> trial c defaults Full params m = Some (m', t) ->
  In k (t_signature c) -> ~ In k ["nodes_at_step"; "scengen_kwgs"; "scengen_dict"; "model_kwargs"] -> get k params = None ->
  exists v, get k (reported c m) = Some v /\ get k (u_attrs t) = Some v.
Proof.
  intros C M T S N G.
  assert (I : In k (t_stored c)).
  { assert (A : forallb (fun k => existsb (String.eqb k) (t_stored c) || existsb (String.eqb k) ["nodes_at_step"; "scengen_kwgs"; "scengen_dict"; "model_kwargs"]) (t_signature c) = true)
      by (repeat (destruct C as [<-|C]; [vm_compute; reflexivity|]); destruct C).
    apply (proj1 (forallb_forall _ _) A) in S. apply orb_true_iff in S. destruct S as [S|S]; apply existsb_exists in S as (x & X & E); apply String.eqb_eq in E; subst x; [exact X|contradiction]. }
  destruct (made_has _ _ _ _ M I) as [[w A] _].
  destruct (full_trial c defaults params m m' t M T k S I) as (_ & K & _). destruct (K G) as [K1 _].
  exists w. split; [|rewrite K1]; unfold reported; rewrite get_entries_in by exact S; exact A.
Qed.
