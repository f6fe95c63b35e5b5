From Coq Require Import String List Arith Bool Lia.
From Verif Require Import Model.FkConfig Model.ScenConfig Spec.ScenConfigSpec.
Import ListNotations.
Local Open Scope string_scope.
Local Open Scope list_scope.

Lemma mem_iff k l : mem k l = true <-> In k l.
Proof.
  unfold mem. rewrite existsb_exists. split.
  - intros (x & I & E). apply String.eqb_eq in E. subst. assumption.
  - intros I. exists k. split; [assumption|apply String.eqb_refl].
Qed.
Lemma find_app k a b : find k (a ++ b) = match find k a with Some v => Some v | None => find k b end.
Proof. induction a as [|[k' v] a IH]; [reflexivity|]. cbn. destruct (String.eqb k k'); auto. Qed.
Lemma find_rest k named d : find k (rest named d) = if mem k named then None else find k d.
Proof.
  induction d as [|[k' v] d IH]; [cbn; destruct (mem k named); reflexivity|].
  change (rest named ((k', v) :: d)) with (if negb (mem k' named) then (k', v) :: rest named d else rest named d).
  destruct (mem k' named) eqn:M; cbn [negb find].
  - rewrite IH. destruct (String.eqb_spec k k') as [->|]; [rewrite M; reflexivity|reflexivity].
  - destruct (String.eqb_spec k k') as [->|]; [rewrite M; reflexivity|assumption].
Qed.
Lemma find_passed k k' d : find k (passed k' d) = if String.eqb k k' then find k' d else None.
Proof. unfold passed. destruct (find k' d) as [v|]; cbn; destruct (String.eqb k k'); reflexivity. Qed.
Lemma find_select k ps d : find k (select ps d) = if mem k ps then find k d else None.
Proof.
  unfold select. induction ps as [|p ps IH]; [reflexivity|]. cbn [flat_map]. rewrite find_app, IH. cbn [mem existsb]. fold (mem k ps).
  destruct (String.eqb_spec k p) as [->|N]; cbn [orb].
  - destruct (find p d) as [v|] eqn:E; cbn; [rewrite String.eqb_refl; reflexivity|destruct (mem p ps); reflexivity].
  - destruct (find p d) as [v|]; cbn; [|reflexivity]. destruct (String.eqb_spec k p); [contradiction|reflexivity].
Qed.
(** What the scenario generator of a forecaster is called with. *)
Definition forwarded (d : keywords) : keywords := passed "q_vect" d ++ passed "nodes_at_step" d ++ passed "additional_node" d ++ rest forecaster_parameters d.
Lemma find_forwarded k d : find k (forwarded d) =
  if mem k ["q_vect"; "nodes_at_step"; "additional_node"] then find k d else if mem k forecaster_parameters then None else find k d.
Proof.
  unfold forwarded. rewrite !find_app, !find_passed, find_rest. cbn [mem existsb]. 
  destruct (String.eqb_spec k "q_vect") as [->|N1]; [cbn; destruct (find _ d); reflexivity|].
  destruct (String.eqb_spec k "nodes_at_step") as [->|N2]; [cbn; destruct (find _ d); reflexivity|].
  destruct (String.eqb_spec k "additional_node") as [->|N3]; [cbn; destruct (find _ d); reflexivity|]. reflexivity.
Qed.
Lemma same_found d d' : (forall k, find k d = find k d') -> scengen_create d = scengen_create d'.
Proof.
  intros H. assert (S : forall ps, select ps (rest scengen_parameters d) = select ps (rest scengen_parameters d')).
  { intros ps. unfold select. apply flat_map_ext. intros p. rewrite !find_rest, H. reflexivity. }
  unfold scengen_create, class_name, flag. rewrite !H. destruct (match find "copula_type" d' with Some _ => _ | None => _ end) as [c|]; [|reflexivity].
  destruct (match find "tree_type" d' with Some _ => _ | None => _ end) as [t|]; [|reflexivity]. destruct (copula_parameters c) as [cp|]; [|reflexivity].
  destruct (tree_parameters t) as [tp|]; [|reflexivity]. rewrite !S. reflexivity.
Qed.

(** C169 *)
Lemma create_inv d g : forecaster_create d = Some g -> exists cp tp,
  class_name "copula_type" "HourlyGaussianCopula" d = Some (g_copula g) /\ class_name "tree_type" "ScenredTree" d = Some (g_tree g) /\
  copula_parameters (g_copula g) = Some cp /\ tree_parameters (g_tree g) = Some tp /\
  g_copula_options g = select cp (rest scengen_parameters (forwarded d)) /\ g_tree_options g = select tp (rest scengen_parameters (forwarded d)) /\
  g_nodes g = find "nodes_at_step" d /\ g_online g = flag "online_tree_reduction" true d /\
  g_prefit g = (negb (flag "online_tree_reduction" true d) || flag "prefit_trees" false d)%bool /\
  g_iterations g = find "max_iterations" d /\ g_parallel g = flag "parallel_preds" false d /\ g_additional g = flag "additional_node" false d.
Proof.
  unfold forecaster_create. fold (forwarded d). unfold scengen_create, class_name, flag. rewrite !find_forwarded. cbn [mem existsb forecaster_parameters String.eqb Ascii.eqb Bool.eqb orb].
  destruct (match find "copula_type" d with Some _ => _ | None => _ end) as [c|] eqn:C; [|discriminate].
  destruct (match find "tree_type" d with Some _ => _ | None => _ end) as [t|] eqn:Tt; [|discriminate].
  destruct (copula_parameters c) as [cp|] eqn:Cp; [|discriminate]. destruct (tree_parameters t) as [tp|] eqn:Tp; [|discriminate].
  intros H. injection H as <-. exists cp, tp. cbn. repeat split; auto.
Qed.
Lemma tree_param_plain t tp k : tree_parameters t = Some tp -> In k tp -> k <> "nodes_at_step" ->
  mem k scengen_parameters = false /\ mem k forecaster_parameters = false /\ mem k ["q_vect"; "nodes_at_step"; "additional_node"] = false.
Proof.
  unfold tree_parameters. intros H I N.
  repeat (match type of H with (if ?b then _ else _) = _ => destruct b end; [injection H as <-; cbn in I; repeat (destruct I as [<-|I]; [try congruence; repeat split|]); contradiction|]).
  discriminate.
Qed.
Lemma copula_param_plain c cp k : copula_parameters c = Some cp -> In k cp -> k <> "logger" ->
  mem k scengen_parameters = false /\ mem k forecaster_parameters = false /\ mem k ["q_vect"; "nodes_at_step"; "additional_node"] = false.
Proof.
  unfold copula_parameters. intros H I N.
  repeat (match type of H with (if ?b then _ else _) = _ => destruct b end; [injection H as <-; cbn in I; repeat (destruct I as [<-|I]; [try congruence; repeat split|]); contradiction|]).
  discriminate.
Qed.
Lemma options_reach (d : keywords) (g : scengen) : forecaster_create d = Some g ->
  (forall c, find "copula_type" d = Some (Text c) -> g_copula g = c) /\ (forall t, find "tree_type" d = Some (Text t) -> g_tree g = t) /\
  (forall tp k, tree_parameters (g_tree g) = Some tp -> In k tp -> k <> "nodes_at_step" -> find k (g_tree_options g) = find k d) /\
  (forall cp k, copula_parameters (g_copula g) = Some cp -> In k cp -> k <> "logger" -> find k (g_copula_options g) = find k d) /\
  g_nodes g = find "nodes_at_step" d /\ g_iterations g = find "max_iterations" d /\
  (forall b, find "online_tree_reduction" d = Some (Flag b) -> g_online g = b) /\ (forall b, find "parallel_preds" d = Some (Flag b) -> g_parallel g = b) /\
  (forall b, find "additional_node" d = Some (Flag b) -> g_additional g = b) /\ (find "prefit_trees" d = Some (Flag true) -> g_prefit g = true).
Proof.
  intros H. apply create_inv in H. destruct H as (cp & tp & C & Tt & Cp & Tp & Co & To & No & On & Pr & It & Pa & Ad).
  repeat split.
  - intros c E. unfold class_name in C. rewrite E in C. congruence.
  - intros t E. unfold class_name in Tt. rewrite E in Tt. congruence.
  - intros tp' k E I N. rewrite Tp in E. injection E as <-. destruct (tree_param_plain _ _ _ Tp I N) as (M1 & M2 & M3).
    rewrite To, find_select, find_rest, find_forwarded. apply mem_iff in I. rewrite I, M1, M2, M3. reflexivity.
  - intros cp' k E I N. rewrite Cp in E. injection E as <-. destruct (copula_param_plain _ _ _ Cp I N) as (M1 & M2 & M3).
    rewrite Co, find_select, find_rest, find_forwarded. apply mem_iff in I. rewrite I, M1, M2, M3. reflexivity.
  - assumption.
  - assumption.
  - intros b E. rewrite On. unfold flag. rewrite E. reflexivity.
  - intros b E. rewrite Pa. unfold flag. rewrite E. reflexivity.
  - intros b E. rewrite Ad. unfold flag. rewrite E. reflexivity.
  - intros E. rewrite Pr. unfold flag. rewrite E. cbn. apply orb_true_r.
Qed.
Lemma select_drop ps named k v d : ~ In k ps -> select ps (rest named ((k, v) :: d)) = select ps (rest named d).
Proof.
  intros N. unfold select. rewrite !flat_map_concat_map. f_equal. apply map_ext_in. intros p I. rewrite !find_rest. cbn [find].
  destruct (String.eqb_spec p k) as [->|]; [contradiction|reflexivity].
Qed.
Lemma create_drop k v d : ~ In k known_names -> scengen_create ((k, v) :: d) = scengen_create d.
Proof.
  intros N. assert (E : forall p, In p known_names -> find p ((k, v) :: d) = find p d).
  { intros p I. cbn. destruct (String.eqb_spec p k) as [->|]; [contradiction|reflexivity]. }
  unfold scengen_create, class_name, flag. rewrite !E by (cbn; tauto).
  destruct (match find "copula_type" d with Some _ => _ | None => _ end) as [c|]; [|reflexivity].
  destruct (match find "tree_type" d with Some _ => _ | None => _ end) as [t|]; [|reflexivity].
  destruct (copula_parameters c) as [cp|] eqn:Cp; [|reflexivity]. destruct (tree_parameters t) as [tp|] eqn:Tp; [|reflexivity].
  rewrite !select_drop; [reflexivity| |].
  - intros I. apply N. unfold tree_parameters in Tp.
    repeat (match type of Tp with (if ?b then _ else _) = _ => destruct b end; [injection Tp as <-; cbn in I |- *; tauto|]). discriminate.
  - intros I. apply N. unfold copula_parameters in Cp.
    repeat (match type of Cp with (if ?b then _ else _) = _ => destruct b end; [injection Cp as <-; cbn in I |- *; tauto|]). discriminate.
Qed.
Lemma unknown_ignored (d : keywords) (k : string) (v : value) : ~ In k known_names -> forecaster_create ((k, v) :: d) = forecaster_create d.
Proof.
  intros N. unfold forecaster_create. fold (forwarded ((k, v) :: d)). fold (forwarded d).
  transitivity (scengen_create ((k, v) :: forwarded d)); [|apply create_drop; assumption].
  apply same_found. intros p. rewrite find_forwarded. cbn [find]. rewrite find_forwarded. destruct (String.eqb_spec p k) as [->|].
  - destruct (mem k ["q_vect"; "nodes_at_step"; "additional_node"]) eqn:M.
    + reflexivity.
    + destruct (mem k forecaster_parameters) eqn:M2; [|reflexivity]. apply mem_iff in M2. exfalso. apply N. cbn in M2 |- *. tauto.
  - reflexivity.
Qed.
Lemma dictionary_ignored (scengen_dict : list (string * nat)) (d : keywords) : dense_create scengen_dict d = dense_create [] d.
Proof.
  unfold dense_create, network_create. cbn [rest filter fst mem network_parameters existsb String.eqb Ascii.eqb Bool.eqb orb negb].
  rewrite (unknown_ignored _ "nn_module") by (cbn; intuition discriminate).
  rewrite (unknown_ignored _ "scengen_dict") by (cbn; intuition discriminate).
  rewrite (unknown_ignored _ "nn_module") by (cbn; intuition discriminate).
  rewrite (unknown_ignored _ "scengen_dict") by (cbn; intuition discriminate). reflexivity.
Qed.
Lemma lstm_ignores (d : keywords) : (forall k, In k ["logger"; "n_scen_fit"; "additional_node"; "formatter"; "conditional_to_hour"] -> lstm_kept k d = None) /\
  forall g, lstm_create d = Some g -> g_additional g = false.
Proof.
  split.
  - intros k I. unfold lstm_kept, kept. rewrite find_rest. replace (mem k _) with true; [reflexivity|]. symmetry. apply mem_iff. cbn in I |- *. tauto.
  - intros g H. apply create_inv in H. destruct H as (cp & tp & _ & _ & _ & _ & _ & _ & _ & _ & _ & _ & _ & Ad). rewrite Ad. unfold flag. rewrite find_rest. reflexivity.
Qed.

Lemma lstm_drops (d : keywords) (k : string) (v : value) :
  In k ["logger"; "n_scen_fit"; "additional_node"; "formatter"; "conditional_to_hour"] -> lstm_create ((k, v) :: d) = lstm_create d.
Proof.
  intros I. unfold lstm_create. f_equal. unfold rest. cbn [filter fst].
  replace (mem k _) with true; [reflexivity|]. symmetry. apply mem_iff. cbn in I |- *. tauto.
Qed.

(** C170 *)
Lemma fit_hours_all present fit n t h : (forall k, k < n -> present k = true) -> h < n -> fit_hours present fit n t h = Some fit.
Proof.
  induction n as [|n IH]; intros P L; [lia|]. cbn [fit_hours].
  assert (A : forallb present (seq 0 (S n)) = true) by (apply forallb_forall; intros k I; apply in_seq in I; apply P; lia).
  rewrite A. destruct (Nat.eqb_spec h n); [reflexivity|]. apply IH; [intros; apply P; lia|lia].
Qed.
Lemma fit_hours_missing present fit m t h n : present m = false -> (forall k, k < m -> present k = true) ->
  fit_hours present fit n t h = if (h <? Nat.min m n)%nat then Some fit else t h.
Proof.
  intros M P. induction n as [|n IH].
  - rewrite Nat.min_0_r. reflexivity.
  - cbn [fit_hours]. destruct (Nat.lt_ge_cases n m) as [L|L].
    + assert (A : forallb present (seq 0 (S n)) = true) by (apply forallb_forall; intros k I; apply in_seq in I; apply P; lia).
      rewrite A. rewrite IH. destruct (Nat.eqb_spec h n) as [E|N]; destruct (Nat.ltb_spec h (Nat.min m n)); destruct (Nat.ltb_spec h (Nat.min m (S n))); try reflexivity; lia.
    + assert (A : forallb present (seq 0 (S n)) = false).
      { apply not_true_is_false. intros A. rewrite forallb_forall in A. specialize (A m). rewrite M in A. discriminate A. apply in_seq. lia. }
      rewrite A, IH. replace (Nat.min m (S n)) with (Nat.min m n) by lia. reflexivity.
Qed.
Lemma run_fixed s ops : s_prefit (run s ops) = s_prefit s /\ s_hourly (run s ops) = s_hourly s.
Proof.
  unfold run. revert s. induction ops as [|o ops IH]; intros s; [split; reflexivity|]. cbn [fold_left]. destruct (IH (step s o)) as [E1 E2]. rewrite E1, E2.
  destruct o as [present fit|b]; cbn [step]; [|split; reflexivity]. unfold fit_trees. destruct (s_prefit s) eqn:P; [|split; [assumption|reflexivity]]. destruct (s_hourly s) eqn:Hh; cbn [snd s_prefit s_hourly]; split; auto.
Qed.
Lemma run_app s a b : run s (a ++ b) = run (run s a) b.
Proof. unfold run. apply fold_left_app. Qed.
Lemma fit_trees_some present fit s : s_prefit s = true -> s_hourly s = true ->
  fit_trees present fit s = (forallb present (seq 0 24), State (s_online s) true true (fit_hours present fit 24 (s_trees s))).
Proof. intros P H. unfold fit_trees. rewrite P, H. exact eq_refl. Qed.
Lemma prefit_works (g : scengen) (after : list bool) (ops : list op) (present : nat -> bool) (fit h : nat) :
  g_copula g = "HourlyGaussianCopula" -> g_prefit g = true -> every_hour present -> h < 24 ->
  offline_tree (run (new_state g) (ops ++ [Fit present fit] ++ map Online (after ++ [false]))) h = Some fit.
Proof.
  intros C P A L. rewrite run_app, run_app. destruct (run_fixed (new_state g) ops) as [E1 E2]. set (s := run (new_state g) ops) in *.
  assert (T : s_trees (run s [Fit present fit]) h = Some fit).
  { unfold run. cbn [fold_left step]. rewrite fit_trees_some; [|rewrite E1; exact P|rewrite E2; cbn [new_state s_hourly]; rewrite C; reflexivity]. cbn [snd s_trees].
    apply fit_hours_all; [exact A|assumption]. }
  set (s' := run s [Fit present fit]) in *. clearbody s'. rewrite map_app, run_app. 
  assert (K : forall l s0, s_trees (run s0 (map Online l)) = s_trees s0).
  { induction l as [|b l IH]; intros s0; [reflexivity|]. unfold run in *. cbn [map fold_left]. rewrite IH. reflexivity. }
  unfold run at 1. cbn [map fold_left step]. unfold offline_tree. cbn [s_online s_trees]. rewrite K. assumption.
Qed.
Lemma online_never (g : scengen) (ops : list op) (h : nat) : g_prefit g = false -> offline_tree (run (new_state g) ops) h = None.
Proof.
  intros P. assert (K : forall ops s, s_prefit s = false -> s_trees s h = None -> s_trees (run s ops) h = None).
  { clear. induction ops as [|o ops IH]; intros s Ps Ts; [assumption|]. unfold run in *. cbn [fold_left]. apply IH; destruct o as [present fit|b]; cbn [step]; unfold fit_trees; rewrite ?Ps; cbn [snd s_prefit s_trees]; first [assumption | reflexivity]. }
  unfold offline_tree. destruct (s_online _); [reflexivity|]. apply K; [assumption|reflexivity].
Qed.
Lemma failed_fit_mixes (g : scengen) (present present' : nat -> bool) (fit fit' m h : nat) :
  g_copula g = "HourlyGaussianCopula" -> g_prefit g = true -> every_hour present -> first_missing present' m -> h < 24 ->
  let fitted := run (new_state g) [Fit present fit; Online false] in
  fst (fit_trees present' fit' fitted) = false /\
  offline_tree (run fitted [Fit present' fit']) h = if (h <? m)%nat then Some fit' else Some fit.
Proof.
  intros C P A (Lm & Pm & Bm) L fitted. assert (E : fitted = State false true true (fit_hours present fit 24 (fun _ => None))).
  { subst fitted. unfold run. cbn [fold_left step]. rewrite fit_trees_some; [|exact P|cbn [new_state s_hourly]; rewrite C; reflexivity].
    cbn [snd s_prefit s_hourly s_trees s_online]. unfold new_state. cbn [s_trees s_online]. exact eq_refl. }
  rewrite E. unfold run. cbn [fold_left step]. rewrite fit_trees_some by reflexivity. cbn [fst snd s_trees s_online]. split.
  - apply not_true_is_false. intros F. rewrite forallb_forall in F. specialize (F m). rewrite Pm in F. discriminate F. apply in_seq. lia.
  - unfold offline_tree. cbn [s_online s_trees]. rewrite (fit_hours_missing present' fit' m) by assumption. rewrite Nat.min_l by lia.
    destruct (h <? m)%nat; [reflexivity|]. apply fit_hours_all; [exact A|assumption].
Qed.

(** C171 *)
Lemma nodes_used {T} (generate : option (list nat) -> option T) (stored : nat -> option T) (additional : bool) (nodes : list nat) (hour : nat) :
  forecaster_predict generate stored true additional (Some nodes) hour = generate (Some (if additional then 1 :: nodes else nodes)).
Proof. reflexivity. Qed.
Lemma nodes_dropped {T} (generate : option (list nat) -> option T) (stored : nat -> option T) (additional : bool) (nodes : list nat) (hour : nat) (t : T) :
  stored hour = Some t -> generator_predict generate stored false additional (Some nodes) hour = None /\
  forecaster_predict generate stored false additional (Some nodes) hour = Some t.
Proof. intros H. split; [reflexivity|exact H]. Qed.

(** C172 *)
Lemma hourly_samples {T} (d : keywords) (g : scengen) (draws : T) (with_random_state : bool) : forecaster_create d = Some g ->
  find "copula_type" d = None \/ find "copula_type" d = Some (Text "HourlyGaussianCopula") -> sample_scenarios g (Some draws) with_random_state = Some draws.
Proof.
  intros H D. apply create_inv in H. destruct H as (cp & tp & C & _). unfold class_name in C. unfold sample_scenarios, sample.
  assert (E : g_copula g = "HourlyGaussianCopula") by (destruct D as [D|D]; rewrite D in C; congruence). rewrite E. reflexivity.
Qed.
Lemma conditional_raises {T} (d : keywords) (g : scengen) (draw : option T) (with_random_state : bool) : forecaster_create d = Some g ->
  find "copula_type" d = Some (Text "ConditionalGaussianCopula") ->
  sample_scenarios g draw with_random_state = None /\ (g_prefit g = true -> forall present fit, fst (fit_trees present fit (new_state g)) = false).
Proof.
  intros H D. apply create_inv in H. destruct H as (cp & tp & C & _). unfold class_name in C. rewrite D in C. injection C as C.
  split.
  - unfold sample_scenarios, sample. rewrite <- C. cbn. destruct with_random_state; reflexivity.
  - intros P present fit. unfold fit_trees, new_state. cbn [s_prefit s_hourly]. rewrite P, <- C. reflexivity.
Qed.
(** An option is off when it is False, an empty text, an empty dictionary or zero, and on otherwise; if it is not given, the trees are made online and nothing
    else is on. *)
Lemma options_truth (d : keywords) (g : scengen) : forecaster_create d = Some g ->
  let off k := exists v, find k d = Some v /\ In v [Flag false; Text ""; Dict []; Other 0] in
  (g_online g = false <-> off "online_tree_reduction") /\
  (g_parallel g = false <-> off "parallel_preds" \/ find "parallel_preds" d = None) /\
  (g_additional g = false <-> off "additional_node" \/ find "additional_node" d = None) /\
  (g_prefit g = false <-> g_online g = true /\ (off "prefit_trees" \/ find "prefit_trees" d = None)).
Proof.
  intros H. apply create_inv in H. destruct H as (cp & tp & _ & _ & _ & _ & _ & _ & _ & On & Pr & _ & Pa & Ad). cbv zeta.
  assert (T : forall v, truthy v = false <-> In v [Flag false; Text ""; Dict []; Other 0]).
  { intros [[|]|s|[|e l]|[|t]]; cbn; try (split; [intros E; (discriminate || tauto)|intros [E|[E|[E|[E|[]]]]]; (discriminate || reflexivity)]).
    destruct (String.eqb_spec s ""); cbn; [subst; tauto|]. split; [discriminate|]. intros [E|[E|[E|[E|[]]]]]; congruence. }
  assert (F : forall k b, flag k b d = false <-> (exists v, find k d = Some v /\ In v [Flag false; Text ""; Dict []; Other 0]) \/ (b = false /\ find k d = None)).
  { intros k b. unfold flag. destruct (find k d) as [v|]; [rewrite T|]; split.
    - intros I. left. now exists v.
    - intros [(w & E & I)|[_ E]]; [injection E as ->; exact I|discriminate].
    - intros ->. right. auto.
    - intros [(w & E & _)|[E _]]; [discriminate|exact E]. }
  rewrite On, Pa, Ad, Pr, orb_false_iff, negb_false_iff. rewrite !F. intuition (try congruence).
Qed.
