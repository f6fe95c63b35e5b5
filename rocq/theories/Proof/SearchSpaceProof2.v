From Coq Require Import String List Arith Bool Lia.
From Verif Require Import Model.FkConfig Model.ScenConfig Model.Forest Model.SearchSpace Spec.SearchSpaceSpec Proof.ForestProof Proof.SearchSpaceProof.
Import ListNotations.
Local Open Scope string_scope.
Local Open Scope list_scope.

Lemma mem_in k l : mem k l = true <-> In k l.
Proof. split; [|apply mem_true]. intros H. destruct (in_dec string_dec k l) as [|N]; [assumption|]. rewrite (mem_false k l N) in H. discriminate. Qed.
Lemma accepted_iff (sig names : list string) : names_accepted sig names = true <-> incl names sig.
Proof.
  unfold names_accepted. rewrite forallb_forall. split; intros H k Hk; [apply mem_in, H, Hk|apply mem_in, H, Hk].
Qed.
Definition table_ok (allowed : string -> bool) (names : list string) : bool :=
  forallb (fun p => negb (allowed (fst p)) || names_accepted (snd p) names) signatures.
Lemma table_spec (allowed : string -> bool) names class sig :
  table_ok allowed names = true -> In (class, sig) signatures -> allowed class = true -> incl names sig.
Proof.
  intros H Hin Ha. unfold table_ok in H. rewrite forallb_forall in H. specialize (H _ Hin). cbn [fst snd] in H. rewrite Ha in H. apply accepted_iff, H.
Qed.
Lemma common_options (class : string) (sig names : list string) :
  In (class, sig) signatures -> (forall k, In k names -> In k ["q_vect"; "val_ratio"; "nodes_at_step"]) -> names_accepted sig names = true.
Proof.
  intros H N. apply accepted_iff. intros k Hk. apply N in Hk. revert k Hk.
  apply (table_spec (fun _ => true) ["q_vect"; "val_ratio"; "nodes_at_step"] class sig); [vm_compute; reflexivity|exact H|reflexivity].
Qed.
Lemma adaptive_options (class : string) (sig names : list string) :
  In (class, sig) signatures -> In class ["Fourier_es"; "FK"; "FK_multi"; "HoltWinters"; "HoltWintersMulti"] ->
  (forall k, In k names -> In k ["target_name"; "targets_names"; "n_sa"; "optimize_hyperpars"; "optimization_budget"; "verbose"]) ->
  names_accepted sig names = true.
Proof.
  intros H C N. apply accepted_iff. intros k Hk. apply N in Hk. revert k Hk.
  apply (table_spec (fun c => mem c ["Fourier_es"; "FK"; "FK_multi"; "HoltWinters"; "HoltWintersMulti"])
    ["target_name"; "targets_names"; "n_sa"; "optimize_hyperpars"; "optimization_budget"; "verbose"] class sig); [vm_compute; reflexivity|exact H|apply mem_true, C].
Qed.
Lemma network_options (class : string) (sig names : list string) :
  In (class, sig) signatures -> In class ["NN"; "PICNN"; "PIQCNN"; "PIQCNNSigmoid"; "RecStablePICNN"; "StructuredPICNN"; "LatentStructuredPICNN"; "CausalInvertibleNN"] ->
  (forall k, In k names -> In k ["learning_rate"; "batch_size"; "load_path"; "n_out"; "n_layers"; "pars"; "n_epochs"; "savepath_tr_plots"; "stats_step"; "rel_tol";
     "unnormalized_inputs"; "normalize_target"; "stopping_rounds"; "subtract_mean_when_normalizing"; "causal_df"; "probabilistic"; "probabilistic_loss_kind"]) ->
  names_accepted sig names = true.
Proof.
  intros H C N. apply accepted_iff. intros k Hk. apply N in Hk. revert k Hk.
  apply (table_spec (fun c => mem c ["NN"; "PICNN"; "PIQCNN"; "PIQCNNSigmoid"; "RecStablePICNN"; "StructuredPICNN"; "LatentStructuredPICNN"; "CausalInvertibleNN"])
    ["learning_rate"; "batch_size"; "load_path"; "n_out"; "n_layers"; "pars"; "n_epochs"; "savepath_tr_plots"; "stats_step"; "rel_tol";
     "unnormalized_inputs"; "normalize_target"; "stopping_rounds"; "subtract_mean_when_normalizing"; "causal_df"; "probabilistic"; "probabilistic_loss_kind"] class sig);
   [vm_compute; reflexivity|exact H|apply mem_true, C].
Qed.
Lemma seed_options (class : string) (sig : list string) (k : string) :
  In (class, sig) signatures -> In k ["scengen_random_state"; "max_scengen_rows"] ->
  (names_accepted sig [k] = true <-> In class ["ScenarioGenerator"; "LinearForecaster"; "LGBForecaster"; "QRF"]).
Proof.
  intros H K.
  assert (A : forallb (fun p => forallb (fun k => Bool.eqb (names_accepted (snd p) [k]) (mem (fst p) ["ScenarioGenerator"; "LinearForecaster"; "LGBForecaster"; "QRF"]))
     ["scengen_random_state"; "max_scengen_rows"]) signatures = true) by (vm_compute; reflexivity).
  rewrite forallb_forall in A. specialize (A _ H). cbn [fst snd] in A. rewrite forallb_forall in A. specialize (A _ K). apply Bool.eqb_prop in A. rewrite A. apply mem_in.
Qed.
(** A copy falls back to the default for a parameter its signature does not name. *)
Lemma copy_forgets (c : tclass) (defaults : string -> val) (m : tuned) (k : string) :
  ~ In k (t_signature c) -> In k (t_stored c) -> get k (u_attrs (copy c defaults m)) = Some (defaults k).
Proof.
  intros N I. unfold copy, create, reported. cbn [u_attrs]. 
  rewrite (get_created (fun k => match get k (entries (t_signature c) (u_attrs m)) with Some v => v | None => defaults k end)).
  rewrite (mem_true _ _ I), (get_entries_out _ _ _ N). reflexivity.
Qed.
Lemma copy_seed (c : tclass) (defaults : string -> val) (m : tuned) (k : string) :
  In k ["scengen_random_state"; "max_scengen_rows"] -> made c defaults m ->
  (In c [hybrid_class; dense_class; lstm_class; picnn_class; structured_class] -> get k (u_attrs (copy c defaults m)) = Some (defaults k)) /\
  (In c [linear_class; lgb_class; qrf_class] -> exists v, get k (u_attrs m) = Some v /\ get k (u_attrs (copy c defaults m)) = Some v).
Proof.
  intros K M. split; intros C.
  - assert (A : forallb (fun k => negb (mem k (t_signature c)) && mem k (t_stored c)) ["scengen_random_state"; "max_scengen_rows"] = true)
      by (repeat (destruct C as [<-|C]; [vm_compute; reflexivity|]); destruct C).
    rewrite forallb_forall in A. specialize (A _ K). apply andb_true_iff in A as [A1 A2]. apply negb_true_iff in A1. apply copy_forgets; [|apply mem_in, A2].
    intros H. apply mem_true in H. congruence.
  - assert (A : forallb (fun k => mem k (t_signature c) && mem k (t_stored c)) ["scengen_random_state"; "max_scengen_rows"] = true)
      by (repeat (destruct C as [<-|C]; [vm_compute; reflexivity|]); destruct C).
    rewrite forallb_forall in A. specialize (A _ K). apply andb_true_iff in A as [A1 A2]. apply mem_in in A1, A2.
    destruct (made_has _ _ _ _ M A2) as [[v E] _]. exists v. split; [exact E|]. unfold copy, create, reported. cbn [u_attrs].
    rewrite (get_created (fun k => match get k (entries (t_signature c) (u_attrs m)) with Some v => v | None => defaults k end)).
    rewrite (mem_true _ _ A2). rewrite (get_entries_in _ _ _ A1), E. reflexivity.
Qed.
