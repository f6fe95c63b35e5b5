From Coq Require Import String List Arith Bool Lia.
From Verif Require Import Model.FkConfig Model.ScenConfig Spec.ScenConfigSpec Proof.ScenConfigProof.
Import ListNotations.
Local Open Scope string_scope.
Local Open Scope list_scope.

Lemma options_by_class (d : keywords) (g : scengen) : forecaster_create d = Some g ->
  In (g_tree g) ["DiffTree"; "NeuralGas"; "ScenredTree"; "QuantileTree"] /\ In (g_copula g) ["HourlyGaussianCopula"; "ConditionalGaussianCopula"] /\
  (forall k, In k ["tree"; "savepath"] -> find k (g_tree_options g) = find k d) /\
  (forall k, In k ["init"; "base_tree"] -> find k (g_tree_options g) = if mem (g_tree g) ["DiffTree"; "NeuralGas"] then find k d else None) /\
  find "learning_rate" (g_tree_options g) = (if mem (g_tree g) ["DiffTree"] then find "learning_rate" d else None) /\
  find "cov_est_method" (g_copula_options g) = find "cov_est_method" d /\
  find "conditional_on" (g_copula_options g) = (if mem (g_copula g) ["ConditionalGaussianCopula"] then find "conditional_on" d else None).
Proof.
  intros H. apply create_inv in H. destruct H as (cp & tp & _ & _ & Cp & Tp & Co & To & _).
  rewrite Co, To.
  assert (Ht : In (g_tree g) ["DiffTree"; "NeuralGas"; "ScenredTree"; "QuantileTree"]).
  { unfold tree_parameters in Tp. repeat (match type of Tp with (if String.eqb ?a ?b then _ else _) = _ => destruct (String.eqb_spec a b) as [->|_]; [cbn; tauto|] end). discriminate. }
  assert (Hc : In (g_copula g) ["HourlyGaussianCopula"; "ConditionalGaussianCopula"]).
  { unfold copula_parameters in Cp. repeat (match type of Cp with (if String.eqb ?a ?b then _ else _) = _ => destruct (String.eqb_spec a b) as [->|_]; [cbn; tauto|] end). discriminate. }
  split; [exact Ht|]. split; [exact Hc|]. split; [|split; [|split; [|split]]].
  - intros k K. rewrite find_select, find_rest, find_forwarded.
    repeat (destruct K as [<-|K]; [repeat (destruct Ht as [Ht|Ht]; [rewrite <- Ht in *; injection Tp as <-; reflexivity|]); contradiction|]). contradiction.
  - intros k K. rewrite find_select, find_rest, find_forwarded.
    repeat (destruct K as [<-|K]; [repeat (destruct Ht as [Ht|Ht]; [rewrite <- Ht in *; injection Tp as <-; reflexivity|]); contradiction|]). contradiction.
  - rewrite find_select, find_rest, find_forwarded. repeat (destruct Ht as [Ht|Ht]; [rewrite <- Ht in *; injection Tp as <-; reflexivity|]); contradiction.
  - rewrite find_select, find_rest, find_forwarded. repeat (destruct Hc as [Hc|Hc]; [rewrite <- Hc in *; injection Cp as <-; reflexivity|]); contradiction.
  - rewrite find_select, find_rest, find_forwarded. repeat (destruct Hc as [Hc|Hc]; [rewrite <- Hc in *; injection Cp as <-; reflexivity|]); contradiction.
Qed.
Lemma network_learning_rate (d : keywords) : (forall v, network_create (("learning_rate", v) :: d) = network_create d) /\
  forall g, network_create d = Some g -> find "learning_rate" (g_tree_options g) = None.
Proof.
  split; [reflexivity|]. intros g H. unfold network_create in H. apply options_by_class in H. destruct H as (_ & _ & _ & _ & -> & _).
  destruct (mem _ _); [|reflexivity]. rewrite find_rest. reflexivity.
Qed.
