(** Properties of the generation of scenario trees: C113, C114, C115, C116, C117. *)
From Coq Require Import List Bool Arith Reals Lra Lia Permutation.
From Verif Require Import Model.Subsample Model.Stats Model.Metrics Model.Scenred Model.BigData Model.TreeBuild Model.TreeGen
  Spec.StatsSpec Spec.BigDataSpec Spec.TreeBuildSpec Spec.TreeGenSpec Proof.TreeGenProof.
Import ListNotations.

(** C113 *)
Theorem C113_default_schedule_partial :
  forall k g n, 3 <= k -> 2 ^ k <= n -> g <> [] -> nondecreasing g ->
  exists ns, schedule_of k g None None = Some ns /\ length ns = length g /\ nondecreasing ns /\
    (forall x, In x ns -> power_of_two x /\ 4 <= x /\ 2 * x <= n) /\
    multiples (fst (prepare_counts n ns)) /\
    (length g <> n - 1 -> fst (prepare_counts n ns) = 1 :: tl ns) /\
    (nth 0 g 0 = 0 -> k - 3 <= nth (length g - 1) g 0 -> nth 0 ns 0 = 4 /\ nth (length g - 1) ns 0 = 2 ^ (k - 1)).
Proof. exact (@geometric_schedule). Qed.
Print Assumptions C113_default_schedule_partial.
Theorem C113_priority_partial :
  forall k g arg own, 3 <= k ->
  (forall ns, arg = Some ns -> schedule_of k g arg own = Some ns) /\
  (forall ns, arg = None -> own = Some ns -> schedule_of k g arg own = Some ns).
Proof. exact (@schedule_priority). Qed.
Print Assumptions C113_priority_partial.
Theorem C113_few_refuted :
  forall k g own, k <= 2 -> schedule_of k g None own = None.
Proof. exact (@geometric_few). Qed.
Print Assumptions C113_few_refuted.
(** 100 scenarios of six steps. *)
Example C113_case : schedule_of 6 [0; 0; 0; 1; 2; 4] None None = Some [4; 16; 32; 32; 32; 32] /\
  nondecreasing [0; 0; 0; 1; 2; 4] /\ fst (prepare_counts 100 [4; 16; 32; 32; 32; 32]) = [1; 16; 32; 32; 32; 32].
Proof.
  split; [reflexivity|]. split; [|reflexivity]. intros [|[|[|[|[|[|i]]]]]] [|[|[|[|[|[|j]]]]]]; cbn; lia.
Qed.
(** Seven scenarios, although the tree builder has its own schedule. *)
Example C113_few_case : 2 ^ 2 <= 7 < 2 ^ 3 /\ schedule_of 2 [0; 0; 0] None (Some [1; 2; 4]) = None.
Proof. split; [cbn; lia|reflexivity]. Qed.

(** C114 *)
Theorem C114_own_partial :
  forall (S T : Type) (build : S -> T) refine scens h, h < 24 ->
  nth_error (prefit_trees KScenred build refine scens) h = Some (build (scens h)).
Proof. exact (@prefit_own). Qed.
Print Assumptions C114_own_partial.
Theorem C114_scratch_partial :
  forall (S : Type) kind (build : S -> graph R) refine scens h, kind <> KScenred ->
  (forall g s, same_shape (refine g s) g) -> (forall g g' s, same_shape g g' -> refine g s = refine g' s) ->
  (forall s, same_shape (build s) (build (scens 0))) -> h < 24 ->
  nth_error (prefit_trees kind build refine scens) h = Some (gen_tree kind build refine None (scens h)).
Proof. exact (@prefit_scratch). Qed.
Print Assumptions C114_scratch_partial.
Theorem C114_shared_refuted :
  forall (S : Type) kind (build : S -> graph R) refine scens h, kind <> KScenred ->
  (forall g s, same_shape (refine g s) g) -> h < 24 -> ~ same_shape (build (scens 0)) (build (scens h)) ->
  exists g, nth_error (prefit_trees kind build refine scens) h = Some g /\ ~ same_shape g (build (scens h)).
Proof. exact (@prefit_wrong). Qed.
Print Assumptions C114_shared_refuted.
(** Two leaves, even at hour 0 and uneven at hour 1. *)
Local Open Scope R_scope.
Definition even_tree : graph R := Graph [(0%nat, 1, 0); (1%nat, 1/2, 0); (1%nat, 1/2, 1)] [(0, 1); (0, 2)]%nat.
Definition uneven_tree : graph R := Graph [(0%nat, 1, 0); (1%nat, 3/4, 0); (1%nat, 1/4, 1)] [(0, 1); (0, 2)]%nat.
Example C114_case : ~ same_shape even_tree uneven_tree /\
  nth_error (prefit_trees KDiff (fun h => if (h =? 0)%nat then even_tree else uneven_tree) (fun g _ => g) (fun h => h)) 1 = Some even_tree.
Proof. split; [|reflexivity]. intros [H _]. cbn in H. apply (f_equal (fun l => snd (nth 1 l (0%nat, 0)))) in H. cbn in H. lra. Qed.
Local Close Scope R_scope.

(** C115 *)
Theorem C115_list_partial :
  forall (T : Type) (l : list T), length l <> 1 -> returned l = TreeList l.
Proof. exact (@returned_list). Qed.
Print Assumptions C115_list_partial.
Theorem C115_single_refuted :
  forall (T : Type) (t : T), returned [t] = OneTree t.
Proof. exact (@returned_single). Qed.
Print Assumptions C115_single_refuted.
(** C116 *)
Theorem C116_parallel_partial :
  forall (A T : Type) parallel cpus n_cols order (one : A -> T) rows, 2 <= cpus ->
  schedule (length rows) order -> all_trees parallel cpus n_cols order one rows = Some (map one rows).
Proof. exact (@all_trees_correct). Qed.
Print Assumptions C116_parallel_partial.
Theorem C116_single_core_refuted :
  forall (A T : Type) n_cols order (one : A -> T) rows, 2 <= length rows ->
  all_trees true 1 n_cols order one rows = None.
Proof. exact (@all_trees_single_core). Qed.
Print Assumptions C116_single_core_refuted.
Example C116_case : all_trees true 4 24 [2; 0; 1] S [10; 20; 30; 40; 50] = Some [11; 21; 31; 41; 51].
Proof. reflexivity. Qed.

(** C117 *)
Local Open Scope R_scope.
Theorem C117_never_worse :
  forall (V : Type) (metric : V -> V -> R) median cands d0 samples values t d d', (0 < t)%nat -> values t <> [] ->
  covering_distance metric (samples t) (values t) d ->
  covering_distance metric (samples t) (refine_values metric median cands d0 samples values t) d' ->
  d' <= d /\ length (refine_values metric median cands d0 samples values t) = length (values t).
Proof. exact (@refine_never_worse). Qed.
Print Assumptions C117_never_worse.
Theorem C117_root :
  forall cands d0 samples values a d d', samples 0%nat <> [] ->
  covering_distance (fun s b => Rabs (s - b)) (samples 0%nat) [a] d ->
  covering_distance (fun s b => Rabs (s - b)) (samples 0%nat)
    (refine_values (fun s b => Rabs (s - b)) (fun l => quantile l (1 / 2)) cands d0 samples values 0%nat) d' ->
  d' <= d.
Proof. exact (@root_best). Qed.
Print Assumptions C117_root.
Theorem C117_median_best :
  forall l c, l <> [] ->
  Rsum (map (fun x => Rabs (x - quantile l (1 / 2))) l) <= Rsum (map (fun x => Rabs (x - c)) l).
Proof. exact (@median_best). Qed.
Print Assumptions C117_median_best.
Example C117_case : covering_distance (fun s b => Rabs (s - b)) [0; 1; 10] [0; 9] 2.
Proof.
  exists [0; 1; 1]. split; [|cbn; lra].
  repeat apply Forall2_cons; try apply Forall2_nil; unfold Rabs; (split;
    [|intros a [<-|[<-|[]]]; repeat destruct (Rcase_abs _); lra]).
  - exists 0. split; [now left|]. destruct (Rcase_abs _); lra.
  - exists 0. split; [now left|]. destruct (Rcase_abs _); lra.
  - exists 9. split; [now right; left|]. destruct (Rcase_abs _); lra.
Qed.
