(** Scenarios of reconciled forecasts: C82, C192. *)
From Coq Require Import List Arith Bool Lia.
From Verif Require Import Model.ReconcileScen Proof.ReconcileScenProof.
Import ListNotations.

(** C82 *)
Theorem C82_training_hours_partial :
  forall (V : Type) (add : V -> V -> V) train errs y n_scen draw d, 0 < n_scen -> length errs = length train -> length y = length train ->
  (forall h s j, draw h s j < length (filter (Nat.eqb h) train) \/ length (filter (Nat.eqb h) train) = 0) ->
  exists res, predict_scenarios add train errs y n_scen draw d = Some res /\
    NoDup (map fst res) /\ (forall i, In i (map fst res) <-> i < length train /\ nth i train 0 < 24) /\
    forall i vals, In (i, vals) res -> length vals = n_scen /\
      forall v, In v vals -> exists e, e < length train /\ nth e train 0 = nth i train 0 /\ v = add (nth i y d) (nth e errs d).
Proof. exact (@scenarios_training_hours). Qed.
Print Assumptions C82_training_hours_partial.
Theorem C82_other_length_refuted :
  forall (V : Type) (add : V -> V -> V) train errs y n_scen draw d, length y <> length train -> predict_scenarios add train errs y n_scen draw d = None.
Proof. exact (@scenarios_other_length). Qed.
Print Assumptions C82_other_length_refuted.
Theorem C82_no_scenarios_refuted :
  forall (V : Type) (add : V -> V -> V) train errs y draw d, predict_scenarios add train errs y 0 draw d = None.
Proof. exact (@scenarios_none). Qed.
Print Assumptions C82_no_scenarios_refuted.
Example C82_case : let train := [5; 6; 5] in let draw := fun _ _ _ : nat => 0 in
  (forall h s j, draw h s j < length (filter (Nat.eqb h) train) \/ length (filter (Nat.eqb h) train) = 0) /\
  predict_scenarios Nat.add train [1; 2; 3] [10; 20; 30] 2 draw 0 = Some [(0, [11; 11]); (2, [31; 31]); (1, [22; 22])].
Proof.
  cbv zeta. split; [|reflexivity]. intros h s j. cbn. destruct (h =? 5), (h =? 6); cbn; lia.
Qed.

(** C192 *)
Theorem C192_hour_partial :
  forall (V : Type) (add : V -> V -> V) train errs test y n_scen draw d,
  length errs = length train -> length y = length test -> 0 < n_scen ->
  (forall i, i < length test -> exists e, e < length train /\ nth e train 0 = nth i test 0) ->
  (forall h s j, draw h s j < length (filter (Nat.eqb h) train) \/ length (filter (Nat.eqb h) train) = 0) ->
  exists rows, get_scenarios add Unconditional train errs test y n_scen draw d = Some (Rows rows) /\
    length rows = length test /\
    forall i, i < length test -> length (nth i rows []) = n_scen /\
      forall s, s < n_scen -> exists e, e < length train /\ nth e train 0 = nth i test 0 /\
        nth s (nth i rows []) d = add (nth i y d) (nth e errs d).
Proof. exact (@drawn_errors). Qed.
Print Assumptions C192_hour_partial.
Theorem C192_turns_partial :
  forall (V : Type) (add : V -> V -> V) train errs test y n_scen draw d rows,
  length errs = length train -> get_scenarios add Unconditional train errs test y n_scen draw d = Some (Rows rows) ->
  exists (turn : nat -> nat) (pool : nat -> list V),
    (forall i i', i < length test -> i' < length test -> nth i test 0 = nth i' test 0 -> turn i = turn i' -> i = i') /\
    (forall h e, In e (pool h) <-> exists k, k < length train /\ nth k train 0 = h /\ nth k errs d = e) /\
    forall i s, i < length test -> s < n_scen ->
      nth s (nth i rows []) d = add (nth i y d) (nth (draw (nth i test 0) s (turn i)) (pool (nth i test 0)) d).
Proof. exact (@drawn_turns). Qed.
Print Assumptions C192_turns_partial.
Theorem C192_unseen :
  forall (V : Type) (add : V -> V -> V) train errs test y n_scen draw d i,
  i < length test -> ~ In (nth i test 0) train -> get_scenarios add Unconditional train errs test y n_scen draw d = None.
Proof. exact (@drawn_unseen). Qed.
Print Assumptions C192_unseen.
Theorem C192_conditional_refuted :
  forall (V : Type) (add : V -> V -> V) train errs test y n_scen draw d,
  get_scenarios add Conditional train errs test y n_scen draw d = Some ZeroNumber.
Proof. exact (@drawn_conditional). Qed.
Print Assumptions C192_conditional_refuted.
Example C192_case : let train := [5; 6; 5] in let test := [6; 5] in let draw := fun h s _ : nat => if h =? 5 then Nat.min s 1 else 0 in
  (forall i, i < length test -> exists e, e < length train /\ nth e train 0 = nth i test 0) /\
  (forall h s j, draw h s j < length (filter (Nat.eqb h) train) \/ length (filter (Nat.eqb h) train) = 0) /\
  get_scenarios Nat.add Unconditional train [1; 2; 3] test [10; 20] 2 draw 0 = Some (Rows [[12; 12]; [21; 23]]) /\ ~ In 7 train.
Proof.
  cbv zeta. split; [|split; [|split; [reflexivity|cbn; lia]]].
  - intros [|[|i]] H; cbn in *; [exists 1|exists 0|]; lia.
  - intros h s j. cbn. destruct (Nat.eqb_spec h 5) as [->|]; [|destruct (h =? 6); cbn; lia]. cbn. left. pose proof (Nat.le_min_r s 1). lia.
Qed.
