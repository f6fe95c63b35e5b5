(** Properties of the forecaster base class: C16-C23, C69-C72. *)
From Coq Require Import String Ascii.
From Coq Require Import List ZArith Bool Arith Reals Lra Lia Sorted Permutation.
From Verif Require Import Model.Names Model.Series Model.Subsample Model.Stats Model.Quantiles Model.Encoder
  Spec.SubsampleSpec Spec.StatsSpec Spec.QuantilesSpec Spec.EncoderSpec
  Proof.SubsampleProof Proof.StatsProof Proof.QuantilesProof Proof.EncoderProof.
Import ListNotations.
Local Open Scope nat_scope.
Local Open Scope list_scope.

(** C16 *)
Theorem C16_subsample_exact :
  forall (X Y : Type),
  forall (g : rng) m times hours (dx : X) (dy : Y) x y,
  honest g -> length x = length times -> length y = length times ->
  (forall hs, hours = Some hs -> length hs = length times) ->
  m < length x ->
  exists pos, ordered_sample times (length x) m pos /\
    maybe_subsample g (Some m) times times hours dx dy x y = Some (rows dx x pos, rows dy y pos) /\
    (forall hs, hours = Some hs -> forall h, rows_in_hour hs h pos <= available hs h) /\
    (forall hs u, hours = Some hs -> distinct_hours hs u -> length u <= m ->
       let counts := map (available hs) u in
       forall k, k < length u ->
         Nat.min (nth k (r_multinomial g m counts) 0) (nth k counts 0) <= rows_in_hour hs (nth k u 0%Z) pos).
Proof. exact (@subsample_exact). Qed.
Print Assumptions C16_subsample_exact.
Theorem C16_unchanged :
  forall (X Y : Type),
  forall (g : rng) cap times ytimes hours (dx : X) (dy : Y) x y,
  (cap = None \/ exists m, cap = Some m /\ length x <= m) ->
  maybe_subsample g cap times ytimes hours dx dy x y = Some (x, y).
Proof. exact (@subsample_unchanged). Qed.
Print Assumptions C16_unchanged.
Theorem C16_index_mismatch :
  forall (X Y : Type),
  forall (g : rng) m times ytimes hours (dx : X) (dy : Y) x y,
  m < length x -> times <> ytimes -> maybe_subsample g (Some m) times ytimes hours dx dy x y = None.
Proof. exact (@subsample_index_mismatch). Qed.
Print Assumptions C16_index_mismatch.
(** An honest generator, data in three hours, shuffled times. *)
Example C16_case :
  honest greedy /\ distinct_hours [7; 7; 8; 9; 8]%Z [7; 8; 9]%Z /\
  maybe_subsample greedy (Some 4) [50; 10; 20; 30; 40]%Z [50; 10; 20; 30; 40]%Z (Some [7; 7; 8; 9; 8]%Z) 0 0
    [100; 101; 102; 103; 104] [200; 201; 202; 203; 204] = Some ([101; 102; 104; 100], [201; 202; 204; 200]).
Proof.
  split; [apply greedy_honest|]. split; [|vm_compute; reflexivity].
  split; [repeat constructor; lia|]. intros h. cbn. tauto.
Qed.

(** C69: every hour of the data stays represented. *)
Theorem C69_starved_hour_refuted :
  exists (g : rng) m times hours u kept,
    honest g /\ length hours = length times /\ distinct_hours hours u /\ length u <= m /\ m < length times /\
    maybe_subsample g (Some m) times times (Some hours) 0%Z 0%Z hours hours = Some (kept, kept) /\
    exists h, In h hours /\ ~ In h kept.
Proof. exact (@subsample_starved_hour). Qed.
Print Assumptions C69_starved_hour_refuted.
Theorem C69_kept_partial :
  forall (g : rng) m times hours u (k : nat) h, honest g -> length hours = length times -> m < length times ->
  distinct_hours hours u -> nth_error u k = Some h ->
  (length times - m < available hours h \/ length u <= m /\ 0 < nth k (r_multinomial g m (map (available hours) u)) 0) ->
  exists kept, maybe_subsample g (Some m) times times (Some hours) 0%Z 0%Z hours hours = Some (kept, kept) /\ length kept = m /\ In h kept.
Proof. exact (@subsample_hour_kept). Qed.
Print Assumptions C69_kept_partial.
Example C69_kept_case : honest greedy /\ distinct_hours [5; 5; 6; 6]%Z [5; 6]%Z /\ nth_error [5; 6]%Z 1 = Some 6%Z /\ 4 - 3 < available [5; 5; 6; 6]%Z 6.
Proof. split; [apply greedy_honest|]. split; [split; [repeat constructor; lia|intros h; cbn; tauto]|]. split; [reflexivity|vm_compute; lia]. Qed.


(** C17 *)
Theorem C17_split_partition :
  forall (X Y : Type),
  forall (r : R) (x : list X) (y : list Y), (0 <= r <= 1)%R -> length x = length y ->
  let '(xt, yt, (xv, yv)) := train_val_split (Some r) x y in
  xt ++ xv = x /\ yt ++ yv = y /\ length xt = length yt /\ length xv = length yv /\
  (INR (length xv) <= INR (length x) * r < INR (length xv) + 1)%R.
Proof. exact (@split_partition). Qed.
Print Assumptions C17_split_partition.
Theorem C17_no_split :
  forall (X Y : Type),
  forall (x : list X) (y : list Y), train_val_split None x y = (x, y, (x, y)).
Proof. exact (@split_none). Qed.
Print Assumptions C17_no_split.
Example C17_case : let '(xt, _, (xv, _)) := train_val_split (Some (1/4)%R) [1; 2; 3; 4; 5] [1; 2; 3; 4; 5] in
  xt = [1; 2; 3; 4] /\ xv = [5].
Proof.
  cbn [train_val_split length]. assert (E : n_val 5 (1/4)%R = 1).
  { unfold n_val. apply floor_eq. cbn [INR]. lra. }
  rewrite E. split; reflexivity.
Qed.

Local Open Scope R_scope.
(** C18 *)
Theorem C18_quantile_definition :
  forall l s, sorted_copy l s -> interpolates s (quantile l).
Proof. exact (@quantile_interpolates). Qed.
Print Assumptions C18_quantile_definition.
Theorem C18_quantile_monotone :
  forall l q q', l <> [] -> 0 <= q -> q <= q' -> q' <= 1 -> quantile l q <= quantile l q'.
Proof. exact (@quantile_monotone). Qed.
Print Assumptions C18_quantile_monotone.
Theorem C18_quantile_bounds :
  forall l q lo hi, l <> [] -> 0 <= q <= 1 -> (forall x, In x l -> lo <= x <= hi) ->
  lo <= quantile l q <= hi.
Proof. exact (@quantile_bounds). Qed.
Print Assumptions C18_quantile_bounds.
Theorem C18_quantile_coverage :
  forall l q m m',
  l <> [] -> 0 <= q <= 1 ->
  how_many (fun x => x <= quantile l q) l m -> how_many (fun x => quantile l q <= x) l m' ->
  q * INR (length l - 1) < INR m /\ (1 - q) * INR (length l - 1) < INR m'.
Proof. exact (@quantile_coverage). Qed.
Print Assumptions C18_quantile_coverage.
Theorem C18_error_distribution :
  forall steps qs hours errs,
  length hours = length errs -> in_day hours -> errs <> [] -> Forall (fun q => 0 <= q <= 1) qs ->
  exists tables, estimate_err_distr true steps qs hours errs = PerHour tables /\ length tables = 24%nat /\
    forall h j, (h < 24)%nat -> (j < steps)%nat ->
      (forall k l, (k < length qs)%nat -> pool hours errs (Z.of_nat h) j l ->
         cell3 tables h j k = quantile l (nth k qs 0)) /\
      (forall k k', (k < length qs)%nat -> (k' < length qs)%nat -> nth k qs 0 <= nth k' qs 0 ->
         cell3 tables h j k <= cell3 tables h j k') /\
      (forall k lo hi, (k < length qs)%nat -> (forall e, In e (step_errors errs j) -> lo <= e <= hi) ->
         lo <= cell3 tables h j k <= hi).
Proof. exact (@err_distr_correct). Qed.
Print Assumptions C18_error_distribution.
Example C18_case : sorted_copy [3; 1; 2] [1; 2; 3] /\ quantile [3; 1; 2] (3/4) = 5/2.
Proof.
  assert (Hs : sorted_copy [3; 1; 2] [1; 2; 3]).
  { split; [apply Permutation_sym; apply perm_trans with [1; 3; 2]; [apply perm_skip, perm_swap|apply perm_swap]|].
    repeat constructor; lra. }
  split; [exact Hs|]. pose proof (proj2 (quantile_interpolates _ _ Hs) 1%nat (1/2) ltac:(cbn; lia) ltac:(lra)) as H.
  cbn [length Nat.sub INR nth] in H. replace ((1 + 1/2) / (1 + 1)) with (3/4) in H by lra. rewrite H. lra.
Qed.
Example C18_hours : exists hours, full_day hours /\ in_day hours.
Proof.
  exists (map Z.of_nat (seq 0 24)). split; intros h H.
  - apply in_map_iff. exists (Z.to_nat h). split; [lia|]. apply in_seq. lia.
  - apply in_map_iff in H. destruct H as (n & <- & Hn). apply in_seq in Hn. lia.
Qed.

(** C19 *)
Theorem C19_quantiles_partial :
  forall steps qs fit_hours errs hours preds,
  length fit_hours = length errs -> in_day fit_hours -> errs <> [] -> Forall (fun q => 0 <= q <= 1) qs ->
  length hours = length preds -> in_day hours -> shaped (length hours) steps preds ->
  exists q, predict_quantiles (estimate_err_distr true steps qs fit_hours errs) steps (length qs) hours preds = Some q /\
    length q = length preds /\ Forall (shaped steps (length qs)) q /\
    forall i j, (i < length preds)%nat -> (j < steps)%nat ->
      (forall k l, (k < length qs)%nat -> pool fit_hours errs (nth i hours 0%Z) j l ->
         cell3 q i j k = cell preds i j + quantile l (nth k qs 0)) /\
      (forall k k', (k < length qs)%nat -> (k' < length qs)%nat -> nth k qs 0 <= nth k' qs 0 ->
         cell3 q i j k <= cell3 q i j k').
Proof. exact (@predicted_quantiles_correct). Qed.
Print Assumptions C19_quantiles_partial.
(** Missing: [conditional_to_hour=False], where the property fails. *)
Theorem C19_unconditional_refuted :
  exists steps qs fit_hours errs hours preds q,
    length fit_hours = length errs /\ in_day fit_hours /\ errs <> [] /\ Forall (fun q => 0 <= q <= 1) qs /\
    in_day hours /\ shaped (length hours) steps preds /\
    predict_quantiles (estimate_err_distr false steps qs fit_hours errs) steps (length qs) hours preds = Some q /\
    exists i j k, (i < length preds)%nat /\ (j < steps)%nat /\ (k < length qs)%nat /\
      cell3 q i j k <> cell preds i j + quantile (step_errors errs j) (nth k qs 0).
Proof. exact (@unconditional_wrong). Qed.
Print Assumptions C19_unconditional_refuted.
Theorem C19_unconditional_raises_refuted :
  forall steps qs fit_hours errs hours preds h,
  In h hours -> (Z.of_nat steps <= h)%Z -> length preds = length hours ->
  predict_quantiles (estimate_err_distr false steps qs fit_hours errs) steps (length qs) hours preds = None.
Proof. exact (@unconditional_raises). Qed.
Print Assumptions C19_unconditional_raises_refuted.
Example C19_case : in_day [3; 4]%Z /\ shaped (length [3; 4]%Z) 2 [[0; 1]; [2; 3]].
Proof. split; [intros h [<-|[<-|[]]]; lia|]. split; [reflexivity|repeat constructor]. Qed.

(** C20 *)
Theorem C20_round_trip_partial :
  forall (T L A : Type),
  forall (eqd : forall a b : L, {a = b} + {a <> b}) (targets : list T) (levels : list L) (q : list (list (list A))),
  targets <> [] -> levels <> [] -> NoDup levels -> q <> [] ->
  Forall (shaped (length targets) (length levels)) q ->
  quantiles_to_numpy eqd (quantiles_to_df targets levels q) = Some q /\
  forall i j k dt dl d, (i < length q)%nat -> (j < length targets)%nat -> (k < length levels)%nat ->
    exists c, nth c (qf_columns (quantiles_to_df targets levels q)) (dt, dl) = (nth j targets dt, nth k levels dl) /\
      nth c (nth i (qf_rows (quantiles_to_df targets levels q)) []) d = nth k (nth j (nth i q []) []) d.
Proof. exact (@frame_round_trip). Qed.
Print Assumptions C20_round_trip_partial.
(** Missing: repeated levels, for which the array comes back with another shape. *)
Theorem C20_duplicate_levels_refuted :
  exists (targets levels : list nat) (q : list (list (list nat))),
    targets <> [] /\ levels <> [] /\ Forall (shaped (length targets) (length levels)) q /\
    exists q', quantiles_to_numpy Nat.eq_dec (quantiles_to_df targets levels q) = Some q' /\ q' <> q.
Proof. exact (@duplicate_levels_wrong). Qed.
Print Assumptions C20_duplicate_levels_refuted.
Example C20_case : Forall (shaped (length [1; 2]%nat) (length [5; 6; 7]%nat)) [[[1; 2; 3]; [4; 5; 6]]; [[7; 8; 9]; [10; 11; 12]]]%nat /\
  quantiles_to_numpy Nat.eq_dec (quantiles_to_df [1; 2]%nat [5; 6; 7]%nat [[[1; 2; 3]; [4; 5; 6]]; [[7; 8; 9]; [10; 11; 12]]]%nat) =
  Some [[[1; 2; 3]; [4; 5; 6]]; [[7; 8; 9]; [10; 11; 12]]]%nat.
Proof. split; [repeat constructor|reflexivity]. Qed.

(** C21 *)
Theorem C21_probability_mass :
  forall nq edges q m,
  (2 <= length edges)%nat -> (0 < nq)%nat -> Forall (Forall (fun r => length r = nq)) q ->
  predict_pmf nq edges q = Some m ->
  length m = length q /\
  forall i j, (i < length q)%nat -> (j < length (nth i q []))%nat ->
    let mass := nth j (nth i m []) [] in
    let forecast := nth j (nth i q []) [] in
    length mass = (length edges - 1)%nat /\
    (forall b, (S b < length edges)%nat -> exists n, how_many (in_bin edges b) forecast n /\ nth b mass 0 = INR n / INR nq) /\
    Forall (fun p => 0 <= p) mass /\ fold_right Rplus 0 mass <= 1 /\
    (fold_right Rplus 0 mass = 1 <-> Forall (fun v => nth 0 edges 0 <= v <= nth (length edges - 1) edges 0) forecast).
Proof. exact (@pmf_correct). Qed.
Print Assumptions C21_probability_mass.
Theorem C21_always_defined :
  forall nq edges q,
  (forall i j, (i <= j < length edges)%nat -> nth i edges 0 <= nth j edges 0) -> predict_pmf nq edges q <> None.
Proof. exact (@pmf_total). Qed.
Print Assumptions C21_always_defined.
Example C21_case : how_many (in_bin [0; 1; 2] 1) [1/2; 1; 2; 3] 2.
Proof.
  exists [1; 2], [1/2; 3]. split; [|split; [|split; [|reflexivity]]].
  - change (Permutation [1/2; 1; 2; 3] ([1; 2] ++ 1/2 :: [3])). apply Permutation_cons_app. reflexivity.
  - repeat constructor; unfold in_bin; cbn [nth length]; lra || (right; split; [reflexivity|lra]).
  - repeat constructor; unfold in_bin; cbn [nth length]; lra.
Qed.
Local Close Scope R_scope.

(** C22 *)
Theorem C22_encoding_history :
  forall history outputs le x le' y ok,
  Forall named history -> named x ->
  encode_all [] history = (le, outputs) -> Forall (fun p => snd p = true) outputs ->
  encode le x = (le', y, ok) ->
  (ok = true <-> forall c v first, categorical c x v -> first_seen c (history ++ [x]) first -> incl v first) /\
  (ok = true -> forall c v first, categorical c x v -> first_seen c (history ++ [x]) first ->
     exists k, In (c, Num k) y /\ List.length k = List.length v /\
       forall r, r < List.length v -> is_code first (nth r v []) (nth r k 0%Z)) /\
  (ok = true -> forall c l, In (c, Num l) x -> In (c, Num l) y) /\
  map fst y = map fst x.
Proof. exact (@encoding_history). Qed.
Print Assumptions C22_encoding_history.
Theorem C22_encoding_never_changes :
  forall calls le le' outputs c cl,
  lookup c le = Some cl -> encode_all le calls = (le', outputs) -> lookup c le' = Some cl.
Proof. exact (@encoding_never_changes). Qed.
Print Assumptions C22_encoding_never_changes.
Theorem C22_code_unique :
  forall first v k k', is_code first v k -> is_code first v k' -> k = k'.
Proof. exact (@is_code_unique). Qed.
Print Assumptions C22_code_unique.
Theorem C22_code_order :
  forall first v w k l, In v first -> In w first -> is_code first v k -> is_code first w l ->
  (before v w <-> (k < l)%Z).
Proof. exact (@is_code_order). Qed.
Print Assumptions C22_code_order.
Theorem C22_code_range :
  forall first v k, In v first -> is_code first v k -> (0 <= k < Z.of_nat (List.length (nodup (list_eq_dec Ascii.ascii_dec) first)))%Z.
Proof. exact (@is_code_range). Qed.
Print Assumptions C22_code_range.
Example C22_case :
  let a := txt "a" in let b := txt "b" in let c := txt "col" in
  exists le outs, encode_all [] [[(c, Cat [b; a; b])]; [(c, Cat [a; a])]] = (le, outs) /\
    outs = [([(c, Num [1; 0; 1]%Z)], true); ([(c, Num [0; 0]%Z)], true)] /\
    snd (encode le [(c, Cat [txt "z"])]) = false.
Proof. eexists. eexists. split; [vm_compute; reflexivity|]. split; reflexivity. Qed.

(** C70: a decorated call leaves the caller's frame alone. *)
Theorem C70_caller_frame_refuted :
  exists le x le' y, encode le x = (le', y, true) /\ named x /\ y <> x.
Proof. exact (@caller_frame_changed). Qed.
Print Assumptions C70_caller_frame_refuted.
Theorem C70_numeric_partial : forall (x : table) le le' y, encode le x = (le', y, true) ->
  (y = x <-> forall n c, In (n, c) x -> exists l, c = Num l) /\ map fst y = map fst x /\ (forall n l, In (n, Num l) x -> In (n, Num l) y) /\
  forall le2, encode le2 y = (le2, y, true).
Proof. exact (@encode_frame). Qed.
Print Assumptions C70_numeric_partial.
Example C70_numeric_case : exists le y, encode [] [(txt "c", Cat [txt "b"; txt "a"]); (txt "d", Num [3%Z])]%string = (le, y, true) /\ In (txt "d"%string, Num [3%Z]) y.
Proof. eexists. eexists. split; [vm_compute; reflexivity|]. right. now left. Qed.


(** C23 *)
Theorem C23_params_round_trip :
  forall (V : Type),
  forall (sig : list text) (kw d : dict V) k, NoDup (map fst kw) ->
  lookup k (get_params sig (set_params kw d)) =
    (if in_dec (list_eq_dec Ascii.ascii_dec) k sig then
       match lookup k d with
       | None => None
       | Some old => match lookup k kw with Some new => Some new | None => Some old end
       end
     else None) /\
  map fst (set_params kw d) = map fst d.
Proof. exact (@params_round_trip). Qed.
Print Assumptions C23_params_round_trip.
Example C23_case : NoDup (map fst [(txt "kind", 1%Z); (txt "nonsense", 2%Z)]) /\
  get_params linear_signature (set_params [(txt "kind", 1%Z); (txt "nonsense", 2%Z)] [(txt "kind", 0%Z); (txt "m", 9%Z)]) =
  [(txt "kind", 1%Z)].
Proof. split; [|vm_compute; reflexivity]. repeat constructor; cbn; intuition discriminate. Qed.

(** C71: training uses the current parameters. *)
Theorem C71_training_frozen_refuted :
  forall (V : Type),
  forall (d : text -> V) kw (updates : list (dict V)),
  let e := fold_left (fun e u => estimator_set u e) updates (lgb_init d kw) in
  trained_with e = trained_with (lgb_init d kw) /\ e_scengen e = e_scengen (lgb_init d kw).
Proof. exact (@training_frozen). Qed.
Print Assumptions C71_training_frozen_refuted.
Theorem C71_training_stale_refuted :
  exists (d : text -> Z) kw u k new,
    let e := estimator_set u (lgb_init d kw) in
    lookup k (get_params lgb_signature (e_attrs e)) = Some new /\ In k (map fst (trained_with e)) /\
    lookup k (trained_with e) <> Some new.
Proof. exact (@training_stale). Qed.
Print Assumptions C71_training_stale_refuted.
Theorem C71_levels_stale_refuted :
  exists (d : text -> Z) kw u new,
    let e := estimator_set u (linear_init d kw) in
    lookup (txt "q_vect") (get_params linear_signature (e_attrs e)) = Some new /\
    lookup (txt "q_vect") (e_scengen e) <> Some new.
Proof. exact (@levels_stale). Qed.
Print Assumptions C71_levels_stale_refuted.
Theorem C71_constructed_partial :
  forall (V : Type) (d : text -> V) (kw : dict V) k,
  In k (map txt ["device_type"; "objective"; "max_depth"; "n_estimators"; "num_leaves"; "learning_rate"; "verbose"; "metric";
                 "min_child_samples"; "n_jobs"; "colsample_bytree"; "colsample_bynode"]%string) ->
  lookup k (trained_with (lgb_init d kw)) = lookup k (get_params lgb_signature (e_attrs (lgb_init d kw))) /\
  lookup k (trained_with (lgb_init d kw)) = Some (match lookup k kw with Some v => v | None => d k end).
Proof. exact (@trained_as_named). Qed.
Print Assumptions C71_constructed_partial.
Theorem C71_levels_partial :
  forall (V : Type) (d : text -> V) (kw : dict V),
  lookup (txt "q_vect") (e_scengen (lgb_init d kw)) = lookup (txt "q_vect") (get_params lgb_signature (e_attrs (lgb_init d kw))) /\
  lookup (txt "q_vect") (e_scengen (linear_init d kw)) = lookup (txt "q_vect") (get_params linear_signature (e_attrs (linear_init d kw))).
Proof. exact (@levels_as_reported). Qed.
Print Assumptions C71_levels_partial.
Example C71_constructed_case : lookup (txt "max_depth") (trained_with (lgb_init (fun _ => 100%Z) [(txt "max_depth", 3%Z)])) = Some 3%Z /\ In (txt "max_depth") lgb_training.
Proof. split; vm_compute; tauto. Qed.


(** C72: a copy built from the parameters behaves like the original. *)
Theorem C72_copy_partial :
  forall (V : Type),
  forall (d : text -> V) e k, In k linear_signature -> In k (base_attributes ++ [txt "kind"]) ->
  (exists kw, e = linear_init d kw) ->
  lookup k (e_attrs (clone_linear d e)) = lookup k (e_attrs e).
Proof. exact (@clone_attributes). Qed.
Print Assumptions C72_copy_partial.
Theorem C72_kept_partial :
  forall (V : Type),
  forall (d : text -> V) kw k, In k (map txt ["q_vect"; "val_ratio"; "kind"; "max_scengen_rows"; "scengen_random_state"]%string) ->
  lookup k (e_attrs (clone_linear d (linear_init d kw))) = Some (match lookup k kw with Some v => v | None => d k end) /\
  lookup (txt "q_vect") (e_scengen (clone_linear d (linear_init d kw))) = lookup (txt "q_vect") (e_scengen (linear_init d kw)).
Proof. exact (@clone_keeps). Qed.
Print Assumptions C72_kept_partial.
Theorem C72_copy_refuted :
  exists (d : text -> Z) kw,
    lookup (txt "nodes_at_step") (e_scengen (clone_linear d (linear_init d kw))) <>
      lookup (txt "nodes_at_step") (e_scengen (linear_init d kw)) /\
    lookup (txt "n_scen_fit") (e_attrs (clone_linear d (linear_init d kw))) <>
      lookup (txt "n_scen_fit") (e_attrs (linear_init d kw)).
Proof. exact (@clone_loses). Qed.
Print Assumptions C72_copy_refuted.
Theorem C72_reset_refuted :
  forall (V : Type),
  forall (d : text -> V) kw k,
  (In k (map txt ["nodes_at_step"; "additional_node"; "online_tree_reduction"; "copula_type"; "tree_type"]%string) ->
   lookup k (e_scengen (linear_init d kw)) = Some (match lookup k kw with Some v => v | None => d k end) /\
   lookup k (e_scengen (clone_linear d (linear_init d kw))) = Some (d k)) /\
  (In k (map txt ["n_scen_fit"; "additional_node"; "formatter"; "conditional_to_hour"]%string) ->
   lookup k (e_attrs (linear_init d kw)) = Some (match lookup k kw with Some v => v | None => d k end) /\
   lookup k (e_attrs (clone_linear d (linear_init d kw))) = Some (d k)).
Proof. exact (@clone_resets). Qed.
Print Assumptions C72_reset_refuted.
Example C72_case : In (txt "kind") linear_signature /\ In (txt "kind") (base_attributes ++ [txt "kind"]).
Proof. split; vm_compute; tauto. Qed.
