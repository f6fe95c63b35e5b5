From Coq Require Import List ZArith Bool Arith Reals Lra Lia Sorted Permutation.
From Verif Require Import Model.Stats Model.Series Model.Subsample Model.Quantiles
  Spec.StatsSpec Spec.QuantilesSpec Proof.SeriesProof Proof.SubsampleProof Proof.StatsProof.
Import ListNotations.
Local Open Scope R_scope.

Lemma map2_nth {A B C} (f : A -> B -> C) la lb i da db dc :
  (i < length la)%nat -> (i < length lb)%nat -> nth i (map2 f la lb) dc = f (nth i la da) (nth i lb db).
Proof.
  revert lb i. induction la as [|a la IH]; intros [|b lb] [|i] H1 H2; cbn [length] in *; try lia.
  - reflexivity.
  - change (map2 f (a :: la) (b :: lb)) with (f a b :: map2 f la lb). cbn [nth]. apply IH; lia.
Qed.
Lemma map2_cons {A B C} (f : A -> B -> C) a la b lb : map2 f (a :: la) (b :: lb) = f a b :: map2 f la lb.
Proof. reflexivity. Qed.

(** ** Error distributions *)
Lemma full_day_unique hours : in_day hours -> (length (unique_hours hours) =? 24)%nat = true <-> full_day hours.
Proof.
  intros Hd. set (day := map Z.of_nat (seq 0 24)).
  assert (Hday : forall h, In h day <-> (0 <= h < 24)%Z).
  { intros h. unfold day. rewrite in_map_iff. split.
    - intros (n & <- & Hn). apply in_seq in Hn. lia.
    - intros Hh. exists (Z.to_nat h). split; [lia|]. apply in_seq. lia. }
  assert (Hnd : NoDup day) by (apply FinFun.Injective_map_NoDup; [intros x y H; lia|apply seq_NoDup]).
  assert (Hu : incl (unique_hours hours) day).
  { intros h Hh. apply Hday, Hd. now apply unique_hours_in. }
  rewrite Nat.eqb_eq. split.
  - intros Hl h Hh. apply unique_hours_in.
    assert (Hi : incl day (unique_hours hours)).
    { apply NoDup_length_incl; [apply unique_hours_nodup|rewrite Hl; cbn; lia|exact Hu]. }
    apply Hi. now apply Hday.
  - intros Hf. apply Nat.le_antisymm.
    + exact (NoDup_incl_length (unique_hours_nodup hours) Hu).
    + change 24%nat with (length day). apply NoDup_incl_length; [exact Hnd|]. intros h Hh. apply unique_hours_in, Hf.
      now apply Hday.
Qed.

Lemma hour_errors_rows_at hours errs h j :
  length hours = length errs -> column (rows_at hours h errs) j = hour_errors hours errs h j.
Proof.
  unfold column, rows_at, hour_errors. revert errs. induction hours as [|a hours IH]; intros [|r errs] Hl; cbn [length] in Hl; try lia; [reflexivity|].
  transitivity ((if Z.eq_dec a h then [nth j r 0] else []) ++
    flat_map (fun i => if Z.eq_dec (nth i hours 0%Z) h then [nth j (nth i errs []) 0] else []) (seq 0 (length errs))).
  - rewrite <- IH by lia. cbn [combine filter fst]. destruct (Z.eqb_spec a h); destruct (Z.eq_dec a h); try congruence; reflexivity.
  - cbn [length seq]. rewrite <- seq_shift, !flat_map_concat_map. cbn [map concat]. rewrite map_map. reflexivity.
Qed.

Lemma quantile_table_cell steps errs qs j k : (j < steps)%nat -> (k < length qs)%nat ->
  cell (quantile_table steps errs qs) j k = quantile (column errs j) (nth k qs 0).
Proof.
  intros Hj Hk. unfold cell, quantile_table.
  rewrite (nth_map_seq (fun j => map (quantile (column errs j)) qs)) by exact Hj.
  rewrite nth_indep with (d' := quantile (column errs j) 0) by (now rewrite map_length). apply map_nth.
Qed.
Lemma quantile_table_shaped steps errs qs : shaped steps (length qs) (quantile_table steps errs qs).
Proof.
  unfold quantile_table. split; [now rewrite map_length, seq_length|]. apply Forall_forall. intros r Hr.
  apply in_map_iff in Hr. destruct Hr as (j & <- & _). apply map_length.
Qed.

Lemma distr_lookup steps qs hours errs h :
  length hours = length errs -> in_day hours -> (0 <= h < 24)%Z ->
  exists t, distr_at (estimate_err_distr true steps qs hours errs) steps h = Some t /\
    shaped steps (length qs) t /\
    forall j k l, (j < steps)%nat -> (k < length qs)%nat -> pool hours errs h j l -> cell t j k = quantile l (nth k qs 0).
Proof.
  intros Hl Hd Hh. unfold estimate_err_distr. pose proof (full_day_unique hours Hd) as Hf.
  destruct (length (unique_hours hours) =? 24)%nat.
  - eexists. split.
    { cbn [distr_at]. rewrite nth_error_map. rewrite (nth_error_nth' _ 0%nat) by (rewrite seq_length; lia).
      rewrite seq_nth by lia. cbn [option_map Nat.add]. rewrite Z2Nat.id by lia. reflexivity. }
    split; [apply quantile_table_shaped|]. intros j k l Hj Hk [[_ ->]|[Hn _]]; [|tauto].
    rewrite quantile_table_cell by assumption. now rewrite hour_errors_rows_at.
  - assert (Hn : ~ full_day hours) by (rewrite <- Hf; discriminate).
    eexists. split.
    { cbn [distr_at]. rewrite nth_error_map. rewrite (nth_error_nth' _ 0%nat) by (rewrite seq_length; lia).
      cbn [option_map]. reflexivity. }
    split; [apply quantile_table_shaped|]. intros j k l Hj Hk [[Hc _]|[_ ->]]; [tauto|].
    now rewrite quantile_table_cell.
Qed.

Lemma pool_exists hours errs h j : in_day hours -> exists l, pool hours errs h j l.
Proof.
  intros Hd. pose proof (full_day_unique hours Hd) as Hf. destruct (length (unique_hours hours) =? 24)%nat.
  - eexists. left. split; [now apply Hf|reflexivity].
  - eexists. right. split; [rewrite <- Hf; discriminate|reflexivity].
Qed.
Lemma pool_nonempty hours errs h j l : length hours = length errs -> errs <> [] -> (0 <= h < 24)%Z -> pool hours errs h j l -> l <> [].
Proof.
  intros Hl He Hh [[Hf ->]|[_ ->]].
  - specialize (Hf h Hh). apply (In_nth _ _ 0%Z) in Hf. destruct Hf as (i & Hi & Ei). intros E.
    assert (Hin : In (nth j (nth i errs []) 0) (hour_errors hours errs h j)).
    { unfold hour_errors. apply in_flat_map. exists i. split; [apply in_seq; lia|].
      destruct (Z.eq_dec (nth i hours 0%Z) h); [now left|congruence]. }
    rewrite E in Hin. destruct Hin.
  - destruct errs; [congruence|]. discriminate.
Qed.
Lemma pool_incl hours errs h j l x : pool hours errs h j l -> In x l -> In x (step_errors errs j).
Proof.
  intros [[_ ->]|[_ ->]]; [|auto]. unfold hour_errors, step_errors. intros H. apply in_flat_map in H.
  destruct H as (i & Hi & Hx). apply in_seq in Hi. destruct (Z.eq_dec _ _); [|destruct Hx].
  destruct Hx as [<-|[]]. apply in_map_iff. exists (nth i errs []). split; [reflexivity|]. apply nth_In. lia.
Qed.

Lemma err_distr_correct :
  forall steps qs hours errs,
  length hours = length errs -> in_day hours -> errs <> [] -> Forall (fun q => 0 <= q <= 1) qs ->
  exists tables, estimate_err_distr true steps qs hours errs = PerHour tables /\ length tables = 24%nat /\
    forall h j, (h < 24)%nat -> (j < steps)%nat ->
      (forall k l, (k < length qs)%nat -> pool hours errs (Z.of_nat h) j l ->
         cell3 tables h j k = quantile l (nth k qs 0)) /\
      (forall k k', (k < length qs)%nat -> (k' < length qs)%nat -> nth k qs 0 <= nth k' qs 0 ->
         cell3 tables h j k <= cell3 tables h j k') /\
      (forall k lo hi, (k < length qs)%nat -> (forall e, In e (step_errors errs j) -> lo <= e <= hi) ->
         lo <= cell3 tables h j k <= hi).
Proof.
  intros steps qs hours errs Hl Hd He Hq.
  assert (Hex : exists tables, estimate_err_distr true steps qs hours errs = PerHour tables /\ length tables = 24%nat).
  { unfold estimate_err_distr. destruct (length (unique_hours hours) =? 24)%nat; eexists; split; try reflexivity;
    rewrite map_length; apply seq_length. }
  destruct Hex as (tables & Et & Hlt). exists tables. split; [exact Et|]. split; [exact Hlt|].
  intros h j Hh Hj.
  destruct (distr_lookup steps qs hours errs (Z.of_nat h) Hl Hd ltac:(lia)) as (t & E & _ & Hc).
  rewrite Et in E. cbn [distr_at] in E. rewrite Nat2Z.id in E. apply (nth_error_nth _ _ []) in E.
  assert (Hcell : forall k l, (k < length qs)%nat -> pool hours errs (Z.of_nat h) j l ->
         cell3 tables h j k = quantile l (nth k qs 0)).
  { intros k l Hk Hp. unfold cell3. rewrite E. now apply Hc. }
  destruct (pool_exists hours errs (Z.of_nat h) j Hd) as (l & Hp).
  pose proof (pool_nonempty hours errs (Z.of_nat h) j l Hl He ltac:(lia) Hp) as Hne.
  rewrite Forall_forall in Hq.
  assert (Hqk : forall k, (k < length qs)%nat -> 0 <= nth k qs 0 <= 1) by (intros k Hk; apply Hq, nth_In, Hk).
  split; [exact Hcell|]. split.
  - intros k k' Hk Hk' Hle. rewrite !(Hcell _ l) by assumption.
    pose proof (Hqk k Hk). pose proof (Hqk k' Hk'). apply quantile_monotone; [exact Hne|lra..].
  - intros k lo hi Hk Hb. rewrite (Hcell _ l) by assumption. apply quantile_bounds; [exact Hne|now apply Hqk|].
    intros x Hx. apply Hb. now apply (pool_incl _ _ _ _ _ _ Hp).
Qed.

(** ** Quantile forecasts *)
Lemma add_hours_ok d steps hours (T : Z -> list (list R)) : forall us q,
  NoDup us -> (forall h, In h us -> distr_at d steps h = Some (T h)) -> length q = length hours ->
  add_hours d steps hours us q =
  Some (map2 (fun h row => if in_dec Z.eq_dec h us then add_table row (T h) else row) hours q).
Proof.
  induction us as [|u us IH]; intros q Hn Ht Hl.
  - cbn. f_equal. revert q Hl. induction hours as [|h hours IHh]; intros [|r q] Hl; cbn [length] in Hl; try lia; [reflexivity|].
    rewrite map2_cons. f_equal. apply IHh. lia.
  - cbn [add_hours]. rewrite (Ht u (or_introl eq_refl)). inversion Hn as [|? ? Hu Hn']; subst.
    rewrite IH; [|exact Hn'|intros h Hh; apply Ht; now right|rewrite map2_length; lia].
    f_equal. clear IH Ht. revert q Hl. induction hours as [|h hours IHh]; intros [|r q] Hl; cbn [length] in Hl; try lia; [reflexivity|].
    rewrite !map2_cons. f_equal; [|apply IHh; lia].
    destruct (Z.eqb_spec h u) as [->|Hne].
    + destruct (in_dec Z.eq_dec u us); [contradiction|]. destruct (in_dec Z.eq_dec u (u :: us)) as [_|H]; [reflexivity|].
      destruct H. now left.
    + destruct (in_dec Z.eq_dec h us) as [H|H]; destruct (in_dec Z.eq_dec h (u :: us)) as [H'|H']; try reflexivity.
      * destruct H'. now right.
      * destruct H' as [->|H']; [congruence|contradiction].
Qed.

Lemma distr_tables steps qs hours errs : length hours = length errs -> in_day hours ->
  exists T : Z -> list (list R), forall h, (0 <= h < 24)%Z ->
    distr_at (estimate_err_distr true steps qs hours errs) steps h = Some (T h).
Proof.
  intros Hl Hd. exists (fun h => match distr_at (estimate_err_distr true steps qs hours errs) steps h with Some t => t | None => [] end).
  intros h Hh. destruct (distr_lookup steps qs hours errs h Hl Hd Hh) as (t & E & _). now rewrite E.
Qed.

Lemma predicted_quantiles_correct :
  forall steps qs fit_hours errs hours preds,
  length fit_hours = length errs -> in_day fit_hours -> errs <> [] -> Forall (fun q => 0 <= q <= 1) qs ->
  length hours = length preds -> in_day hours -> shaped (length hours) steps preds ->
  exists q, predict_quantiles (estimate_err_distr true steps qs fit_hours errs) steps (length qs) hours preds = Some q /\
    length q = length preds /\ Forall (shaped steps (length qs)) q /\
    forall i j, (i < length preds)%nat -> (j < steps)%nat ->
      (forall k l, (k < length qs)%nat -> pool fit_hours errs (nth i hours 0%Z) j l ->
         cell3 q i j k = cell preds i j + quantile l (nth k qs 0)) /\
      (forall k k', (k < length qs)%nat -> (k' < length qs)%nat -> nth k qs 0 <= nth k' qs 0 ->
         cell3 q i j k <= cell3 q i j k').
Proof.
  intros steps qs fh errs hours preds Hl Hd He Hq Hlp Hdp [_ Hsp].
  destruct (distr_tables steps qs fh errs Hl Hd) as (T & HT). unfold predict_quantiles.
  rewrite (add_hours_ok _ _ _ T); [|apply unique_hours_nodup| |rewrite map_length; lia].
  2:{ intros h Hh. apply HT, Hdp. now apply unique_hours_in. }
  eexists. split; [reflexivity|].
  assert (Hrow : forall i, (i < length preds)%nat ->
    nth i (map2 (fun h row => if in_dec Z.eq_dec h (unique_hours hours) then add_table row (T h) else row) hours
              (map (map (fun v => repeat v (length qs))) preds)) [] =
    add_table (map (fun v => repeat v (length qs)) (nth i preds [])) (T (nth i hours 0%Z))).
  { intros i Hi. rewrite (map2_nth _ _ _ _ 0%Z []) by (rewrite ?map_length; lia).
    destruct (in_dec Z.eq_dec (nth i hours 0%Z) (unique_hours hours)) as [_|H].
    - f_equal. exact (map_nth (map (fun v => repeat v (length qs))) preds [] i).
    - destruct H. apply unique_hours_in, nth_In. lia. }
  set (Q := map2 _ _ _) in *.
  assert (HlQ : length Q = length preds) by (unfold Q; rewrite map2_length; rewrite ?map_length; lia).
  rewrite Forall_forall in Hsp.
  assert (Hps : forall i, (i < length preds)%nat -> length (nth i preds []) = steps) by (intros i Hi; apply Hsp, nth_In, Hi).
  assert (Hh : forall i, (i < length preds)%nat -> (0 <= nth i hours 0 < 24)%Z) by (intros i Hi; apply Hdp, nth_In; lia).
  assert (Hts : forall i, (i < length preds)%nat -> exists t, T (nth i hours 0%Z) = t /\ shaped steps (length qs) t /\
    forall j k l, (j < steps)%nat -> (k < length qs)%nat -> pool fh errs (nth i hours 0%Z) j l -> cell t j k = quantile l (nth k qs 0)).
  { intros i Hi. destruct (distr_lookup steps qs fh errs _ Hl Hd (Hh i Hi)) as (t & E & Hs & Hc).
    exists t. split; [|split; assumption]. rewrite (HT _ (Hh i Hi)) in E. now injection E. }
  split; [exact HlQ|]. split.
  - apply Forall_forall. intros r Hr. apply (In_nth _ _ []) in Hr. destruct Hr as (i & Hi & <-). rewrite HlQ in Hi.
    rewrite Hrow by exact Hi. destruct (Hts i Hi) as (t & -> & [Ht1 Ht2] & _). specialize (Hps i Hi).
    unfold add_table. split; [rewrite map2_length; rewrite map_length; lia|].
    apply Forall_forall. intros r Hr. apply (In_nth _ _ []) in Hr. destruct Hr as (j & Hj & <-).
    rewrite map2_length in Hj by (rewrite map_length; lia). rewrite map_length in Hj.
    rewrite (map2_nth _ _ _ _ [] []) by (rewrite ?map_length; lia).
    rewrite Forall_forall in Ht2. assert (Hj2 : length (nth j t []) = length qs) by (apply Ht2, nth_In; lia).
    rewrite nth_indep with (d' := repeat 0 (length qs)) by (rewrite map_length; lia).
    rewrite (map_nth (fun v => repeat v (length qs))).
    rewrite map2_length; rewrite repeat_length; lia.
  - intros i j Hi Hj. destruct (Hts i Hi) as (t & Et & [Ht1 Ht2] & Hc).
    assert (Hcell : forall k l, (k < length qs)%nat -> pool fh errs (nth i hours 0%Z) j l ->
         cell3 Q i j k = cell preds i j + quantile l (nth k qs 0)).
    { intros k l Hk Hp. unfold cell3. rewrite Hrow by exact Hi. rewrite Et. unfold cell, add_table.
      specialize (Hps i Hi).
      rewrite (map2_nth _ _ _ _ [] []) by (rewrite ?map_length; lia).
      rewrite Forall_forall in Ht2. assert (Hj2 : length (nth j t []) = length qs) by (apply Ht2, nth_In; lia).
      rewrite nth_indep with (d' := repeat 0 (length qs)) by (rewrite map_length; lia).
      rewrite (map_nth (fun v => repeat v (length qs))).
      rewrite (map2_nth _ _ _ _ 0 0) by (rewrite ?repeat_length; lia).
      rewrite nth_indep with (d' := nth j (nth i preds []) 0) by (rewrite repeat_length; lia). rewrite nth_repeat.
      f_equal. exact (Hc j k l Hj Hk Hp). }
    split; [exact Hcell|]. intros k k' Hk Hk' Hle.
    destruct (pool_exists fh errs (nth i hours 0%Z) j Hd) as (l & Hp).
    pose proof (pool_nonempty fh errs _ j l Hl He (Hh i Hi) Hp) as Hne.
    rewrite !(Hcell _ l) by assumption. apply Rplus_le_compat_l.
    rewrite Forall_forall in Hq. pose proof (Hq _ (nth_In _ 0 Hk)). pose proof (Hq _ (nth_In _ 0 Hk')).
    apply quantile_monotone; [exact Hne|lra..].
Qed.

Lemma quantile_single x q : 0 <= q <= 1 -> quantile [x] q = x.
Proof.
  intros Hq. assert (Hs : sorted_copy [x] [x]) by (split; [reflexivity|repeat constructor]).
  exact (proj1 (quantile_interpolates _ _ Hs) eq_refl q Hq).
Qed.

(** Without conditioning the hour selects the step. *)
Lemma unconditional_wrong :
  exists steps qs fit_hours errs hours preds q,
    length fit_hours = length errs /\ in_day fit_hours /\ errs <> [] /\ Forall (fun q => 0 <= q <= 1) qs /\
    in_day hours /\ shaped (length hours) steps preds /\
    predict_quantiles (estimate_err_distr false steps qs fit_hours errs) steps (length qs) hours preds = Some q /\
    exists i j k, (i < length preds)%nat /\ (j < steps)%nat /\ (k < length qs)%nat /\
      cell3 q i j k <> cell preds i j + quantile (step_errors errs j) (nth k qs 0).
Proof.
  exists 2%nat, [1/2], [0%Z], [[1; 5]], [0%Z], [[0; 0]], [[[0 + quantile [1] (1/2)]; [0 + quantile [1] (1/2)]]].
  split; [reflexivity|]. split; [intros h [<-|[]]; lia|]. split; [discriminate|]. split; [repeat constructor; lra|].
  split; [intros h [<-|[]]; lia|]. split; [split; [reflexivity|repeat constructor]|]. split; [reflexivity|].
  exists 0%nat, 1%nat, 0%nat. repeat split; try (cbn; lia). cbn [cell3 cell nth step_errors map length].
  rewrite !quantile_single by lra. lra.
Qed.
Lemma unconditional_raises :
  forall steps qs fit_hours errs hours preds h,
  In h hours -> (Z.of_nat steps <= h)%Z -> length preds = length hours ->
  predict_quantiles (estimate_err_distr false steps qs fit_hours errs) steps (length qs) hours preds = None.
Proof.
  intros steps qs fh errs hours preds h Hin Hle Hl. unfold predict_quantiles, estimate_err_distr.
  assert (Hd : distr_at (Single (quantile_table steps errs qs)) steps h = None).
  { cbn [distr_at]. rewrite (proj2 (nth_error_None _ _)); [reflexivity|]. unfold quantile_table. rewrite map_length, seq_length. lia. }
  apply unique_hours_in in Hin. revert Hin. generalize (map (map (fun v : R => repeat v (length qs))) preds).
  induction (unique_hours hours) as [|u us IH]; intros q Hin; [destruct Hin|]. cbn [add_hours].
  destruct Hin as [->|Hin]; [now rewrite Hd|]. destruct (distr_at _ steps u); [|reflexivity]. apply IH. exact Hin.
Qed.

(** ** Frames and arrays *)
Lemma chunks_concat {A} k (rows : list (list A)) : (0 < k)%nat -> Forall (fun r => length r = k) rows ->
  forall fuel, (length (concat rows) <= fuel)%nat -> chunks fuel k (concat rows) = Some rows.
Proof.
  intros Hk. induction 1 as [|r rows Hr _ IH]; intros fuel Hf; [destruct fuel; reflexivity|].
  cbn [concat] in *. rewrite app_length in Hf. destruct fuel as [|fuel]; [lia|].
  destruct (r ++ concat rows) as [|a l] eqn:E.
  { apply app_eq_nil in E. destruct E as [-> _]. cbn in Hr. lia. }
  rewrite <- E. cbn [chunks]. rewrite E at 1. rewrite app_length.
  destruct (length r + length (concat rows) <? k)%nat eqn:El; [apply Nat.ltb_lt in El; lia|].
  replace (firstn k (r ++ concat rows)) with r.
  2:{ rewrite <- Hr, firstn_app, Nat.sub_diag, firstn_all. cbn [firstn]. now rewrite app_nil_r. }
  replace (skipn k (r ++ concat rows)) with (concat rows).
  2:{ rewrite <- Hr, skipn_app, skipn_all, Nat.sub_diag. reflexivity. }
  rewrite IH by lia. reflexivity.
Qed.
Lemma all_some_map {A B} (f : A -> option B) (g : A -> B) l : (forall a, In a l -> f a = Some (g a)) -> all_some (map f l) = Some (map g l).
Proof.
  induction l as [|a l IH]; intros H; [reflexivity|]. cbn. rewrite (H a (or_introl eq_refl)), IH; [reflexivity|].
  intros b Hb. apply H. now right.
Qed.
Lemma nodup_levels {T L} (eqd : forall a b : L, {a = b} + {a <> b}) (targets : list T) (levels : list L) :
  targets <> [] -> NoDup levels -> length (nodup eqd (map snd (list_prod targets levels))) = length levels.
Proof.
  intros Ht Hn. apply Permutation_length, NoDup_Permutation; [apply NoDup_nodup|exact Hn|]. intros l. rewrite nodup_In, in_map_iff. split.
  - intros ([t l'] & <- & H). apply in_prod_iff in H. apply H.
  - intros H. destruct targets as [|t ts]; [congruence|]. exists (t, l). split; [reflexivity|]. apply in_prod_iff. split; [now left|exact H].
Qed.
Lemma list_prod_nth {T L} (targets : list T) (levels : list L) j k dt dl :
  (j < length targets)%nat -> (k < length levels)%nat ->
  nth (j * length levels + k) (list_prod targets levels) (dt, dl) = (nth j targets dt, nth k levels dl).
Proof.
  revert j. induction targets as [|t ts IH]; intros j Hj Hk; cbn [length] in Hj; [lia|]. cbn [list_prod].
  destruct j as [|j].
  - rewrite app_nth1 by (rewrite map_length; cbn; lia). cbn [nth Nat.mul Nat.add].
    rewrite nth_indep with (d' := (t, dl)) by (rewrite map_length; lia). now rewrite (map_nth (fun y => (t, y))).
  - rewrite app_nth2 by (rewrite map_length; cbn; lia). rewrite map_length. cbn [nth].
    replace (S j * length levels + k - length levels)%nat with (j * length levels + k)%nat by (cbn; lia). apply IH; lia.
Qed.
Lemma concat_nth {A} (rows : list (list A)) m j k (d : A) :
  Forall (fun r => length r = m) rows -> (j < length rows)%nat -> (k < m)%nat ->
  nth (j * m + k) (concat rows) d = nth k (nth j rows []) d.
Proof.
  intros H. revert j. induction H as [|r rows Hr _ IH]; intros j Hj Hk; cbn [length] in Hj; [lia|]. cbn [concat].
  destruct j as [|j].
  - rewrite app_nth1 by (cbn; lia). reflexivity.
  - rewrite app_nth2 by (cbn; lia). rewrite Hr. cbn [nth].
    replace (S j * m + k - m)%nat with (j * m + k)%nat by (cbn; lia). apply IH; lia.
Qed.

Lemma frame_round_trip (T L A : Type) :
  forall (eqd : forall a b : L, {a = b} + {a <> b}) (targets : list T) (levels : list L) (q : list (list (list A))),
  targets <> [] -> levels <> [] -> NoDup levels -> q <> [] ->
  Forall (shaped (length targets) (length levels)) q ->
  quantiles_to_numpy eqd (quantiles_to_df targets levels q) = Some q /\
  forall i j k dt dl d, (i < length q)%nat -> (j < length targets)%nat -> (k < length levels)%nat ->
    exists c, nth c (qf_columns (quantiles_to_df targets levels q)) (dt, dl) = (nth j targets dt, nth k levels dl) /\
      nth c (nth i (qf_rows (quantiles_to_df targets levels q)) []) d = nth k (nth j (nth i q []) []) d.
Proof.
  intros eqd targets levels q Ht Hl Hn Hq Hs. rewrite Forall_forall in Hs. split.
  - unfold quantiles_to_numpy, quantiles_to_df. cbn [qf_columns qf_rows]. rewrite nodup_levels by assumption.
    rewrite map_length. destruct (length levels =? 0)%nat eqn:E1.
    { apply Nat.eqb_eq in E1. destruct levels; [congruence|discriminate]. }
    destruct (length q =? 0)%nat eqn:E2; [apply Nat.eqb_eq in E2; destruct q; [congruence|discriminate]|]. cbn [orb].
    rewrite map_map. rewrite (all_some_map _ (fun r => r)); [now rewrite map_id|].
    intros r Hr. apply chunks_concat; [apply Nat.eqb_neq in E1; lia|apply Hs, Hr|lia].
  - intros i j k dt dl d Hi Hj Hk. exists (j * length levels + k)%nat. unfold quantiles_to_df. cbn [qf_columns qf_rows].
    split; [now apply list_prod_nth|].
    destruct (Hs (nth i q []) (nth_In _ _ Hi)) as [H1 H2].
    replace (nth i (map (concat (A:=A)) q) []) with (concat (nth i q [])).
    + apply concat_nth; [exact H2|lia|exact Hk].
    + symmetry. exact (map_nth (@concat A) q [] i).
Qed.
Lemma duplicate_levels_wrong :
  exists (targets levels : list nat) (q : list (list (list nat))),
    targets <> [] /\ levels <> [] /\ Forall (shaped (length targets) (length levels)) q /\
    exists q', quantiles_to_numpy Nat.eq_dec (quantiles_to_df targets levels q) = Some q' /\ q' <> q.
Proof.
  exists [0%nat], [5; 5]%nat, [[[1; 2]]]%nat. split; [discriminate|]. split; [discriminate|]. split; [repeat constructor|].
  eexists. split; [vm_compute; reflexivity|]. discriminate.
Qed.

(** ** Probability masses *)
Lemma all_some_nth {A B} (f : A -> option B) l r : all_some (map f l) = Some r ->
  length r = length l /\ forall i da db, (i < length l)%nat -> f (nth i l da) = Some (nth i r db).
Proof.
  revert r. induction l as [|a l IH]; intros r H; cbn in H.
  - injection H as <-. split; [reflexivity|]. intros i ? ? Hi. cbn in Hi. lia.
  - destruct (f a) as [b|] eqn:E; [|discriminate]. destruct (all_some (map f l)) as [r'|] eqn:E'; [|discriminate].
    cbn in H. injection H as <-. destruct (IH r' eq_refl) as [H1 H2]. split; [cbn; lia|].
    intros [|i] da db Hi; [exact E|]. cbn [nth]. apply H2. cbn in Hi. lia.
Qed.
Lemma sum_scaled l n : fold_right Rplus 0 (map (fun c => IZR c / n) l) = IZR (fold_right Z.add 0%Z l) / n.
Proof. induction l as [|a l IH]; cbn; [unfold Rdiv; ring|]. rewrite IH, plus_IZR. unfold Rdiv. ring. Qed.

Lemma how_many_le (P : R -> Prop) l n : how_many P l n -> (n <= length l)%nat.
Proof.
  intros (a & b & HP & _ & _ & <-). rewrite (Permutation_length HP), app_length. lia.
Qed.
Lemma how_many_all (P : R -> Prop) l n : how_many P l n -> (n = length l <-> Forall P l).
Proof.
  intros (a & b & HP & Ha & Hb & <-). rewrite (Permutation_length HP), app_length. split.
  - intros H. assert (b = []) as -> by (destruct b; [reflexivity|cbn in H; lia]). rewrite app_nil_r in HP.
    eapply Permutation_Forall; [symmetry; exact HP|exact Ha].
  - intros H. destruct b as [|x b]; [cbn; lia|]. exfalso.
    rewrite Forall_forall in H, Hb. apply (Hb x); [now left|]. apply H. apply (Permutation_in _ (Permutation_sym HP)).
    apply in_or_app. right. now left.
Qed.

Lemma pmf_cell_correct nq edges qv m :
  (2 <= length edges)%nat -> length qv = nq -> (0 < nq)%nat -> pmf_cell nq edges qv = Some m ->
  length m = (length edges - 1)%nat /\
  (forall b, (S b < length edges)%nat -> exists n, how_many (in_bin edges b) qv n /\ nth b m 0 = INR n / INR nq) /\
  Forall (fun p => 0 <= p) m /\ fold_right Rplus 0 m <= 1 /\
  (fold_right Rplus 0 m = 1 <-> Forall (fun v => nth 0 edges 0 <= v <= nth (length edges - 1) edges 0) qv).
Proof.
  intros He Hq Hn. unfold pmf_cell. destruct (histogram qv edges) as [h|] eqn:E; [|discriminate]. cbn. intros [= <-].
  destruct (histogram_counts _ _ _ E) as [H1 H2]. destruct (histogram_total _ _ _ He E) as (n & H3 & H4).
  assert (Hnq : 0 < INR nq) by (apply lt_0_INR; exact Hn).
  rewrite map_length. split; [exact H1|].
  assert (Hbin : forall b, (S b < length edges)%nat ->
     exists n, how_many (in_bin edges b) qv n /\ nth b (map (fun c => IZR c / INR nq) h) 0 = INR n / INR nq).
  { intros b Hb. destruct (H2 b Hb) as (k & Hk & Hm). exists k. split; [exact Hm|].
    rewrite nth_indep with (d' := IZR 0 / INR nq) by (rewrite map_length; lia). rewrite (map_nth (fun c => IZR c / INR nq)).
    rewrite Hk, <- INR_IZR_INZ. reflexivity. }
  split; [exact Hbin|]. split.
  - apply Forall_forall. intros p Hp. apply (In_nth _ _ 0) in Hp. destruct Hp as (b & Hb & <-).
    rewrite map_length in Hb. destruct (Hbin b ltac:(lia)) as (k & _ & ->). apply Rmult_le_pos; [apply pos_INR|].
    left. now apply Rinv_0_lt_compat.
  - rewrite sum_scaled, H3, <- INR_IZR_INZ. pose proof (how_many_le _ _ _ H4) as Hle. rewrite Hq in Hle.
    split.
    + apply (Rmult_le_reg_r (INR nq)); [exact Hnq|]. unfold Rdiv. rewrite Rmult_assoc, Rinv_l, Rmult_1_r, Rmult_1_l by lra.
      now apply le_INR.
    + rewrite <- (how_many_all _ _ _ H4), Hq. split.
      * intros H. apply INR_eq. apply (f_equal (fun z => z * INR nq)) in H. unfold Rdiv in H.
        rewrite Rmult_assoc, Rinv_l, Rmult_1_r, Rmult_1_l in H by lra. exact H.
      * intros ->. field. lra.
Qed.

Lemma pmf_correct :
  forall nq edges q m,
  (2 <= length edges)%nat -> (0 < nq)%nat -> Forall (Forall (fun r => length r = nq)) q ->
  predict_pmf nq edges q = Some m ->
  length m = length q /\
  forall i j, (i < length q)%nat -> (j < length (nth i q []))%nat ->
    let mass := nth j (nth i m []) [] in
    let forecast := nth j (nth i q []) [] in
    length mass = (length edges - 1)%nat /\
    (forall b, (S b < length edges)%nat -> exists n, how_many (in_bin edges b) forecast n /\ nth b mass 0 = INR n / INR nq) /\
    Forall (fun p => 0 <= p) mass /\ fold_right Rplus 0 mass <= 1 /\
    (fold_right Rplus 0 mass = 1 <-> Forall (fun v => nth 0 edges 0 <= v <= nth (length edges - 1) edges 0) forecast).
Proof.
  intros nq edges q m He Hn Hs H. unfold predict_pmf in H. destruct (all_some_nth _ _ _ H) as [H1 H2].
  split; [exact H1|]. intros i j Hi Hj mass forecast. specialize (H2 i [] [] Hi). destruct (all_some_nth _ _ _ H2) as [_ H4].
  specialize (H4 j [] [] Hj). apply pmf_cell_correct; [exact He| |exact Hn|exact H4].
  rewrite Forall_forall in Hs. specialize (Hs _ (nth_In _ [] Hi)). rewrite Forall_forall in Hs. apply Hs, nth_In, Hj.
Qed.
Lemma pmf_total :
  forall nq edges q,
  (forall i j, (i <= j < length edges)%nat -> nth i edges 0 <= nth j edges 0) -> predict_pmf nq edges q <> None.
Proof.
  intros nq edges q H. apply monotone_intro in H. unfold predict_pmf.
  rewrite (all_some_map _ (fun row => map (fun qv => match pmf_cell nq edges qv with Some m => m | None => [] end) row)); [discriminate|].
  intros row _. apply all_some_map. intros qv _. unfold pmf_cell, histogram. rewrite H. reflexivity.
Qed.
