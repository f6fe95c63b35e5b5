From Coq Require Import List Arith Bool Lia.
From Verif Require Import Model.Quantiles Model.Hybrid Spec.HybridSpec Spec.QuantilesSpec Proof.SeriesProof Proof.QuantilesProof.
Import ListNotations.

Lemma seq_shift_map k n : seq k n = map (fun j => k + j) (seq 0 n).
Proof. revert k. induction n as [|n IH]; intros k; [reflexivity|]. cbn [seq map]. rewrite Nat.add_0_r. f_equal. rewrite IH, (IH 1), map_map. apply map_ext. intros j. lia. Qed.
Lemma steps_from_split {D M G X V} (L : learners D M G X V) n d0 d x : n <= horizon L d ->
  steps_from L n d0 d x = map (fun k => one_at L (fit_one L d0 k) k x) (seq 0 n) ++ map (fun j => multi_at L (fit_multi L d n) j x) (seq 0 (horizon L d - n)).
Proof.
  intros H. unfold steps_from. replace (horizon L d) with (n + (horizon L d - n)) at 1 by lia. rewrite seq_app, map_app. f_equal.
  - apply map_ext_in. intros k Hk. apply in_seq in Hk. replace (k <? n) with true; [reflexivity|]. symmetry. apply Nat.ltb_lt. lia.
  - cbn [Nat.add]. rewrite seq_shift_map, map_map. apply map_ext. intros j. replace (n + j <? n) with false; [|symmetry; apply Nat.ltb_ge; lia]. f_equal. lia.
Qed.

(** An object whose first models are those of [d0] and that was last fitted on [d]. *)
Lemma predict_steps_from {D M G X V} (L : learners D M G X V) n par d0 d rest mm x : n <= horizon L d ->
  hybrid_predict L (Hybrid n par (map (fit_one L d0) (seq 0 n) ++ rest) (if 0 <? horizon L d - n then Some (fit_multi L d n) else mm) (Some (horizon L d - n))) x =
  Some (steps_from L n d0 d x).
Proof.
  intros H. rewrite steps_from_split by exact H. unfold hybrid_predict. cbn [models n_multi multi_model n_single].
  rewrite (all_some_map _ (fun k => one_at L (fit_one L d0 k) k x)).
  - destruct (horizon L d - n) as [|k]; [cbn; now rewrite app_nil_r|reflexivity].
  - intros i Hi. apply in_seq in Hi. rewrite nth_error_app1 by (rewrite map_length, seq_length; lia).
    rewrite (map_nth_error (fit_one L d0) i _ (d := i)); [reflexivity|]. rewrite (nth_error_nth' _ 0) by (rewrite seq_length; lia). f_equal. rewrite seq_nth by lia. reflexivity.
Qed.

Lemma hybrid_first_fit {D M G X V} (L : learners D M G X V) n par d : n <= horizon L d ->
  exists o, hybrid_fit L (new_hybrid n par) d = Some o /\ forall x, hybrid_predict L o x = Some (steps_from L n d d x).
Proof.
  intros H. unfold hybrid_fit. cbn [new_hybrid n_single in_parallel models multi_model n_multi].
  replace (horizon L d <? n) with false by (symmetry; apply Nat.ltb_ge; lia). eexists. split; [reflexivity|]. intros x.
  destruct par; cbn [app]; rewrite <- (app_nil_r (map (fit_one L d) (seq 0 n))); now apply predict_steps_from.
Qed.
Lemma hybrid_beyond {D M G X V} (L : learners D M G X V) n par d : horizon L d < n -> hybrid_fit L (new_hybrid n par) d = None.
Proof. intros H. unfold hybrid_fit. cbn [new_hybrid n_single]. now replace (horizon L d <? n) with true by (symmetry; apply Nat.ltb_lt; lia). Qed.

Lemma fit_all_app {O D} (fit : O -> D -> option O) o ds1 ds2 : fit_all fit o (ds1 ++ ds2) = match fit_all fit o ds1 with Some o' => fit_all fit o' ds2 | None => None end.
Proof. revert o. induction ds1 as [|d ds1 IH]; intros o; [reflexivity|]. cbn. destruct (fit o d); [apply IH|reflexivity]. Qed.
Lemma fit_keeps_setup {D M G X V} (L : learners D M G X V) ds : forall o o', fit_all (hybrid_fit L) o ds = Some o' -> n_single o' = n_single o /\ in_parallel o' = in_parallel o.
Proof.
  induction ds as [|d ds IH]; intros o o' H; cbn in H; [now injection H as <-|]. unfold hybrid_fit in H at 1.
  destruct (horizon L d <? n_single o); [discriminate|]. apply IH in H. exact H.
Qed.
(** Parallel fits: only the last data matter. *)
Lemma parallel_refit {D M G X V} (L : learners D M G X V) n ds d o : fit_all (hybrid_fit L) (new_hybrid n true) (ds ++ [d]) = Some o ->
  forall x, hybrid_predict L o x = Some (steps_from L n d d x).
Proof.
  rewrite fit_all_app. destruct (fit_all _ _ ds) as [o1|] eqn:E; [|discriminate]. apply fit_keeps_setup in E. destruct E as [E1 E2]. cbn [new_hybrid n_single in_parallel] in *.
  cbn [fit_all]. unfold hybrid_fit. rewrite E1, E2. destruct (horizon L d <? n) eqn:Eh; [discriminate|]. apply Nat.ltb_ge in Eh. intros [= <-] x.
  rewrite <- (app_nil_r (map (fit_one L d) (seq 0 n))). now apply predict_steps_from.
Qed.
(** Serial fits: the single-step models of the first fit are used for ever. *)
Lemma serial_refit {D M G X V} (L : learners D M G X V) n d0 ds d o : fit_all (hybrid_fit L) (new_hybrid n false) (d0 :: ds ++ [d]) = Some o ->
  forall x, hybrid_predict L o x = Some (steps_from L n d0 d x).
Proof.
  cbn [fit_all]. unfold hybrid_fit at 1. cbn [new_hybrid n_single in_parallel models multi_model n_multi app].
  destruct (horizon L d0 <? n) eqn:E0; [discriminate|].
  assert (G1 : forall ds o1 rest, fit_all (hybrid_fit L) o1 ds = Some o -> n_single o1 = n -> in_parallel o1 = false -> models o1 = map (fit_one L d0) (seq 0 n) ++ rest ->
     exists rest', models o = map (fit_one L d0) (seq 0 n) ++ rest').
  { clear. induction ds as [|d ds IH]; intros o1 rest H H1 H2 H3; cbn in H; [injection H as <-; eauto|]. unfold hybrid_fit in H at 1.
    destruct (horizon L d <? n_single o1); [discriminate|]. eapply IH; [exact H|exact H1|exact H2|]. cbn [models]. rewrite H2, H3, <- app_assoc. reflexivity. }
  set (o1 := Hybrid _ _ _ _ _). rewrite fit_all_app. destruct (fit_all _ o1 ds) as [o2|] eqn:E; [|discriminate]. intros H x.
  pose proof (fit_keeps_setup _ _ _ _ E) as [K1 K2]. cbn in K1, K2.
  destruct (G1 (ds ++ [d]) o1 []) as [rest R]; [rewrite fit_all_app, E; exact H|reflexivity|reflexivity|cbn; now rewrite app_nil_r|].
  cbn [fit_all] in H. unfold hybrid_fit in H. rewrite K1, K2 in H. destruct (horizon L d <? n) eqn:Eh; [discriminate|]. apply Nat.ltb_ge in Eh. injection H as <-.
  cbn [models] in R. rewrite R. now apply predict_steps_from.
Qed.

(** The indicator of the multi-step training rows. *)
Lemma multi_rows_aligned {X Y} n k idx (x : nat -> X) (y : nat -> nat -> Y) z j v : In ((z, j), v) (multi_rows n k idx x y) <->
  j < k /\ exists r, In r (idx j) /\ z = x r /\ v = y r (n + j).
Proof.
  unfold multi_rows. rewrite in_flat_map. split.
  - intros (j' & Hj & H). apply in_seq in Hj. apply in_map_iff in H. destruct H as (r & [= <- <- <-] & Hr). split; [lia|eauto].
  - intros (Hj & r & Hr & -> & ->). exists j. split; [apply in_seq; lia|]. apply in_map_iff. eauto.
Qed.

(** ** LGBForecaster *)
Lemma lgb_first {D M G X V} (L : learners D M G X V) d : exists ms, lgb_fit L [] d = Some ms /\
  forall x, lgb_predict L ms x = map (fun k => one_at L (fit_one L d k) k x) (seq 0 (horizon L d)).
Proof.
  unfold lgb_fit. cbn [app]. rewrite map_length, seq_length, Nat.eqb_refl. eexists. split; [reflexivity|]. intros x. unfold lgb_predict. rewrite map_length, seq_length.
  generalize (horizon L d). generalize 0. intros k n. revert k. induction n as [|n IH]; intros k; [reflexivity|]. cbn. now rewrite IH.
Qed.
Lemma lgb_refit {D M G X V} (L : learners D M G X V) ms d d' : 0 < horizon L d -> lgb_fit L [] d = Some ms -> lgb_fit L ms d' = None.
Proof.
  intros H. unfold lgb_fit at 1. cbn [app]. rewrite map_length, seq_length, Nat.eqb_refl. intros [= <-]. unfold lgb_fit. rewrite app_length, !map_length, !seq_length.
  replace (horizon L d + horizon L d' =? horizon L d') with false; [reflexivity|]. symmetry. apply Nat.eqb_neq. lia.
Qed.

(** ** LGBEnergyAware *)
Lemma energy_parallel {D M G X V} (L : learners D M G X V) energy o d d' o' : in_parallel o = true -> energy_fit L energy o d d' = Some o' ->
  models o' = map (fit_one L d') (seq 0 (n_single o)).
Proof.
  intros Hp. unfold energy_fit, hybrid_fit. cbn [n_single in_parallel models multi_model n_multi]. rewrite Hp. destruct (horizon L d' <? n_single o); [discriminate|]. now intros [= <-].
Qed.
Lemma energy_serial {D M G X V} (L : learners D M G X V) energy n d d' o' : energy_fit L energy (new_hybrid n false) d d' = Some o' ->
  exists ms rest, models o' = ms ++ rest /\ length ms = n /\ forall i m, nth_error ms i = Some m -> m = energy d (firstn i ms) i.
Proof.
  unfold energy_fit, hybrid_fit. cbn [new_hybrid n_single in_parallel models multi_model n_multi]. destruct (horizon L d' <? n); [discriminate|]. intros [= <-]. cbn [models].
  eexists; eexists. split; [reflexivity|].
  assert (G1 : forall k, let ms := fold_left (fun ms i => ms ++ [energy d (firstn i ms) i]) (seq 0 k) [] in
    length ms = k /\ forall i m, nth_error ms i = Some m -> m = energy d (firstn i ms) i); [|apply G1].
  intros k. cbn zeta. induction k as [|k [IH1 IH2]]; [split; [reflexivity|intros [|i] m; discriminate]|].
  rewrite seq_S, fold_left_app. cbn [fold_left Nat.add]. set (ms := fold_left _ _ _) in *. split; [rewrite app_length, IH1; cbn; lia|].
  intros i m Hi. assert (Hl : i < length (ms ++ [energy d (firstn k ms) k])) by (apply nth_error_Some; congruence). rewrite app_length, IH1 in Hl. cbn [length] in Hl.
  rewrite firstn_app. replace (i - length ms) with 0 by lia. cbn [firstn]. rewrite app_nil_r.
  destruct (Nat.eq_dec i k) as [->|N].
  - rewrite nth_error_app2 in Hi by lia. rewrite IH1, Nat.sub_diag in Hi. cbn in Hi. now injection Hi as <-.
  - rewrite nth_error_app1 in Hi by lia. now apply IH2.
Qed.

(** ** Shapes of QRF *)
Lemma third_sum a b n l : fold_right Nat.add 0 (map (fun s => nth 2 s 0) (repeat [a; b; 1] n ++ l)) = n + fold_right Nat.add 0 (map (fun s => nth 2 s 0) l).
Proof. induction n as [|n IH]; [reflexivity|]. cbn [repeat app map fold_right]. rewrite IH. reflexivity. Qed.
Lemma dstack_repeat a b n extra : dstack (repeat [a; b; 1] (S n) ++ [[a; b; extra]]) = Some [a; b; S n + extra].
Proof.
  pose proof (third_sum a b (S n) [[a; b; extra]]) as T. cbn [repeat app] in *. unfold dstack. rewrite T. replace (forallb _ _) with true.
  - do 4 f_equal. cbn. lia.
  - symmetry. rewrite forallb_app. cbn. rewrite !Nat.eqb_refl. cbn. rewrite andb_true_r. apply forallb_forall. intros s Hs. apply repeat_spec in Hs. subst s. now rewrite !Nat.eqb_refl.
Qed.
Lemma dstack_repeat0 a b n : dstack (repeat [a; b; 1] (S n)) = Some [a; b; S n].
Proof.
  pose proof (third_sum a b (S n) []) as T. rewrite app_nil_r in T. cbn [repeat app] in *. unfold dstack. rewrite T. replace (forallb _ _) with true.
  - do 4 f_equal. cbn. lia.
  - symmetry. apply forallb_forall. intros s Hs. apply repeat_spec in Hs. subst s. now rewrite !Nat.eqb_refl.
Qed.
Lemma dstack_mean rows n k : 0 < n + k -> dstack (repeat (as_3d (single_shape rows None)) n ++ (if 0 <? k then [multi_shape rows k None] else [])) = Some [rows; 1; n + k].
Proof.
  intros H. assert (M : multi_shape rows k None = [rows; 1; k]). { unfold multi_shape, forest_shape. destruct (k =? 1) eqn:E; [apply Nat.eqb_eq in E; now subst|reflexivity]. }
  rewrite M. cbn [single_shape forest_shape Nat.eqb app as_3d]. destruct k as [|k]; cbn [Nat.ltb Nat.leb].
  - rewrite app_nil_r, Nat.add_0_r. destruct n as [|n]; [lia|]. apply dstack_repeat0.
  - destruct n as [|n]; [cbn; do 4 f_equal; lia|]. apply dstack_repeat.
Qed.
Lemma qrf_mean_shape rows n k : 0 < rows -> 0 < n + k ->
  qrf_shape rows n k None = if (1 <? rows) && (n + k =? 1) then None else Some [rows; n + k].
Proof.
  intros Hr Hk. unfold qrf_shape. rewrite dstack_mean by exact Hk. unfold squeeze. cbn [filter Nat.eqb negb].
  destruct (rows =? 1) eqn:Er; [apply Nat.eqb_eq in Er; subst rows; cbn [Nat.ltb Nat.leb negb andb]|];
  destruct (n + k =? 1) eqn:Ek; cbn [negb].
  - apply Nat.eqb_eq in Ek. rewrite Ek. reflexivity.
  - cbn [atleast_2d]. rewrite Nat.eqb_refl, Nat.mul_1_r, Nat.eqb_refl. reflexivity.
  - apply Nat.eqb_eq in Ek. apply Nat.eqb_neq in Er. cbn [atleast_2d]. replace (1 <? rows) with true by (symmetry; apply Nat.ltb_lt; lia).
    replace (1 =? rows) with false by (symmetry; apply Nat.eqb_neq; lia). reflexivity.
  - cbn [atleast_2d]. rewrite andb_false_r. rewrite Nat.eqb_refl, Nat.mul_1_r, Nat.eqb_refl. reflexivity.
Qed.
Lemma qrf_quantile_shape rows n k q : 2 <= q -> 0 < n + k ->
  qrf_shape rows n k (Some q) = if (0 <? n) && (k =? 1) then None else Some [rows; (n + k) * q].
Proof.
  intros Hq Hk. unfold qrf_shape. cbn [single_shape forest_shape Nat.eqb app as_3d].
  destruct k as [|[|k]].
  - cbn [Nat.ltb Nat.leb Nat.eqb]. rewrite app_nil_r, Nat.add_0_r, andb_false_r. destruct n as [|n]; [lia|]. rewrite dstack_repeat0. now rewrite !Nat.eqb_refl.
  - cbn [Nat.ltb Nat.leb Nat.eqb multi_shape forest_shape app]. rewrite andb_true_r. destruct n as [|n].
    + cbn [repeat app dstack forallb map nth fold_right]. cbn. rewrite Nat.eqb_refl. replace ((q + 0) * 1 =? q + 0) with true by (symmetry; apply Nat.eqb_eq; lia). cbn [andb]. do 3 f_equal. lia.
    + cbn [repeat app dstack]. replace (forallb _ _) with false; [reflexivity|]. symmetry. rewrite forallb_app. cbn. rewrite Nat.eqb_refl. replace (q =? 1) with false by (symmetry; apply Nat.eqb_neq; lia). cbn. now rewrite andb_false_r.
  - cbn [Nat.ltb Nat.leb]. replace (multi_shape rows (S (S k)) (Some q)) with [rows; q; S (S k)] by reflexivity. rewrite andb_false_r. destruct n as [|n].
    + cbn [repeat app dstack forallb map nth fold_right]. rewrite !Nat.eqb_refl. cbn [andb]. replace (S (S k) + 0) with (0 + S (S k)) by lia. now rewrite Nat.eqb_refl.
    + rewrite dstack_repeat. now rewrite !Nat.eqb_refl.
Qed.

(** ** QRF.quantiles_to_numpy *)
Lemma all_some_total {A B} (f : A -> option B) l : (forall a, In a l -> exists b, f a = Some b) -> exists r, all_some (map f l) = Some r.
Proof.
  induction l as [|a l IH]; intros H; [now exists []|]. destruct (H a (or_introl eq_refl)) as [b Hb]. destruct IH as [r Hr]; [intros; apply H; now right|].
  exists (b :: r). cbn. now rewrite Hb, Hr.
Qed.
Lemma qrf_scrambled (T L A : Type) :
  forall (eqd : forall a b : L, {a = b} + {a <> b}) (targets : list T) (levels : list L) (q : list (list (list A))),
  targets <> [] -> levels <> [] -> NoDup levels -> q <> [] -> Forall (shaped (length targets) (length levels)) q ->
  exists out, qrf_to_numpy eqd (quantiles_to_df targets levels q) = Some out /\ length out = length q /\
  forall i j k d, i < length q -> j < length targets -> k < length levels ->
    nth k (nth j (nth i out []) []) d =
      nth ((k * length targets + j) mod length levels) (nth ((k * length targets + j) / length levels) (nth i q []) []) d.
Proof.
  intros eqd targets levels q Ht Hl Hn Hq Hs. set (nt := length targets) in *. set (nl := length levels) in *.
  assert (0 < nt) by (unfold nt; destruct targets; [congruence|cbn; lia]). assert (0 < nl) by (unfold nl; destruct levels; [congruence|cbn; lia]).
  unfold qrf_to_numpy. cbn [quantiles_to_df qf_columns qf_rows]. rewrite nodup_levels by assumption. fold nl. rewrite map_length.
  replace ((nl =? 0) || (length q =? 0)) with false.
  2:{ symmetry. apply orb_false_iff. split; apply Nat.eqb_neq; [lia|destruct q; [congruence|cbn; lia]]. }
  rewrite map_map.
  set (col := fun (r : list A) t => all_some (map (fun k => nth_error r (k * nt + t)) (seq 0 nl))).
  set (row := fun m : list (list A) => if negb (length (concat m) mod nl =? 0) then None
         else all_some (map (fun t => all_some (map (fun k => nth_error (concat m) (k * (length (concat m) / nl) + t)) (seq 0 nl))) (seq 0 (length (concat m) / nl)))).
  change (exists out, all_some (map row q) = Some out /\ length out = length q /\
    forall i j k d, i < length q -> j < nt -> k < nl -> nth k (nth j (nth i out []) []) d = nth ((k * nt + j) mod nl) (nth ((k * nt + j) / nl) (nth i q []) []) d).
  assert (R : forall m, shaped nt nl m -> row m = all_some (map (col (concat m)) (seq 0 nt)) /\ length (concat m) = nt * nl).
  { intros m [M1 M2]. assert (Lc : length (concat m) = nt * nl). { rewrite <- M1. clear -M2. induction M2 as [|r m Hr _ IH]; [reflexivity|]. cbn [concat length]. rewrite app_length, IH, Hr. lia. }
    split; [|exact Lc]. unfold row. rewrite Lc, Nat.mod_mul, Nat.div_mul by lia. reflexivity. }
  assert (C : forall m t, shaped nt nl m -> t < nt -> exists c, col (concat m) t = Some c).
  { intros m t Hm Hm'. apply all_some_total. intros k Hk. apply in_seq in Hk. destruct (R m Hm) as [_ Lc].
    destruct (nth_error (concat m) (k * nt + t)) eqn:E; [eauto|]. apply nth_error_None in E. nia. }
  assert (X : exists out, all_some (map row q) = Some out).
  { apply all_some_total. intros m Hm. rewrite Forall_forall in Hs. specialize (Hs m Hm). destruct (R m Hs) as [-> _]. apply all_some_total. intros t Htt. apply in_seq in Htt. apply C; [exact Hs|lia]. }
  destruct X as [out X]. exists out. split; [exact X|]. apply all_some_nth in X. destruct X as [XL X]. split; [exact XL|].
  intros i j k d Hi Hj Hk. specialize (X i [] [] Hi). rewrite Forall_forall in Hs. pose proof (Hs (nth i q []) (nth_In _ _ Hi)) as Hm.
  destruct (R _ Hm) as [E Lc]. rewrite E in X. apply all_some_nth in X. destruct X as [YL Y]. rewrite seq_length in Y. specialize (Y j 0 [] Hj). rewrite seq_nth in Y by exact Hj. cbn [Nat.add] in Y.
  apply all_some_nth in Y. destruct Y as [_ Z]. rewrite seq_length in Z. specialize (Z k 0 d Hk). rewrite seq_nth in Z by exact Hk. cbn [Nat.add] in Z.
  apply nth_error_nth with (d := d) in Z. rewrite <- Z. set (c := k * nt + j). destruct Hm as [M1 M2].
  rewrite (Nat.div_mod c nl) at 1 by lia. rewrite (Nat.mul_comm nl). apply concat_nth; [exact M2| |apply Nat.mod_upper_bound; lia].
  rewrite M1. apply Nat.div_lt_upper_bound; [lia|]. unfold c. nia.
Qed.
Lemma qrf_wrong : exists (targets levels : list nat) (q out : list (list (list nat))),
  targets <> [] /\ NoDup levels /\ Forall (shaped (length targets) (length levels)) q /\
  qrf_to_numpy Nat.eq_dec (quantiles_to_df targets levels q) = Some out /\ length (nth 0 out []) = length targets /\ out <> q.
Proof.
  exists [0; 1], [10; 50; 90], [[[1; 2; 3]; [4; 5; 6]]], [[[1; 3; 5]; [2; 4; 6]]]. split; [discriminate|]. split; [repeat constructor; cbn; intuition lia|].
  split; [repeat constructor|]. split; [reflexivity|]. split; [reflexivity|discriminate].
Qed.
(** With one target the values are in place. *)
Lemma qrf_one_target (T L A : Type) :
  forall (eqd : forall a b : L, {a = b} + {a <> b}) (target : T) (levels : list L) (q : list (list (list A))),
  levels <> [] -> NoDup levels -> q <> [] -> Forall (shaped 1 (length levels)) q ->
  exists out, qrf_to_numpy eqd (quantiles_to_df [target] levels q) = Some out /\ length out = length q /\
  forall i k d, i < length q -> k < length levels -> nth k (nth 0 (nth i out []) []) d = nth k (nth 0 (nth i q []) []) d.
Proof.
  intros eqd target levels q Hl Hn Hq Hs. destruct (qrf_scrambled T L A eqd [target] levels q ltac:(discriminate) Hl Hn Hq Hs) as [out [E [Lo H]]].
  exists out. split; [exact E|]. split; [exact Lo|]. intros i k d Hi Hk. rewrite (H i 0 k d Hi ltac:(cbn; lia) Hk). cbn [length].
  replace (k * 1 + 0) with k by lia. now rewrite Nat.mod_small, Nat.div_small by exact Hk.
Qed.
