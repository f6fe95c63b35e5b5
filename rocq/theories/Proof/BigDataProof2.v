From Coq Require Import List ZArith Bool Arith Lia Reals Lra.
From Flocq Require Import Core Relative.
From Verif Require Import Model.BigData Model.BigDataFloat Spec.BigDataSpec Spec.BigDataFloatSpec Proof.SeriesProof Proof.BigDataProof.
Import ListNotations.
Local Close Scope R_scope. Local Open Scope nat_scope.

Lemma nth_map_in {A B} (f : A -> B) l i d d' : i < length l -> nth i (map f l) d = f (nth i l d').
Proof. intros H. rewrite (nth_indep _ _ (f d')) by now rewrite map_length. apply map_nth. Qed.

Lemma chunk_concat {V} c (m : list (list V)) : Forall (fun r => length r = c) m -> chunk (length m) c (concat m) = m.
Proof.
  induction 1 as [|r m Hr _ IH]; [reflexivity|]. cbn [length concat chunk].
  rewrite firstn_app, skipn_app. rewrite Hr, Nat.sub_diag. cbn [firstn skipn]. rewrite app_nil_r.
  rewrite (firstn_all2 r), (skipn_all2 r) by lia. cbn [app]. now rewrite IH.
Qed.
Lemma chunk_length {V} n c (l : list V) : length (chunk n c l) = n.
Proof. revert l. induction n as [|n IH]; intros l; cbn; [reflexivity|]. now rewrite IH. Qed.
Lemma chunk_nth {V} n c (l : list V) i j d : i < n -> j < c -> nth j (nth i (chunk n c l) []) d = nth (i * c + j) l d.
Proof.
  revert l i. induction n as [|n IH]; intros l i Hi Hj; [lia|]. cbn [chunk]. destruct i as [|i]; cbn [nth].
  - now apply nth_firstn.
  - rewrite IH by lia. rewrite nth_skipn. f_equal. lia.
Qed.
Lemma chunk_forall {V} n c (l : list V) : length l = n * c -> Forall (fun r => length r = c) (chunk n c l).
Proof.
  revert l. induction n as [|n IH]; intros l Hl; cbn [chunk]; constructor.
  - rewrite firstn_length. nia.
  - apply IH. rewrite skipn_length. nia.
Qed.
Lemma concat_length_const {V} c (m : list (list V)) : Forall (fun r => length r = c) m -> length (concat m) = length m * c.
Proof. induction 1 as [|r m Hr _ IH]; [reflexivity|]. cbn [concat length]. rewrite app_length, IH. lia. Qed.

(** A frame whose columns are all the pairs of labels in order converts to the expected array. *)
Lemma to_tensor_shape {L1 L2 V} zf (d : V) (f : frame2 L1 L2 V) : f2_lev1 f <> [] -> f2_lev2 f <> [] ->
  f2_cols f = list_prod (f2_lev1 f) (f2_lev2 f) -> rectangular f ->
  to_tensor zf d f = Some (map (fun row => let m := chunk (length (f2_lev1 f)) (length (f2_lev2 f)) row in
                                           if zf then m else swap_axes (length (f2_lev1 f)) (length (f2_lev2 f)) d m) (f2_rows f)).
Proof.
  intros H1 H2 Hc Hr. unfold to_tensor, rectangular in *. rewrite Hc, prod_length in Hr.
  set (n := length (f2_lev1 f)) in *. set (c := length (f2_lev2 f)) in *.
  assert (0 < n) by (unfold n; destruct (f2_lev1 f); [congruence|cbn; lia]).
  assert (0 < c) by (unfold c; destruct (f2_lev2 f); [congruence|cbn; lia]).
  assert (Hnc : 0 < n * c) by nia.
  rewrite (concat_length_const _ _ Hr). rewrite Nat.mod_mul, Nat.div_mul by lia.
  replace (0 <? n * c) with true by (symmetry; now apply Nat.ltb_lt). cbn [andb Nat.eqb].
  now rewrite chunk_concat.
Qed.

Lemma nth_list_prod {A B} (l : list A) (m : list B) i j da db : i < length l -> j < length m ->
  nth (i * length m + j) (list_prod l m) (da, db) = (nth i l da, nth j m db).
Proof.
  revert i. induction l as [|a l IH]; intros i Hi Hj; [cbn in Hi; lia|]. cbn [list_prod].
  destruct i as [|i]; cbn [nth].
  - rewrite app_nth1 by (rewrite map_length; lia). cbn [Nat.mul Nat.add]. rewrite (nth_indep _ _ ((fun y => (a, y)) db)) by (rewrite map_length; lia). now rewrite map_nth.
  - rewrite app_nth2; rewrite map_length; [|lia]. replace (S i * length m + j - length m) with (i * length m + j) by lia.
    apply IH; [cbn in Hi; lia|exact Hj].
Qed.

Lemma to_tensor_values {L1 L2 V} zf (d : V) (f : frame2 L1 L2 V) d1 d2 : f2_lev1 f <> [] -> f2_lev2 f <> [] ->
  f2_cols f = list_prod (f2_lev1 f) (f2_lev2 f) -> rectangular f ->
  exists x, to_tensor zf d f = Some x /\ length x = length (f2_rows f) /\
    forall t i j, t < length (f2_rows f) -> i < length (f2_lev1 f) -> j < length (f2_lev2 f) ->
      value_under f t (nth i (f2_lev1 f) d1, nth j (f2_lev2 f) d2) (if zf then at3 x d t i j else at3 x d t j i).
Proof.
  intros H1 H2 Hc Hr. eexists. split; [now apply to_tensor_shape|]. split; [now rewrite map_length|].
  intros t i j Ht Hi Hj. set (n := length (f2_lev1 f)) in *. set (c := length (f2_lev2 f)) in *.
  exists (i * c + j). unfold c. split.
  - rewrite Hc. rewrite (nth_error_nth' _ (d1, d2)); [now rewrite nth_list_prod|]. rewrite prod_length. fold n c. nia.
  - assert (Hl : length (nth t (f2_rows f) []) = n * c).
    { unfold rectangular in Hr. rewrite Forall_forall in Hr. rewrite Hr by now apply nth_In. now rewrite Hc, prod_length. }
    rewrite (nth_error_nth' _ d) by (rewrite Hl; fold c; nia). f_equal. fold c. unfold at3.
    set (g := fun row => let m := chunk n c row in if zf then m else swap_axes n c d m).
    replace (nth t (map g (f2_rows f)) []) with (g (nth t (f2_rows f) [])).
    2:{ symmetry. rewrite (nth_indep _ _ (g [])) by now rewrite map_length. apply map_nth. }
    unfold g. cbn zeta. destruct zf.
    + symmetry. now apply chunk_nth.
    + unfold swap_axes. rewrite (nth_map_seq (fun j => map (fun i0 => nth j (nth i0 (chunk n c (nth t (f2_rows f) [])) []) d) (seq 0 n))) by exact Hj.
      cbn beta. rewrite (nth_map_seq (fun i0 => nth (0 + j) (nth i0 (chunk n c (nth t (f2_rows f) [])) []) d)) by exact Hi.
      cbn [plus]. symmetry. now apply chunk_nth.
Qed.

Lemma flat_map_length_const {A B} (g : A -> list B) l c : (forall a, In a l -> length (g a) = c) -> length (flat_map g l) = length l * c.
Proof. induction l as [|a l IH]; intros H; [reflexivity|]. cbn [flat_map length]. rewrite app_length, IH, (H a); [lia|now left|intros; apply H; now right]. Qed.

(** Round trip. *)
Lemma tensor_round_trip {L1 L2 V} (x : list (list (list V))) (first : list L1) (second : list L2) (d : V) :
  first <> [] -> second <> [] -> full3 (length first) (length second) x ->
  exists f, from_tensor x (length second) first second d = Some f /\
    f2_cols f = list_prod second first /\ length (f2_rows f) = length x /\
    (forall t i j d1 d2, t < length x -> i < length first -> j < length second ->
      value_under f t (nth j second d2, nth i first d1) (at3 x d t i j)) /\
    to_tensor false d f = Some x.
Proof.
  intros H1 H2 Hx. unfold from_tensor. rewrite Nat.min_id, firstn_all.
  replace (forallb (fun row => length row =? length first) x) with true.
  2:{ symmetry. apply forallb_forall. intros row Hrow. unfold full3 in Hx. rewrite Forall_forall in Hx. now apply Nat.eqb_eq, Hx. }
  eexists. split; [reflexivity|]. cbn [f2_cols f2_rows f2_lev1 f2_lev2]. split; [reflexivity|]. split; [now rewrite map_length|].
  set (g := fun row : list (list V) => flat_map (fun i => map (fun cell => nth i cell d) row) (seq 0 (length second))).
  assert (Hg : forall row, In row x -> length (g row) = length second * length first).
  { intros row Hrow. unfold g. rewrite (flat_map_length_const _ _ (length first)), seq_length; [reflexivity|].
    intros i _. rewrite map_length. unfold full3 in Hx. rewrite Forall_forall in Hx. now apply Hx. }
  assert (Hgn : forall row i j, In row x -> i < length first -> j < length second -> nth (j * length first + i) (g row) d = nth j (nth i row []) d).
  { intros row i j Hrow Hi Hj. unfold full3 in Hx. rewrite Forall_forall in Hx. destruct (Hx row Hrow) as [Hl Hc].
    unfold g. assert (G : forall k s, nth (j * length first + i) (flat_map (fun i => map (fun cell => nth i cell d) row) (seq s k)) d
        = if j <? k then nth (s + j) (nth i row []) d else d).
    { clear - Hl Hi. revert j. intros j k. revert j. induction k as [|k IH]; intros j s; [cbn; now destruct (j * length first + i)|].
      cbn [seq flat_map]. destruct j as [|j].
      - rewrite app_nth1 by (rewrite map_length; lia). cbn [Nat.mul Nat.add Nat.ltb Nat.leb].
        rewrite (nth_map_in (fun cell => nth s cell d) _ _ _ []) by lia. f_equal. lia.
      - rewrite app_nth2; rewrite map_length; [|lia]. replace (S j * length first + i - length row) with (j * length first + i) by lia.
        rewrite IH. change (S j <? S k) with (j <? k). destruct (j <? k); [f_equal; lia|reflexivity]. }
    rewrite G. replace (j <? length second) with true by (symmetry; now apply Nat.ltb_lt). reflexivity. }
  split.
  - intros t i j d1 d2 Ht Hi Hj. exists (j * length first + i). cbn [f2_cols f2_rows]. split.
    + rewrite (nth_error_nth' _ (d2, d1)); [now rewrite nth_list_prod|]. rewrite prod_length. nia.
    + replace (nth t (map g x) []) with (g (nth t x [])).
      2:{ symmetry. rewrite (nth_indep _ _ (g [])) by now rewrite map_length. apply map_nth. }
      assert (Hin : In (nth t x []) x) by now apply nth_In.
      rewrite (nth_error_nth' _ d) by (rewrite Hg by exact Hin; nia). unfold at3. now rewrite Hgn.
  - rewrite to_tensor_shape; cbn [f2_cols f2_rows f2_lev1 f2_lev2]; [|exact H2|exact H1|reflexivity|].
    2:{ unfold rectangular. cbn [f2_rows f2_cols]. rewrite prod_length. apply Forall_forall. intros r Hr. apply in_map_iff in Hr.
        destruct Hr as [row [<- Hrow]]. now apply Hg. }
    f_equal. rewrite map_map. rewrite <- (map_id x) at 2. apply map_ext_in. intros row Hrow. cbn zeta.
    unfold full3 in Hx. rewrite Forall_forall in Hx. destruct (Hx row Hrow) as [Hl Hc]. rewrite Forall_forall in Hc.
    unfold swap_axes. apply (list_eq_nth _ _ []); [rewrite map_length, seq_length; lia|].
    intros i Hi. rewrite map_length, seq_length in Hi.
    rewrite (nth_map_seq (fun i => map (fun j => nth i (nth j (chunk (length second) (length first) (g row)) []) d) (seq 0 (length second)))) by exact Hi.
    cbn [plus]. assert (Hcell : length (nth i row []) = length second) by (apply Hc, nth_In; lia).
    apply (list_eq_nth _ _ d); [rewrite map_length, seq_length; lia|].
    intros j Hj. rewrite map_length, seq_length in Hj.
    rewrite (nth_map_seq (fun j => nth i (nth j (chunk (length second) (length first) (g row)) []) d)) by exact Hj.
    cbn [plus]. rewrite chunk_nth by lia. now apply Hgn.
Qed.

(** After a selection of columns the levels no longer describe the columns and rows get mixed. *)
Lemma selection_mixes_rows : exists (f : frame2 nat nat nat) positions x,
  f2_cols f = list_prod (f2_lev1 f) (f2_lev2 f) /\ rectangular f /\
  to_tensor true 0 (select_columns f (0, 0) 0 positions) = Some x /\ length x <> length (f2_rows f) /\
  (exists v, In v (nth 0 (nth 0 x []) []) /\ In v (nth 0 (f2_rows f) [])) /\ (exists v, In v (nth 1 (nth 0 x []) []) /\ In v (nth 1 (f2_rows f) []) /\ ~ In v (nth 0 (f2_rows f) [])).
Proof.
  exists (Frame2 [0; 1] [0; 1] (list_prod [0; 1] [0; 1]) [[11; 12; 13; 14]; [21; 22; 23; 24]]), [0; 1], [[[11; 12]; [21; 22]]].
  cbn. split; [reflexivity|]. split; [repeat constructor|]. split; [reflexivity|]. split; [lia|]. split.
  - exists 11. cbn. tauto.
  - exists 21. cbn. repeat split; [tauto|tauto|]. intros H. repeat (destruct H as [H|H]; [discriminate|]). exact H.
Qed.

(** ** Floats *)
Local Open Scope R_scope.
Local Instance prec24 : Prec_gt_0 24 := eq_refl.
Lemma known_in s x : In x (known s) <-> In (Some x) s.
Proof.
  unfold known. rewrite in_flat_map. split.
  - intros [[y|] [H1 H2]]; cbn in H2; [destruct H2 as [->|[]]; exact H1|tauto].
  - intros H. exists (Some x). split; [exact H|now left].
Qed.
Lemma reduce_floats_cases s : reduce_floats s = map (option_map to_float32) s \/ reduce_floats s = s.
Proof.
  unfold reduce_floats. destruct (known s); [now right|]. destruct (Rlt_dec _ _); [|now right]. destruct (Rlt_dec _ _); [now left|now right].
Qed.

Lemma float32_error x : / 2 ^ 126 <= Rabs x -> Rabs (to_float32 x - x) <= / 2 ^ 24 * Rabs x.
Proof.
  intros H. unfold to_float32.
  pose proof (relative_error_N_FLT radix2 (-149) 24 ltac:(lia) (fun z => negb (Z.even z)) x) as G.
  replace (/ 2 ^ 24) with (/ 2 * bpow radix2 (- (24) + 1)).
  - apply G. replace (bpow radix2 (-149 + 24 - 1)) with (/ 2 ^ 126); [exact H|].
    change (-149 + 24 - 1)%Z with (- (126))%Z. rewrite bpow_opp. f_equal. rewrite <- IZR_Zpower by lia. now rewrite pow_IZR.
  - change (- (24) + 1)%Z with (- (23))%Z. rewrite bpow_opp. rewrite <- IZR_Zpower by lia.
    change (Zpower radix2 23) with 8388608%Z. rewrite pow_IZR. change (2 ^ Z.of_nat 24)%Z with 16777216%Z. lra.
Qed.
Lemma float32_mono x y : x <= y -> to_float32 x <= to_float32 y.
Proof. intros H. unfold to_float32. apply round_le; [typeclasses eauto|typeclasses eauto|exact H]. Qed.
Lemma float32_idem x : to_float32 (to_float32 x) = to_float32 x.
Proof. unfold to_float32. apply round_generic; [typeclasses eauto|]. apply generic_format_round; typeclasses eauto. Qed.
Lemma float32_int (z : Z) : (- 2 ^ 24 <= z <= 2 ^ 24)%Z -> to_float32 (IZR z) = IZR z.
Proof.
  intros H. unfold to_float32. apply round_generic; [typeclasses eauto|].
  destruct (Z.eq_dec (Z.abs z) (2 ^ 24)) as [E|E].
  - assert (G : generic_format radix2 (FLT_exp (-149) 24) (IZR (2 ^ 24))).
    { apply generic_format_FLT. exists (Float radix2 1 24); [|cbn; lia|cbn; lia]. unfold F2R. cbn. lra. }
    destruct (Z.abs_spec z) as [[_ Hz]|[_ Hz]]; rewrite Hz in E; [now rewrite E|].
    replace z with (- (2 ^ 24))%Z by lia. rewrite opp_IZR. now apply generic_format_opp.
  - apply generic_format_FLT. exists (Float radix2 z 0); [|cbn [Fnum]; change (Zpower radix2 24) with (2 ^ 24)%Z; lia|cbn; lia].
    unfold F2R. cbn. lra.
Qed.

Lemma float32_collapse : to_float32 16777216 = to_float32 16777217.
Proof.
  rewrite float32_int by lia. symmetry. unfold to_float32, round, scaled_mantissa, cexp.
  replace (mag radix2 16777217) with (mag radix2 16777217). 
  assert (M : mag radix2 16777217 = 25%Z :> Z).
  { apply mag_unique. rewrite Rabs_pos_eq by lra. change (25 - 1)%Z with 24%Z. rewrite <- !IZR_Zpower by lia.
    change (Zpower radix2 24) with 16777216%Z. change (Zpower radix2 25) with 33554432%Z. lra. }
  rewrite M. change (FLT_exp (-149) 24 25) with 1%Z. cbn [Z.opp].
  replace (16777217 * bpow radix2 (-1)) with (8388608 + / 2) by (cbn; lra).
  replace (ZnearestE (8388608 + / 2)) with 8388608%Z; [unfold F2R; cbn; lra|].
  unfold Znearest. assert (F : Zfloor (8388608 + / 2) = 8388608%Z) by (apply Zfloor_imp; cbn; lra).
  rewrite F. replace (8388608 + / 2 - 8388608) with (/ 2) by lra. rewrite Rcompare_Eq by reflexivity. reflexivity.
  reflexivity.
Qed.

Lemma reduce_floats_spec s : length (reduce_floats s) = length s /\
  (forall i, (i < length s)%nat -> (nth i (reduce_floats s) None = None <-> nth i s None = None)) /\
  (forall i x y, nth i s None = Some x -> nth i (reduce_floats s) None = Some y -> single_error x y) /\
  (forall i (z : Z), (- 2 ^ 24 <= z <= 2 ^ 24)%Z -> nth i s None = Some (IZR z) -> nth i (reduce_floats s) None = Some (IZR z)) /\
  (forall i j x y x' y', nth i s None = Some x -> nth j s None = Some y ->
     nth i (reduce_floats s) None = Some x' -> nth j (reduce_floats s) None = Some y' -> x <= y -> x' <= y').
Proof.
  destruct (reduce_floats_cases s) as [-> | ->].
  - assert (G : forall i, nth i (map (option_map to_float32) s) None = option_map to_float32 (nth i s None))
      by (intros i; exact (map_nth (option_map to_float32) s None i)).
    split; [apply map_length|]. split; [|split; [|split]].
    + intros i Hi. rewrite G. destruct (nth i s None); cbn; split; congruence.
    + intros i x y Hx Hy. rewrite G, Hx in Hy. injection Hy as <-. exact (float32_error x).
    + intros i z Hz Hi. rewrite G, Hi. cbn. now rewrite float32_int.
    + intros i j x y x' y' Hx Hy Hx' Hy' H. rewrite G in Hx', Hy'. rewrite Hx in Hx'. rewrite Hy in Hy'.
      injection Hx' as <-. injection Hy' as <-. now apply float32_mono.
  - split; [reflexivity|]. split; [reflexivity|]. split; [|split].
    + intros i x y Hx Hy. rewrite Hx in Hy. injection Hy as <-. intros _. rewrite Rminus_diag_eq by reflexivity. rewrite Rabs_R0.
      pose proof (Rabs_pos x). assert (0 < / 2 ^ 24) by (apply Rinv_0_lt_compat; lra). nra.
    + auto.
    + intros i j x y x' y' Hx Hy Hx' Hy' H. congruence.
Qed.

Lemma reduce_floats_collapse : exists s i j x y, nth i s None = Some x /\ nth j s None = Some y /\ x <> y /\
  nth i (reduce_floats s) None = nth j (reduce_floats s) None.
Proof.
  exists [Some 16777216; Some 16777217], 0%nat, 1%nat, 16777216, 16777217. cbn [nth]. split; [reflexivity|]. split; [reflexivity|]. split; [lra|].
  unfold reduce_floats. cbn [known flat_map app fold_left].
  assert (1 < 2 - / 2 ^ 23) by lra.
  assert (HM : 33554432 < float32_max).
  { unfold float32_max. assert (2 ^ 26 <= 2 ^ 127) by (apply Rle_pow; [lra|lia]).
    apply Rlt_le_trans with (1 * 2 ^ 26); [lra|]. apply Rmult_le_compat; lra. }
  destruct (Rlt_dec _ _) as [H1|H1].
  - destruct (Rlt_dec _ _) as [H2|H2]; [cbn; now rewrite float32_collapse|]. exfalso. apply H2. unfold Rmax. destruct (Rle_dec _ _); lra.
  - exfalso. apply H1. unfold Rmin. destruct (Rle_dec _ _); lra.
Qed.

(** Columns beyond the single range keep their values. *)
Lemma reduce_floats_large s x : In (Some x) s -> float32_max <= Rabs x -> reduce_floats s = s.
Proof.
  intros Hx Hb. apply known_in in Hx. unfold reduce_floats. destruct (known s) as [|a l]; [reflexivity|].
  assert (G1 : forall l a, fold_left Rmin l a <= a /\ forall v, In v l -> fold_left Rmin l a <= v).
  { clear. induction l as [|b l IH]; intros a; cbn [fold_left]; [split; [lra|easy]|]. destruct (IH (Rmin a b)) as [H1 H2].
    pose proof (Rmin_l a b). pose proof (Rmin_r a b). split; [lra|]. intros v [->|H3]; [lra|now apply H2]. }
  assert (G2 : forall l a, a <= fold_left Rmax l a /\ forall v, In v l -> v <= fold_left Rmax l a).
  { clear. induction l as [|b l IH]; intros a; cbn [fold_left]; [split; [lra|easy]|]. destruct (IH (Rmax a b)) as [H1 H2].
    pose proof (Rmax_l a b). pose proof (Rmax_r a b). split; [lra|]. intros v [->|H3]; [lra|now apply H2]. }
  destruct (G1 l a) as [L1 L2]. destruct (G2 l a) as [U1 U2].
  destruct (Rlt_dec _ _) as [H1|H1]; [|reflexivity]. destruct (Rlt_dec _ _) as [H2|H2]; [|reflexivity]. exfalso.
  assert (fold_left Rmin l a <= x) by (destruct Hx as [->|Hx]; [exact L1|now apply L2]).
  assert (x <= fold_left Rmax l a) by (destruct Hx as [->|Hx]; [exact U1|now apply U2]).
  unfold Rabs in Hb. destruct (Rcase_abs x); lra.
Qed.
