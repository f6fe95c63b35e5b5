From Coq Require Import List ZArith Bool Arith Lia.
From Verif Require Import Model.BigData Spec.BigDataSpec Proof.SeriesProof.
Import ListNotations.

Lemma firstn_plus {A} a b (l : list A) : firstn (a + b) l = firstn a l ++ firstn b (skipn a l).
Proof. revert l. induction a as [|a IH]; intros [|x l]; cbn; [reflexivity|reflexivity|now rewrite firstn_nil|]. now rewrite IH. Qed.

Lemma pieces_prefix {A} points (l : list A) m :
  nth 0 points 0 = 0 -> (forall i, i < m -> nth i points 0 <= nth (S i) points 0) ->
  concat (map (fun s => firstn (nth (S s) points 0 - nth s points 0) (skipn (nth s points 0) l)) (seq 0 m)) = firstn (nth m points 0) l.
Proof.
  intros H0. induction m as [|m IH]; intros Hm; [now rewrite H0|].
  rewrite seq_S, map_app, concat_app. cbn [map concat plus]. rewrite app_nil_r.
  rewrite IH by (intros i Hi; apply Hm; lia).
  pose proof (Hm m (Nat.lt_succ_diag_r m)) as H.
  rewrite <- firstn_plus. f_equal. lia.
Qed.

Lemma split_any_points {A} (points : list nat) (l : list A) : cuts points (length l) ->
  concat (pieces points l) = l /\ length (pieces points l) = length points - 1.
Proof.
  intros (H1 & H2 & H3 & H4). unfold pieces. split; [|now rewrite map_length, seq_length].
  rewrite pieces_prefix; [|exact H2|intros i Hi; apply H4; lia]. rewrite H3. apply firstn_all.
Qed.

Lemma nth_points n k i : i <= k -> nth i (split_points n k) 0 = i * n / k.
Proof. intros H. unfold split_points. rewrite (nth_map_seq (fun i => i * n / k)); [reflexivity|lia]. Qed.

Lemma points_cuts n k : 0 < k -> cuts (split_points n k) n.
Proof.
  intros Hk. unfold cuts. assert (L : length (split_points n k) = S k) by (unfold split_points; now rewrite map_length, seq_length).
  rewrite L. split; [lia|]. split; [rewrite nth_points by lia; now apply Nat.div_0_l; lia|].
  replace (S k - 1) with k by lia. split; [rewrite nth_points by lia; rewrite Nat.mul_comm; apply Nat.div_mul; lia|].
  intros i Hi. rewrite !nth_points by lia. apply Nat.div_le_mono; [lia|nia].
Qed.

Lemma array_split_partition {A} (l : list A) k : 0 < k ->
  concat (array_split l k) = l /\ length (array_split l k) = k /\
  (forall p, In p (array_split l k) -> length p = length l / k \/ length p = S (length l / k)) /\
  (forall p, In p (array_split l k) -> (Nat.divide k (length l) -> length p = length l / k)).
Proof.
  intros Hk. pose proof (points_cuts (length l) k Hk) as Hc.
  assert (L : length (split_points (length l) k) = S k) by (unfold split_points; now rewrite map_length, seq_length).
  destruct (split_any_points _ l Hc) as [H1 H2]. unfold array_split. split; [exact H1|]. split; [rewrite H2, L; lia|].
  assert (P : forall p, In p (pieces (split_points (length l) k) l) -> exists s, s < k /\ length p = S s * length l / k - s * length l / k).
  { intros p Hp. unfold pieces in Hp. apply in_map_iff in Hp. destruct Hp as [s [<- Hs]]. apply in_seq in Hs. rewrite L in Hs.
    exists s. split; [lia|]. rewrite firstn_length, skipn_length, !nth_points by lia.
    assert (S s * length l / k <= length l). { apply Nat.div_le_upper_bound; nia. }
    lia. }
  split.
  - intros p Hp. destruct (P p Hp) as [s [Hs ->]]. clear - Hk.
    set (n := length l). clearbody n.
    pose proof (Nat.div_mod n k ltac:(lia)). pose proof (Nat.mod_upper_bound n k ltac:(lia)).
    pose proof (Nat.div_mod (s * n) k ltac:(lia)). pose proof (Nat.mod_upper_bound (s * n) k ltac:(lia)).
    pose proof (Nat.div_mod (S s * n) k ltac:(lia)). pose proof (Nat.mod_upper_bound (S s * n) k ltac:(lia)).
    set (a := n / k) in *. set (b := s * n / k) in *. set (c := S s * n / k) in *.
    set (ra := n mod k) in *. set (rb := (s * n) mod k) in *. set (rc := (S s * n) mod k) in *. clearbody a b c ra rb rc.
    assert (k * c + rc = k * b + rb + k * a + ra) by nia.
    assert (c = b + a \/ c = b + a + 1) by nia. lia.
  - intros p Hp [q Hq]. destruct (P p Hp) as [s [Hs ->]]. rewrite Hq.
    replace (S s * (q * k)) with ((S s * q) * k) by ring. replace (s * (q * k)) with ((s * q) * k) by ring.
    rewrite !Nat.div_mul by lia. nia.
Qed.

(** ** Parallel application *)
Lemma set_nth_slot {B} (slots : list (option B)) i v j : i < length slots ->
  nth j (firstn i slots ++ v :: skipn (S i) slots) None = if j =? i then v else nth j slots None.
Proof.
  intros Hi. destruct (j =? i) eqn:E.
  - apply Nat.eqb_eq in E. subst. rewrite app_nth2; rewrite firstn_length_le by lia; [now rewrite Nat.sub_diag|lia].
  - apply Nat.eqb_neq in E. destruct (Nat.lt_ge_cases j i) as [H|H].
    + rewrite app_nth1 by (rewrite firstn_length_le by lia; exact H). now apply nth_firstn.
    + rewrite app_nth2; rewrite firstn_length_le by lia; [|lia].
      destruct (j - i) as [|d] eqn:D; [lia|]. cbn [nth]. rewrite nth_skipn. f_equal. lia.
Qed.

Lemma run_tasks_state {A B} (f : A -> B) tasks order : 
  let r := run_tasks f tasks order in
  length r = length tasks /\
  forall i, nth i r None = if existsb (Nat.eqb i) order then option_map f (nth_error tasks i) else None.
Proof.
  cbn zeta. unfold run_tasks.
  enough (G : forall slots, length slots = length tasks ->
    let r := fold_left (fun slots i => match nth_error tasks i with
                            | Some a => firstn i slots ++ Some (f a) :: skipn (S i) slots
                            | None => slots end) order slots in
    length r = length tasks /\ forall i, nth i r None = if existsb (Nat.eqb i) order then option_map f (nth_error tasks i) else nth i slots None).
  { destruct (G (repeat None (length tasks)) (repeat_length _ _)) as [H1 H2]. split; [exact H1|]. intros i. rewrite H2.
    destruct (existsb (Nat.eqb i) order); [reflexivity|]. apply nth_repeat. }
  induction order as [|o order IH]; intros slots L; cbn [fold_left existsb]; [split; [exact L|reflexivity]|].
  destruct (nth_error tasks o) as [a|] eqn:E.
  - assert (Ho : o < length slots) by (rewrite L; apply nth_error_Some; congruence).
    destruct (IH (firstn o slots ++ Some (f a) :: skipn (S o) slots)) as [H1 H2].
    { rewrite app_length, firstn_length_le by lia. cbn [length]. rewrite skipn_length. lia. }
    split; [exact H1|]. intros i. rewrite H2, set_nth_slot by exact Ho.
    destruct (i =? o) eqn:Ei; cbn [orb]; [|reflexivity]. apply Nat.eqb_eq in Ei. subst. rewrite E. cbn. now destruct (existsb _ _).
  - destruct (IH slots L) as [H1 H2]. split; [exact H1|]. intros i. rewrite H2.
    destruct (i =? o) eqn:Ei; cbn [orb]; [|reflexivity]. apply Nat.eqb_eq in Ei. subst. rewrite E. cbn.
    assert (length slots <= o) by (rewrite L; now apply nth_error_None). rewrite (nth_overflow slots) by assumption. now destruct (existsb _ _).
Qed.

Lemma run_tasks_all {A B} (f : A -> B) tasks order : schedule (length tasks) order ->
  run_tasks f tasks order = map (fun a => Some (f a)) tasks.
Proof.
  intros Hs. destruct (run_tasks_state f tasks order) as [H1 H2].
  apply (list_eq_nth _ _ None); [now rewrite map_length|]. intros i Hi. rewrite H2.
  rewrite H1 in Hi. replace (existsb (Nat.eqb i) order) with true.
  2:{ symmetry. apply existsb_exists. exists i. split; [now apply Hs|apply Nat.eqb_refl]. }
  destruct (nth_error tasks i) as [a|] eqn:E; [|apply nth_error_None in E; lia]. cbn.
  symmetry. apply nth_error_nth. now apply (map_nth_error (fun a => Some (f a))) in E.
Qed.

Lemma gather_map {A B} (f : A -> B) l : gather (map (fun a => Some (f a)) l) = Some (map f l).
Proof. induction l as [|a l IH]; cbn; [reflexivity|]. now rewrite IH. Qed.

Lemma parallel_in_order {A B} (f : list A -> list B) ps order : schedule (length ps) order ->
  fdf_ray f ps order = Some (concat (map f ps)).
Proof. intros H. unfold fdf_ray. rewrite run_tasks_all by exact H. now rewrite gather_map. Qed.

Lemma parallel_pair_in_order {A B C} (f : list A -> list B * list C) ps order : schedule (length ps) order ->
  fdf_ray_pair f ps order = Some (concat (map (fun p => fst (f p)) ps), concat (map (fun p => snd (f p)) ps)).
Proof. intros H. unfold fdf_ray_pair. rewrite run_tasks_all by exact H. rewrite gather_map. cbn. now rewrite !map_map. Qed.

Lemma slicewise_nil {A B} (f : list A -> list B) : slicewise f -> f [] = [].
Proof. intros H. specialize (H [] []). cbn in H. destruct (f []) as [|b l]; [reflexivity|]. apply (f_equal (@length B)) in H. rewrite app_length in H. cbn in H. lia. Qed.

Lemma slicewise_concat {A B} (f : list A -> list B) ps : slicewise f -> concat (map f ps) = f (concat ps).
Proof. intros H. induction ps as [|p ps IH]; cbn; [now rewrite slicewise_nil|]. now rewrite H, IH. Qed.

Lemma make_pieces_concat {A} (l : list A) n_cols n_splits : 0 < n_splits -> concat (make_pieces l n_cols n_splits) = l.
Proof.
  intros H. unfold make_pieces. destruct (n_splits <? n_cols); [|cbn; apply app_nil_r]. now apply array_split_partition.
Qed.

Lemma parallel_slicewise {A B} (f : list A -> list B) l n_cols n_splits order : 0 < n_splits -> slicewise f ->
  schedule (length (make_pieces l n_cols n_splits)) order ->
  fdf_ray f (make_pieces l n_cols n_splits) order = Some (f l).
Proof.
  intros Hn Hf Hs. rewrite parallel_in_order by exact Hs. now rewrite slicewise_concat, make_pieces_concat.
Qed.

Lemma parallel_loses_task {A B} (f : list A -> list B) ps order i : i < length ps -> ~ In i order ->
  fdf_ray f ps order = None.
Proof.
  intros Hi Hn. unfold fdf_ray. destruct (run_tasks_state f ps order) as [H1 H2].
  assert (G : forall (l : list (option (list B))) j, j < length l -> nth j l None = None -> gather l = None).
  { induction l as [|[b|] l IH]; intros j Hj Hl; cbn in *; [lia| |reflexivity]. destruct j as [|j]; [discriminate|].
    rewrite (IH j); [reflexivity|lia|exact Hl]. }
  rewrite (G _ i); [reflexivity|lia|]. rewrite H2. destruct (existsb (Nat.eqb i) order) eqn:E; [|reflexivity].
  apply existsb_exists in E. destruct E as [x [Hx Ex]]. apply Nat.eqb_eq in Ex. now subst.
Qed.

Lemma numpy_first_piece {A B} (f : list A -> list B) p ps : fdf_numpy f (p :: ps) = f p.
Proof. unfold fdf_numpy. cbn. apply app_nil_r. Qed.

Lemma numpy_loses {A} (l : list A) n_cols n_splits : 1 < n_splits < n_cols -> l <> [] ->
  length (fdf_numpy (fun x => x) (make_pieces l n_cols n_splits)) < length l.
Proof.
  intros Hn Hl. unfold make_pieces. replace (n_splits <? n_cols) with true by (symmetry; apply Nat.ltb_lt; lia).
  destruct (array_split_partition l n_splits ltac:(lia)) as (H1 & H2 & H3 & H4).
  destruct (array_split l n_splits) as [|p ps] eqn:E; [cbn in H2; lia|]. rewrite numpy_first_piece.
  assert (Hp : length p = length l / n_splits).
  { assert (p = hd [] (array_split l n_splits)) by now rewrite E. rewrite H. unfold array_split, pieces.
    replace (length (split_points (length l) n_splits) - 1) with (S (n_splits - 1)) by (unfold split_points; rewrite map_length, seq_length; lia).
    cbn [seq map hd]. rewrite firstn_length, skipn_length, !nth_points by lia. rewrite Nat.mul_0_l, Nat.div_0_l, Nat.mul_1_l by lia.
    assert (length l / n_splits <= length l) by (apply Nat.div_le_upper_bound; nia).
    rewrite Nat.sub_0_r, Nat.sub_0_r. now apply Nat.min_l. }
  rewrite Hp. apply Nat.div_lt; [|lia]. destruct l; [congruence|cbn; lia].
Qed.

(** ** Memory reduction *)
Open Scope Z_scope.
Lemma min_z_spec l lo : minimum_z l = Some lo -> forall v, In v l -> lo <= v.
Proof.
  destruct l as [|a l]; [discriminate|]. intros [= <-] v Hv.
  assert (G : forall l a, fold_left Z.min l a <= a /\ forall v, In v l -> fold_left Z.min l a <= v).
  { clear. induction l as [|b l IH]; intros a; cbn [fold_left]; [split; [lia|easy]|].
    destruct (IH (Z.min a b)) as [H1 H2]. split; [lia|]. intros v [->|H]; [lia|now apply H2]. }
  destruct (G l a) as [H1 H2]. destruct Hv as [->|Hv]; [exact H1|now apply H2].
Qed.
Lemma max_z_spec l hi : maximum_z l = Some hi -> forall v, In v l -> v <= hi.
Proof.
  destruct l as [|a l]; [discriminate|]. intros [= <-] v Hv.
  assert (G : forall l a, a <= fold_left Z.max l a /\ forall v, In v l -> v <= fold_left Z.max l a).
  { clear. induction l as [|b l IH]; intros a; cbn [fold_left]; [split; [lia|easy]|].
    destruct (IH (Z.max a b)) as [H1 H2]. split; [lia|]. intros v [->|H]; [lia|now apply H2]. }
  destruct (G l a) as [H1 H2]. destruct Hv as [->|Hv]; [exact H1|now apply H2].
Qed.
Lemma min_z_in l lo : minimum_z l = Some lo -> In lo l.
Proof.
  destruct l as [|a l]; [discriminate|]. intros [= <-].
  revert a. induction l as [|b l IH]; intros a; cbn [fold_left]; [now left|].
  destruct (Z.min_spec a b) as [[_ ->]|[_ ->]]; [destruct (IH a); [now left|right; now right]|right; apply IH].
Qed.
Lemma max_z_in l hi : maximum_z l = Some hi -> In hi l.
Proof.
  destruct l as [|a l]; [discriminate|]. intros [= <-].
  revert a. induction l as [|b l IH]; intros a; cbn [fold_left]; [now left|].
  destruct (Z.max_spec a b) as [[_ ->]|[_ ->]]; [right; apply IH|destruct (IH a); [now left|right; now right]].
Qed.

Lemma wrap_id bits v : 0 < bits -> holds bits v -> wrap bits v = v.
Proof.
  intros Hb [H1 H2]. unfold wrap, int_min.
  assert (2 ^ bits = 2 * 2 ^ (bits - 1)). { rewrite <- Z.pow_succ_r by lia. f_equal. lia. }
  rewrite Z.mod_small by lia. lia.
Qed.

Lemma fits_strict bits s : fits bits (minimum_z s) (maximum_z s) = true -> forall v, In v s -> int_min bits < v < int_max bits.
Proof.
  unfold fits. destruct (minimum_z s) as [lo|] eqn:E1; [|discriminate]. destruct (maximum_z s) as [hi|] eqn:E2; [|discriminate].
  intros H v Hv. apply andb_true_iff in H. destruct H as [H1 H2]. apply Z.ltb_lt in H1, H2.
  pose proof (min_z_spec _ _ E1 v Hv). pose proof (max_z_spec _ _ E2 v Hv). lia.
Qed.
Lemma fits_complete bits s : s <> [] -> (forall v, In v s -> int_min bits < v < int_max bits) -> fits bits (minimum_z s) (maximum_z s) = true.
Proof.
  intros Hs H. destruct s as [|a l]; [congruence|]. set (s := a :: l) in *.
  destruct (minimum_z s) as [lo|] eqn:E1; [|discriminate]. destruct (maximum_z s) as [hi|] eqn:E2; [|discriminate].
  pose proof (H _ (min_z_in _ _ E1)). pose proof (H _ (max_z_in _ _ E2)). unfold fits. apply andb_true_iff. split; apply Z.ltb_lt; lia.
Qed.

Lemma cast_exact bits s : 0 < bits -> fits bits (minimum_z s) (maximum_z s) = true -> map (wrap bits) s = s.
Proof.
  intros Hb H. rewrite <- (map_id s) at 2. apply map_ext_in. intros v Hv. apply wrap_id; [exact Hb|].
  pose proof (fits_strict _ _ H v Hv) as G. unfold int_min, int_max in G. unfold holds. lia.
Qed.

Lemma reduce_ints_exact d s : snd (reduce_ints d s) = s /\
  forall bits, fst (reduce_ints d s) = Int bits -> (forall b, d = Int b -> Forall (holds b) s) -> Forall (holds bits) s.
Proof.
  destruct d as [b|]; [|split; [reflexivity|discriminate]]. unfold reduce_ints.
  assert (G : forall c bits, fits c (minimum_z s) (maximum_z s) = true -> Int c = Int bits -> Forall (holds bits) s).
  { intros c bits H [= <-]. apply Forall_forall. intros v Hv. pose proof (fits_strict _ _ H v Hv) as K. unfold int_min, int_max in K. unfold holds. lia. }
  destruct (fits 8 _ _) eqn:E1; [cbn [fst snd]; split; [now apply cast_exact|intros; eapply G; eauto]|].
  destruct (fits 16 _ _) eqn:E2; [cbn [fst snd]; split; [now apply cast_exact|intros; eapply G; eauto]|].
  destruct (fits 32 _ _) eqn:E3; [cbn [fst snd]; split; [now apply cast_exact|intros; eapply G; eauto]|].
  destruct (fits 64 _ _) eqn:E4; [cbn [fst snd]; split; [now apply cast_exact|intros; eapply G; eauto]|].
  cbn [fst snd]. split; [reflexivity|]. intros bits [= <-] H. now apply H.
Qed.

(** Away from the two extreme values, the type never grows. *)
Lemma reduce_ints_smaller b s : In b [8; 16; 32; 64] ->
  (forall v, In v s -> - 2 ^ (b - 1) < v < 2 ^ (b - 1) - 1) ->
  exists c, fst (reduce_ints (Int b) s) = Int c /\ c <= b.
Proof.
  intros Hb H. destruct s as [|a l].
  - exists b. split; [reflexivity|lia].
  - assert (F : fits b (minimum_z (a :: l)) (maximum_z (a :: l)) = true) by (apply fits_complete; [congruence|exact H]).
    unfold reduce_ints. set (s := a :: l) in *. clearbody s.
    destruct (fits 8 _ _) eqn:E1; [exists 8; split; [reflexivity|cbn in Hb; lia]|].
    destruct (fits 16 _ _) eqn:E2; [exists 16; split; [reflexivity|]|].
    { cbn in Hb. destruct Hb as [<-|Hb]; [congruence|lia]. }
    destruct (fits 32 _ _) eqn:E3; [exists 32; split; [reflexivity|]|].
    { cbn in Hb. destruct Hb as [<-|[<-|Hb]]; [congruence|congruence|lia]. }
    destruct (fits 64 _ _) eqn:E4; [exists 64; split; [reflexivity|]|].
    { cbn in Hb. destruct Hb as [<-|[<-|[<-|Hb]]]; [congruence|congruence|congruence|lia]. }
    cbn in Hb. destruct Hb as [<-|[<-|[<-|[<-|[]]]]]; congruence.
Qed.

(** An 8-, 16- or 32-bit column with one of the extreme values gets a wider type. *)
Lemma reduce_ints_grows b s : In b [8; 16; 32] -> Forall (holds b) s -> In (2 ^ (b - 1) - 1) s \/ In (- 2 ^ (b - 1)) s ->
  fst (reduce_ints (Int b) s) = Int (2 * b).
Proof.
  intros Hb Hs Hx.
  assert (Ne : s <> []) by (intros ->; cbn in Hx; tauto).
  assert (Y : fits (2 * b) (minimum_z s) (maximum_z s) = true).
  { apply fits_complete; [exact Ne|]. intros v Hv. rewrite Forall_forall in Hs. specialize (Hs v Hv). unfold holds, int_min, int_max in *.
    cbn in Hb. destruct Hb as [<-|[<-|[<-|[]]]]; cbn in *; lia. }
  assert (N : forall c, In c [8; 16; 32] -> c <= b -> fits c (minimum_z s) (maximum_z s) = false).
  { intros c Hc Hcb. apply not_true_is_false. intros F. pose proof (fits_strict _ _ F) as G. unfold int_min, int_max in G.
    destruct Hx as [Hx|Hx]; specialize (G _ Hx); cbn in Hb, Hc;
      (destruct Hb as [<-|[<-|[<-|[]]]]); (destruct Hc as [<-|[<-|[<-|[]]]]); cbn in G; lia. }
  unfold reduce_ints. cbn in Hb. destruct Hb as [<-|[<-|[<-|[]]]]; cbn in Y.
  - rewrite (N 8) by (cbn; lia). change (2 * 8) with 16 in *. now rewrite Y.
  - rewrite (N 8), (N 16) by (cbn; lia). change (2 * 16) with 32 in *. now rewrite Y.
  - rewrite (N 8), (N 16), (N 32) by (cbn; lia). change (2 * 32) with 64 in *. now rewrite Y.
Qed.
Close Scope Z_scope.

Lemma serial_changes_caller : exists cols, ~ untouched cols (snd (reduce_serial cols)) /\ Forall (fun c => Forall (holds 64) (snd c)) cols.
Proof.
  exists [(Int 64, [1; 2]%Z)]. split; [unfold untouched; cbn; congruence|]. repeat constructor; cbn; lia.
Qed.
