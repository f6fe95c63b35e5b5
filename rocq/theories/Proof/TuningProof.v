From Coq Require Import List ZArith Bool Arith Reals Lia Lra Permutation Sorted.
From Verif Require Import Model.Series Model.Stats Model.Subsample Model.HoltWinters Model.FourierEs Model.Tuning Spec.TuningSpec
  Proof.SeriesProof Proof.QuantilesProof Proof.SubsampleProof Proof.StatsProof Proof.HoltWintersProof Proof.HoltWintersProof2 Proof.FourierProof Proof.ScalingProof Spec.ScalingSpec.
Import ListNotations.
Local Open Scope R_scope.

(** * The score *)
Lemma total_seq f n : total (map f (seq 0 n)) = rsum f n.
Proof.
  assert (G : forall n k, total (map f (seq k n)) = rsum (fun i => f (k + i)%nat) n).
  { clear n. induction n as [|n IH]; intros k; [reflexivity|].
    rewrite seq_S, map_app, total_app, IH. cbn. lra. }
  rewrite G. apply rsum_ext. reflexivity.
Qed.
Lemma map2_seq {A B C} (f : A -> B -> C) la lb n da db : length la = n -> length lb = n ->
  map2 f la lb = map (fun i => f (nth i la da) (nth i lb db)) (seq 0 n).
Proof.
  revert lb n. induction la as [|a la IH]; intros [|b lb] n H1 H2; cbn [length] in H1, H2; subst n; try discriminate; [reflexivity|].
  rewrite map2_cons. cbn [seq map nth]. f_equal. rewrite <- seq_shift, map_map. apply IH; lia.
Qed.
Lemma total_concat ls : total (concat ls) = total (map total ls).
Proof. induction ls as [|l ls IH]; [reflexivity|]. cbn [concat map]. now rewrite total_app, IH, total_cons. Qed.
Lemma length_concat_const {A} (ls : list (list A)) n : Forall (fun l => length l = n) ls -> length (concat ls) = (length ls * n)%nat.
Proof. induction 1 as [|l ls H _ IH]; [reflexivity|]. cbn. rewrite app_length, H, IH. lia. Qed.
Lemma nth_hankel {V} (x : list V) n i (d : V) : (i + n <= length x)%nat -> (0 < n)%nat -> nth i (hankel x n) [] = firstn n (skipn i x).
Proof. intros H Hn. unfold hankel. rewrite nth_map_seq by lia. reflexivity. Qed.
Lemma tl_skipn {A} (l : list A) : tl l = skipn 1 l. Proof. destruct l; reflexivity. Qed.

Lemma tuning_score_mean {X M : Type} (target : X -> R) (fit : list X -> M) (predict : M -> list X -> list (list R)) (ratio : R) (n_sa : nat) (rows : list X) (d : X) :
  let n := n_training ratio (length rows) in
  let y_hat := predict (fit (firstn n rows)) (skipn n rows) in
  let k := (length rows - n - n_sa)%nat in
  (0 < n_sa)%nat -> (n + n_sa < length rows)%nat -> length y_hat = (length rows - n)%nat -> Forall (fun r => length r = n_sa) y_hat ->
  score_autoregressive target fit predict ratio n_sa rows =
  Some (rsum (fun i => rsum (fun j => (nth j (nth i y_hat []) 0 - target (nth (n + i + 1 + j) rows d)) ^ 2) n_sa) k / (INR k * INR n_sa)).
Proof.
  intros n y_hat k Hs Hn Hl Hf. unfold score_autoregressive. fold n. fold y_hat.
  set (T := tl (map target (skipn n rows))).
  assert (LT : length T = (length rows - n - 1)%nat) by (unfold T; rewrite tl_skipn, skipn_length, map_length, skipn_length; reflexivity).
  assert (Lh : length (hankel T n_sa) = k) by (unfold hankel; rewrite map_length, seq_length, LT; unfold k; lia).
  assert (Lr : forall i, (i < k)%nat -> length (nth i (hankel T n_sa) []) = n_sa).
  { intros i Hi. rewrite (nth_hankel T n_sa i 0) by (unfold k in Hi; lia). rewrite firstn_length, skipn_length, LT. unfold k in Hi. lia. }
  assert (Ly : forall i, (i < k)%nat -> length (nth i (firstn k y_hat) []) = n_sa).
  { intros i Hi. rewrite nth_firstn by lia. rewrite Forall_forall in Hf. apply Hf, nth_In. unfold k in Hi. lia. }
  rewrite Lh.
  set (sq := fun a b : R => (a - b) * (a - b)).
  rewrite (map2_seq (map2 sq) _ _ k [] []) by (try rewrite firstn_length; unfold k in *; lia).
  assert (E : map (fun i => map2 sq (nth i (firstn k y_hat) []) (nth i (hankel T n_sa) [])) (seq 0 k)
            = map (fun i => map (fun j => (nth j (nth i y_hat []) 0 - target (nth (n + i + 1 + j) rows d)) ^ 2) (seq 0 n_sa)) (seq 0 k)).
  { apply map_ext_in. intros i Hi. apply in_seq in Hi. rewrite (map2_seq sq _ _ n_sa 0 0) by (try apply Ly; try apply Lr; lia).
    apply map_ext_in. intros j Hj. apply in_seq in Hj. rewrite nth_firstn by lia. rewrite (nth_hankel T n_sa i 0) by (unfold k in *; lia).
    rewrite nth_firstn by lia. rewrite nth_skipn. unfold T. rewrite tl_skipn, nth_skipn.
    rewrite (nth_indep (map target (skipn n rows)) 0 (target d)) by (rewrite map_length, skipn_length; unfold k in *; lia).
    rewrite map_nth, nth_skipn. replace (n + (1 + (i + j)))%nat with (n + i + 1 + j)%nat by lia. unfold sq. ring. }
  rewrite E. clear E. set (cells := concat _).
  assert (Lc : length cells = (k * n_sa)%nat).
  { unfold cells. rewrite (length_concat_const _ n_sa); [now rewrite map_length, seq_length|]. apply Forall_forall. intros l Hl'.
    apply in_map_iff in Hl' as (i & <- & _). now rewrite map_length, seq_length. }
  assert (St : total cells = rsum (fun i => rsum (fun j => (nth j (nth i y_hat []) 0 - target (nth (n + i + 1 + j) rows d)) ^ 2) n_sa) k).
  { unfold cells. rewrite total_concat, map_map, total_seq. apply rsum_ext. intros i _. apply total_seq. }
  unfold nan_mean. destruct cells as [|c cs] eqn:Ec; [cbn in Lc; unfold k in Lc; nia|]. rewrite <- Ec in *. f_equal.
  rewrite Lc, mult_INR. unfold total in St. rewrite St. reflexivity.
Qed.

Lemma tuning_score_short {X M : Type} (target : X -> R) (fit : list X -> M) (predict : M -> list X -> list (list R)) (ratio : R) (n_sa : nat) (rows : list X) :
  (length rows <= n_training ratio (length rows) + n_sa)%nat -> (0 < n_sa)%nat ->
  score_autoregressive target fit predict ratio n_sa rows = None.
Proof.
  intros H Hs. unfold score_autoregressive. set (T := tl _).
  assert (LT : length T = (length rows - n_training ratio (length rows) - 1)%nat) by (unfold T; rewrite tl_skipn, skipn_length, map_length, skipn_length; reflexivity).
  unfold hankel. replace (length T + 1 - n_sa)%nat with 0%nat by lia. cbn [seq map length firstn]. reflexivity.
Qed.

(** * Trials *)
Lemma draw_allowed lim u : ordered_limit lim -> fits lim u -> allowed lim (draw lim u).
Proof.
  intros Ho [Hu Hl]. destruct lim as [lo hi|l]; cbn in *.
  - destruct u as [|x [|]]; try discriminate. inversion Hu; subst. cbn. nra.
  - revert l Ho Hl. induction Hu as [|x u Hx Hu IH]; intros [|p l] Ho Hl; try discriminate; [constructor|].
    rewrite map2_cons. inversion Ho; subst. constructor; [nra|]. apply IH; [assumption|cbn in Hl; lia].
Qed.
Lemma trial_within {N : Type} (lims : list (N * limit)) (us : list (list R)) :
  Forall (fun nl => ordered_limit (snd nl)) lims -> Forall2 (fun nl u => fits (snd nl) u) lims us ->
  Forall2 (fun nl nv => fst nl = fst nv /\ allowed (snd nl) (snd nv)) lims (trial lims us).
Proof.
  intros Ho Hf. induction Hf as [|nl u lims us Hx _ IH]; [constructor|]. inversion Ho; subst. unfold trial in *. rewrite map2_cons.
  constructor; [|now apply IH]. cbn. split; [reflexivity|now apply draw_allowed].
Qed.

Lemma best_without_nan {T : Type} (trials : list T) (scores : list R) (t : T) : length scores = length trials ->
  best_trial trials (map Some scores) = Some t ->
  exists k, nth_error trials k = Some t /\ (k < length scores)%nat /\ (forall j, (j < length scores)%nat -> nth k scores 0 <= nth j scores 0) /\
    (forall j, (j < k)%nat -> nth k scores 0 < nth j scores 0).
Proof.
  intros Hl H. unfold best_trial, argmin_nan in H. rewrite map_length in H.
  destruct (find _ (seq 0 (length scores))) as [k|] eqn:F.
  { apply find_some in F as [F1 F2]. apply in_seq in F1. rewrite (nth_indep _ None (Some 0)) in F2 by (rewrite map_length; lia).
    rewrite (map_nth Some) in F2. discriminate. }
  rewrite map_map, map_id in H. destruct (argmin scores) as [k|] eqn:E; [|discriminate].
  destruct (argmin_first _ _ E) as (A & B & C). exists k. auto.
Qed.
Lemma tuning_best_exists {T : Type} (trials : list T) (scores : list R) : length scores = length trials -> trials <> [] ->
  exists t, best_trial trials (map Some scores) = Some t.
Proof.
  intros Hl Hn. unfold best_trial, argmin_nan. rewrite map_length.
  destruct (find _ (seq 0 (length scores))) as [k|] eqn:F.
  { apply find_some in F as [F1 F2]. apply in_seq in F1. rewrite (nth_indep _ None (Some 0)) in F2 by (rewrite map_length; lia).
    rewrite (map_nth Some) in F2. discriminate. }
  rewrite map_map, map_id. destruct (argmin scores) as [k|] eqn:E.
  - destruct (argmin_first _ _ E) as (A & _). destruct (nth_error trials k) as [t|] eqn:Et; [now exists t|]. apply nth_error_None in Et. lia.
  - destruct scores; [destruct trials; [congruence|discriminate]|discriminate].
Qed.
Lemma best_with_nan {T : Type} (before : list (T * R)) (t : T) (others : list (T * option R)) :
  best_trial (map fst before ++ t :: map fst others) (map (fun p => Some (snd p)) before ++ None :: map snd others) = Some t.
Proof.
  unfold best_trial, argmin_nan. set (sc := _ ++ _).
  assert (G : find (fun k => match nth k sc None with None => true | Some _ => false end) (seq 0 (length sc)) = Some (length before)).
  { unfold sc at 2. rewrite app_length, map_length. cbn [length]. rewrite seq_app, Nat.add_0_l.
    assert (F : forall l s, (forall k, In k l -> (k < length before)%nat) -> find (fun k => match nth k sc None with None => true | Some _ => false end) (l ++ length before :: s) = Some (length before)).
    { induction l as [|k l IH]; intros s Hk; cbn [app find].
      - unfold sc. rewrite app_nth2 by (rewrite map_length; lia). rewrite map_length, Nat.sub_diag. reflexivity.
      - unfold sc at 1. rewrite app_nth1 by (rewrite map_length; apply Hk; now left).
        rewrite (nth_indep _ None (Some (snd (t, 0)))) by (rewrite map_length; apply Hk; now left).
        rewrite (map_nth (fun p : T * R => Some (snd p))). apply IH. intros; apply Hk; now right. }
    cbn [seq]. apply F. intros k Hk. apply in_seq in Hk. lia. }
  rewrite G. rewrite nth_error_app2 by (rewrite map_length; lia). rewrite map_length, Nat.sub_diag. reflexivity.
Qed.

(** * Ranks *)
Lemma in_values l v : In v (values l) <-> In (Some v) l.
Proof.
  unfold values. rewrite in_flat_map. split.
  - intros ([x|] & H & Hv); cbn in Hv; [destruct Hv as [->|[]]; exact H|destruct Hv].
  - intros H. exists (Some v). split; [exact H|now left].
Qed.
Definition below (l : list (option R)) (v : R) : list R := nodup Req_EM_T (filter (fun x => Rltb x v) (values l)).
Lemma in_below l v x : In x (below l v) <-> In (Some x) l /\ x < v.
Proof.
  unfold below. rewrite nodup_In, filter_In, in_values. unfold Rltb. split; intros [H1 H2]; split; auto.
  - destruct (Rlt_dec x v); [assumption|discriminate].
  - destruct (Rlt_dec x v); [reflexivity|contradiction].
Qed.
Lemma rank_order (l : list (option R)) (v w : R) : In (Some v) l -> In (Some w) l -> (dense_rank l v < dense_rank l w)%nat <-> v < w.
Proof.
  assert (G : forall v w, In (Some v) l -> v < w -> (dense_rank l v < dense_rank l w)%nat).
  { clear. intros v w Hv Hvw. unfold dense_rank. fold (below l v). fold (below l w). apply -> Nat.succ_lt_mono.
    change (length (v :: below l v) <= length (below l w))%nat. apply NoDup_incl_length.
    - constructor; [|apply NoDup_nodup]. intros H. apply in_below in H. lra.
    - intros x [<-|H]; apply in_below; [auto|]. apply in_below in H. split; [apply H|lra]. }
  intros Hv Hw. split; [|now apply G]. intros H. destruct (Rlt_le_dec v w) as [|L]; [assumption|].
  destruct (Req_EM_T v w) as [->|N]; [lia|]. assert (w < v) by lra. pose proof (G w v Hw H0). lia.
Qed.
Lemma rank_first (l : list (option R)) (v : R) : In (Some v) l -> dense_rank l v = 1%nat <-> (forall w, In (Some w) l -> v <= w).
Proof.
  intros Hv. unfold dense_rank. fold (below l v). split.
  - intros H w Hw. destruct (Rlt_le_dec w v) as [L|]; [|assumption]. assert (I : In w (below l v)) by (apply in_below; auto).
    destruct (below l v); [destruct I|cbn in H; lia].
  - intros H. f_equal. destruct (below l v) as [|x b] eqn:E; [reflexivity|]. exfalso.
    assert (I : In x (below l v)) by (rewrite E; now left). apply in_below in I as [I1 I2]. specialize (H x I1). lra.
Qed.
Lemma max_in (b : list R) : b <> [] -> exists u, In u b /\ forall x, In x b -> x <= u.
Proof.
  induction b as [|a b IH]; intros H; [congruence|]. destruct b as [|c b].
  - exists a. split; [now left|]. intros x [<-|[]]. lra.
  - destruct IH as (u & Hu & Hm); [discriminate|]. destruct (Rle_dec a u) as [L|L].
    + exists u. split; [now right|]. intros x [<-|Hx]; [exact L|now apply Hm].
    + exists a. split; [now left|]. intros x [<-|Hx]; [lra|]. specialize (Hm x Hx). lra.
Qed.
Lemma rank_dense (l : list (option R)) (v : R) (r : nat) : In (Some v) l -> (1 <= r <= dense_rank l v)%nat ->
  exists w, In (Some w) l /\ dense_rank l w = r.
Proof.
  remember (dense_rank l v - r)%nat as k eqn:Ek. revert v Ek. induction k as [|k IH]; intros v Ek Hv Hr.
  - exists v. split; [exact Hv|lia].
  - destruct (below l v) as [|x b] eqn:E; [assert (dense_rank l v = 1%nat) by (unfold dense_rank; fold (below l v); now rewrite E); lia|].
    destruct (max_in (below l v)) as (u & Hu & Hm); [rewrite E; discriminate|]. pose proof Hu as Hu'. apply in_below in Hu' as [Hu1 Hu2].
    assert (L : length (below l v) = length (u :: below l u)).
    { apply Permutation_length, NoDup_Permutation.
      - apply NoDup_nodup.
      - constructor; [|apply NoDup_nodup]. intros H. apply in_below in H. lra.
      - intros y. split.
        + intros Hy. pose proof (Hm y Hy). apply in_below in Hy as [Hy1 Hy2]. destruct (Req_EM_T y u) as [->|]; [now left|]. right. apply in_below. split; [exact Hy1|lra].
        + intros [<-|Hy]; [exact Hu|]. apply in_below in Hy as [Hy1 Hy2]. apply in_below. split; [exact Hy1|lra]. }
    assert (Rk : dense_rank l v = S (dense_rank l u)) by (unfold dense_rank; fold (below l v); fold (below l u); rewrite L; reflexivity).
    apply (IH u); [lia|exact Hu1|lia].
Qed.
Lemma ranks_spec (l : list (option R)) :
  length (ranks l) = length l /\
  (forall i, nth i l None = None -> nth i (ranks l) None = None) /\
  (forall i v, nth i l None = Some v -> exists r, nth i (ranks l) None = Some r /\ (r = 1%nat <-> (forall w, In (Some w) l -> v <= w))) /\
  (forall i j v w r s, nth i l None = Some v -> nth j l None = Some w -> nth i (ranks l) None = Some r -> nth j (ranks l) None = Some s -> ((r < s)%nat <-> v < w)) /\
  (forall i r s, nth i (ranks l) None = Some r -> (1 <= s <= r)%nat -> exists j, nth j (ranks l) None = Some s).
Proof.
  assert (N : forall i, nth i (ranks l) None = option_map (dense_rank l) (nth i l None)).
  { intros i. unfold ranks. apply (map_nth (option_map (dense_rank l)) l None). }
  assert (I : forall i v, nth i l None = Some v -> In (Some v) l).
  { intros i v H. destruct (lt_dec i (length l)) as [L|L]; [rewrite <- H; now apply nth_In|]. rewrite nth_overflow in H by lia. discriminate. }
  split; [apply map_length|]. split; [|split; [|split]].
  - intros i H. now rewrite N, H.
  - intros i v H. exists (dense_rank l v). rewrite N, H. split; [reflexivity|]. apply rank_first, (I i), H.
  - intros i j v w r s Hi Hj Hr Hs. rewrite N, Hi in Hr. rewrite N, Hj in Hs. injection Hr as <-. injection Hs as <-.
    apply rank_order; [now apply (I i)|now apply (I j)].
  - intros i r s Hr Hs. rewrite N in Hr. destruct (nth i l None) as [v|] eqn:E; [|discriminate]. injection Hr as <-.
    destruct (rank_dense l v s (I _ _ E) Hs) as (w & Hw & Rw). apply (In_nth _ _ None) in Hw as (j & _ & Hj).
    exists j. rewrite N, Hj. cbn. now rewrite Rw.
Qed.

(** * Frequencies *)
Lemma basis_cos n t k : (0 < k)%nat -> basis n t (2 * k) = sqrt (2 / INR n) * cos (2 * PI * INR k * INR t / INR n).
Proof.
  intros H. unfold basis. destruct (2 * k)%nat as [|j] eqn:E; [lia|]. rewrite <- E. replace (Nat.odd (2 * k)) with false.
  - replace ((2 * k + 1) / 2)%nat with k; [reflexivity|]. apply Nat.div_unique with 1%nat; lia.
  - symmetry. rewrite <- Nat.negb_even, Nat.even_mul. reflexivity.
Qed.
Lemma basis_sin n t k : (0 < k)%nat -> basis n t (2 * k - 1) = sqrt (2 / INR n) * sin (2 * PI * INR k * INR t / INR n).
Proof.
  intros H. unfold basis. destruct (2 * k - 1)%nat as [|j] eqn:E; [lia|]. rewrite <- E. replace (Nat.odd (2 * k - 1)) with true.
  - replace ((2 * k - 1 + 1) / 2)%nat with k; [reflexivity|]. apply Nat.div_unique with 0%nat; lia.
  - symmetry. apply Nat.odd_spec. exists (k - 1)%nat. lia.
Qed.
Lemma wave_inner n i j f g h : (2 * h < n)%nat -> (i < 2 * h + 1)%nat -> (j < 2 * h + 1)%nat ->
  (forall t, basis n t i = sqrt (2 / INR n) * f t) -> (forall t, basis n t j = sqrt (2 / INR n) * g t) ->
  rsum (fun t => f t * g t) n = if (i =? j)%nat then INR n / 2 else 0.
Proof.
  intros Hh Hi Hj Hf Hg. pose proof (basis_orthonormal n h 0 i j Hh Hi Hj) as O. cbn [Nat.add] in O.
  assert (P : 0 < INR n) by (apply lt_0_INR; lia). assert (P2 : 0 <= 2 / INR n) by (apply Rlt_le, Rdiv_lt_0_compat; lra).
  rewrite (rsum_ext _ (fun t => 2 / INR n * (f t * g t))) in O.
  2:{ intros t _. rewrite Hf, Hg. rewrite <- (sqrt_sqrt (2 / INR n) P2) at 3. ring. }
  rewrite rsum_scal in O. destruct (i =? j)%nat.
  - apply (Rmult_eq_reg_l (2 / INR n)); [rewrite O; field; lra|]. apply Rgt_not_eq, Rdiv_lt_0_compat; lra.
  - apply Rmult_integral in O as [O|O]; [|exact O]. exfalso. apply (Rgt_not_eq (2 / INR n) 0); [apply Rdiv_lt_0_compat; lra|exact O].
Qed.

Section Waves.
  Context (n : nat).
  Let C k t := cos (2 * PI * INR k * INR t / INR n).
  Let S k t := sin (2 * PI * INR k * INR t / INR n).
  Lemma cc j k : (0 < j)%nat -> (0 < k)%nat -> (2 * j < n)%nat -> (2 * k < n)%nat -> rsum (fun t => C j t * C k t) n = if (j =? k)%nat then INR n / 2 else 0.
  Proof.
    intros. rewrite (wave_inner n (2 * j) (2 * k) (C j) (C k) (Nat.max j k)) by (try lia; intros; now apply basis_cos).
    destruct (Nat.eqb_spec j k) as [->|]; [now rewrite Nat.eqb_refl|]. destruct (Nat.eqb_spec (2 * j) (2 * k)); [lia|reflexivity].
  Qed.
  Lemma ss j k : (0 < j)%nat -> (0 < k)%nat -> (2 * j < n)%nat -> (2 * k < n)%nat -> rsum (fun t => S j t * S k t) n = if (j =? k)%nat then INR n / 2 else 0.
  Proof.
    intros. rewrite (wave_inner n (2 * j - 1) (2 * k - 1) (S j) (S k) (Nat.max j k)) by (try lia; intros; now apply basis_sin).
    destruct (Nat.eqb_spec j k) as [->|]; [now rewrite Nat.eqb_refl|]. destruct (Nat.eqb_spec (2 * j - 1) (2 * k - 1)); [lia|reflexivity].
  Qed.
  Lemma cs j k : (0 < j)%nat -> (0 < k)%nat -> (2 * j < n)%nat -> (2 * k < n)%nat -> rsum (fun t => C j t * S k t) n = 0.
  Proof.
    intros. rewrite (wave_inner n (2 * j) (2 * k - 1) (C j) (S k) (Nat.max j k)) by (try lia; intros; (now apply basis_cos) || (now apply basis_sin)).
    destruct (Nat.eqb_spec (2 * j) (2 * k - 1)); [lia|reflexivity].
  Qed.
  Lemma c0 t : C 0 t = 1.
  Proof. unfold C. cbn [INR]. replace (2 * PI * 0 * INR t / INR n) with 0 by (unfold Rdiv; ring). apply cos_0. Qed.
  Lemma s0 t : S 0 t = 0.
  Proof. unfold S. cbn [INR]. replace (2 * PI * 0 * INR t / INR n) with 0 by (unfold Rdiv; ring). apply sin_0. Qed.
  Lemma sum_against (f : nat -> R) : rsum (fun t => f t * (1 / sqrt 2)) n = 0 -> rsum (fun t => f t * C 0 t) n = 0.
  Proof.
    intros H. rewrite (rsum_ext _ (fun t => f t)) by (intros; rewrite c0; ring).
    rewrite (rsum_ext _ (fun t => 1 / sqrt 2 * f t)) in H by (intros; ring). rewrite rsum_scal in H.
    apply Rmult_integral in H as [H|H]; [|exact H]. exfalso. assert (0 < sqrt 2) by (apply sqrt_lt_R0; lra).
    apply (Rgt_not_eq (1 / sqrt 2) 0); [apply Rdiv_lt_0_compat; lra|exact H].
  Qed.
  Lemma const_c j : (0 < j)%nat -> (2 * j < n)%nat -> rsum (fun t => C j t * C 0 t) n = 0.
  Proof.
    intros. apply sum_against. rewrite (wave_inner n (2 * j) 0 (C j) (fun _ => 1 / sqrt 2) j) by (try lia; intros; try (now apply basis_cos); reflexivity).
    destruct (Nat.eqb_spec (2 * j) 0); [lia|reflexivity].
  Qed.
  Lemma const_s j : (0 < j)%nat -> (2 * j < n)%nat -> rsum (fun t => S j t * C 0 t) n = 0.
  Proof.
    intros. apply sum_against. rewrite (wave_inner n (2 * j - 1) 0 (S j) (fun _ => 1 / sqrt 2) j) by (try lia; intros; try (now apply basis_sin); reflexivity).
    destruct (Nat.eqb_spec (2 * j - 1) 0); [lia|reflexivity].
  Qed.
  Lemma wave_magnitude a b j k : (0 < j)%nat -> (2 * j < n)%nat -> (2 * k < n)%nat ->
    magnitude2 (sampled_wave a b j n) k = if (j =? k)%nat then (INR n / 2) * (INR n / 2) * (a * a + b * b) else 0.
  Proof.
    intros Hj Hjn Hk. unfold magnitude2. assert (L : length (sampled_wave a b j n) = n) by (unfold sampled_wave; now rewrite map_length, seq_length).
    rewrite L. fold (C k) in *.
    assert (E1 : rsum (fun t => nth t (sampled_wave a b j n) 0 * C k t) n = a * rsum (fun t => C j t * C k t) n + b * rsum (fun t => S j t * C k t) n).
    { rewrite <- !rsum_scal, <- rsum_plus. apply rsum_ext. intros t Ht. unfold sampled_wave. rewrite nth_map_seq by exact Ht. cbn [Nat.add].
      unfold C, S. ring. }
    assert (E2 : rsum (fun t => nth t (sampled_wave a b j n) 0 * S k t) n = a * rsum (fun t => C j t * S k t) n + b * rsum (fun t => S j t * S k t) n).
    { rewrite <- !rsum_scal, <- rsum_plus. apply rsum_ext. intros t Ht. unfold sampled_wave. rewrite nth_map_seq by exact Ht. cbn [Nat.add].
      unfold C, S. ring. }
    unfold C, S in E1, E2. rewrite E1, E2. fold (C j) (C k) (S j) (S k).
    destruct k as [|k'].
    - pose proof (const_c j Hj Hjn) as K1. pose proof (const_s j Hj Hjn) as K2. unfold C, S in K1, K2. unfold C, S. rewrite K1, K2.
      rewrite (rsum_ext (fun t => cos (2 * PI * INR j * INR t / INR n) * sin (2 * PI * INR 0 * INR t / INR n)) (fun _ => 0)) by (intros t _; fold (S 0 t); rewrite s0; ring).
      rewrite (rsum_ext (fun t => sin (2 * PI * INR j * INR t / INR n) * sin (2 * PI * INR 0 * INR t / INR n)) (fun _ => 0)) by (intros t _; fold (S 0 t); rewrite s0; ring).
      rewrite rsum_const. destruct (Nat.eqb_spec j 0); [lia|ring].
    - set (k := Datatypes.S k') in *. assert (Hk0 : (0 < k)%nat) by (unfold k; lia).
      pose proof (cc j k Hj Hk0 Hjn Hk) as K1. pose proof (ss j k Hj Hk0 Hjn Hk) as K2. pose proof (cs j k Hj Hk0 Hjn Hk) as K3.
      pose proof (cs k j Hk0 Hj Hk Hjn) as K4. rewrite (rsum_ext _ (fun t => S j t * C k t)) in K4 by (intros; ring).
      unfold C, S in K1, K2, K3, K4. unfold C, S. rewrite K1, K2, K3, K4. destruct (j =? k)%nat; ring.
  Qed.
End Waves.

Lemma strict_sorted (l : list nat) : NoDup l -> StronglySorted (fun p q => (Z.of_nat p <= Z.of_nat q)%Z) l -> StronglySorted lt l.
Proof.
  intros Hd Hs. induction Hs as [|a l Hs IH Hf]; [constructor|]. inversion Hd; subst. constructor; [now apply IH|].
  rewrite Forall_forall in *. intros x Hx. specialize (Hf x Hx). assert (a <> x) by (intros ->; contradiction). lia.
Qed.

Lemma nodup_firstn {A} n (l : list A) : NoDup l -> NoDup (firstn n l).
Proof.
  intros H. revert n. induction H as [|a l Ha _ IH]; intros [|n]; cbn; try constructor; auto.
  intros Hin. apply Ha. rewrite <- (firstn_skipn n l). apply in_or_app. now left.
Qed.
Lemma top_frequencies (order : list R -> list nat) (x : list R) (n_max : nat) : descending_order order ->
  let l := find_frequencies order x n_max in
  StronglySorted lt l /\ length l = Nat.min n_max (length x / 2) /\
  forall k k', In (S k) l -> (k' < length x / 2)%nat -> ~ In (S k') l -> magnitude2 x k' <= magnitude2 x k.
Proof.
  intros Ho l. unfold l, find_frequencies. set (mags := map (magnitude2 x) (seq 0 (length x / 2))).
  assert (Lm : length mags = (length x / 2)%nat) by (unfold mags; now rewrite map_length, seq_length).
  destruct (Ho mags) as [Hp Hd]. rewrite Lm in *. set (o := order mags) in *.
  assert (Lo : length o = (length x / 2)%nat) by (rewrite (Permutation_length Hp); apply seq_length).
  assert (No : NoDup o) by (apply (Permutation_NoDup (Permutation_sym Hp)), seq_NoDup).
  assert (Nf : NoDup (firstn n_max o)) by (now apply nodup_firstn).
  pose proof (sort_by_perm Z.of_nat (firstn n_max o)) as Pp.
  split; [|split].
  - assert (Ss : StronglySorted lt (sort_by Z.of_nat (firstn n_max o))).
    { apply strict_sorted; [apply (Permutation_NoDup (Permutation_sym Pp)), Nf|apply sort_by_sorted]. }
    clear -Ss. induction Ss as [|a s Ss IH Hf]; [constructor|]. cbn. constructor; [exact IH|]. apply Forall_map.
    eapply Forall_impl; [|exact Hf]. intros b Hb. cbn in *. lia.
  - rewrite map_length, (Permutation_length Pp), firstn_length, Lo. reflexivity.
  - assert (I : forall k, In (S k) (map S (sort_by Z.of_nat (firstn n_max o))) <-> In k (firstn n_max o)).
    { intros k. rewrite in_map_iff. split.
      - intros (y & E & Hy). injection E as ->. now apply (Permutation_in _ Pp).
      - intros H. exists k. split; [reflexivity|]. now apply (Permutation_in _ (Permutation_sym Pp)). }
    intros k k' Hk Hk' Hn. rewrite I in Hk, Hn.
    assert (Ik' : In k' o) by (apply (Permutation_in _ (Permutation_sym Hp)), in_seq; lia).
    rewrite <- (firstn_skipn n_max o) in Ik'. apply in_app_or in Ik' as [?|Ik']; [contradiction|].
    apply (In_nth _ _ 0%nat) in Hk as (i & Hi & Ei). apply (In_nth _ _ 0%nat) in Ik' as (i' & Hi' & Ei').
    rewrite firstn_length in Hi. rewrite skipn_length in Hi'. rewrite nth_firstn in Ei by lia. rewrite nth_skipn in Ei'.
    specialize (Hd i (n_max + i')%nat ltac:(lia)). rewrite Ei, Ei' in Hd.
    assert (Hkb : (k < length x / 2)%nat).
    { assert (In k o) by (rewrite <- Ei; apply nth_In; lia). apply (Permutation_in _ Hp) in H. apply in_seq in H. lia. }
    unfold mags in Hd. rewrite !nth_map_seq in Hd by assumption. exact Hd.
Qed.

Lemma wave_frequency (order : list R -> list nat) (a b : R) (j n : nat) : descending_order order ->
  (0 < j)%nat -> (2 * j + 1 < n)%nat -> (a <> 0 \/ b <> 0) ->
  find_frequencies order (sampled_wave a b j n) 1 = [S j].
Proof.
  intros Ho Hj Hn Hab. destruct (top_frequencies order (sampled_wave a b j n) 1 Ho) as (_ & Hl & Ht).
  assert (Lw : length (sampled_wave a b j n) = n) by (unfold sampled_wave; now rewrite map_length, seq_length). rewrite Lw in *.
  assert (Hjn : (j < n / 2)%nat).
  { pose proof (Nat.div_mod n 2 ltac:(lia)). pose proof (Nat.mod_upper_bound n 2 ltac:(lia)). lia. }
  replace (Nat.min 1 (n / 2)) with 1%nat in Hl by lia.
  assert (Z : forall s, In s (find_frequencies order (sampled_wave a b j n) 1) -> exists k, s = S k /\ (k < n / 2)%nat).
  { intros s Hs. unfold find_frequencies in Hs. apply in_map_iff in Hs as (k & <- & Hk). exists k. split; [reflexivity|].
    apply (Permutation_in _ (sort_by_perm _ _)) in Hk. rewrite Lw in Hk. set (mags := map _ _) in Hk.
    assert (Lm : length mags = (n / 2)%nat) by (unfold mags; now rewrite map_length, seq_length).
    assert (Hk2 : In k (order mags)) by (rewrite <- (firstn_skipn 1 (order mags)); apply in_or_app; now left).
    apply (Permutation_in _ (proj1 (Ho mags))) in Hk2. apply in_seq in Hk2. lia. }
  destruct (find_frequencies order (sampled_wave a b j n) 1) as [|s [|]]; cbn in Hl; try lia.
  destruct (Z s ltac:(now left)) as (k & -> & Hk). f_equal. destruct (Nat.eq_dec k j) as [->|N]; [reflexivity|exfalso].
  assert (Hk2 : (2 * k < n)%nat) by (pose proof (Nat.div_mod n 2 ltac:(lia)); lia).
  specialize (Ht k j ltac:(now left) Hjn ltac:(intros [E|[]]; injection E as ->; contradiction)).
  rewrite !wave_magnitude in Ht by lia. rewrite Nat.eqb_refl in Ht. destruct (Nat.eqb_spec j k); [congruence|].
  assert (P : 0 < INR n) by (apply lt_0_INR; lia).
  assert (Q : 0 < a * a + b * b) by (destruct Hab; nra).
  assert (0 < INR n / 2 * (INR n / 2) * (a * a + b * b)) by (apply Rmult_lt_0_compat; [nra|exact Q]). lra.
Qed.

(** Such an order exists: insertion sort. *)
Fixpoint ins (l : list R) (p : nat) (s : list nat) : list nat :=
  match s with [] => [p] | a :: s' => if Rle_dec (nth a l 0) (nth p l 0) then p :: a :: s' else a :: ins l p s' end.
Definition desc (l : list R) : list nat := fold_right (ins l) [] (seq 0 (length l)).
Lemma ins_perm l p s : Permutation (ins l p s) (p :: s).
Proof. induction s as [|a s IH]; [reflexivity|]. cbn. destruct (Rle_dec _ _); [reflexivity|]. rewrite IH. apply perm_swap. Qed.
Lemma ins_sorted l p s : StronglySorted (fun a b => nth b l 0 <= nth a l 0) s -> StronglySorted (fun a b => nth b l 0 <= nth a l 0) (ins l p s).
Proof.
  induction 1 as [|a s Hs IH Hf]; [repeat constructor|]. cbn. destruct (Rle_dec (nth a l 0) (nth p l 0)) as [L|L].
  - constructor; [now constructor|]. constructor; [exact L|]. eapply Forall_impl; [|exact Hf]. intros b Hb. cbn in Hb. lra.
  - constructor; [exact IH|]. apply Forall_forall. intros b Hb. apply (Permutation_in _ (ins_perm l p s)) in Hb as [<-|Hb]; [lra|].
    rewrite Forall_forall in Hf. now apply Hf.
Qed.
Lemma desc_ok : descending_order desc.
Proof.
  intros l. assert (P : forall s, Permutation (fold_right (ins l) [] s) s) by (induction s as [|a s IH]; [reflexivity|]; cbn; rewrite ins_perm; now constructor).
  split; [apply P|].
  assert (S : StronglySorted (fun a b => nth b l 0 <= nth a l 0) (desc l)).
  { unfold desc. induction (seq 0 (length l)) as [|a s IH]; [constructor|]. cbn. now apply ins_sorted. }
  assert (L : length (desc l) = length l) by (unfold desc; rewrite (Permutation_length (P _)); apply seq_length).
  rewrite <- L. clear L P. induction S as [|a s Hs IH Hf]; intros i k H; [cbn in H; lia|]. destruct k as [|k]; [lia|]. destruct i as [|i].
  - cbn. rewrite Forall_forall in Hf. apply Hf, nth_In. cbn in H. lia.
  - cbn [nth]. apply IH. cbn in H. lia.
Qed.
