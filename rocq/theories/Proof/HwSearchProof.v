From Coq Require Import List Arith Bool Reals Lia Lra.
From Verif Require Import Model.HoltWinters Model.HwSearch Spec.HoltWintersSpec Spec.HwSearchSpec Proof.HoltWintersProof Proof.HoltWintersProof2.
From Verif Require Import Model.Subsample Model.Quantiles.
Import ListNotations.
Local Open Scope R_scope.

(** ** Moving an amount between level and season *)
Lemma hd_moved d s : hd None (map (option_map (fun v => v - d)) s) = option_map (fun v => v - d) (hd None s).
Proof. destruct s; reflexivity. Qed.
Lemma nth_moved d s i : nth i (map (option_map (fun v : R => v - d)) s) None = option_map (fun v => v - d) (nth i s None).
Proof. change None with (option_map (fun v => v - d) None) at 1. apply map_nth. Qed.
Lemma shift_moved d s v : shift (map (option_map (fun v => v - d)) s) (option_map (fun v => v - d) v) = map (option_map (fun v => v - d)) (shift s v).
Proof. unfold shift. rewrite map_app. destruct s; reflexivity. Qed.
Lemma step_moved p s d y : well_formed p -> unconstrained p -> healthy p s -> number y ->
  step p (moved d s) y y = (moved d (fst (step p s y y)), snd (step p s y y)).
Proof.
  intros (P1 & P2 & _) [U1 U2] (H1 & H2 & H3 & H4 & H5 & H6) [v ->].
  destruct (hd_number (season1 s) H3 ltac:(lia)) as [x1 E1]. destruct (hd_number (season2 s) H4 ltac:(lia)) as [x2 E2]. destruct H1 as [a Ea]. destruct H2 as [b Eb].
  unfold step, moved. cbn [level trend season1 season2 is_nan fst snd]. rewrite hd_moved, E1, E2, Ea, Eb. unfold constrainify. rewrite U1, U2.
  cbn [option_map plus minus scale lift2]. unfold plus, minus, scale, lift2. cbn [option_map].
  f_equal.
  - f_equal; [f_equal; ring|f_equal; ring| |f_equal; f_equal; ring].
    rewrite <- shift_moved. cbn [option_map]. f_equal. f_equal. ring.
  - apply map_ext_in. intros i I. 
    assert (K : forall z1, z1 = gamma1 p * (v - (alpha p * (v - x1 - x2) + (1 - alpha p) * (a + b)) - x2) + (1 - gamma1 p) * x1 ->
      nth (i mod period1 p) (shift (map (option_map (fun v => v - d)) (season1 s)) (Some (z1 - d))) None
      = option_map (fun v => v - d) (nth (i mod period1 p) (shift (season1 s) (Some z1)) None)).
    { intros z1 _. change (Some (z1 - d)) with (option_map (fun v => v - d) (Some z1)). rewrite shift_moved. apply nth_moved. }
    set (z1 := gamma1 p * (v - (alpha p * (v - x1 - x2) + (1 - alpha p) * (a + b)) - x2) + (1 - gamma1 p) * x1) in *.
    match goal with |- context [shift (map _ (season1 s)) (Some ?q)] => replace q with (z1 - d) by (unfold z1; ring) end.
    rewrite (K z1 eq_refl).
    assert (N1 : number (nth (i mod period1 p) (shift (season1 s) (Some z1)) None)).
    { assert (L : (i mod period1 p < length (shift (season1 s) (Some z1)))%nat) by (rewrite shift_length by lia; rewrite H5; apply Nat.mod_upper_bound; lia).
      assert (A : all_numbers (shift (season1 s) (Some z1))) by (apply shift_numbers; [exact H3|now exists z1]). apply A. apply nth_In. exact L. }
    destruct N1 as [n1 ->]. cbn [option_map].
    match goal with |- context [shift (season2 s) (Some ?q)] => match goal with |- _ = ?r => match r with context [shift (season2 s) (Some ?q')] => replace q with q' by ring end end end.
    destruct (nth (i mod period2 p) (shift (season2 s) _) None); [|reflexivity]. f_equal. ring.
Qed.
Lemma run_moved p d ys : well_formed p -> unconstrained p -> forall s, healthy p s -> all_numbers ys ->
  run p (moved d s) ys = (fst (run p s ys), moved d (snd (run p s ys))).
Proof.
  intros W U. induction ys as [|y ys IH]; intros s Hs Hy; [reflexivity|]. cbn [run].
  assert (Ny : number y) by (apply Hy; now left). rewrite (step_moved p s d y W U Hs Ny).
  destruct (step_healthy p s y W Hs Ny) as [Hs' _]. destruct (step p s y y) as [s1 row]. cbn [fst snd] in *.
  rewrite (IH s1 Hs' ltac:(intros x Hx; apply Hy; now right)). destruct (run p s1 ys). reflexivity.
Qed.
Lemma moved_healthy p d s : healthy p s -> healthy p (moved d s).
Proof.
  intros (H1 & H2 & H3 & H4 & H5 & H6). unfold moved. split; [|split; [exact H2|split; [|split; [exact H4|split; [cbn; now rewrite map_length|exact H6]]]]].
  - destruct H1 as [v ->]. now exists (v + d).
  - intros x I. apply in_map_iff in I as [y [<- Iy]]. destruct (H3 y Iy) as [v ->]. now exists (v - d).
Qed.
Lemma rerun_moved p d ys n : well_formed p -> unconstrained p -> all_numbers ys -> forall s, healthy p s -> exists s', rerun n p (Some s) ys = Some s' /\ healthy p s' /\
  rerun n p (Some (moved d s)) ys = Some (moved d s').
Proof.
  intros W U Hy. induction n as [|n IH]; intros s Hs; [exists s; auto|]. cbn [rerun]. unfold run_from.
  rewrite (initial_healthy p s ys W Hs), (initial_healthy p (moved d s) ys W (moved_healthy p d s Hs)). rewrite (run_moved p d ys W U s Hs Hy). cbn [snd].
  apply IH. apply (run_healthy p s ys W Hs Hy).
Qed.
Lemma last_values_numbers n ys : all_numbers ys -> all_numbers (last_values n ys).
Proof.
  intros H x Hx. unfold last_values in Hx. apply H. revert Hx. generalize (length ys - n)%nat. clear H. induction ys as [|y ys IH]; intros [|k] Hx; cbn in *; auto. right. now apply (IH k).
Qed.
Lemma moved_differs d s p : healthy p s -> d <> 0 -> moved d s <> s.
Proof. intros ([v E] & _) Hd C. apply (f_equal level) in C. unfold moved in C. cbn in C. rewrite E in C. cbn in C. injection C as C. lra. Qed.
(** Whatever the parameters, the states after a re-initialisation depend on those before it. *)
Lemma reinit_keeps_past (p : params) (s : state) (d : R) (ys : list num) : well_formed p -> unconstrained p -> healthy p s -> all_numbers ys -> d <> 0 ->
  exists s' s'', reinit p (Some s) ys = Some s' /\ reinit p (Some (moved d s)) ys = Some s'' /\ s'' = moved d s' /\ s'' <> s'.
Proof.
  intros W U Hs Hy Hd. destruct (rerun_moved p d _ 20 W U (last_values_numbers (Nat.max (period1 p) (period2 p)) ys Hy) s Hs) as [s' [A [B C]]].
  exists s', (moved d s'). repeat split; auto. now apply (moved_differs d s' p).
Qed.
(** This difference has no effect on forecasts. *)
Lemma moved_same_forecasts (p : params) (s : state) (d : R) (ys zs : list num) : well_formed p -> unconstrained p -> healthy p s -> all_numbers ys -> all_numbers zs ->
  fst (predict p (reinit p (Some s) ys) zs None) = fst (predict p (reinit p (Some (moved d s)) ys) zs None) /\
  fst (predict p (Some s) zs None) = fst (predict p (Some (moved d s)) zs None).
Proof.
  intros W U Hs Hy Hz.
  assert (K : forall s, healthy p s -> fst (predict p (Some s) zs None) = fst (predict p (Some (moved d s)) zs None)).
  { clear s Hs. intros s Hs. assert (W' := no_trend_wf p W). assert (U' : unconstrained (no_trend p)) by exact U. assert (Hs' : healthy (no_trend p) s) by exact Hs.
    unfold predict, run_from. rewrite (initial_healthy _ s zs W' Hs'), (initial_healthy _ (moved d s) zs W' (moved_healthy _ d s Hs')). rewrite (run_moved _ d zs W' U' s Hs' Hz).
    destruct (run (no_trend p) s zs). reflexivity. }
  split; [|now apply K]. destruct (rerun_moved p d _ 20 W U (last_values_numbers (Nat.max (period1 p) (period2 p)) ys Hy) s Hs) as [s' [A [B C]]].
  unfold reinit. rewrite A, C. now apply K.
Qed.

Lemma flat_run a b s1 s2 ys : run flat (State (Some a) (Some b) [Some s1] [Some s2]) (map Some ys) =
  (map (fun k => [Some (a + INR (S k) * b + b + s1 + s2)]) (seq 0 (length ys)), State (Some (a + INR (length ys) * b)) (Some b) [Some s1] [Some s2]).
Proof.
  revert a. induction ys as [|y ys IH]; intros a; [cbn; do 3 f_equal; ring|].
  cbn [map run length seq].
  assert (E : step flat (State (Some a) (Some b) [Some s1] [Some s2]) (Some y) (Some y) = (State (Some (a + b)) (Some b) [Some s1] [Some s2], [Some (a + b + b + s1 + s2)])).
  { unfold step. cbn. do 2 f_equal; [f_equal; ring|f_equal; ring|f_equal; f_equal; ring|f_equal; f_equal; ring|f_equal; ring]. }
  rewrite E, IH. f_equal.
  - f_equal; [do 2 f_equal; cbn; ring|]. rewrite <- seq_shift, map_map. apply map_ext. intros k. rewrite !S_INR. do 2 f_equal. ring.
  - rewrite S_INR. f_equal. f_equal. ring.
Qed.
Lemma flat_rerun n a b s1 s2 ys : rerun n flat (Some (State (Some a) (Some b) [Some s1] [Some s2])) (map Some ys) =
  Some (State (Some (a + INR n * (INR (length ys) * b))) (Some b) [Some s1] [Some s2]).
Proof.
  revert a. induction n as [|n IH]; intros a; [cbn; do 3 f_equal; ring|]. cbn [rerun]. unfold run_from.
  change (initial flat (Some (State (Some a) (Some b) [Some s1] [Some s2])) (map Some ys)) with (State (Some a) (Some b) [Some s1] [Some s2]).
  rewrite flat_run. cbn [snd]. rewrite IH, S_INR. do 3 f_equal. ring.
Qed.
(** Forecasts after a re-initialisation depend on the states before it. *)
Lemma reinit_past_forecasts : exists p s s' ys zs, well_formed p /\ healthy p s /\ healthy p s' /\ all_numbers ys /\ all_numbers zs /\
  (Nat.max (period1 p) (period2 p) <= length ys)%nat /\ zs <> [] /\
  forall r r', In r (fst (predict p (reinit p (Some s) ys) zs None)) -> In r' (fst (predict p (reinit p (Some s') ys) zs None)) -> r <> r'.
Proof.
  exists flat, (State (Some 0) (Some 0) [Some 0] [Some 0]), (State (Some 1) (Some 0) [Some 0] [Some 0]), [Some 5; Some 7], [Some 5].
  split; [exact flat_wf|].
  assert (N : forall l, all_numbers (map Some l)) by (intros l x I; apply in_map_iff in I as [v [<- _]]; now exists v).
  assert (H : forall a, healthy flat (State (Some a) (Some 0) [Some 0] [Some 0])).
  { intros a. repeat split; try (eexists; reflexivity); apply (N [0]). }
  split; [apply H|]. split; [apply H|]. split; [apply (N [5; 7])|]. split; [apply (N [5])|]. split; [cbn; lia|]. split; [discriminate|].
  assert (P : forall a, fst (predict flat (reinit flat (Some (State (Some a) (Some 0) [Some 0] [Some 0])) [Some 5; Some 7]) [Some 5] None) = [[Some a]]).
  { intros a. unfold reinit. change (last_values (Nat.max (period1 flat) (period2 flat)) [Some 5; Some 7]) with (map Some [7]). rewrite flat_rerun.
    unfold predict, run_from. match goal with |- context [initial (no_trend flat) (Some ?s) _] => change (initial (no_trend flat) (Some s) [Some 5]) with s end.
    change (no_trend flat) with flat. change [Some 5] with (map Some [5]). rewrite flat_run. cbn [fst length seq map]. do 3 f_equal. cbn. ring. }
  intros r r'. rewrite !P. intros [<-|[]] [<-|[]] E. injection E as E. lra.
Qed.

(** ** Random search *)
Lemma all_some_numbers l : all_numbers l -> exists v, all_some l = Some v /\ l = map Some v.
Proof.
  induction l as [|x l IH]; intros H; [now exists []|]. destruct (H x (or_introl eq_refl)) as [a ->]. destruct IH as [v [E ->]]; [intros y I; apply H; now right|].
  exists (a :: v). cbn. rewrite E. auto.
Qed.
Lemma all_some_map_some {A} (v : list A) : all_some (map Some v) = Some v.
Proof. induction v as [|a v IH]; [reflexivity|]. cbn. now rewrite IH. Qed.
Lemma sum_nth (f : R -> R -> R) : forall a b, length a = length b ->
  fold_right Rplus 0 (map (fun p => f (fst p) (snd p)) (combine a b)) = fold_right Rplus 0 (map (fun i => f (nth i a 0) (nth i b 0)) (seq 0 (length a))).
Proof.
  induction a as [|x a IH]; intros [|y b] L; cbn in *; try discriminate; [reflexivity|]. f_equal. rewrite (IH b) by lia. rewrite <- seq_shift, map_map. reflexivity.
Qed.
Lemma map2_somes (a b : list R) : map2 (fun u v => option_map Rsqr (minus u v)) (map Some a) (map Some b) = map Some (map2 (fun u v => Rsqr (u - v)) a b).
Proof. unfold map2. revert b. induction a as [|x a IH]; intros [|y b]; cbn; auto. now rewrite IH. Qed.
Lemma row_rmse a b : length a = length b -> option_map sqrt (mean_num (map2 (fun u v => option_map Rsqr (minus u v)) (map Some a) (map Some b))) = Some (row_error a b).
Proof.
  intros L. rewrite map2_somes. unfold mean_num. rewrite all_some_map_some. cbn. unfold row_error, Rsqr. f_equal. f_equal. unfold map2.
  rewrite (sum_nth (fun u v => (u - v) * (u - v))) by exact L. f_equal. f_equal. rewrite map_length, combine_length. lia.
Qed.
(** The score is the mean over the rows of the root of the mean squared error of the row. *)
Lemma search_rmse_correct (x y : list (list R)) : length x = length y -> (forall i, length (nth i x []) = length (nth i y [])) ->
  rmse (map (map Some) x) (map (map Some) y) = Some (mean_error x y).
Proof.
  intros L H. unfold rmse, mean_error.
  assert (E : map2 (fun a b => option_map sqrt (mean_num (map2 (fun u v => option_map Rsqr (minus u v)) a b))) (map (map Some) x) (map (map Some) y)
    = map Some (map (fun i => row_error (nth i x []) (nth i y [])) (seq 0 (length x)))).
  { revert y L H. induction x as [|a x IH]; intros [|b y] L H; cbn in *; try discriminate; [reflexivity|]. unfold map2 in *. cbn [map combine fst snd].
    f_equal; [apply (row_rmse a b), (H O)|]. etransitivity; [apply (IH y); [lia|]; intros i; apply (H (S i))|]. rewrite <- seq_shift, !map_map. reflexivity. }
  rewrite E. unfold mean_num. rewrite all_some_map_some, map_length, seq_length. reflexivity.
Qed.
Lemma with_trial_wf p b t : well_formed p -> well_formed (with_trial p b t).
Proof. destruct t as [[a g1] g2]. exact (fun H => H). Qed.
Lemma with_trial_healthy p b t s : healthy p s -> healthy (with_trial p b t) s.
Proof. destruct t as [[a g1] g2]. exact (fun H => H). Qed.
Lemma map2_all {A B C} (f : A -> B -> C) (P : A -> Prop) (Q : B -> Prop) (T : C -> Prop) a b : (forall x y, P x -> Q y -> T (f x y)) -> Forall P a -> Forall Q b -> Forall T (map2 f a b).
Proof.
  intros H. unfold map2. revert b. induction a as [|x a IH]; intros b Fa Fb; [constructor|]. destruct b as [|y b]; [constructor|]. inversion Fa; inversion Fb; subst. cbn. constructor; auto.
Qed.
Lemma all_numbers_Forall l : all_numbers l <-> Forall number l.
Proof. unfold all_numbers. now rewrite Forall_forall. Qed.
Lemma mean_number l : all_numbers l -> number (mean_num l).
Proof. intros H. destruct (all_some_numbers l H) as [v [E _]]. unfold mean_num. rewrite E. eexists; reflexivity. Qed.
Lemma rmse_number x y : Forall all_numbers x -> Forall all_numbers y -> number (rmse x y).
Proof.
  intros Hx Hy. unfold rmse. apply mean_number, all_numbers_Forall. apply (map2_all _ all_numbers all_numbers); auto. intros a b Ha Hb.
  assert (N : number (mean_num (map2 (fun u v => option_map Rsqr (minus u v)) a b))).
  { apply mean_number, all_numbers_Forall. apply (map2_all _ number number); [|now apply all_numbers_Forall|now apply all_numbers_Forall]. intros u v [q ->] [r ->]. eexists; reflexivity. }
  destruct N as [v ->]. eexists; reflexivity.
Qed.
Lemma Forall_skipn {A} (P : A -> Prop) n l : Forall P l -> Forall P (skipn n l).
Proof. revert l. induction n; intros [|a l] H; cbn; auto. inversion H; auto. Qed.
Lemma score_number p s ys target t : well_formed p -> healthy p s -> all_numbers ys -> Forall all_numbers target -> number (score p (Some s) ys target t).
Proof.
  intros W Hs Hy Ht. unfold score. apply rmse_number; apply Forall_skipn; [|exact Ht]. unfold run_from.
  rewrite (initial_healthy (with_trial p search_beta t) s ys); [|now apply with_trial_wf|now apply with_trial_healthy].
  apply (run_healthy (with_trial p search_beta t) s ys); [now apply with_trial_wf|now apply with_trial_healthy|exact Hy].
Qed.
Lemma firstn_numbers n ys : all_numbers ys -> all_numbers (firstn n ys).
Proof. intros H x I. apply H. revert n I. clear H. induction ys as [|y ys IH]; intros [|n] I; cbn in *; try easy. destruct I as [->|I]; [now left|right; now apply (IH n)]. Qed.
Lemma rerun_healthy p ys n : well_formed p -> all_numbers ys -> forall s, healthy p s -> exists s', rerun n p (Some s) ys = Some s' /\ healthy p s'.
Proof.
  intros W Hy. induction n as [|n IH]; intros s Hs; [exists s; auto|]. cbn [rerun]. unfold run_from. rewrite (initial_healthy p s ys W Hs). apply IH. apply (run_healthy p s ys W Hs Hy).
Qed.
Lemma reinit_healthy p ys s : well_formed p -> all_numbers ys -> healthy p s -> exists s', reinit p (Some s) ys = Some s' /\ healthy p s'.
Proof. intros W Hy. apply rerun_healthy; [exact W|]. now apply last_values_numbers. Qed.
Lemma scores_nth p ys target : well_formed p -> all_numbers ys -> Forall all_numbers target -> forall ts s, healthy p s ->
  (exists v, fst (scores p (Some s) ys target ts) = map Some v /\ length v = length ts /\
   forall j t, nth_error ts j = Some t -> exists q, nth_error v j = Some q /\ score p (reinit_times (S j) p (Some s) (warm_up p ys)) ys target t = Some q) /\
  snd (scores p (Some s) ys target ts) = reinit_times (length ts) p (Some s) (warm_up p ys).
Proof.
  intros W Hy Ht. assert (Hw : all_numbers (warm_up p ys)) by now apply firstn_numbers.
  induction ts as [|t ts IH]; intros s Hs.
  - split; [|reflexivity]. exists []. repeat split. intros [|j] t; discriminate.
  - cbn [scores]. destruct (reinit_healthy p (warm_up p ys) s W Hw Hs) as [s' [E Hs']]. rewrite E. destruct (IH s' Hs') as [[v [A [L B]]] C].
    destruct (scores p (Some s') ys target ts) as [l st]. cbn [fst snd] in *. subst l st. split.
    + destruct (score_number p s' ys target t W Hs' Hy Ht) as [q Eq]. exists (q :: v). rewrite Eq. split; [reflexivity|]. split; [cbn; lia|].
      intros [|j] t0 N; cbn in N.
      * injection N as <-. exists q. split; [reflexivity|]. cbn [reinit_times]. now rewrite E.
      * destruct (B j t0 N) as [r [B1 B2]]. exists r. split; [exact B1|]. change (reinit_times (S (S j)) p (Some s) (warm_up p ys)) with (reinit_times (S j) p (reinit p (Some s) (warm_up p ys)) (warm_up p ys)).
        now rewrite E.
    + cbn [length reinit_times]. now rewrite E.
Qed.
Lemma first_nan_somes v k : first_nan k (map Some v) = None.
Proof. revert k. induction v as [|a v IH]; intros k; [reflexivity|apply IH]. Qed.
Lemma argmin_from_spec l : forall best v k, (forall i, nth_error l i = nth_error l i) ->
  (argmin_from best v k l = best /\ (forall i x, nth_error l i = Some x -> v <= x)) \/
  (exists i x, argmin_from best v k l = (k + i)%nat /\ nth_error l i = Some x /\ x < v /\ (forall j y, nth_error l j = Some y -> x <= y)).
Proof.
  induction l as [|a l IH]; intros best v k _; cbn [argmin_from].
  - left. split; [reflexivity|]. intros [|i] x; discriminate.
  - destruct (Rlt_dec a v) as [Lt|Ge].
    + right. destruct (IH k a (S k) ltac:(reflexivity)) as [[E H]|[i [x [E [N [L H]]]]]].
      * exists 0%nat, a. rewrite E. split; [lia|]. split; [reflexivity|]. split; [exact Lt|]. intros [|j] y N; cbn in N; [injection N as <-; lra|now apply (H j)].
      * exists (S i), x. rewrite E. split; [lia|]. split; [exact N|]. split; [lra|]. intros [|j] y M; cbn in M; [injection M as <-; lra|now apply (H j)].
    + destruct (IH best v (S k) ltac:(reflexivity)) as [[E H]|[i [x [E [N [L H]]]]]].
      * left. split; [exact E|]. intros [|j] y N; cbn in N; [injection N as <-; lra|now apply (H j)].
      * right. exists (S i), x. rewrite E. split; [lia|]. split; [exact N|]. split; [exact L|]. intros [|j] y M; cbn in M; [injection M as <-; lra|now apply (H j)].
Qed.
Lemma argmin_best l i : argmin l = Some i -> exists x, nth_error l i = Some x /\ forall j y, nth_error l j = Some y -> x <= y.
Proof.
  destruct l as [|a l]; [discriminate|]. cbn. intros [= <-]. destruct (argmin_from_spec l 0 a 1 ltac:(reflexivity)) as [[E H]|[i [x [E [N [L H]]]]]]; rewrite E.
  - exists a. split; [reflexivity|]. intros [|j] y M; cbn in M; [injection M as <-; lra|now apply (H j)].
  - exists x. split; [exact N|]. intros [|j] y M; cbn in M; [injection M as <-; lra|now apply (H j)].
Qed.
(** The trial chosen has the least of the scores, trial [i] being scored after [i + 2] re-initialisations; the states stored are those of a last run. *)
Lemma search_least (p : params) (s : state) (ys : list num) (target : list (list num)) (ts : list trial) : well_formed p -> healthy p s -> all_numbers ys ->
  Forall all_numbers target -> ts <> [] -> exists i t rows s', rand_search p (Some s) ys target ts = Some (t, rows, Some s') /\ nth_error ts i = Some t /\
  let start n := reinit_times n p (Some s) (warm_up p ys) in
  (forall j u, nth_error ts j = Some u -> exists v w, score p (start (i + 2)%nat) ys target t = Some v /\ score p (start (j + 2)%nat) ys target u = Some w /\ v <= w) /\
  run_from (with_trial p (beta p) t) (start (length ts + 1)%nat) ys = (rows, s').
Proof.
  intros W Hs Hy Ht Hn. unfold rand_search. assert (Hw : all_numbers (warm_up p ys)) by now apply firstn_numbers.
  destruct (reinit_healthy p (warm_up p ys) s W Hw Hs) as [s1 [E Hs1]]. rewrite E. destruct (scores_nth p ys target W Hy Ht ts s1 Hs1) as [[v [A [L B]]] C].
  destruct (scores p (Some s1) ys target ts) as [l st]. cbn [fst snd] in *. subst l st. unfold argmin_num. rewrite first_nan_somes, all_some_map_some.
  destruct (argmin v) as [i|] eqn:Ei; [|exfalso; destruct v; [destruct ts; cbn in L; [congruence|lia]|discriminate]].
  destruct (argmin_best v i Ei) as [x [Nx Hx]]. assert (Li : (i < length ts)%nat) by (rewrite <- L; apply nth_error_Some; congruence).
  destruct (nth_error ts i) as [t|] eqn:Et; [|apply nth_error_None in Et; lia].
  destruct (run_from (with_trial p (beta p) t) (reinit_times (length ts) p (Some s1) (warm_up p ys)) ys) as [rows s'] eqn:Er.
  exists i, t, rows, s'. split; [reflexivity|]. split; [exact Et|]. cbv zeta.
  assert (K : forall n, reinit_times (S n) p (Some s) (warm_up p ys) = reinit_times n p (Some s1) (warm_up p ys)) by (intros n; cbn [reinit_times]; now rewrite E).
  split.
  - intros j u Nu. destruct (B i t Et) as [q [Q1 Q2]]. destruct (B j u Nu) as [r [R1 R2]]. exists q, r.
    replace (i + 2)%nat with (S (S i)) by lia. replace (j + 2)%nat with (S (S j)) by lia. rewrite !K. split; [exact Q2|]. split; [exact R2|].
    rewrite Nx in Q1. injection Q1 as <-. now apply (Hx j).
  - replace (length ts + 1)%nat with (S (length ts)) by lia. rewrite K. exact Er.
Qed.

(** The trials are scored from different states: one that is better from every start loses, and the rows returned have another score. *)
Definition drift : params := Params 0 0 0 0 None None 1 1 1.
Lemma drift_reinit a : reinit drift (Some (State (Some a) (Some 1) [Some 0] [Some 0])) (warm_up drift [Some 0]) = Some (State (Some (a + 20)) (Some 1) [Some 0] [Some 0]).
Proof.
  unfold reinit. change (last_values (Nat.max (period1 drift) (period2 drift)) (warm_up drift [Some 0])) with (map Some [0]).
  change drift with flat. rewrite (flat_rerun 20 a 1 0 0 [0]). do 3 f_equal. replace (INR 20) with 20 by (cbn; lra). cbn [length INR]. ring.
Qed.
Lemma drift_score a c : 0 <= a -> 0 <= c <= / 2 -> score drift (Some (State (Some a) (Some 1) [Some 0] [Some 0])) [Some 0] [[Some 0]] (c, 0, 0) =
  Some ((1 - c) * (a + 1) + (search_beta * ((1 - c) * (a + 1) - a) + (1 - search_beta))).
Proof.
  intros Ha Hc. unfold score. change (length [Some 0] / 10)%nat with 0%nat. cbn [skipn]. unfold run_from.
  set (q := with_trial drift search_beta (c, 0, 0)).
  change (initial q (Some (State (Some a) (Some 1) [Some 0] [Some 0])) [Some 0]) with (State (Some a) (Some 1) [Some 0] [Some 0]).
  assert (E : fst (run q (State (Some a) (Some 1) [Some 0] [Some 0]) [Some 0]) = map (map Some) [[(1 - c) * (a + 1) + (search_beta * ((1 - c) * (a + 1) - a) + (1 - search_beta))]]).
  { unfold q. cbn. do 3 f_equal. ring. }
  rewrite E. etransitivity; [apply (search_rmse_correct [[_]] [[0]]); [reflexivity|intros [|[|i]]; reflexivity]|].
  f_equal. unfold mean_error, row_error. cbn [length seq map nth fold_right INR].
  set (z := (1 - c) * (a + 1) + _). assert (Hz : 0 <= z).
  { assert (M : (a + 1) / 2 <= (1 - c) * (a + 1)) by nra. unfold z, search_beta. lra. }
  replace (((z - 0) * (z - 0) + 0) / 1) with (z * z) by field. rewrite sqrt_square by exact Hz. field.
Qed.
Lemma search_two p st ys target t u a b c va vb : reinit p st (warm_up p ys) = a -> reinit p a (warm_up p ys) = b -> reinit p b (warm_up p ys) = c ->
  score p b ys target t = Some va -> score p c ys target u = Some vb -> va <= vb ->
  rand_search p st ys target [t; u] = let '(rows, s) := run_from (with_trial p (beta p) t) c ys in Some (t, rows, Some s).
Proof.
  intros A B C S1 S2 L. unfold rand_search. cbn [scores]. rewrite A, B, C, S1, S2. unfold argmin_num. cbn [first_nan all_some option_map argmin argmin_from].
  destruct (Rlt_dec vb va) as [K|_]; [exfalso; lra|]. reflexivity.
Qed.
Definition drifting (a : R) : state := State (Some a) (Some 1) [Some 0] [Some 0].
Lemma reinit_times_S n p st w : reinit_times (S n) p st w = reinit_times n p (reinit p st w) w.
Proof. reflexivity. Qed.
Lemma drift_reinit_times n : forall a, reinit_times n drift (Some (drifting a)) (warm_up drift [Some 0]) = Some (drifting (a + 20 * INR n)).
Proof.
  induction n as [|n IH]; intros a; [unfold reinit_times; f_equal; f_equal; change (INR 0) with 0; ring|].
  rewrite reinit_times_S, (drift_reinit a : reinit drift (Some (drifting a)) _ = Some (drifting (a + 20))), IH, S_INR. f_equal. f_equal. ring.
Qed.
Lemma drift_final b : fst (run_from (with_trial drift 0 (0, 0, 0)) (Some (drifting b)) [Some 0]) = [[Some (b + 2)]].
Proof. cbn. do 3 f_equal. ring. Qed.
Lemma drift_error z : 0 <= z -> rmse [[Some z]] [[Some 0]] = Some z.
Proof.
  intros Hz. etransitivity; [apply (search_rmse_correct [[z]] [[0]]); [reflexivity|intros [|[|i]]; reflexivity]|]. f_equal.
  unfold mean_error, row_error. cbn [length seq map nth fold_right INR].
  replace (((z - 0) * (z - 0) + 0) / 1) with (z * z) by field. rewrite sqrt_square by exact Hz. field.
Qed.
Definition drift_value (a c : R) : R := (1 - c) * (a + 1) + (search_beta * ((1 - c) * (a + 1) - a) + (1 - search_beta)).
Lemma drift_search : rand_search drift (Some (drifting 0)) [Some 0] [[Some 0]] [(0, 0, 0); (/ 10, 0, 0)] =
  let '(rows, s) := run_from (with_trial drift 0 (0, 0, 0)) (Some (drifting (0 + 20 + 20 + 20))) [Some 0] in Some ((0, 0, 0), rows, Some s).
Proof.
  apply (search_two drift (Some (drifting 0)) [Some 0] [[Some 0]] (0, 0, 0) (/ 10, 0, 0) _ _ _ _ _ (drift_reinit 0) (drift_reinit (0 + 20)) (drift_reinit (0 + 20 + 20))
      (drift_score (0 + 20 + 20) 0 ltac:(lra) ltac:(lra)) (drift_score (0 + 20 + 20 + 20) (/ 10) ltac:(lra) ltac:(lra))). unfold search_beta; lra.
Qed.
Lemma search_wrong : exists p s ys target worse better rows s', well_formed p /\ healthy p s /\ all_numbers ys /\ Forall all_numbers target /\
  rand_search p (Some s) ys target [worse; better] = Some (worse, rows, Some s') /\
  (forall n, exists v w, score p (reinit_times n p (Some s) (warm_up p ys)) ys target better = Some v /\ score p (reinit_times n p (Some s) (warm_up p ys)) ys target worse = Some w /\ v < w) /\
  rmse rows target <> score p (reinit_times 2 p (Some s) (warm_up p ys)) ys target worse.
Proof.
  assert (N : forall l, all_numbers (map Some l)) by (intros l x I; apply in_map_iff in I as [v [<- _]]; now exists v).
  pose proof drift_search as D. pose proof (drift_final (0 + 20 + 20 + 20)) as F.
  destruct (run_from (with_trial drift 0 (0, 0, 0)) (Some (drifting (0 + 20 + 20 + 20))) [Some 0]) as [rows s']. cbn [fst] in F. subst rows.
  exists drift, (drifting 0), [Some 0], [[Some 0]], (0, 0, 0), (/ 10, 0, 0), [[Some (0 + 20 + 20 + 20 + 2)]], s'.
  split; [exact flat_wf|]. split; [repeat split; try (eexists; reflexivity); apply (N [0])|]. split; [apply (N [0])|]. split; [constructor; [apply (N [0])|constructor]|].
  split; [exact D|]. clear D. split.
  - intros n. pose proof (pos_INR n). exists (drift_value (0 + 20 * INR n) (/ 10)), (drift_value (0 + 20 * INR n) 0).
    rewrite drift_reinit_times. split; [apply drift_score; lra|]. split; [apply drift_score; lra|]. unfold drift_value, search_beta. lra.
  - rewrite drift_reinit_times, drift_error by lra. intros E.
    assert (E2 : Some (0 + 20 + 20 + 20 + 2) = Some (drift_value (0 + 20 * INR 2) 0)) by (etransitivity; [exact E|apply drift_score; cbn; lra]).
    injection E2 as E2. cbn [INR] in E2. unfold drift_value, search_beta in E2. lra.
Qed.

(** ** In terms of errors *)
Lemma run_lengths p ys : forall s, length (fst (run p s ys)) = length ys /\ Forall (fun r => length r = steps p) (fst (run p s ys)).
Proof.
  induction ys as [|y ys IH]; intros s; [split; constructor|]. cbn [run]. destruct (step p s y y) as [s' r] eqn:E. specialize (IH s'). destruct (run p s' ys) as [rs s2]. cbn [fst length] in *.
  destruct IH as [A B]. split; [now rewrite A|]. constructor; [|exact B]. unfold step in E. injection E as _ <-. now rewrite map_length, seq_length.
Qed.
Lemma Forall_nth_all {A} (P : list A -> Prop) l i : P [] -> Forall P l -> P (nth i l []).
Proof. intros H F. destruct (nth_in_or_default i l []) as [I|E]; [now apply (proj1 (Forall_forall P l) F)|now rewrite E]. Qed.
Lemma somes_rows (l : list (list num)) : Forall all_numbers l -> exists rows, l = map (map Some) rows.
Proof.
  induction 1 as [|r l Hr _ [rows ->]]; [now exists []|]. destruct (all_some_numbers r Hr) as [v [_ ->]]. now exists (v :: rows).
Qed.
Lemma skipn_map_rows {A B} (f : A -> B) n l : skipn n (map f l) = map f (skipn n l).
Proof. revert l. induction n; intros [|a l]; cbn; auto. Qed.
Lemma nth_skipn_rows {A} n (l : list (list A)) i : nth i (skipn n l) [] = nth (n + i) l [].
Proof. revert l. induction n; intros [|a l]; cbn; auto. destruct i; reflexivity. Qed.
Lemma score_error p s ys target t v : well_formed p -> healthy p s -> all_numbers ys -> targets p ys target ->
  score p (Some s) ys (map (map Some) target) t = Some v -> trial_error p (Some s) ys target t v.
Proof.
  intros W Hs Hy [Lt Ft] E. unfold trial_error.
  assert (Q : tried p (/ 1000) t = with_trial p search_beta t) by (destruct t as [[a g1] g2]; reflexivity). rewrite Q. clear Q.
  unfold score in E. unfold run_from in *. assert (I0 : initial (with_trial p search_beta t) (Some s) ys = s) by (apply initial_healthy; [now apply with_trial_wf|now apply with_trial_healthy]).
  rewrite I0 in *. clear I0.
  assert (N : Forall all_numbers (fst (run (with_trial p search_beta t) s ys))) by (apply (run_healthy (with_trial p search_beta t) s ys); [now apply with_trial_wf|now apply with_trial_healthy|exact Hy]).
  destruct (run_lengths (with_trial p search_beta t) ys s) as [L F]. destruct (somes_rows _ N) as [rows Er]. rewrite Er in *. rewrite map_length in L. exists rows. split; [reflexivity|]. split; [exact L|].
  rewrite !skipn_map_rows in E. rewrite search_rmse_correct in E; [now injection E|rewrite !skipn_length; lia|].
  intros i. rewrite !nth_skipn_rows. set (k := (_ + i)%nat). destruct (lt_dec k (length ys)) as [K|K].
  - rewrite Forall_forall in F, Ft. rewrite (Ft (nth k target [])) by (apply nth_In; lia).
    pose proof (F (map Some (nth k rows []))) as F'. rewrite map_length in F'. rewrite F'; [destruct t as [[a g1] g2]; reflexivity|]. apply in_map, nth_In. lia.
  - rewrite !nth_overflow by lia. reflexivity.
Qed.
Lemma reinit_times_healthy p w n : well_formed p -> all_numbers w -> forall s, healthy p s -> exists s', reinit_times n p (Some s) w = Some s' /\ healthy p s'.
Proof.
  intros W Hw. induction n as [|n IH]; intros s Hs; [now exists s|]. destruct (reinit_healthy p w s W Hw Hs) as [s' [E Hs']]. rewrite reinit_times_S, E. now apply IH.
Qed.
Lemma rows_numbers (target : list (list R)) : Forall all_numbers (map (map Some) target).
Proof. apply Forall_forall. intros r I. apply in_map_iff in I as [v [<- _]]. intros x J. apply in_map_iff in J as [q [<- _]]. now exists q. Qed.
(** The trial chosen has the least error, trial [i] being run after [i + 2] re-initialisations; rows and states are those of a last run. *)
Lemma search_least_error (p : params) (s : state) (ys : list num) (target : list (list R)) (ts : list (R * R * R)) : well_formed p -> healthy p s -> all_numbers ys ->
  targets p ys target -> ts <> [] -> exists i t rows s', rand_search p (Some s) ys (map (map Some) target) ts = Some (t, rows, Some s') /\ nth_error ts i = Some t /\
  (forall j u, nth_error ts j = Some u -> exists v w, trial_error p (restarted (i + 2) p s ys) ys target t v /\ trial_error p (restarted (j + 2) p s ys) ys target u w /\ v <= w) /\
  run_from (tried p (beta p) t) (restarted (length ts + 1) p s ys) ys = (rows, s').
Proof.
  intros W Hs Hy Ht Ne. destruct (search_least p s ys (map (map Some) target) ts W Hs Hy (rows_numbers target) Ne) as [i [t [rows [s' [A [B [C D]]]]]]].
  exists i, t, rows, s'. split; [exact A|]. split; [exact B|]. split.
  - intros j u Hu. destruct (C j u Hu) as [v [w [V [X L]]]]. exists v, w. unfold restarted. fold (warm_up p ys).
    assert (Hw : all_numbers (warm_up p ys)) by now apply firstn_numbers.
    destruct (reinit_times_healthy p _ (i + 2) W Hw s Hs) as [s1 [E1 H1]]. destruct (reinit_times_healthy p _ (j + 2) W Hw s Hs) as [s2 [E2 H2]].
    rewrite E1 in *. rewrite E2 in *. split; [now apply score_error|]. split; [now apply score_error|exact L].
  - destruct t as [[a g1] g2]. exact D.
Qed.
(** A trial that is better from every start can lose, and the rows returned have another error than the one the trial was chosen for. *)
Lemma search_wrong_error : exists p s ys target worse better rows s', well_formed p /\ healthy p s /\ all_numbers ys /\ targets p ys target /\
  rand_search p (Some s) ys (map (map Some) target) [worse; better] = Some (worse, map (map Some) rows, Some s') /\
  (forall n, exists v w, trial_error p (restarted n p s ys) ys target better v /\ trial_error p (restarted n p s ys) ys target worse w /\ v < w) /\
  ~ trial_error p (restarted 2 p s ys) ys target worse (mean_error rows target).
Proof.
  assert (N : forall l, all_numbers (map Some l)) by (intros l x I; apply in_map_iff in I as [v [<- _]]; now exists v).
  assert (W : well_formed drift) by exact flat_wf. assert (H : forall a, healthy drift (drifting a)) by (intros a; repeat split; try (eexists; reflexivity); apply (N [0])).
  assert (T : targets drift [Some 0] [[0]]) by (repeat constructor).
  pose proof drift_search as D. pose proof (drift_final (0 + 20 + 20 + 20)) as F.
  destruct (run_from (with_trial drift 0 (0, 0, 0)) (Some (drifting (0 + 20 + 20 + 20))) [Some 0]) as [rows s']. cbn [fst] in F. subst rows.
  exists drift, (drifting 0), [Some 0], [[0]], (0, 0, 0), (/ 10, 0, 0), [[0 + 20 + 20 + 20 + 2]], s'.
  split; [exact W|]. split; [apply H|]. split; [apply (N [0])|]. split; [exact T|]. split; [exact D|]. clear D.
  assert (RS : forall n, restarted n drift (drifting 0) [Some 0] = Some (drifting (0 + 20 * INR n))) by (intros n; apply drift_reinit_times).
  assert (TE : forall n c, 0 <= c <= / 2 -> trial_error drift (Some (drifting (0 + 20 * INR n))) [Some 0] [[0]] (c, 0, 0) (drift_value (0 + 20 * INR n) c)).
  { intros n c Hc. apply score_error; auto; [apply (N [0])|]. apply drift_score; [pose proof (pos_INR n); lra|exact Hc]. }
  split.
  - intros n. exists (drift_value (0 + 20 * INR n) (/ 10)), (drift_value (0 + 20 * INR n) 0). rewrite RS. split; [apply TE; lra|]. split; [apply TE; lra|].
    pose proof (pos_INR n). unfold drift_value, search_beta. lra.
  - rewrite RS. intros E. pose proof (TE 2%nat 0 ltac:(lra)) as E2. destruct E as [r1 [A1 [L1 B1]]]. destruct E2 as [r2 [A2 [L2 B2]]]. rewrite A1 in A2.
    assert (r1 = r2) as ->.
    { clear -A2. revert r2 A2. induction r1 as [|a r1 IH]; intros [|b r2] E; try discriminate; [reflexivity|]. cbn in E. injection E as E1 E2. f_equal; [|now apply IH].
      clear -E1. revert b E1. induction a as [|x a IH]; intros [|y b] E; try discriminate; [reflexivity|]. cbn in E. injection E as -> E. f_equal. now apply IH. }
    rewrite <- B2 in B1. revert B1. unfold mean_error, row_error. cbn [length seq map nth fold_right INR].
    replace (((0 + 20 + 20 + 20 + 2 - 0) * (0 + 20 + 20 + 20 + 2 - 0) + 0) / 1) with (62 * 62) by field. rewrite sqrt_square by lra. unfold drift_value, search_beta. lra.
Qed.
