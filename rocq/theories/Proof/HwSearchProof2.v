From Coq Require Import List Arith Bool Reals Lia Lra.
From Verif Require Import Model.HoltWinters Model.HwSearch Spec.HoltWintersSpec Spec.HwSearchSpec Proof.HoltWintersProof Proof.HoltWintersProof2 Proof.HwSearchProof.
From Verif Require Import Model.Subsample Model.Quantiles.
Import ListNotations.
Local Open Scope R_scope.

(** ** A missing value makes every score missing *)
Lemma run_missing p : forall ys s, In None ys -> exists rows, fst (run p s ys) = rows ++ [repeat None (steps p)].
Proof.
  induction ys as [|y ys IH]; intros s H; [easy|]. destruct ys as [|z ys].
  - destruct H as [-> | []]. cbn [run]. destruct (step_nan p s) as [A _]. destruct (step p s None None) as [s1 row]. cbn [fst snd] in *. subst row. now exists [].
  - assert (level (fst (step p s y y)) = None \/ In None (z :: ys)) as K.
    { destruct H as [-> | H]; [left; apply step_nan | now right]. }
    cbn [run]. cbn [run] in IH. destruct (step p s y y) as [s1 row]. cbn [fst] in K. destruct K as [K | K].
    + destruct (run_nan_level p s1 (z :: ys) K) as [A _]. pose proof (proj1 (run_lengths p (z :: ys) s1)) as L.
      change (let '(s2, row0) := step p s1 z z in let '(rows, s3) := run p s2 ys in (row0 :: rows, s3)) with (run p s1 (z :: ys)).
      destruct (run p s1 (z :: ys)) as [rows s2]. cbn [fst] in *. destruct (exists_last (l := rows)) as (r & x & ->); [intros ->; cbn in L; lia|].
      exists (row :: r). rewrite <- (A x) by (apply in_or_app; right; now left). reflexivity.
    + destruct (IH s1 K) as [r E].
      change (let '(s2, row0) := step p s1 z z in let '(rows, s3) := run p s2 ys in (row0 :: rows, s3)) with (run p s1 (z :: ys)) in *.
      destruct (run p s1 (z :: ys)) as [rows s2]. cbn [fst] in *. subst rows. now exists (row :: r).
Qed.
Lemma mean_missing l : In None l -> mean_num l = None.
Proof.
  intro H. unfold mean_num. replace (all_some l) with (@None (list R)); [reflexivity|].
  induction l as [|[a|] l IH]; cbn [all_some]; [easy | | reflexivity].
  destruct H as [H | H]; [congruence|]. now rewrite <- IH.
Qed.
Lemma rmse_missing x y r : r <> [] -> rmse (x ++ [repeat None (length r)]) (y ++ [r]) = None \/ length x <> length y.
Proof.
  intro N. destruct (Nat.eq_dec (length x) (length y)) as [E|E]; [left | now right]. unfold rmse. apply mean_missing. unfold map2.
  rewrite in_map_iff. exists (repeat None (length r), r). split.
  - cbn [fst snd]. rewrite mean_missing; [reflexivity|]. destruct r as [|v r]; [easy|]. left. reflexivity.
  - revert y E. induction x as [|a x IH]; intros [|b y] E; try discriminate; [now left | right; apply IH; now injection E].
Qed.
Lemma score_missing p st ys target t : In None ys -> (0 < steps p)%nat -> length target = length ys -> Forall (fun r => length r = steps p) target ->
  score p st ys target t = None.
Proof.
  intros H K L F. destruct t as [[a g1] g2]. set (t := (a, g1, g2)). unfold score. destruct (run_missing (with_trial p search_beta t) ys (initial (with_trial p search_beta t) st ys) H) as [rows E].
  change (fst (run_from (with_trial p search_beta t) st ys) = rows ++ [repeat None (steps p)]) in E. cbv zeta.
  pose proof (proj1 (run_lengths (with_trial p search_beta t) ys (initial (with_trial p search_beta t) st ys))) as L1. fold (run_from (with_trial p search_beta t) st ys) in L1.
  rewrite E in *. rewrite app_length in L1. cbn [length] in L1.
  destruct (exists_last (l := target)) as (ta & r & ->); [intros ->; destruct ys; [easy | discriminate L]|]. rewrite app_length in L. cbn [length] in L.
  assert (length ys = length rows + 1)%nat as Q1 by (symmetry; exact L1). assert (length ys = length ta + 1)%nat as Q2 by (symmetry; exact L). clear L L1.
  assert (length ys / 10 <= length rows)%nat as B. { rewrite Q1. destruct rows; [cbn; lia | cbn [length]; apply Nat.div_le_upper_bound; lia]. }
  match goal with |- context [skipn ?n _] => set (from := n) end. assert (from <= length rows)%nat as B1 by exact B. clearbody from.
  rewrite !skipn_app. replace (from - length rows)%nat with 0%nat by lia. replace (from - length ta)%nat with 0%nat by lia. rewrite !skipn_O.
  apply Forall_app in F as [_ F]. inversion F; subst. rewrite <- H2.
  destruct (rmse_missing (skipn from rows) (skipn from ta) r) as [R | R]; [intros ->; cbn in H2; lia | exact R |].
  exfalso. apply R. rewrite !skipn_length. lia.
Qed.
Lemma search_missing (p : params) (st : stored) (ys : list num) (target : list (list num)) (t : R * R * R) (ts : list (R * R * R)) : In None ys ->
  (0 < steps p)%nat -> length target = length ys -> Forall (fun r => length r = steps p) target ->
  exists rows s, rand_search p st ys target (t :: ts) = Some (t, rows, s).
Proof.
  intros H K L F. unfold rand_search. cbn [scores]. destruct (scores p (reinit p (reinit p st (warm_up p ys)) (warm_up p ys)) ys target ts) as [l st1].
  rewrite score_missing by easy. cbn [argmin_num first_nan nth_error]. destruct (run_from (with_trial p (beta p) t) st1 ys) as [rows s]. now exists rows, (Some s).
Qed.
(** ** The first missing score is kept *)
Lemma first_nan_nth : forall l i k, nth_error l i = Some None -> (forall j, (j < i)%nat -> nth_error l j <> Some None) -> first_nan k l = Some (k + i)%nat.
Proof.
  induction l as [|[a|] l IH]; intros [|i] k H B; cbn [nth_error first_nan] in *; try discriminate.
  - rewrite (IH i (S k) H); [f_equal; lia|]. intros j J. apply (B (S j)). lia.
  - f_equal. lia.
  - exfalso. apply (B 0%nat); [lia | reflexivity].
Qed.
Lemma mean_missing_iff l : mean_num l = None <-> In None l.
Proof.
  split; [|apply mean_missing]. unfold mean_num. intro H. destruct (all_some l) as [v|] eqn:E; [discriminate|]. clear H.
  induction l as [|[a|] l IH]; [discriminate | | now left]. right. apply IH. cbn [all_some] in E. destruct (all_some l); [discriminate | reflexivity].
Qed.
Lemma in_combine_both {A B} (l : list A) : forall (m : list B) a, In a l -> length l = length m -> exists b, In (a, b) (combine l m).
Proof.
  induction l as [|c l IH]; intros [|d m] a H L; try easy. destruct H as [-> | H]; [exists d; now left|].
  destruct (IH m a H) as [b B0]; [now injection L|]. exists b. now right.
Qed.
Lemma row_missing (a : list num) (b : list R) : length a = length b ->
  (option_map sqrt (mean_num (map2 (fun u v => option_map Rsqr (minus u v)) a (map Some b))) = None <-> In None a).
Proof.
  intro L. assert (mean_num (map2 (fun u v => option_map Rsqr (minus u v)) a (map Some b)) = None <-> In None a) as K.
  2:{ rewrite <- K. destruct (mean_num _); split; easy. }
  rewrite mean_missing_iff. clear - L. revert b L. induction a as [|x a IH]; intros [|y b] L; try discriminate; [reflexivity|].
  change (map2 (fun u v => option_map Rsqr (minus u v)) (x :: a) (map Some (y :: b))) with (option_map Rsqr (minus x (Some y)) :: map2 (fun u v => option_map Rsqr (minus u v)) a (map Some b)).
  cbn [In]. rewrite IH by now injection L. destruct x as [x|]; cbn; split; intros [H | H]; try discriminate; auto.
Qed.
Lemma rmse_missing_iff (x : list (list num)) (y : list (list R)) : length x = length y -> (forall i, (i < length x)%nat -> length (nth i x []) = length (nth i y [])) ->
  (rmse x (map (map Some) y) = None <-> exists row, In row x /\ In None row).
Proof.
  intros L E. unfold rmse. rewrite mean_missing_iff. revert y L E. induction x as [|a x IH]; intros [|b y] L E; try discriminate.
  - split; [intros [] | intros (r & [] & _)].
  - change (map2 ?f (a :: x) (map (map Some) (b :: y))) with (f a (map Some b) :: map2 f x (map (map Some) y)). cbn [In].
    rewrite IH; [|now injection L | intros i I; apply (E (S i)); cbn [length]; lia]. cbn beta. rewrite row_missing by (apply (E 0%nat); cbn; lia). split.
    + intros [H | (r & R & H)]; [exists a; auto | exists r; auto].
    + intros (r & [-> | R] & H); [now left | right; now exists r].
Qed.
Lemma score_misses p st ys target t : targets p ys target -> (score p st ys (map (map Some) target) t = None <-> trial_misses p st ys t).
Proof.
  intros [L F]. destruct t as [[a g1] g2]. unfold score, trial_misses. cbv zeta.
  change (tried p (/ 1000) (a, g1, g2)) with (with_trial p search_beta (a, g1, g2)). set (q := with_trial p search_beta (a, g1, g2)).
  destruct (run_lengths q ys (initial q st ys)) as [L1 F1]. fold (run_from q st ys) in L1, F1. set (rows := fst (run_from q st ys)) in *. clearbody rows.
  rewrite skipn_map_rows. apply rmse_missing_iff; [rewrite !skipn_length; lia|]. intros i I. rewrite skipn_length in I. rewrite !nth_skipn_rows.
  rewrite Forall_forall in F, F1. rewrite (F (nth _ target [])) by (apply nth_In; lia). rewrite (F1 (nth _ rows [])) by (apply nth_In; lia). reflexivity.
Qed.
Lemma scores_each p ys target : forall ts st j t, nth_error ts j = Some t ->
  nth_error (fst (scores p st ys target ts)) j = Some (score p (reinit_times (S j) p st (warm_up p ys)) ys target t).
Proof.
  induction ts as [|u ts IH]; intros st [|j] t N; try discriminate; cbn [scores].
  - injection N as <-. destruct (scores p (reinit p st (warm_up p ys)) ys target ts). reflexivity.
  - pose proof (IH (reinit p st (warm_up p ys)) j t N) as K. destruct (scores p (reinit p st (warm_up p ys)) ys target ts). exact K.
Qed.
(** The first trial whose run leaves a missing forecast is kept, whatever the errors of the others. *)
Lemma search_first_missing (p : params) (s : state) (ys : list num) (target : list (list R)) (ts : list (R * R * R)) (i : nat) (t : R * R * R) :
  targets p ys target -> nth_error ts i = Some t -> trial_misses p (restarted (i + 2) p s ys) ys t ->
  (forall j u, (j < i)%nat -> nth_error ts j = Some u -> ~ trial_misses p (restarted (j + 2) p s ys) ys u) ->
  exists rows s', rand_search p (Some s) ys (map (map Some) target) ts = Some (t, rows, s').
Proof.
  intros T N M B. unfold rand_search.
  assert (forall j u, nth_error ts j = Some u -> nth_error (fst (scores p (reinit p (Some s) (warm_up p ys)) ys (map (map Some) target) ts)) j =
    Some (score p (restarted (j + 2) p s ys) ys (map (map Some) target) u)) as K.
  { intros j u U. rewrite (scores_each p ys (map (map Some) target) ts _ j u U). unfold restarted. fold (warm_up p ys). replace (j + 2)%nat with (S (S j)) by lia. reflexivity. }
  destruct (scores p (reinit p (Some s) (warm_up p ys)) ys (map (map Some) target) ts) as [l st1]. cbn [fst] in K.
  assert (first_nan 0 l = Some i) as E.
  { rewrite (first_nan_nth l i 0); [reflexivity | refine (eq_trans (K i t N) _); f_equal; now apply score_misses |].
    intros j J Q. destruct (nth_error ts j) as [u|] eqn:U.
    - pose proof (eq_trans (eq_sym (K j u U)) Q) as Z. injection Z as Z. clear Q. rename Z into Q. apply score_misses in Q; [|exact T]. exact (B j u J U Q).
    - apply nth_error_None in U. assert (i < length ts)%nat by (apply nth_error_Some; congruence). lia. }
  unfold argmin_num. rewrite E. change (@nth_error trial ts i) with (@nth_error (R * R * R) ts i). rewrite N.
  destruct (run_from (with_trial p (beta p) t) st1 ys) as [rows s1]. now exists rows, (Some s1).
Qed.
