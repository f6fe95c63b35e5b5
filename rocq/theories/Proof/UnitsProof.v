(** Holt-Winters and changes of units. *)
From Coq Require Import List ZArith Reals Arith Lia Lra Bool.
From Verif Require Import Model.HoltWinters Spec.UnitsSpec.
Import ListNotations.
Local Open Scope R_scope.

Lemma in_plus c x y : in_units c (plus x y) = plus (in_units c x) (in_units c y).
Proof. destruct x, y; cbn; f_equal; ring. Qed.
Lemma in_minus c x y : in_units c (minus x y) = minus (in_units c x) (in_units c y).
Proof. destruct x, y; cbn; f_equal; ring. Qed.
Lemma in_scale c k x : in_units c (scale k x) = scale k (in_units c x).
Proof. destruct x; cbn; f_equal; ring. Qed.
Lemma in_nan c x : is_nan (in_units c x) = is_nan x.
Proof. now destruct x. Qed.
Lemma map_nth_none (f : num -> num) l i : f None = None -> nth i (map f l) None = f (nth i l None).
Proof. intros E. rewrite <- E at 1. apply map_nth. Qed.
Lemma hd_map_none (f : num -> num) l : f None = None -> hd None (map f l) = f (hd None l).
Proof. now destruct l. Qed.
Lemma last_map_none (f : num -> num) l : f None = None -> last (map f l) None = f (last l None).
Proof. intros E. induction l as [|a [|b l] IH]; [now cbn|reflexivity|]. exact IH. Qed.
Lemma Rmin_scaled c a b : 0 <= c -> Rmin (c * a) (c * b) = c * Rmin a b.
Proof. intros H. unfold Rmin. destruct (Rle_dec a b), (Rle_dec (c * a) (c * b)); nra. Qed.
Lemma in_constrainify c p x : 0 <= c -> constrainify (params_in c p) (in_units c x) = in_units c (constrainify p x).
Proof.
  intros H. unfold constrainify. cbn [params_in lower upper]. destruct (lower p) as [l|], (upper p) as [u|], x as [x|]; cbn; try reflexivity.
  - now rewrite RmaxRmult, Rmin_scaled.
  - now rewrite RmaxRmult.
  - now rewrite Rmin_scaled.
Qed.
Lemma in_shift c s v : shift (map (in_units c) s) (in_units c v) = map (in_units c) (shift s v).
Proof. unfold shift. rewrite map_app. now destruct s. Qed.

Lemma in_level c k v x y l t :
  plus (scale k (minus (minus (in_units c v) (in_units c x)) (in_units c y))) (scale (1 - k) (plus (in_units c l) (in_units c t)))
  = in_units c (plus (scale k (minus (minus v x) y)) (scale (1 - k) (plus l t))).
Proof. destruct v, x, y, l, t; cbn; try reflexivity. f_equal. ring. Qed.
Lemma in_season c k v a u w :
  plus (scale k (minus (minus (in_units c v) (in_units c a)) (in_units c u))) (scale (1 - k) (in_units c w))
  = in_units c (plus (scale k (minus (minus v a) u)) (scale (1 - k) w)).
Proof. destruct v, a, u, w; cbn; try reflexivity. f_equal. ring. Qed.
Lemma in_trend c k a l t :
  plus (scale k (minus (in_units c a) (in_units c l))) (scale (1 - k) (in_units c t)) = in_units c (plus (scale k (minus a l)) (scale (1 - k) t)).
Proof. destruct a, l, t; cbn; try reflexivity. f_equal. ring. Qed.
Lemma in_row c k a b x y :
  plus (plus (plus (in_units c a) (scale k (in_units c b))) (in_units c x)) (in_units c y) = in_units c (plus (plus (plus a (scale k b)) x) y).
Proof. destruct a, b, x, y; cbn; try reflexivity. f_equal. ring. Qed.
Local Opaque plus minus scale in_units constrainify shift INR.
Lemma step_units c p s y cell : 0 <= c ->
  step (params_in c p) (state_in c s) (in_units c y) (in_units c cell)
  = (state_in c (fst (step p s y cell)), map (in_units c) (snd (step p s y cell))).
Proof.
  intros H. unfold step. cbn [fst snd]. unfold state_in at 3. cbn [level trend season1 season2].
  change (alpha (params_in c p)) with (alpha p). change (beta (params_in c p)) with (beta p).
  change (gamma1 (params_in c p)) with (gamma1 p). change (gamma2 (params_in c p)) with (gamma2 p).
  change (period1 (params_in c p)) with (period1 p). change (period2 (params_in c p)) with (period2 p).
  change (steps (params_in c p)) with (steps p).
  change (level (state_in c s)) with (in_units c (level s)). change (trend (state_in c s)) with (in_units c (trend s)).
  change (season1 (state_in c s)) with (map (in_units c) (season1 s)). change (season2 (state_in c s)) with (map (in_units c) (season2 s)).
  rewrite in_nan. replace (if is_nan y then in_units c cell else in_units c y) with (in_units c (if is_nan y then cell else y)) by now destruct (is_nan y).
  rewrite !hd_map_none by reflexivity. generalize (if is_nan y then cell else y). intros v.
  rewrite in_level, !in_season, in_trend, !in_constrainify, !in_shift by exact H.
  f_equal. rewrite map_map. apply map_ext. intros i.
  rewrite !map_nth_none by reflexivity. apply in_row.
Qed.
Local Transparent plus minus scale in_units constrainify shift INR.
Lemma run_units c p : 0 <= c -> forall ys s,
  run (params_in c p) (state_in c s) (map (in_units c) ys)
  = (map (map (in_units c)) (fst (run p s ys)), state_in c (snd (run p s ys))).
Proof.
  intros H. induction ys as [|y ys IH]; intros s; [reflexivity|]. cbn [map run]. rewrite step_units by exact H.
  destruct (step p s y y) as [s1 row]. cbn [fst snd]. rewrite IH. now destruct (run p s1 ys).
Qed.
Lemma in_memory c n ys s : memory n (map (in_units c) ys) (map (in_units c) s) = map (in_units c) (memory n ys s).
Proof.
  unfold memory. replace (forallb is_nan (map (in_units c) s)) with (forallb is_nan s).
  - destruct (forallb is_nan s); [|reflexivity]. rewrite last_map_none by reflexivity. induction n; cbn; congruence.
  - induction s as [|a s IH]; [reflexivity|]. cbn. now rewrite in_nan, IH.
Qed.
Lemma in_repeat c x n : map (in_units c) (repeat x n) = repeat (in_units c x) n.
Proof. induction n; cbn; congruence. Qed.
Lemma in_initial c p st ys : initial (params_in c p) (option_map (state_in c) st) (map (in_units c) ys) = state_in c (initial p st ys).
Proof.
  destruct st as [s|]; cbn [option_map initial params_in period1 period2 state_in level trend season1 season2].
  - unfold state_in. cbn [level trend season1 season2]. rewrite !in_memory. f_equal; [destruct (level s)|destruct (trend s)]; cbn; f_equal; ring.
  - unfold state_in. cbn [level trend season1 season2]. rewrite !in_repeat, last_map_none by reflexivity. f_equal; cbn; f_equal; ring.
Qed.
Lemma run_from_units c p st ys : 0 <= c ->
  run_from (params_in c p) (option_map (state_in c) st) (map (in_units c) ys)
  = (map (map (in_units c)) (fst (run_from p st ys)), state_in c (snd (run_from p st ys))).
Proof. intros H. unfold run_from. now rewrite in_initial, run_units. Qed.

(** Forecasts and the state afterwards. *)
Lemma predict_units : forall c p st ys, 0 <= c ->
  predict (params_in c p) (option_map (state_in c) st) (map (in_units c) ys) None
  = (map (map (in_units c)) (fst (predict p st ys None)), option_map (state_in c) (snd (predict p st ys None))).
Proof.
  intros c p st ys H. unfold predict. change (no_trend (params_in c p)) with (params_in c (no_trend p)).
  rewrite run_from_units by exact H. now destruct (run_from (no_trend p) st ys).
Qed.
(** With covariates, whose effects have the unit of the target. *)
Lemma predict_effect_units : forall c p st ys effect, 0 <= c ->
  predict (params_in c p) (option_map (state_in c) st) (map (in_units c) ys) (Some (map (map (in_units c)) effect))
  = (map (map (in_units c)) (fst (predict p st ys (Some effect))), option_map (state_in c) (snd (predict p st ys (Some effect)))).
Proof.
  intros c p st ys e H. unfold predict. change (no_trend (params_in c p)) with (params_in c (no_trend p)).
  rewrite run_from_units by exact H. destruct (run_from (no_trend p) st ys) as [rows s]. cbn [fst snd option_map]. f_equal.
  assert (A : forall r x : list num, map (fun ab : num * num => plus (fst ab) (snd ab)) (combine (map (in_units c) r) (map (in_units c) x))
    = map (in_units c) (map (fun ab => plus (fst ab) (snd ab)) (combine r x))).
  { induction r as [|a r IH]; intros [|b x]; try reflexivity. cbn [map combine fst snd]. rewrite IH. f_equal. symmetry. apply in_plus. }
  clear H. revert e. induction rows as [|r rows IH]; intros [|x e]; try reflexivity. cbn [map combine fst snd]. now rewrite A, IH.
Qed.
Lemma rerun_units c p ys n : 0 <= c -> forall st,
  rerun n (params_in c p) (option_map (state_in c) st) (map (in_units c) ys) = option_map (state_in c) (rerun n p st ys).
Proof.
  intros H. induction n as [|n IH]; intros st; [reflexivity|]. cbn [rerun]. rewrite run_from_units by exact H. cbn [snd].
  exact (IH (Some (snd (run_from p st ys)))).
Qed.
Lemma last_values_map {V W} (f : V -> W) n l : last_values n (map f l) = map f (last_values n l).
Proof. unfold last_values. rewrite map_length. generalize (length l - n)%nat. intros m. revert l. induction m as [|m IH]; intros [|a l]; try reflexivity. apply IH. Qed.
Lemma skipn_map_f {V W} (f : V -> W) : forall m l, skipn m (map f l) = map f (skipn m l).
Proof. induction m as [|m IH]; intros [|a l]; try reflexivity. apply IH. Qed.
Lemma hankel_map {V W} (f : V -> W) l n : hankel (map f l) n = map (map f) (hankel l n).
Proof. unfold hankel. rewrite map_length, map_map. apply map_ext. intros w. now rewrite skipn_map_f, firstn_map. Qed.
Lemma fit_units : forall c p st ys, 0 <= c ->
  fit_rows (params_in c p) (option_map (state_in c) st) (map (in_units c) ys)
  = (map (map (in_units c)) (fst (fst (fit_rows p st ys))), map (map (in_units c)) (snd (fst (fit_rows p st ys))),
     option_map (state_in c) (snd (fit_rows p st ys))).
Proof.
  intros c p st ys H. unfold fit_rows. rewrite run_from_units by exact H. destruct (run_from p st ys) as [rows s].
  cbn [fst snd]. cbn [params_in steps]. rewrite skipn_map_f, hankel_map, map_length, firstn_map. f_equal.
  unfold reinit. cbn [params_in period1 period2]. rewrite last_values_map. exact (rerun_units c p _ 20 H (Some s)).
Qed.

(** * Offsets *)
Lemma moved_level d k v x y l t :
  plus (scale k (minus (minus (moved_by d v) x) y)) (scale (1 - k) (plus (moved_by d l) t))
  = moved_by d (plus (scale k (minus (minus v x) y)) (scale (1 - k) (plus l t))).
Proof. destruct v, x, y, l, t; cbn; try reflexivity. f_equal. ring. Qed.
Lemma moved_cancel d x y : minus (moved_by d x) (moved_by d y) = minus x y.
Proof. destruct x, y; cbn; try reflexivity. f_equal. ring. Qed.
Lemma moved_row d k a b x y : plus (plus (plus (moved_by d a) (scale k b)) x) y = moved_by d (plus (plus (plus a (scale k b)) x) y).
Proof. destruct a, b, x, y; cbn; try reflexivity. f_equal. ring. Qed.
Lemma step_moved d p s y :
  step p (level_moved d s) (moved_by d y) (moved_by d y) = (level_moved d (fst (step p s y y)), map (moved_by d) (snd (step p s y y))).
Proof.
  unfold step. cbn [fst snd]. unfold level_moved. cbn [level trend season1 season2].
  replace (if is_nan (moved_by d y) then moved_by d y else moved_by d y) with (moved_by d y) by now destruct (is_nan _).
  replace (if is_nan y then y else y) with y by now destruct (is_nan y).
  rewrite moved_level, !moved_cancel. f_equal. rewrite map_map. apply map_ext. intros i. apply moved_row.
Qed.
Lemma run_moved d p : forall ys s,
  run p (level_moved d s) (map (moved_by d) ys) = (map (map (moved_by d)) (fst (run p s ys)), level_moved d (snd (run p s ys))).
Proof.
  induction ys as [|y ys IH]; intros s; [reflexivity|]. cbn [map run]. rewrite step_moved.
  destruct (step p s y y) as [s1 row]. cbn [fst snd]. rewrite IH. now destruct (run p s1 ys).
Qed.
Lemma numbers_memory n ys s : ~ Forall (eq None) s -> memory n ys s = s.
Proof.
  intros H. unfold memory. destruct (forallb is_nan s) eqn:E; [|reflexivity]. destruct H. apply Forall_forall. intros x Hx.
  rewrite forallb_forall in E. specialize (E x Hx). now destruct x.
Qed.
Lemma numbers_initial p s ys : has_numbers s -> initial p (Some s) ys = s.
Proof.
  intros (Hl & Ht & H1 & H2). cbn. rewrite !numbers_memory by assumption. destruct s as [[l|] [t|] s1 s2]; cbn in *; congruence.
Qed.
Lemma predict_moved : forall d p s ys, has_numbers s ->
  predict p (Some (level_moved d s)) (map (moved_by d) ys) None
  = (map (map (moved_by d)) (fst (predict p (Some s) ys None)), option_map (level_moved d) (snd (predict p (Some s) ys None))).
Proof.
  intros d p s ys H. unfold predict, run_from. rewrite (numbers_initial (no_trend p) s) by exact H.
  rewrite numbers_initial.
  - rewrite run_moved. now destruct (run (no_trend p) s ys).
  - destruct H as (Hl & Ht & H1 & H2). repeat split; cbn; try assumption. destruct (level s); [discriminate|congruence].
Qed.
(** A new forecaster forecasts almost twice a constant series. *)
Lemma fresh_double : forall p y rest, (1 < period1 p)%nat -> (1 < period2 p)%nat -> (0 < steps p)%nat -> lower p = None -> upper p = None ->
  last (Some y :: rest) None = Some y ->
  nth 0 (nth 0 (fst (predict p None (Some y :: rest) None)) []) None = Some ((2 - alpha p) * y).
Proof.
  intros [al be g1 g2 lo up n1 n2 n] y rest H1 H2 Hn Hl Hu L. cbn [period1 period2 steps lower upper alpha] in *. subst lo up.
  destruct n1 as [|[|n1]]; [lia|lia|]. destruct n2 as [|[|n2]]; [lia|lia|]. destruct n as [|n]; [lia|].
  assert (L2 : @last num (Some y :: rest) None = Some y) by exact L.
  unfold predict, run_from, initial. rewrite L2.
  unfold no_trend. cbn [alpha beta gamma1 gamma2 lower upper period1 period2 steps repeat run].
  unfold step. cbn [is_nan season1 season2 level trend hd seq map alpha gamma1 gamma2 beta steps period1 period2].
  destruct (run _ _ rest) as [rows s']. cbn [fst nth]. rewrite !Nat.mod_0_l by lia. unfold shift. cbn [nth app tl plus minus scale lift2 option_map INR]. f_equal. ring.
Qed.
Lemma last_map {A B} (f : A -> B) d l : l <> [] -> last (map f l) (f d) = f (last l d).
Proof. induction l as [|a [|b l] IH]; intros H; [congruence|reflexivity|]. cbn [map] in *. cbn [last] in *. apply IH. discriminate. Qed.
Lemma fresh_offset : forall d p y rest, (1 < period1 p)%nat -> (1 < period2 p)%nat -> (0 < steps p)%nat -> lower p = None -> upper p = None ->
  last (Some y :: rest) None = Some y -> alpha p <> 1 -> d <> 0 ->
  nth 0 (nth 0 (fst (predict p None (map (moved_by d) (Some y :: rest)) None)) []) None
  <> moved_by d (nth 0 (nth 0 (fst (predict p None (Some y :: rest) None)) []) None).
Proof.
  intros d p y rest H1 H2 Hn Hl Hu L Ha Hd. rewrite fresh_double by assumption. cbn [map moved_by].
  rewrite fresh_double; try assumption.
  - intros E. injection E as E. assert (A : (1 - alpha p) * d = 0) by lra. apply Rmult_integral in A. lra.
  - change (Some (y + d) :: map (moved_by d) rest) with (map (moved_by d) (Some y :: rest)).
    change (@None R) with (moved_by d None) at 1. assert (G := last_map (moved_by d) None (Some y :: rest) ltac:(discriminate)).
    etransitivity; [exact G|]. assert (L2 : @last num (Some y :: rest) None = Some y) by exact L. now rewrite L2.
Qed.
