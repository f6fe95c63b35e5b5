From Coq Require Import Reals List Arith ZArith Bool Lia Lra Permutation.
From Verif Require Import Model.Names Model.Encoder Model.Quantiles Model.Optimize Model.NetColumns Spec.NetColumnsSpec Proof.SaveLoadProof Proof.OptimizeProof.
Import ListNotations.

Lemma accepts_iff a b : scaler_accepts a b = true <-> b = a.
Proof. unfold scaler_accepts. destruct (list_eq_dec (list_eq_dec Ascii.ascii_dec) b a); split; congruence. Qed.
Lemma fit_scaler_names n cols : to_be_normalized (n_unnorm n) cols <> [] -> n_scaler (fit_scaler n cols) = Some (to_be_normalized (n_unnorm n) cols).
Proof. intros H. unfold fit_scaler. destruct (to_be_normalized (n_unnorm n) cols); [contradiction H|]; reflexivity. Qed.
Lemma fit_scaler_unnorm n cols : n_unnorm (fit_scaler n cols) = n_unnorm n.
Proof. unfold fit_scaler. destruct (to_be_normalized (n_unnorm n) cols); reflexivity. Qed.
Lemma to_be_iff u cols c : In c (to_be_normalized u cols) <-> In c cols /\ match u with Some u => ~ In c u | None => True end.
Proof.
  destruct u as [u|]; cbn; [|tauto]. rewrite filter_In, negb_true_iff, <- not_true_iff_false, member_iff. reflexivity.
Qed.
Lemma scaled_values t mu sd r i d :
  nth i (map snd (scaled t mu sd r)) d = if (i <? length r)%nat then
    (let '(c, v) := nth i r ([], d) in if member t c then ((v - mu c) / sd c)%R else v) else d.
Proof.
  unfold scaled. rewrite map_map. cbn [snd]. destruct (Nat.ltb_spec i (length r)) as [L|L].
  - rewrite (nth_indep _ d ((fun x => if member t (fst x) then ((snd x - mu (fst x)) / sd (fst x))%R else snd x) ([], d))) by (rewrite map_length; assumption).
    rewrite (map_nth (fun x => if member t (fst x) then ((snd x - mu (fst x)) / sd (fst x))%R else snd x)). destruct (nth i r ([], d)). reflexivity.
  - apply nth_overflow. rewrite map_length. assumption.
Qed.

(** The columns of the training: accepted, each scaled or not as declared. *)
Lemma trained_columns (unnorm : option (list text)) (cols : list text) (mu sd : text -> R) (r : row) :
  map fst r = cols ->
  exists l, base_inputs (fit_scaler (Net unnorm None) cols) mu sd r = Some l /\ length l = length r /\
    forall i c v, nth_error r i = Some (c, v) ->
      ((match unnorm with Some u => In c u | None => False end) -> nth_error l i = Some v) /\
      ((match unnorm with Some u => ~ In c u | None => True end) -> nth_error l i = Some ((v - mu c) / sd c)%R).
Proof.
  intros E. unfold base_inputs. rewrite fit_scaler_unnorm. cbn [n_unnorm].
  assert (forall t, (forall c, In c cols -> (In c t <-> match unnorm with Some u => ~ In c u | None => True end)) ->
    length (map snd (scaled t mu sd r)) = length r /\
    forall i c v, nth_error r i = Some (c, v) ->
      ((match unnorm with Some u => In c u | None => False end) -> nth_error (map snd (scaled t mu sd r)) i = Some v) /\
      ((match unnorm with Some u => ~ In c u | None => True end) -> nth_error (map snd (scaled t mu sd r)) i = Some ((v - mu c) / sd c)%R)) as K.
  { intros t Ht. unfold scaled. rewrite map_map, map_length. split; [reflexivity|]. intros i c v Hi.
    assert (In c cols) as Hc by (rewrite <- E; apply in_map_iff; exists (c, v); split; [reflexivity|apply nth_error_In with i; assumption]).
    rewrite nth_error_map, Hi. cbn [option_map fst snd]. specialize (Ht c Hc). split; intros Hu.
    - destruct (member t c) eqn:M; [|reflexivity]. exfalso. apply member_iff in M. apply Ht in M. destruct unnorm; auto.
    - replace (member t c) with true by (symmetry; apply member_iff, Ht, Hu). reflexivity. }
  destruct (to_be_normalized unnorm cols) as [|c0 t0] eqn:T.
  - unfold fit_scaler. cbn [n_unnorm]. rewrite T. cbn [n_scaler]. exists (map snd r). split; [reflexivity|].
    specialize (K []). assert (forall c, In c cols -> (In c [] <-> match unnorm with Some u => ~ In c u | None => True end)) as K0.
    { intros c Hc. rewrite <- T. rewrite to_be_iff. tauto. }
    specialize (K K0). assert (map snd (scaled [] mu sd r) = map snd r) as Q by (unfold scaled; rewrite map_map; reflexivity). rewrite Q in K. exact K.
  - rewrite fit_scaler_names by (cbn [n_unnorm]; rewrite T; discriminate). cbn [n_unnorm]. rewrite E.
    replace (scaler_accepts (to_be_normalized unnorm cols) (to_be_normalized unnorm cols)) with true by (symmetry; apply accepts_iff; reflexivity).
    eexists. split; [reflexivity|]. apply K. intros c Hc. rewrite to_be_iff. tauto.
Qed.
(** With every column normalised, another order or other columns are refused. *)
Lemma other_columns_refused (cols : list text) (mu sd : text -> R) (r : row) : cols <> [] -> map fst r <> cols ->
  base_inputs (fit_scaler (Net None None) cols) mu sd r = None.
Proof.
  intros N D. unfold base_inputs. rewrite fit_scaler_unnorm, fit_scaler_names by assumption. cbn.
  destruct (scaler_accepts cols (map fst r)) eqn:A; [|reflexivity]. apply accepts_iff in A. contradiction.
Qed.
(** Two neighbouring unnormalised columns can be swapped without notice. *)
Lemma swapped_columns (u p q : list text) (a b : text) (rp rq : row) (va vb : R) (mu sd : text -> R) :
  In a u -> In b u -> map fst rp = p -> map fst rq = q -> va <> vb ->
  exists l l', base_inputs (fit_scaler (Net (Some u) None) (p ++ a :: b :: q)) mu sd (rp ++ (a, va) :: (b, vb) :: rq) = Some l /\
    base_inputs (fit_scaler (Net (Some u) None) (p ++ a :: b :: q)) mu sd (rp ++ (b, vb) :: (a, va) :: rq) = Some l' /\ l <> l'.
Proof.
  intros Ia Ib Ep Eq V. subst p q.
  assert (to_be_normalized (Some u) (map fst rp ++ a :: b :: map fst rq) = to_be_normalized (Some u) (map fst rp ++ map fst rq)) as T1.
  { cbn. rewrite !filter_app. cbn. apply member_iff in Ia. apply member_iff in Ib. rewrite Ia, Ib. reflexivity. }
  assert (to_be_normalized (Some u) (map fst rp ++ b :: a :: map fst rq) = to_be_normalized (Some u) (map fst rp ++ map fst rq)) as T2.
  { cbn. rewrite !filter_app. cbn. apply member_iff in Ia. apply member_iff in Ib. rewrite Ia, Ib. reflexivity. }
  assert (forall (x y : list R), (x ++ va :: vb :: y) <> (x ++ vb :: va :: y)) as D.
  { intros x y C. apply app_inv_head in C. congruence. }
  assert (forall t, (forall c, In c t -> ~ In c u) -> forall x y : row, map snd (scaled t mu sd (rp ++ (a, va) :: (b, vb) :: rq)) <>
    map snd (scaled t mu sd (rp ++ (b, vb) :: (a, va) :: rq))) as K.
  { intros t Ht _ _. unfold scaled. rewrite !map_app. cbn [map fst snd].
    assert (member t a = false) as -> by (apply not_true_iff_false; intros C; apply member_iff in C; exact (Ht _ C Ia)).
    assert (member t b = false) as -> by (apply not_true_iff_false; intros C; apply member_iff in C; exact (Ht _ C Ib)). apply D. }
  unfold base_inputs. rewrite !fit_scaler_unnorm. cbn [n_unnorm]. rewrite !map_app. cbn [map fst]. rewrite T1, T2.
  destruct (to_be_normalized (Some u) (map fst rp ++ map fst rq)) as [|c0 t0] eqn:T.
  - unfold fit_scaler. cbn [n_unnorm]. rewrite T1. cbn [n_scaler map snd]. eexists. eexists. split; [reflexivity|]. split; [reflexivity|]. apply D.
  - rewrite fit_scaler_names by (cbn [n_unnorm]; rewrite T1; discriminate). cbn [n_unnorm]. rewrite T1.
    replace (scaler_accepts (c0 :: t0) (c0 :: t0)) with true by (symmetry; apply accepts_iff; reflexivity).
    eexists. eexists. split; [reflexivity|]. split; [reflexivity|]. apply K; [|exact []|exact []].
    intros c Hc. rewrite <- T in Hc. apply to_be_iff in Hc. tauto.
Qed.
(** The old scaler of a network that is refitted without columns to normalise. *)
Lemma stale_scaler (names cols : list text) (mu sd : text -> R) (r : row) : names <> [] -> map fst r = cols ->
  base_inputs (fit_scaler (Net (Some cols) (Some names)) cols) mu sd r = None /\
  exists l, base_inputs (fit_scaler (Net (Some cols) None) cols) mu sd r = Some l.
Proof.
  intros N E. assert (to_be_normalized (Some cols) cols = []) as T.
  { destruct (to_be_normalized (Some cols) cols) as [|c l] eqn:T; [reflexivity|]. exfalso.
    assert (In c (to_be_normalized (Some cols) cols)) as I by (rewrite T; left; reflexivity). apply to_be_iff in I. tauto. }
  unfold fit_scaler. cbn [n_unnorm]. rewrite T. unfold base_inputs. cbn [n_scaler n_unnorm]. rewrite E, T. split; [|eauto].
  destruct (scaler_accepts names []) eqn:A; [|reflexivity]. apply accepts_iff in A. congruence.
Qed.

(** Convex networks *)
Lemma pick_ext names r r' : (forall c, In c names -> lookup c r = lookup c r') -> pick names r = pick names r'.
Proof. intros H. unfold pick. apply all_some_ext. assumption. Qed.
Lemma lookup_filter {V} (f : text -> bool) c (r : list (text * V)) : f c = true -> lookup c (filter (fun e => f (fst e)) r) = lookup c r.
Proof.
  intros F. induction r as [|[k v] r IH]; [reflexivity|]. cbn. destruct (f k) eqn:E; cbn.
  - rewrite IH. reflexivity.
  - destruct (same c k) eqn:S; [|assumption]. apply same_eq in S. congruence.
Qed.
Lemma others_filter vars r : others vars r = map fst (filter (fun e => negb (member vars (fst e))) r).
Proof. unfold others. induction r as [|[k v] r IH]; [reflexivity|]. cbn. destruct (negb (member vars k)); cbn; rewrite IH; reflexivity. Qed.
Lemma to_be_filter u vars (r : row) : (forall c, In c vars -> In c u) ->
  to_be_normalized (Some u) (map fst r) = to_be_normalized (Some u) (map fst (filter (fun e => negb (member vars (fst e))) r)).
Proof.
  intros H. cbn. induction r as [|[k v] r IH]; [reflexivity|]. cbn. destruct (member vars k) eqn:M; cbn.
  - apply member_iff in M. apply H in M. apply member_iff in M. rewrite M. cbn. assumption.
  - destruct (negb (member u k)); rewrite IH; reflexivity.
Qed.
Lemma rest_filter names r o : rest names r o -> o = filter (fun e => negb (member names (fst e))) r.
Proof.
  induction 1 as [|c v r o I H IH|c v r o I H IH]; [reflexivity| |]; cbn [filter fst].
  - apply member_iff in I. rewrite I. assumption.
  - destruct (member names c) eqn:M; [apply member_iff in M; contradiction|]. cbn. congruence.
Qed.
Lemma controls_anywhere (n : net) (u vars : list text) (mu sd : text -> R) (r r' o : row) :
  n_unnorm n = Some u -> (forall c, In c vars -> In c u) ->
  rest vars r o -> rest vars r' o ->
  (forall c, In c vars -> lookup c r = lookup c r') ->
  convex_inputs n vars mu sd r = convex_inputs n vars mu sd r'.
Proof.
  intros U H F1 F2 L. apply rest_filter in F1. apply rest_filter in F2. rewrite F2 in F1. symmetry in F1. rename F1 into F. clear F2. unfold convex_inputs. destruct (n_scaler n) as [trained|]; [|reflexivity]. rewrite U.
  rewrite (to_be_filter u vars r H), (to_be_filter u vars r' H), F.
  set (t := to_be_normalized _ _). destruct (scaler_accepts trained t); [|reflexivity].
  rewrite !others_filter, F. set (q := map fst _).
  assert (pick q (scaled t mu sd r) = pick q (scaled t mu sd r')) as ->.
  { apply pick_ext. intros c Hc. rewrite !scaled_at. f_equal. unfold q in Hc. apply in_map_iff in Hc as ([k v] & <- & I).
    apply filter_In in I as [_ I]. cbn in *.
    rewrite <- (lookup_filter (fun k => negb (member vars k)) k r), <- (lookup_filter (fun k => negb (member vars k)) k r') by assumption.
    rewrite F. reflexivity. }
  assert (pick vars (scaled t mu sd r) = pick vars (scaled t mu sd r')) as ->; [|reflexivity].
  apply pick_ext. intros c Hc. rewrite !scaled_at, L by assumption. reflexivity.
Qed.
Lemma convex_unscaled (cols vars : list text) (mu sd : text -> R) (r : row) :
  convex_inputs (fit_scaler (Net (Some cols) None) cols) vars mu sd r = None.
Proof.
  assert (to_be_normalized (Some cols) cols = []) as T.
  { destruct (to_be_normalized (Some cols) cols) as [|c l] eqn:T; [reflexivity|]. exfalso.
    assert (In c (to_be_normalized (Some cols) cols)) as I by (rewrite T; left; reflexivity). apply to_be_iff in I. tauto. }
  unfold fit_scaler. cbn [n_unnorm]. rewrite T. reflexivity.
Qed.

(** Invertible networks *)
Lemma exogenous_anywhere (n : net) (exogenous : list text) (mu sd : text -> R) (r r' o : row) :
  exogenous <> [] ->
  rest exogenous r o -> rest exogenous r' o ->
  (forall c, In c exogenous -> lookup c r = lookup c r') ->
  invertible_inputs n exogenous mu sd r = invertible_inputs n exogenous mu sd r'.
Proof.
  intros N F1 F2 L. apply rest_filter in F1. apply rest_filter in F2. rewrite F2 in F1. symmetry in F1. rename F1 into F. clear F2. unfold invertible_inputs, reorder. destruct exogenous as [|x xs]; [contradiction N; reflexivity|].
  rewrite (pick_ext (x :: xs) r r' L), F. reflexivity.
Qed.
Lemma invertible_unscaled (exogenous : list text) (r : row) n u : 
  NoDup (map fst r) -> invertible_fit (Net u None) exogenous r = Some n -> n_scaler n = None.
Proof.
  intros Nd. unfold invertible_fit. destruct (reorder exogenous r) as [r'|] eqn:E; [|discriminate]. intros H. injection H as <-.
  cbn [n_scaler]. unfold fit_scaler. cbn [n_unnorm].
  assert (to_be_normalized (Some (map fst r)) (map fst r') = []) as ->; [|reflexivity].
  destruct (to_be_normalized (Some (map fst r)) (map fst r')) as [|c l] eqn:T; [reflexivity|]. exfalso.
  assert (In c (to_be_normalized (Some (map fst r)) (map fst r'))) as I by (rewrite T; left; reflexivity). apply to_be_iff in I as [I D]. apply D. clear T D l.
  unfold reorder in E. destruct exogenous as [|x xs]; [injection E as <-; assumption|].
  destruct (pick (x :: xs) r) as [v|] eqn:P; [|discriminate]. injection E as <-. rewrite map_app in I. apply in_app_iff in I as [I|I].
  - apply in_map_iff in I as ([k w] & <- & I). change (In (k, w) (combine (x :: xs) v)) in I. apply in_combine_l in I. cbn [fst]. clear -P I. apply lookup_dom.
    unfold pick in P. revert v P I. generalize (x :: xs). intros l. induction l as [|y l IH]; intros v P I; [destruct I|]. cbn in P.
    destruct (lookup y r) as [z|] eqn:E; [|discriminate]. destruct I as [->|I]; [congruence|].
    destruct (all_some _) as [s|] eqn:A; [|discriminate]. eapply IH; [reflexivity|assumption].
  - apply in_map_iff in I as ([k w] & <- & I). apply filter_In in I as [I _]. apply in_map_iff. exists (k, w). auto.
Qed.
(** The order of the other columns matters, and is not checked. *)
Lemma endogenous_order (u : option (list text)) (a b : text) (va vb : R) (mu sd : text -> R) : a <> b -> va <> vb ->
  exists n l l', invertible_fit (Net u None) [] [(a, va); (b, vb)] = Some n /\
    invertible_inputs n [] mu sd [(a, va); (b, vb)] = Some l /\ invertible_inputs n [] mu sd [(b, vb); (a, va)] = Some l' /\ l <> l'.
Proof.
  intros Nab V. destruct (invertible_fit (Net u None) [] [(a, va); (b, vb)]) as [n|] eqn:F; [|discriminate].
  assert (n_scaler n = None) as S.
  { eapply invertible_unscaled; [|exact F]. cbn. constructor; [intros [C|[]]; congruence|]. constructor; [intros []|constructor]. }
  exists n, [va; vb], [vb; va]. split; [reflexivity|]. unfold invertible_inputs, reorder, base_inputs. rewrite S. repeat split. congruence.
Qed.
Lemma inverted_index {V} (f : V -> V) (frame : list (Z * V)) :
  map snd (invert_frame f frame) = map (fun e => f (snd e)) frame /\
  map fst (invert_frame f frame) = map Z.of_nat (seq 0 (length frame)).
Proof.
  unfold invert_frame. assert (forall (k : list Z) (v : list V), length k = length v -> map snd (combine k v) = v /\ map fst (combine k v) = k) as K.
  { induction k as [|z k IH]; intros [|w v] L; try discriminate; [split; reflexivity|]. cbn. destruct (IH v) as [A B]; [cbn in L; lia|]. rewrite A, B. auto. }
  apply K. rewrite !map_length, seq_length. reflexivity.
Qed.
