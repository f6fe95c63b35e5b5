From Coq Require Import Reals List Arith Bool Lia Lra.
From Verif Require Import Model.HoltWinters Model.Benchmarks Spec.BenchmarksSpec Proof.SeriesProof Proof.HoltWintersProof.
Import ListNotations.
Local Open Scope R_scope.

Lemma persistent_rows {V} n_sa (x : list V) d : length (persistent_predict n_sa x) = length x /\
  forall i, (i < length x)%nat -> length (nth i (persistent_predict n_sa x) []) = n_sa /\
  forall h, (h < n_sa)%nat -> nth h (nth i (persistent_predict n_sa x) []) d = nth i x d.
Proof.
  unfold persistent_predict. split; [apply map_length|]. intros i Hi.
  rewrite (nth_indep _ [] ((fun v => repeat v n_sa) d)) by now rewrite map_length. rewrite (map_nth (fun v => repeat v n_sa)).
  split; [apply repeat_length|]. intros h Hh. rewrite (nth_indep _ d (nth i x d)) by now rewrite repeat_length. apply nth_repeat.
Qed.

Lemma seasonal_rows {V} n_sa (state x : list V) rows d : (1 <= n_sa)%nat -> seasonal_predict n_sa state x = Some rows ->
  length rows = length x /\
  forall i h, (i < length x)%nat -> (h < n_sa)%nat ->
    (i + h < length state + (i + 1))%nat /\ nth h (nth i rows []) d = nth (i + h) (state ++ firstn (i + 1) x) d.
Proof.
  intros Hn. unfold seasonal_predict. destruct (length (firstn _ _) =? length x)%nat eqn:E; [|discriminate]. intros [= <-]. apply Nat.eqb_eq in E. split; [exact E|].
  rewrite firstn_length in E. intros i h Hi Hh.
  assert (L : (length x <= length (hankel (state ++ x) n_sa))%nat) by lia.
  unfold hankel in L. rewrite map_length, seq_length, app_length in L.
  destruct (hankel_windows (state ++ x) n_sa d) as [K1 K2]; [rewrite app_length; lia|]. rewrite app_length in K1, K2.
  split; [lia|]. rewrite nth_firstn by exact Hi. destruct (K2 i) as [_ K]; [lia|]. rewrite K by exact Hh.
  rewrite <- (firstn_skipn (i + 1) x) at 1. rewrite app_assoc, app_nth1; [reflexivity|]. rewrite app_length, firstn_length_le by lia. lia.
Qed.
Lemma seasonal_causal {V} n_sa (state x x' : list V) rows rows' i d : (1 <= n_sa)%nat ->
  seasonal_predict n_sa state x = Some rows -> seasonal_predict n_sa state x' = Some rows' ->
  (i < length x)%nat -> (i < length x')%nat -> firstn (i + 1) x = firstn (i + 1) x' ->
  forall h, (h < n_sa)%nat -> nth h (nth i rows []) d = nth h (nth i rows' []) d.
Proof.
  intros Hn H1 H2 L1 L2 E h Hh. destruct (seasonal_rows n_sa state x rows d Hn H1) as [_ A]. destruct (seasonal_rows n_sa state x' rows' d Hn H2) as [_ B].
  destruct (A i h L1 Hh) as [_ ->]. destruct (B i h L2 Hh) as [_ ->]. now rewrite E.
Qed.
Lemma seasonal_works {V} n_sa (state x : list V) : (1 <= n_sa)%nat ->
  (exists rows, seasonal_predict n_sa state x = Some rows) <-> (x = [] \/ (n_sa <= length state + 1)%nat).
Proof.
  intros Hn. unfold seasonal_predict. rewrite firstn_length. unfold hankel. rewrite map_length, seq_length, app_length.
  destruct (Nat.min (length x) (length state + length x + 1 - n_sa) =? length x)%nat eqn:E.
  - apply Nat.eqb_eq in E. split; [intros _|eauto]. destruct x; [now left|]. right. cbn [length] in E. lia.
  - apply Nat.eqb_neq in E. split; [intros [r H]; discriminate|]. intros [-> | H]; exfalso; apply E; cbn [length] in *; lia.
Qed.

(** On a periodic series the forecast is the value one step before the one wanted. *)
Lemma seasonal_late {V} n_sa s n (Y : nat -> V) rows i h d : (1 <= n_sa)%nat -> (forall t, Y (t + s)%nat = Y t) ->
  seasonal_predict n_sa (map Y (seq 0 s)) (map Y (seq s n)) = Some rows -> (i < n)%nat -> (h < n_sa)%nat ->
  nth h (nth i rows []) d = Y (s + i + h)%nat.
Proof.
  intros Hn HY H Hi Hh. destruct (seasonal_rows n_sa _ _ rows d Hn H) as [_ A]. rewrite !map_length, !seq_length in A.
  destruct (A i h Hi Hh) as [B ->].
  rewrite firstn_map, <- map_app.
  assert (E : seq 0 s ++ firstn (i + 1) (seq s n) = seq 0 (s + (i + 1))).
  { rewrite seq_app. f_equal. cbn [Nat.add]. replace n with ((i + 1) + (n - (i + 1)))%nat by lia. rewrite seq_app, firstn_app, seq_length.
    rewrite Nat.sub_diag. cbn [firstn]. rewrite app_nil_r. rewrite firstn_all2; [reflexivity|]. rewrite seq_length. lia. }
  rewrite E. rewrite (nth_map_seq Y) by lia. cbn [Nat.add]. rewrite <- HY. f_equal. lia.
Qed.
Lemma seasonal_misses {V} n_sa s n (Y : nat -> V) rows i h d : (1 <= n_sa)%nat -> (forall t, Y (t + s)%nat = Y t) ->
  seasonal_predict n_sa (map Y (seq 0 s)) (map Y (seq s n)) = Some rows -> (i < n)%nat -> (h < n_sa)%nat ->
  Y (s + i + h + 1)%nat <> Y (s + i + h)%nat ->
  nth h (nth i rows []) d <> Y (s + i + (h + 1))%nat.
Proof. intros Hn HY H Hi Hh N. rewrite (seasonal_late n_sa s n Y rows i h d Hn HY H Hi Hh). intros E. apply N. rewrite E. f_equal. lia. Qed.

(** ** DiscreteDistr *)
Lemma occurrences_values obs k v : occurrences obs k v = count_occ Req_EM_T (values_at obs k) v.
Proof.
  unfold occurrences, values_at. induction obs as [|[k' [w|]] obs IH]; [reflexivity| |].
  - cbn [filter fst snd flat_map]. destruct (Nat.eq_dec k' k) as [->|N].
    + rewrite Nat.eqb_refl. cbn [andb app count_occ]. change (Reqb w v) with (if Req_EM_T w v then true else false). destruct (Req_EM_T w v); cbn [length]; now rewrite IH.
    + apply Nat.eqb_neq in N. rewrite N. cbn [andb]. exact IH.
  - cbn [filter fst snd flat_map]. rewrite andb_false_r. destruct (Nat.eq_dec k' k); exact IH.
Qed.
Lemma values_in obs k v : In v (values_at obs k) -> In (k, Some v) obs.
Proof.
  unfold values_at. intros H. apply in_flat_map in H. destruct H as [[k' [w|]] [H1 H2]]; cbn [fst snd] in H2; destruct (Nat.eq_dec k' k) as [->|]; [|destruct H2..].
  destruct H2 as [->|[]]; exact H1.
Qed.
Lemma sum_plus {A} (f g : A -> R) l : sum_of (map (fun v => f v + g v) l) = sum_of (map f l) + sum_of (map g l).
Proof. unfold sum_of. induction l as [|a l IH]; cbn; lra. Qed.
Lemma sum_indicator (w : R) (f : R -> R) l : NoDup l -> In w l -> sum_of (map (fun v => if Req_EM_T w v then f v else 0) l) = f w.
Proof.
  unfold sum_of. induction l as [|a l IH]; intros N I; [destruct I|]. apply NoDup_cons_iff in N. destruct N as [N1 N2]. cbn [map fold_right].
  destruct (Req_EM_T w a) as [->|Ne].
  - replace (fold_right Rplus 0 (map (fun v => if Req_EM_T a v then f v else 0) l)) with 0; [lra|]. clear IH I N2. induction l as [|b l IH]; [reflexivity|]. cbn [map fold_right].
    destruct (Req_EM_T a b) as [->|]; [exfalso; apply N1; now left|]. rewrite <- IH; [lra|]. intros H. apply N1. now right.
  - rewrite IH; [lra|exact N2|]. destruct I as [->|I]; [congruence|exact I].
Qed.
(** Summing over the support, weighted by occurrences, is summing over the values. *)
Lemma sum_occurrences (f : R -> R) support l : NoDup support -> (forall v, In v l -> In v support) ->
  sum_of (map (fun v => INR (count_occ Req_EM_T l v) * f v) support) = sum_of (map f l).
Proof.
  intros N. induction l as [|w l IH]; intros H.
  - cbn [map]. unfold sum_of. cbn. clear N H. induction support as [|a s IH]; cbn; [reflexivity|]. rewrite IH. lra.
  - cbn [map]. transitivity (sum_of (map (fun v => (if Req_EM_T w v then f v else 0) + INR (count_occ Req_EM_T l v) * f v) support)).
    + f_equal. apply map_ext. intros v. cbn [count_occ]. destruct (Req_EM_T w v); [rewrite S_INR|]; ring.
    + rewrite sum_plus, sum_indicator, IH; [reflexivity|intros v Hv; apply H; now right|exact N|apply H; now left].
Qed.
Lemma sum_ones {A} (l : list A) : sum_of (map (fun _ => 1) l) = INR (length l).
Proof. unfold sum_of. induction l as [|a l IH]; [reflexivity|]. cbn [map fold_right length]. rewrite IH, S_INR. lra. Qed.
Lemma sum_scal c (l : list R) : sum_of (map (fun v => c * v) l) = c * sum_of l.
Proof. unfold sum_of. induction l as [|a l IH]; cbn; [lra|]. rewrite IH. lra. Qed.
Lemma total_count support obs k : supports support obs ->
  fold_right Rplus 0 (map (fun u => INR (occurrences obs k u)) support) = INR (length (values_at obs k)).
Proof.
  intros [N H]. fold (sum_of (map (fun u => INR (occurrences obs k u)) support)). rewrite <- sum_ones, <- (sum_occurrences (fun _ => 1) support); [|exact N|].
  - f_equal. apply map_ext. intros v. rewrite occurrences_values. ring.
  - intros v Hv. eapply H, values_in, Hv.
Qed.
Lemma regularisation_pos : 0 < regularisation.
Proof. unfold regularisation. apply Rinv_0_lt_compat, pow_lt. lra. Qed.

Lemma probabilities_sum support obs k : supports support obs -> seen obs k = true ->
  exists ps, numbers (map (probability_of support obs k) support) ps /\ Forall (fun p => 0 <= p <= 1) ps /\
    sum_of ps = INR (length (values_at obs k)) / (INR (length (values_at obs k)) + regularisation).
Proof.
  intros S Hk. pose proof regularisation_pos. pose proof (total_count support obs k S) as T.
  set (n := INR (length (values_at obs k))) in *. assert (0 <= n) by apply pos_INR.
  exists (map (fun v => / (n + regularisation) * INR (occurrences obs k v)) support). split; [|split].
  - unfold numbers. rewrite map_map. apply map_ext. intros v. unfold probability_of. rewrite Hk. rewrite T. unfold Rdiv. now rewrite Rmult_comm.
  - apply Forall_forall. intros p Hp. apply in_map_iff in Hp. destruct Hp as [v [<- Hv]].
    assert (0 < / (n + regularisation)) by (apply Rinv_0_lt_compat; lra). pose proof (pos_INR (occurrences obs k v)).
    split; [apply Rmult_le_pos; lra|]. apply Rmult_le_reg_l with (n + regularisation); [lra|]. rewrite <- Rmult_assoc, Rinv_r, Rmult_1_l, Rmult_1_r by lra.
    assert (INR (occurrences obs k v) <= n); [|lra]. apply le_INR. rewrite occurrences_values. apply count_occ_bound.
  - rewrite <- (map_map (fun v => INR (occurrences obs k v)) (fun u => / (n + regularisation) * u)), sum_scal. unfold sum_of. rewrite T. unfold Rdiv. ring.
Qed.
Lemma probabilities_near_one support obs k : supports support obs -> values_at obs k <> [] ->
  exists ps, numbers (map (probability_of support obs k) support) ps /\ Forall (fun p => 0 <= p <= 1) ps /\ 1 - / 10 ^ 12 <= sum_of ps <= 1.
Proof.
  intros S Hv. assert (Hk : seen obs k = true).
  { destruct (values_at obs k) as [|v l] eqn:E; [congruence|]. unfold seen. apply existsb_exists. exists (k, Some v). split; [|apply Nat.eqb_refl]. apply values_in. rewrite E. now left. }
  destruct (probabilities_sum support obs k S Hk) as [ps [A [B C]]]. exists ps. split; [exact A|]. split; [exact B|]. rewrite C.
  set (n := INR (length (values_at obs k))). assert (1 <= n). { unfold n. replace 1 with (INR 1) by reflexivity. apply le_INR. destruct (values_at obs k); [congruence|cbn; lia]. }
  pose proof regularisation_pos as P. fold regularisation. set (e := regularisation) in *. split.
  - apply Rmult_le_reg_r with (n + e); [lra|]. unfold Rdiv. rewrite Rmult_assoc, Rinv_l by lra. nra.
  - apply Rmult_le_reg_r with (n + e); [lra|]. unfold Rdiv. rewrite Rmult_assoc, Rinv_l by lra. lra.
Qed.
Lemma all_missing_zero support obs k : supports support obs -> seen obs k = true -> values_at obs k = [] ->
  map (probability_of support obs k) support = map (fun _ => Some 0) support.
Proof.
  intros S Hk E. apply map_ext. intros v. unfold probability_of. rewrite Hk, occurrences_values, E. cbn [count_occ INR]. f_equal. unfold Rdiv. ring.
Qed.
Lemma expected_mean support obs k : supports support obs -> values_at obs k <> [] ->
  expected support obs k = sum_of (values_at obs k) / (INR (length (values_at obs k)) + / 10 ^ 12).
Proof.
  intros S Hv. assert (Hk : seen obs k = true).
  { destruct (values_at obs k) as [|v l] eqn:E; [congruence|]. unfold seen. apply existsb_exists. exists (k, Some v). split; [|apply Nat.eqb_refl]. apply values_in. rewrite E. now left. }
  unfold expected. fold (sum_of (map (fun v => match probability_of support obs k v with Some p => p * v | None => 0 end) support)).
  rewrite (map_ext _ (fun v => / (INR (length (values_at obs k)) + regularisation) * (INR (count_occ Req_EM_T (values_at obs k) v) * v))).
  - rewrite <- (map_map (fun v => INR (count_occ Req_EM_T (values_at obs k) v) * v) (fun u => / (INR (length (values_at obs k)) + regularisation) * u)), sum_scal.
    destruct S as [N H]. rewrite (sum_occurrences (fun v => v)); [|exact N|intros v Hw; eapply H, values_in, Hw]. rewrite map_id. fold regularisation. unfold Rdiv. ring.
  - intros v. unfold probability_of. rewrite Hk, (total_count support obs k S), occurrences_values. unfold Rdiv. ring.
Qed.
Lemma unseen_time support obs k : seen obs k = false -> map (probability_of support obs k) support = map (fun _ => None) support /\ expected support obs k = 0.
Proof.
  intros Hk. split; [apply map_ext; intros v; unfold probability_of; now rewrite Hk|]. unfold expected.
  induction support as [|a s IH]; [reflexivity|]. cbn [map fold_right]. unfold probability_of in *. rewrite Hk in *. rewrite IH. lra.
Qed.
