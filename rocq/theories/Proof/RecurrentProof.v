From Coq Require Import List ZArith Arith Bool Reals Lia Lra.
From Verif Require Import Model.Subsample Model.Scaling Model.FeedForward Model.Recurrent Spec.FeedForwardSpec Spec.RecurrentSpec.
From Verif Require Import Proof.FeedForwardProof Proof.FeedForwardProof2.
From Verif Require Model.Lstm Spec.LstmSpec Proof.LstmProof.
Import ListNotations.
Local Open Scope R_scope.

Lemma sigmoid_logistic v : sigmoid v = logistic v.
Proof.
  unfold sigmoid, logistic. rewrite exp_Ropp. assert (0 < exp v) by apply exp_pos. field. split; lra.
Qed.
Lemma logistic_range v : 0 < logistic v < 1.
Proof.
  unfold logistic. assert (0 < exp v) by apply exp_pos. split.
  - apply Rdiv_lt_0_compat; lra.
  - apply Rmult_lt_reg_r with (exp v + 1); [lra|]. unfold Rdiv. rewrite Rmult_assoc, Rinv_l by lra. lra.
Qed.
Lemma tanh_range v : Rabs (tanh v) < 1.
Proof.
  unfold tanh, sinh, cosh. assert (0 < exp v) by apply exp_pos. assert (0 < exp (- v)) by apply exp_pos.
  assert ((exp v - exp (- v)) / 2 / ((exp v + exp (- v)) / 2) = (exp v - exp (- v)) / (exp v + exp (- v))) as -> by (field; lra).
  apply Rabs_def1; (apply Rmult_lt_reg_r with (exp v + exp (- v)); [lra|]); unfold Rdiv; rewrite Rmult_assoc, Rinv_l by lra; lra.
Qed.
Lemma fits_gates width n p j u g : fits width n p = true -> nth_error p j = Some u -> In g [n_input u; n_forget u; n_cand u; n_output u] ->
  length (g_in g) = width /\ length (g_back g) = n.
Proof.
  intros F E I. unfold fits in F. apply andb_prop in F as [_ F]. rewrite forallb_forall in F. specialize (F u (nth_error_In _ _ E)).
  rewrite forallb_forall in F. specialize (F g I). apply andb_prop in F as [A B]. now rewrite Nat.eqb_eq in A, B.
Qed.
Lemma fits_len width n p : fits width n p = true -> length p = n.
Proof. intros F. unfold fits in F. apply andb_prop in F as [F _]. now apply Nat.eqb_eq in F. Qed.

(** The state after some times. *)
Fixpoint state_after (p : list neuron) (c h : list R) (xs : list (list R)) (t : nat) : list R * list R :=
  match t, xs with
  | S t', x :: xs' => let s := Subsample.map2 (neuron_step x h) p c in state_after p (map fst s) (map snd s) xs' t'
  | _, _ => (c, h)
  end.
Lemma state_succ p xs : forall c h t, (t < length xs)%nat ->
  state_after p c h xs (S t) =
  (let s := Subsample.map2 (neuron_step (nth t xs []) (snd (state_after p c h xs t))) p (fst (state_after p c h xs t)) in (map fst s, map snd s)).
Proof.
  induction xs as [|x xs IH]; intros c h t L; cbn in L; [lia|]. destruct t as [|t].
  - cbn. destruct xs; reflexivity.
  - change (state_after p c h (x :: xs) (S (S t))) with
      (state_after p (map fst (Subsample.map2 (neuron_step x h) p c)) (map snd (Subsample.map2 (neuron_step x h) p c)) xs (S t)).
    rewrite IH by lia. reflexivity.
Qed.
Lemma scan_states p xs : forall c h, scan p c h xs = map (fun t => snd (state_after p c h xs (S t))) (seq 0 (length xs)).
Proof.
  induction xs as [|x xs IH]; intros c h; [reflexivity|]. cbn [scan length seq map]. f_equal; [destruct xs; reflexivity|].
  rewrite IH, <- seq_shift, map_map. apply map_ext. reflexivity.
Qed.
Lemma state_lengths p xs : forall c h t, length c = length p -> length h = length p ->
  length (fst (state_after p c h xs t)) = length p /\ length (snd (state_after p c h xs t)) = length p.
Proof.
  induction xs as [|x xs IH]; intros c h t Lc Lh; destruct t; cbn; auto. apply IH; rewrite map_length, map2_len; auto.
Qed.
Lemma map_nth_seq (l : list R) n : length l = n -> map (fun j => nth j l 0) (seq 0 n) = l.
Proof.
  revert n. induction l as [|a l IH]; intros n <-; [reflexivity|]. cbn. f_equal. rewrite <- seq_shift, map_map. apply IH. reflexivity.
Qed.
Lemma map2_nth_err {A B C} (f : A -> B -> C) a b j x y : nth_error a j = Some x -> nth_error b j = Some y -> nth_error (Subsample.map2 f a b) j = Some (f x y).
Proof.
  unfold Subsample.map2. revert b j. induction a as [|a0 a IH]; intros [|b0 b] [|j] H1 H2; cbn in *; try discriminate; [congruence|]. now apply IH.
Qed.
Lemma nth_err_nth (l : list R) j v : nth_error l j = Some v -> nth j l 0 = v.
Proof. revert j. induction l as [|a l IH]; intros [|j] H; cbn in *; try discriminate; [congruence|now apply IH]. Qed.
Lemma nth_repeat0 n j : nth j (repeat 0 n) 0 = 0.
Proof. revert j. induction n; intros [|j]; cbn; auto. Qed.

Lemma lstm_values n p xs hs : lstm n p xs = Some hs -> xs <> [] -> exists c h,
  layer_values p n (length xs) (fun t => nth t xs []) c h /\ hs = map (fun t => outputs n h (S t)) (seq 0 (length xs)).
Proof.
  unfold lstm. destruct (forallb _ xs) eqn:F; [|discriminate]. intros [= <-] NE. rewrite forallb_forall in F.
  assert (Lp : length p = n). { destruct xs as [|x xs]; [congruence|]. apply (fits_len (length x)). apply F. now left. }
  set (z := repeat 0 n). assert (Lz : length z = length p) by (unfold z; rewrite repeat_length; lia).
  exists (fun t j => nth j (fst (state_after p z z xs t)) 0), (fun t j => nth j (snd (state_after p z z xs t)) 0). split.
  - split.
    + intros j _. destruct xs; cbn; unfold z; now rewrite nth_repeat0.
    + intros t j u Lt E. cbv zeta. destruct (state_lengths p xs z z t Lz Lz) as [L1 L2]. rewrite (map_nth_seq (snd (state_after p z z xs t)) n) by lia.
      assert (Lj : (j < length p)%nat) by (apply nth_error_Some; congruence).
      destruct (nth_error (fst (state_after p z z xs t)) j) as [cv|] eqn:Ec; [|apply nth_error_None in Ec; lia].
      rewrite (state_succ p xs z z t Lt). cbv zeta. cbn [fst snd].
      pose proof (map2_nth_err (neuron_step (nth t xs []) (snd (state_after p z z xs t))) p (fst (state_after p z z xs t)) j u cv E Ec) as M.
      pose proof (map_nth_error fst j _ M) as M1. pose proof (map_nth_error snd j _ M) as M2.
      rewrite (nth_err_nth _ _ _ M1), (nth_err_nth _ _ _ M2), (nth_err_nth _ _ _ Ec). clear M M1 M2.
      assert (G : forall g, In g [n_input u; n_forget u; n_cand u; n_output u] ->
                drive g (nth t xs []) (snd (state_after p z z xs t)) = driven g (nth t xs []) (snd (state_after p z z xs t))).
      { intros g I. specialize (F (nth t xs []) (nth_In _ _ Lt)). destruct (fits_gates _ _ _ _ _ _ F E I) as [A B]. unfold drive, driven.
        rewrite !dot_weighted by lia. ring. }
      unfold neuron_step. cbv zeta. cbn [fst snd]. rewrite !sigmoid_logistic, !G by (cbn; tauto). split; reflexivity.
  - rewrite scan_states. apply map_ext. intros t. unfold outputs. rewrite map_nth_seq; [reflexivity|]. destruct (state_lengths p xs z z (S t) Lz Lz). lia.
Qed.

Lemma rev_head {A} (l : list A) h r d : rev l = h :: r -> l <> [] /\ nth (length l - 1) l d = h.
Proof.
  intros H. assert (l = rev r ++ [h]) as -> by (rewrite <- (rev_involutive l), H; reflexivity). split; [now destruct (rev r)|].
  rewrite app_length. cbn. rewrite app_nth2 by lia. now replace (length (rev r) + 1 - 1 - length (rev r))%nat with 0%nat by lia.
Qed.
Lemma nth_map_seq_lt {A} (f : nat -> A) n t d : (t < n)%nat -> nth t (map f (seq 0 n)) d = f t.
Proof. intros H. rewrite (nth_indep _ d (f O)) by (rewrite map_length, seq_length; lia). rewrite map_nth, seq_nth by lia. reflexivity. Qed.

Lemma layer_values_ext p n times x x' c h : (forall t, (t < times)%nat -> x t = x' t) -> layer_values p n times x c h -> layer_values p n times x' c h.
Proof. intros E [A B]. split; [exact A|]. intros t j u Lt Eu. specialize (B t j u Lt Eu). cbv zeta in *. now rewrite <- (E t Lt). Qed.

Lemma layers_values cells out : forall sizes i xs z, layers_from cells out i sizes xs = Some z ->
  xs <> [] /\ sizes <> [] /\ exists c h,
  (forall l, (l < length sizes)%nat ->
     layer_values (cells (i + l)%nat) (nth l sizes O) (length xs)
       (fun t => match l with O => nth t xs [] | S k => outputs (nth k sizes O) (h k) (S t) end) (c l) (h l)) /\
  z = affine out (outputs (last sizes O) (h (length sizes - 1)%nat) (length xs)) /\ length out = last sizes O.
Proof.
  induction sizes as [|n rest IH]; intros i xs z H; [discriminate|]. cbn [layers_from] in H.
  destruct (lstm n (cells i) xs) as [hs|] eqn:E; [|discriminate].
  assert (NE : xs <> []).
  { intros ->. cbn in E. injection E as <-. destruct rest as [|m rest]; [discriminate|]. cbn in IH. apply IH in H. destruct H as [H _]. congruence. }
  destruct (lstm_values _ _ _ _ E NE) as [c0 [h0 [V Hh]]]. split; [exact NE|]. split; [discriminate|]. destruct rest as [|m rest].
  - destruct (rev hs) as [|h r] eqn:Er; [discriminate|]. exists (fun _ => c0), (fun _ => h0). split; [|].
    + intros l L. cbn in L. assert (l = O) as -> by lia. rewrite Nat.add_0_r. exact V.
    + destruct (dense_affine _ _ _ _ H) as [-> L]. split; [|exact L]. f_equal. destruct (rev_head _ _ _ [] Er) as [_ <-]. subst hs. rewrite map_length, seq_length.
      assert (length xs <> 0)%nat by (destruct xs; cbn; congruence). rewrite nth_map_seq_lt by lia. replace (S (length xs - 1)) with (length xs) by lia. reflexivity.
  - destruct (IH _ _ _ H) as [_ [_ [c [h [W [Z L]]]]]]. assert (Lh : length hs = length xs) by (subst hs; now rewrite map_length, seq_length).
    exists (fun l => match l with O => c0 | S k => c k end), (fun l => match l with O => h0 | S k => h k end). split; [|].
    + intros l Ll. destruct l as [|l]; [rewrite Nat.add_0_r; exact V|]. cbn in Ll. specialize (W l ltac:(cbn; lia)). rewrite Lh in W.
      replace (i + S l)%nat with (S i + l)%nat by lia. cbn [nth]. eapply layer_values_ext; [|exact W]. intros t Lt. destruct l as [|l]; [|reflexivity].
      subst hs. rewrite nth_map_seq_lt by lia. reflexivity.
    + rewrite Lh in Z. cbn [length] in *. replace (S (S (length rest)) - 1)%nat with (S (S (length rest) - 1))%nat by lia. cbn [last] in *. auto.
Qed.

(** What the recurrent network computes. *)
Lemma recurrent_network (cells : nat -> list neuron) (out : layer) (sizes : list nat) (row z : list R) :
  layers_from cells out O sizes (as_times row) = Some z -> exists c h,
  (forall l, (l < length sizes)%nat -> layer_values (cells l) (nth l sizes O) (length row) (reads sizes row h l) (c l) (h l)) /\
  z = affine out (outputs (last sizes O) (h (length sizes - 1)%nat) (length row)).
Proof.
  intros H. destruct (layers_values _ _ _ _ _ _ H) as [NE [_ [c [h [V [Z _]]]]]]. unfold as_times in V, Z. rewrite map_length in V, Z. exists c, h. split; [|exact Z].
  intros l L. eapply layer_values_ext; [|exact (V l L)]. intros t Lt. destruct l as [|l]; [|reflexivity]. cbn.
  rewrite (nth_indep _ [] [0]) by (rewrite map_length; lia). rewrite (map_nth (fun v => [v]) row 0). reflexivity.
Qed.

Lemma layers_out cells out sizes i xs z : layers_from cells out i sizes xs = Some z -> length z = last sizes O.
Proof. intros H. destruct (layers_values _ _ _ _ _ _ H) as [_ [_ [c [h [_ [-> L]]]]]]. unfold affine. now rewrite map_length. Qed.
Lemma predict_row_split cells out d neurons n_out sx sy row z : predict_row cells out d neurons n_out sx sy row = Some z ->
  exists sizes y, recurrent_sizes d neurons n_out = Some sizes /\ layers_from cells out O sizes (as_times (transform_row sx row)) = Some y /\
    z = (match sy with Some s => inverse_row s y | None => y end).
Proof.
  unfold predict_row. destruct (recurrent_sizes d neurons n_out) as [sizes|]; [|discriminate]. destruct (layers_from _ _ _ _ _) as [y|] eqn:E; [|discriminate].
  intros [= <-]. exists sizes, y. auto.
Qed.
(** As many forecasts as asked when the depth is a number. *)
Lemma recurrent_count (cells : nat -> list neuron) (out : layer) (n : nat) (neurons n_out : option nat) (sx : list (R * R)) (row z : list R) :
  predict_row cells out (Count n) neurons n_out sx None row = Some z -> n_out = Some (length z).
Proof.
  intros H. destruct (predict_row_split _ _ _ _ _ _ _ _ _ H) as [sizes [y [S1 [S2 ->]]]]. rewrite (layers_out _ _ _ _ _ _ S2).
  unfold recurrent_sizes, layer_sizes in S1. cbn in S1. destruct n; [discriminate|]. destruct neurons as [k|]; [|discriminate]. destruct n_out as [m|]; [|discriminate].
  injection S1 as <-. now rewrite last_app_one.
Qed.
(** The sizes of the layers decide, and the number of outputs is ignored. *)
Lemma recurrent_sizes_decide (cells : nat -> list neuron) (out : layer) (l : list nat) (neurons n_out : option nat) (sx : list (R * R)) (row : list R) :
  predict_row cells out (Sizes l) neurons n_out sx None row = predict_row cells out (Sizes l) None None sx None row /\
  forall z, predict_row cells out (Sizes l) neurons n_out sx None row = Some z -> length z = last l O.
Proof.
  split; [reflexivity|]. intros z H. destruct (predict_row_split _ _ _ _ _ _ _ _ _ H) as [sizes [y [S1 [S2 ->]]]]. cbn in S1. injection S1 as <-.
  apply (layers_out _ _ _ _ _ _ S2).
Qed.

(** Outputs of a layer lie between -1 and 1. *)
Lemma outputs_range p n times x c h t j : layer_values p n times x c h -> length p = n -> (j < n)%nat -> (t < times)%nat -> Rabs (h (S t) j) < 1.
Proof.
  intros [_ V] Lp Lj Lt. destruct (nth_error p j) as [u|] eqn:E; [|apply nth_error_None in E; lia]. destruct (V t j u Lt E) as [_ ->].
  pose proof (logistic_range (driven (n_output u) (x t) (map (h t) (seq 0 n)))) as [A B]. pose proof (tanh_range (c (S t) j)) as T.
  rewrite Rabs_mult, (Rabs_pos_eq (logistic _)) by lra. pose proof (Rabs_pos (tanh (c (S t) j))). nra.
Qed.
Lemma weighted_bound : forall x w, length w = length x -> Forall (fun v => Rabs v <= 1) x -> Rabs (dot w x) <= weight w.
Proof.
  unfold dot, weight, Subsample.map2. induction x as [|a x IH]; intros [|b w] L F; cbn in *; try discriminate; [rewrite Rabs_R0; lra|].
  inversion F; subst. specialize (IH w ltac:(lia) ltac:(assumption)). eapply Rle_trans; [apply Rabs_triang|]. rewrite Rabs_mult. pose proof (Rabs_pos b). nra.
Qed.
Lemma lstm_fits n p xs hs : lstm n p xs = Some hs -> xs <> [] -> length p = n.
Proof.
  unfold lstm. destruct (forallb _ xs) eqn:F; [|discriminate]. intros _ NE. rewrite forallb_forall in F. destruct xs as [|x xs]; [congruence|]. apply (fits_len (length x)). apply F. now left.
Qed.
Lemma last_layer_lstm cells out : forall sizes i xs z, layers_from cells out i sizes xs = Some z ->
  exists ys hs h, lstm (last sizes O) (cells (i + (length sizes - 1))%nat) ys = Some hs /\ ys <> [] /\ In h hs /\ dense (last sizes O) out h = Some z.
Proof.
  induction sizes as [|n rest IH]; intros i xs z H; [discriminate|]. pose proof (layers_values _ _ _ _ _ _ H) as [NE _]. cbn [layers_from] in H.
  destruct (lstm n (cells i) xs) as [hs|] eqn:E; [|discriminate]. destruct rest as [|m rest].
  - destruct (rev hs) as [|h r] eqn:Er; [discriminate|]. cbn. rewrite Nat.add_0_r. exists xs, hs, h. repeat split; auto. apply in_rev. rewrite Er. now left.
  - destruct (IH _ _ _ H) as [ys [hs' [h [A B]]]]. exists ys, hs', h. cbn [last length] in *.
    replace (i + (S (S (length rest)) - 1))%nat with (S i + (S (length rest) - 1))%nat by lia. auto.
Qed.
Lemma lstm_range n p xs hs h : lstm n p xs = Some hs -> xs <> [] -> In h hs -> length h = n /\ Forall (fun v => Rabs v <= 1) h.
Proof.
  intros E NE I. pose proof (lstm_fits _ _ _ _ E NE) as Lp. destruct (lstm_values _ _ _ _ E NE) as [c [hh [V ->]]]. apply in_map_iff in I as [t [<- It]]. apply in_seq in It.
  unfold outputs. split; [now rewrite map_length, seq_length|]. apply Forall_forall. intros v Iv. apply in_map_iff in Iv as [j [<- Ij]]. apply in_seq in Ij.
  left. apply (outputs_range p n (length xs) _ c hh t j V); lia.
Qed.
(** Whatever the inputs, the forecasts stay in a range fixed by the last layer and the scaler. *)
Lemma recurrent_bounded (cells : nat -> list neuron) (out : layer) (d : depth) (neurons n_out : option nat) (sx sy : list (R * R)) (row z : list R) (j : nat) :
  predict_row cells out d neurons n_out sx (Some sy) row = Some z -> length sy = length out -> (j < length out)%nat ->
  Rabs (nth j z 0 - fst (nth j sy (0, 0))) <= (weight (fst (nth j out ([], 0))) + Rabs (snd (nth j out ([], 0)))) * Rabs (snd (nth j sy (0, 0))).
Proof.
  intros H Ls Lj. destruct (predict_row_split _ _ _ _ _ _ _ _ _ H) as [sizes [y [S1 [S2 ->]]]]. destruct (last_layer_lstm _ _ _ _ _ _ S2) as [ys [hs [h [E [NE [I D]]]]]].
  destruct (lstm_range _ _ _ _ _ E NE I) as [Lh F]. unfold dense in D. destruct ((length out =? last sizes O)%nat && _) eqn:G; [|discriminate]. injection D as <-.
  apply andb_prop in G as [G1 G2]. apply Nat.eqb_eq in G1. rewrite forallb_forall in G2.
  set (y := map (fun wb => dot (fst wb) h + snd wb) out).
  assert (Ny : nth j y 0 = dot (fst (nth j out ([], 0))) h + snd (nth j out ([], 0))).
  { unfold y. rewrite (nth_indep _ 0 (dot (fst ([] : list R, 0)) h + snd ([] : list R, 0))) by (rewrite map_length; lia). now rewrite (map_nth (fun wb => dot (fst wb) h + snd wb)). }
  assert (Nz : nth j (inverse_row sy y) 0 = nth j y 0 * snd (nth j sy (0, 0)) + fst (nth j sy (0, 0))).
  { unfold inverse_row. assert (Ly : length y = length sy) by (unfold y; rewrite map_length; lia). clear - Ly Lj Ls. unfold Subsample.map2. rewrite (nth_indep _ 0 (inverse (fst ((0, 0), 0)) (snd ((0, 0), 0)))).
    - rewrite (map_nth (fun p => inverse (fst p) (snd p))). rewrite combine_nth by lia. reflexivity.
    - rewrite map_length, combine_length. lia. }
  rewrite Nz. replace (nth j y 0 * snd (nth j sy (0, 0)) + fst (nth j sy (0, 0)) - fst (nth j sy (0, 0))) with (nth j y 0 * snd (nth j sy (0, 0))) by ring.
  rewrite Rabs_mult. apply Rmult_le_compat_r; [apply Rabs_pos|]. rewrite Ny. eapply Rle_trans; [apply Rabs_triang|]. apply Rplus_le_compat_r.
  apply weighted_bound; [|exact F]. assert (In (nth j out ([], 0)) out) as I2 by (apply nth_In; lia). apply G2 in I2. apply Nat.eqb_eq in I2. exact I2.
Qed.

(** ** The keras network *)
Lemma network_parts history horizon k s z : network history horizon k s = Some z ->
  exists a b u v, both_ways 64 k (fst s) = Some a /\ dense_path k (snd s) = Some b /\ dense horizon (k_seq k) a = Some u /\ dense horizon (k_exog k) b = Some v /\
    length (fst s) = history /\ z = Subsample.map2 Rplus u v.
Proof.
  unfold network. destruct (length (fst s) =? history)%nat eqn:L; [|discriminate]. apply Nat.eqb_eq in L.
  destruct (both_ways 64 k (fst s)) as [a|]; [|discriminate]. destruct (dense_path k (snd s)) as [b|]; [|discriminate].
  destruct (dense horizon (k_seq k) a) as [u|] eqn:U; [|discriminate]. destruct (dense horizon (k_exog k) b) as [v|] eqn:W; [|discriminate].
  intros [= <-]. exists a, b, u, v. repeat split; auto.
Qed.
Lemma network_length history horizon k s z : network history horizon k s = Some z -> length z = horizon.
Proof.
  intros H. destruct (network_parts _ _ _ _ _ H) as [a [b [u [v [_ [_ [U [V [_ ->]]]]]]]]]. rewrite map2_len; [eapply dense_length; eauto|].
  now rewrite (dense_length _ _ _ _ U), (dense_length _ _ _ _ V).
Qed.
Lemma nth_plus u v j : length u = length v -> (j < length u)%nat -> nth j (Subsample.map2 Rplus u v) 0 = nth j u 0 + nth j v 0.
Proof.
  unfold Subsample.map2. revert v j. induction u as [|a u IH]; intros [|b v] [|j] L Lj; cbn in *; try lia; try reflexivity. apply IH; lia.
Qed.
Lemma network_additive history horizon k w w' e e' a b c d : network history horizon k (w, e) = Some a -> network history horizon k (w', e') = Some b ->
  network history horizon k (w, e') = Some c -> network history horizon k (w', e) = Some d -> forall j, nth j a 0 + nth j b 0 = nth j c 0 + nth j d 0.
Proof.
  intros A B C D j.
  pose proof (network_length _ _ _ _ _ A) as La. pose proof (network_length _ _ _ _ _ B) as Lb. pose proof (network_length _ _ _ _ _ C) as Lc. pose proof (network_length _ _ _ _ _ D) as Ld.
  destruct (Nat.lt_ge_cases j horizon) as [Lj|Lj]; [|rewrite !nth_overflow by lia; ring].
  apply network_parts in A as [a1 [a2 [a3 [a4 [A1 [A2 [A3 [A4 [_ Ea]]]]]]]]]. apply network_parts in B as [b1 [b2 [b3 [b4 [B1 [B2 [B3 [B4 [_ Eb]]]]]]]]].
  apply network_parts in C as [c1 [c2 [c3 [c4 [C1 [C2 [C3 [C4 [_ Ec]]]]]]]]]. apply network_parts in D as [d1 [d2 [d3 [d4 [D1 [D2 [D3 [D4 [_ Ed]]]]]]]]].
  cbn [fst snd] in *. rewrite A1 in C1. injection C1 as <-. rewrite B1 in D1. injection D1 as <-. rewrite A2 in D2. injection D2 as <-. rewrite B2 in C2. injection C2 as <-.
  rewrite A3 in C3. injection C3 as <-. rewrite B3 in D3. injection D3 as <-. rewrite A4 in D4. injection D4 as <-. rewrite B4 in C4. injection C4 as <-.
  pose proof (dense_length _ _ _ _ A3). pose proof (dense_length _ _ _ _ B3). pose proof (dense_length _ _ _ _ A4). pose proof (dense_length _ _ _ _ B4).
  subst a b c d. rewrite !nth_plus by lia. ring.
Qed.

(** Forecasts of frames: the effect of the history does not depend on the other columns, for any trained network. *)
Lemma bidirectional_additive {T} (history horizon d : nat) (k : keras) (sc : R * R) (sx : list (R * R)) (labels : list T) (t t' : list R) (e e' : list (list R)) :
  (1 <= history <= length labels)%nat -> length sx = d -> accepts history horizon d k ->
  length t = length labels -> length t' = length labels -> length e = length labels -> length e' = length labels ->
  (forall r, In r e \/ In r e' -> length r = d) ->
  let run tt ee := Lstm.predict history (transform sc) (inverse sc) (transform_row sx) (forecast history horizon k) (Lstm.Frame labels tt ee) in
  exists a b c f, run t e = Some a /\ run t' e' = Some b /\ run t e' = Some c /\ run t' e = Some f /\
  forall r j ra rb rc rf, nth_error a r = Some ra -> nth_error b r = Some rb -> nth_error c r = Some rc -> nth_error f r = Some rf ->
    length (snd ra) = horizon /\ ((j < horizon)%nat -> nth j (snd ra) 0 + nth j (snd rb) 0 = nth j (snd rc) 0 + nth j (snd rf) 0).
Proof.
  intros [Hh Hn] Lsx Acc Lt Lt' Le Le' Cols run.
  assert (P : forall tt ee, length tt = length labels -> length ee = length labels -> exists ps, run tt ee = Some ps /\ forall r lab fc, nth_error ps r = Some (lab, fc) ->
     exists w x, fc = map (inverse sc) (forecast history horizon k (w, x)) /\ LstmSpec.slice r history (map (transform sc) tt) w /\ nth_error (map (transform_row sx) ee) (history + r - 1) = Some x).
  { intros tt ee L1 L2. destruct (LstmProof.predict_spec (transform sc) (transform_row sx) (inverse sc) (forecast history horizon k) history (Lstm.Frame labels tt ee) (length labels) Hh Hn) as [ps [A [_ B]]].
    - repeat split; assumption.
    - exists ps. split; [exact A|]. intros r lab fc E. destruct (B r lab fc E) as [_ [w [x [-> C]]]]. exists w, x. split; [reflexivity|exact C]. }
  destruct (P t e Lt Le) as [a [Ea Qa]]. destruct (P t' e' Lt' Le') as [b [Eb Qb]]. destruct (P t e' Lt Le') as [c [Ec Qc]]. destruct (P t' e Lt' Le) as [f [Ef Qf]].
  exists a, b, c, f. repeat (split; [assumption|]). intros r j [la fa] [lb fb] [lc fc] [lf ff] Na Nb Nc Nf. cbn [snd].
  destruct (Qa _ _ _ Na) as [w [x [-> [Sw Nx]]]]. destruct (Qb _ _ _ Nb) as [w' [x' [-> [Sw' Nx']]]].
  destruct (Qc _ _ _ Nc) as [w2 [x2 [-> [Sw2 Nx2]]]]. destruct (Qf _ _ _ Nf) as [w3 [x3 [-> [Sw3 Nx3]]]].
  rewrite (LstmProof.slice_inj _ _ _ _ _ Sw2 Sw) in *. rewrite (LstmProof.slice_inj _ _ _ _ _ Sw3 Sw') in *. rewrite Nx' in Nx2. injection Nx2 as <-. rewrite Nx in Nx3. injection Nx3 as <-.
  assert (C : forall ee x0, (forall q, In q ee -> length q = d) -> nth_error (map (transform_row sx) ee) (history + r - 1) = Some x0 -> length x0 = d).
  { intros ee x0 L N0. apply nth_error_In in N0. apply in_map_iff in N0 as [q [<- Iq]]. specialize (L q Iq). unfold transform_row. rewrite map2_len; lia. }
  pose proof (C e x (fun q I => Cols q (or_introl I)) Nx) as Lx. pose proof (C e' x' (fun q I => Cols q (or_intror I)) Nx') as Lx'.
  pose proof (proj1 Sw) as Lw. pose proof (proj1 Sw') as Lw'.
  unfold forecast.
  destruct (network history horizon k (w, x)) as [z1|] eqn:Z1; [|exfalso; exact (Acc _ _ Lw Lx Z1)].
  destruct (network history horizon k (w', x')) as [z2|] eqn:Z2; [|exfalso; exact (Acc _ _ Lw' Lx' Z2)].
  destruct (network history horizon k (w, x')) as [z3|] eqn:Z3; [|exfalso; exact (Acc _ _ Lw Lx' Z3)].
  destruct (network history horizon k (w', x)) as [z4|] eqn:Z4; [|exfalso; exact (Acc _ _ Lw' Lx Z4)].
  pose proof (network_length _ _ _ _ _ Z1). pose proof (network_length _ _ _ _ _ Z2). pose proof (network_length _ _ _ _ _ Z3). pose proof (network_length _ _ _ _ _ Z4).
  split; [now rewrite map_length|]. intros Lj. pose proof (network_additive _ _ _ _ _ _ _ _ _ _ _ Z1 Z2 Z3 Z4 j) as A.
  assert (M : forall z, length z = horizon -> nth j (map (inverse sc) z) 0 = inverse sc (nth j z 0)).
  { intros z Lz. rewrite (nth_indep _ 0 (inverse sc 0)) by (rewrite map_length; lia). apply map_nth. }
  rewrite !M by assumption. unfold inverse. nra.
Qed.
Lemma last_in {A} (l : list A) d : l <> [] -> In (last l d) l.
Proof. induction l as [|a l IH]; intros H; [congruence|]. destruct l as [|b l]; [now left|]. right. apply IH. discriminate. Qed.
Lemma dot_diff : forall x x' w, length w = length x -> length w = length x' -> Forall (fun v => Rabs v <= 1) x -> Forall (fun v => Rabs v <= 1) x' ->
  Rabs (dot w x - dot w x') <= 2 * weight w.
Proof.
  intros x x' w L L' F F'. pose proof (weighted_bound x w L F). pose proof (weighted_bound x' w L' F').
  replace (dot w x - dot w x') with (dot w x + - dot w x') by ring. eapply Rle_trans; [apply Rabs_triang|]. rewrite Rabs_Ropp. lra.
Qed.
Lemma both_ways_range n k w a : w <> [] -> both_ways n k w = Some a -> Forall (fun v => Rabs v <= 1) a.
Proof.
  intros NE. unfold both_ways. destruct (lstm n (k_forth k) (as_times w)) as [f|] eqn:E1; [|discriminate]. destruct (lstm n (k_back k) _) as [b|] eqn:E2; [|discriminate].
  intros [= <-].
  assert (N1 : as_times w <> []) by (destruct w; [congruence|discriminate]).
  assert (N2 : as_times (rev w) <> []). { intros H. apply NE. rewrite <- (rev_involutive w). destruct (rev w); [reflexivity|discriminate]. }
  apply Forall_app. split; [apply (lstm_range _ _ _ _ _ E1 N1)|apply (lstm_range _ _ _ _ _ E2 N2)]; apply last_in.
  - intros ->. destruct (lstm_values _ _ _ _ E1 N1) as [c [h [_ H]]]. destruct (as_times w); [congruence|discriminate].
  - intros ->. destruct (lstm_values _ _ _ _ E2 N2) as [c [h [_ H]]]. destruct (as_times (rev w)); [congruence|discriminate].
Qed.
(** Replacing the whole history moves a forecast by no more than a limit fixed by the trained network. *)
Lemma history_bounded (history horizon : nat) (k : keras) (w w' e z z' : list R) (j : nat) : (1 <= history)%nat ->
  network history horizon k (w, e) = Some z -> network history horizon k (w', e) = Some z' -> (j < horizon)%nat ->
  Rabs (nth j z 0 - nth j z' 0) <= 2 * weight (fst (nth j (k_seq k) ([], 0))).
Proof.
  intros Hh A B Lj.
  apply network_parts in A as [a1 [a2 [a3 [a4 [A1 [A2 [A3 [A4 [La Ea]]]]]]]]]. apply network_parts in B as [b1 [b2 [b3 [b4 [B1 [B2 [B3 [B4 [Lb Eb]]]]]]]]].
  cbn [fst snd] in *. rewrite A2 in B2. injection B2 as <-. rewrite A4 in B4. injection B4 as <-.
  pose proof (dense_length _ _ _ _ A3). pose proof (dense_length _ _ _ _ B3). pose proof (dense_length _ _ _ _ A4).
  subst z z'. rewrite !nth_plus by lia.
  assert (w <> []) as N1 by (destruct w; [cbn in La; lia|discriminate]). assert (w' <> []) as N2 by (destruct w'; [cbn in Lb; lia|discriminate]).
  pose proof (both_ways_range _ _ _ _ N1 A1) as F1. pose proof (both_ways_range _ _ _ _ N2 B1) as F2.
  assert (D : forall x y, dense horizon (k_seq k) x = Some y -> nth j y 0 = dot (fst (nth j (k_seq k) ([], 0))) x + snd (nth j (k_seq k) ([], 0)) /\ length (fst (nth j (k_seq k) ([], 0))) = length x).
  { intros x y E. unfold dense in E. destruct ((length (k_seq k) =? horizon)%nat && _) eqn:G; [|discriminate]. injection E as <-. apply andb_prop in G as [G1 G2]. apply Nat.eqb_eq in G1.
    rewrite forallb_forall in G2. split.
    - rewrite (nth_indep _ 0 (dot (fst ([] : list R, 0)) x + snd ([] : list R, 0))) by (rewrite map_length; lia). now rewrite (map_nth (fun wb => dot (fst wb) x + snd wb)).
    - apply Nat.eqb_eq, G2, nth_In. lia. }
  destruct (D _ _ A3) as [-> L1]. destruct (D _ _ B3) as [-> L2].
  pose proof (dot_diff a1 b1 (fst (nth j (k_seq k) ([], 0))) L1 L2 F1 F2) as Q.
  match goal with |- Rabs ?v <= _ => replace v with (dot (fst (nth j (k_seq k) ([], 0))) a1 - dot (fst (nth j (k_seq k) ([], 0))) b1) by ring end. exact Q.
Qed.
Lemma lstm_last_output n p w hs : w <> [] -> lstm n p (as_times w) = Some hs -> exists c h,
  layer_values p n (length w) (fun t => [nth t w 0]) c h /\ last hs (repeat 0 n) = outputs n h (length w).
Proof.
  intros N E. assert (N1 : as_times w <> []) by (destruct w; [congruence|discriminate]). destruct (lstm_values _ _ _ _ E N1) as [c [h [V ->]]].
  unfold as_times in *. rewrite map_length in *. exists c, h. split.
  - eapply layer_values_ext; [|exact V]. intros t Lt. cbn. rewrite (nth_indep _ [] [0]) by (rewrite map_length; lia). apply (map_nth (fun v => [v]) w 0).
  - destruct (length w) as [|q] eqn:Lq; [destruct w; [congruence|discriminate]|]. rewrite seq_S, map_app. cbn [map]. rewrite last_app_one. reflexivity.
Qed.
(** What the keras network computes. *)
Lemma bidirectional_network (history horizon : nat) (k : keras) (w e z : list R) : (1 <= history)%nat -> network history horizon k (w, e) = Some z ->
  exists c h c' h', layer_values (k_forth k) 64 history (fun t => [nth t w 0]) c h /\ layer_values (k_back k) 64 history (fun t => [nth (history - 1 - t) w 0]) c' h' /\
  length z = horizon /\ forall j, (j < horizon)%nat ->
    nth j z 0 = nth j (affine (k_seq k) (outputs 64 h history ++ outputs 64 h' history)) 0 +
                nth j (affine (k_exog k) (map positive_part (affine (k_hidden2 k) (map positive_part (affine (k_hidden1 k) e))))) 0.
Proof.
  intros Hh H. pose proof (network_length _ _ _ _ _ H) as Lz. apply network_parts in H as [a [b [u [v [A [B [U [V [L Ez]]]]]]]]]. cbn [fst snd] in *.
  assert (N : w <> []) by (destruct w; [cbn in L; lia|discriminate]). assert (N' : rev w <> []) by (intros H; apply N; rewrite <- (rev_involutive w), H; reflexivity).
  unfold both_ways in A. destruct (lstm 64 (k_forth k) (as_times w)) as [f|] eqn:E1; [|discriminate]. destruct (lstm 64 (k_back k) _) as [g|] eqn:E2; [|discriminate].
  assert (a = last f (repeat 0 64) ++ last g (repeat 0 64)) as -> by congruence. clear A.
  destruct (lstm_last_output _ _ _ _ N E1) as [c [h [V1 W1]]]. destruct (lstm_last_output _ _ _ _ N' E2) as [c' [h' [V2 W2]]]. rewrite rev_length in *. rewrite L in *.
  exists c, h, c', h'. split; [exact V1|]. split.
  { eapply layer_values_ext; [|exact V2]. intros t Lt. cbn. rewrite rev_nth by lia. rewrite L. f_equal. f_equal. lia. }
  split; [exact Lz|]. intros j Lj.
  unfold dense_path in B. destruct (dense 64 (k_hidden1 k) e) as [q|] eqn:D1; [|discriminate]. destruct (dense 32 (k_hidden2 k) (map relu q)) as [r|] eqn:D2; [|discriminate]. injection B as <-.
  pose proof (dense_length _ _ _ _ U). pose proof (dense_length _ _ _ _ V).
  apply dense_affine in U as [-> _]. apply dense_affine in V as [-> _]. apply dense_affine in D2 as [-> _]. apply dense_affine in D1 as [-> _].
  subst z. rewrite nth_plus by lia. rewrite W1, W2. rewrite !(map_ext _ _ relu_positive). reflexivity.
Qed.
