From Coq Require Import List Arith Bool Lia.
From Verif Require Import Model.Lstm Spec.LstmSpec.
Import ListNotations.

Lemma ne_firstn {A} (l : list A) k i : i < k -> nth_error (firstn k l) i = nth_error l i.
Proof. revert l i. induction k; intros l i H; [lia|]. destruct l; [now destruct i|]. destruct i; [reflexivity|]. cbn. apply IHk. lia. Qed.
Lemma ne_skipn {A} (l : list A) k i : nth_error (skipn k l) i = nth_error l (k + i).
Proof. revert l. induction k; intros l; [reflexivity|]. destruct l; [now destruct i|]. cbn. apply IHk. Qed.
Lemma ne_seq n i : i < n -> nth_error (seq 0 n) i = Some i.
Proof. intros H. rewrite (nth_error_nth' _ 0) by now rewrite seq_length. now rewrite seq_nth. Qed.
Lemma ne_map {A B} (f : A -> B) l i : nth_error (map f l) i = option_map f (nth_error l i).
Proof. revert i. induction l; intros [|i]; cbn; auto. Qed.
Lemma ne_combine {A B} (a : list A) (b : list B) i : nth_error (combine a b) i = match nth_error a i, nth_error b i with Some x, Some y => Some (x, y) | _, _ => None end.
Proof. revert b i. induction a as [|x a IH]; intros [|y b] [|i]; cbn; auto. now destruct (nth_error a i). Qed.
Lemma windows_length {A} h (l : list A) : length (windows h l) = length l + 1 - h.
Proof. unfold windows. now rewrite map_length, seq_length. Qed.
Lemma windows_nth {A} h (l : list A) i : i < length l + 1 - h -> nth_error (windows h l) i = Some (firstn h (skipn i l)).
Proof. intros H. unfold windows. rewrite ne_map, ne_seq by exact H. reflexivity. Qed.
Lemma slice_of {A} (l : list A) i k : i + k <= length l -> slice i k l (firstn k (skipn i l)).
Proof. intros H. split; [rewrite firstn_length, skipn_length; lia|]. intros j Hj. rewrite ne_firstn, ne_skipn by exact Hj. split; [reflexivity|lia]. Qed.

Section S.
Context {T V E : Type} (sv : V -> V) (se : E -> E).
Lemma samples_spec h p (f : frame T V E) n : 1 <= h -> 1 <= p -> h + p <= n -> rows n f -> exists ss, samples h p sv se f = Some ss /\ length ss = n - h - p + 1 /\
  forall i w e y, nth_error ss i = Some (w, e, y) -> i < n - h - p + 1 /\ slice i h (map sv (target f)) w /\ nth_error (map se (exog f)) (i + h - 1) = Some e /\ slice (i + h) p (map sv (target f)) y.
Proof.
  intros Hh Hp Hn [L1 [L2 L3]]. unfold samples. rewrite L1. assert (h + p <=? n = true) as -> by now apply Nat.leb_le. eexists. split; [reflexivity|]. split.
  - rewrite !combine_length, !firstn_length, windows_length, skipn_length, !map_length, seq_length, L2, L3. lia.
  - intros i w e y H. rewrite ne_combine, ne_combine in H.
    destruct (nth_error (firstn _ (windows h _)) i) as [w'|] eqn:E1; [|discriminate]. destruct (nth_error (firstn (n - p - (h - 1)) _) i) as [e'|] eqn:E2; [|discriminate].
    destruct (nth_error (map _ (seq 0 _)) i) as [y'|] eqn:E3; [|discriminate]. injection H as <- <- <-.
    assert (Hi : i < n - h - p + 1). { assert (i < length (map (fun i0 => firstn p (skipn (i0 + h) (map sv (target f)))) (seq 0 (n - h - p + 1)))) by (apply nth_error_Some; congruence). now rewrite map_length, seq_length in H. }
    split; [exact Hi|]. rewrite ne_firstn in E1 by exact Hi. rewrite windows_nth in E1 by (rewrite map_length, L2; lia). injection E1 as <-.
    split; [apply slice_of; rewrite map_length, L2; lia|]. rewrite ne_firstn, ne_skipn in E2 by lia. replace (h - 1 + i) with (i + h - 1) in E2 by lia. split; [exact E2|].
    rewrite ne_map, ne_seq in E3 by exact Hi. injection E3 as <-. apply slice_of. rewrite map_length, L2. lia.
Qed.
Context (uv : V -> V) (model : list V * E -> list V).
Lemma predict_spec h (f : frame T V E) n : 1 <= h -> h <= n -> rows n f -> exists ps, predict h sv uv se model f = Some ps /\ length ps = n - h /\
  forall r lab fc, nth_error ps r = Some (lab, fc) -> nth_error (labels f) (h + r) = Some lab /\
    exists w e, fc = map uv (model (w, e)) /\ slice r h (map sv (target f)) w /\ nth_error (map se (exog f)) (h + r - 1) = Some e.
Proof.
  intros Hh Hn [L1 [L2 L3]]. unfold predict. rewrite L1. assert (h <=? n = true) as -> by now apply Nat.leb_le. eexists. split; [reflexivity|]. split.
  - rewrite combine_length, map_length, combine_length, !firstn_length, !skipn_length, windows_length, !map_length, L1, L2, L3. lia.
  - intros r lab fc H. rewrite ne_combine, ne_map, ne_combine in H. destruct (nth_error (skipn h (labels f)) r) as [lab'|] eqn:E0; [|discriminate].
    destruct (nth_error (firstn _ (windows h _)) r) as [w|] eqn:E1; [|discriminate]. destruct (nth_error (firstn _ (skipn (h - 1) _)) r) as [e|] eqn:E2; [|discriminate]. cbn in H. injection H as -> <-.
    rewrite ne_skipn in E0. split; [exact E0|]. assert (Hr : r < n - h). { assert (h + r < length (labels f)) by (apply nth_error_Some; congruence). lia. }
    exists w, e. split; [reflexivity|]. rewrite ne_firstn in E1 by exact Hr. rewrite windows_nth in E1 by (rewrite map_length; lia). injection E1 as <-. split; [apply slice_of; rewrite map_length; lia|].
    rewrite ne_firstn, ne_skipn in E2 by exact Hr. replace (h + r - 1) with (h - 1 + r) by lia. exact E2.
Qed.
Lemma predict_total h (f : frame T V E) n r : 1 <= h -> rows n f -> r < n - h -> exists ps lab fc, predict h sv uv se model f = Some ps /\ nth_error ps r = Some (lab, fc).
Proof.
  intros Hh Hr Hlt. destruct (predict_spec h f n Hh ltac:(lia) Hr) as [ps [P [L _]]]. destruct (nth_error ps r) as [[lab fc]|] eqn:E0; [eauto|]. apply nth_error_None in E0. lia.
Qed.
End S.

(** Fitting: the sample [i] is the window starting at [i], the exogenous row of its last entry and the [p] next values. *)
Lemma lstm_samples {T V E} (sv : V -> V) (se : E -> E) h p (f : frame T V E) n : 1 <= h -> 1 <= p -> h + p <= n -> rows n f ->
  exists ss, samples h p sv se f = Some ss /\ length ss = n - h - p + 1 /\
  forall i w e y, nth_error ss i = Some (w, e, y) -> slice i h (map sv (target f)) w /\ nth_error (map se (exog f)) (i + h - 1) = Some e /\ slice (i + h) p (map sv (target f)) y.
Proof. intros H1 H2 H3 H4. destruct (samples_spec sv se h p f n H1 H2 H3 H4) as [ss [A [B C]]]. exists ss. split; [exact A|]. split; [exact B|]. intros i w e y H. apply (C i w e y H). Qed.
(** Predictions. *)
Lemma lstm_predictions {T V E} (sv uv : V -> V) (se : E -> E) (model : list V * E -> list V) h (f : frame T V E) n : 1 <= h -> h <= n -> rows n f ->
  exists ps, predict h sv uv se model f = Some ps /\ length ps = n - h /\
  forall r lab fc, nth_error ps r = Some (lab, fc) -> nth_error (labels f) (h + r) = Some lab /\
    exists w e, fc = map uv (model (w, e)) /\ slice r h (map sv (target f)) w /\ nth_error (map se (exog f)) (h + r - 1) = Some e.
Proof. apply predict_spec. Qed.
Lemma list_ne_ext {A} (r s : list A) : length r = length s -> (forall j, j < length r -> nth_error r j = nth_error s j) -> r = s.
Proof.
  revert s. induction r as [|a r IH]; intros [|b s] L H; cbn in L; try lia; [reflexivity|]. f_equal; [specialize (H 0 ltac:(cbn; lia)); cbn in H; congruence|]. apply IH; [lia|]. intros j Hj. apply (H (S j)). cbn. lia.
Qed.
Lemma slice_inj {A} i k (l r s : list A) : slice i k l r -> slice i k l s -> r = s.
Proof. intros [L1 H1] [L2 H2]. apply list_ne_ext; [congruence|]. intros j Hj. rewrite L1 in Hj. now rewrite (proj1 (H1 j Hj)), (proj1 (H2 j Hj)). Qed.
(** A network that is exact on the samples of the frame forecasts the values from the row's own label on. *)
Lemma lstm_exact {T V E} (sv uv : V -> V) (se : E -> E) (model : list V * E -> list V) h p (f : frame T V E) n ss ps r lab fc : 1 <= h -> 1 <= p -> h + p <= n -> rows n f ->
  (forall v, uv (sv v) = v) -> samples h p sv se f = Some ss -> (forall w e y, In (w, e, y) ss -> model (w, e) = y) ->
  predict h sv uv se model f = Some ps -> nth_error ps r = Some (lab, fc) -> h + r + p <= n -> slice (h + r) p (target f) fc.
Proof.
  intros Hh Hp Hn Hr Hu Hs Hm Hps Hrow Hrp. destruct (samples_spec sv se h p f n Hh Hp Hn Hr) as [ss' [A [B C]]]. rewrite Hs in A. injection A as <-.
  destruct (predict_spec sv se uv model h f n Hh ltac:(lia) Hr) as [ps' [A' [_ D]]]. rewrite Hps in A'. injection A' as <-. destruct (D r lab fc Hrow) as [_ [w [e [-> [Sw Ee]]]]].
  destruct (nth_error ss r) as [[[w0 e0] y0]|] eqn:E0; [|apply nth_error_None in E0; lia]. destruct (C r w0 e0 y0 E0) as [_ [Sw0 [Ee0 Sy]]].
  assert (w0 = w) by (eapply slice_inj; eauto). subst w0. replace (r + h - 1) with (h + r - 1) in Ee0 by lia. rewrite Ee in Ee0. injection Ee0 as <-.
  rewrite (Hm w e y0) by (eapply nth_error_In; exact E0). replace (r + h) with (h + r) in Sy by lia. destruct Sy as [Ly Sy]. split; [now rewrite map_length|]. intros j Hj. destruct (Sy j Hj) as [G1 G2]. rewrite map_length in G2. split; [|exact G2].
  rewrite ne_map, G1, ne_map. destruct (nth_error (target f) (h + r + j)) as [v|]; cbn; [now rewrite Hu|reflexivity].
Qed.
(** Only rows before the label are used. *)
Lemma firstn_ne {A} q (l l' : list A) j : firstn q l = firstn q l' -> j < q -> nth_error l j = nth_error l' j.
Proof. intros H Hj. rewrite <- (ne_firstn l q j Hj), <- (ne_firstn l' q j Hj). now rewrite H. Qed.
Lemma lstm_causal {T V E} (sv uv : V -> V) (se : E -> E) (model : list V * E -> list V) h (f g : frame T V E) n m pf pg r a b : 1 <= h -> rows n f -> rows m g -> agree_before (h + r) f g ->
  predict h sv uv se model f = Some pf -> predict h sv uv se model g = Some pg -> nth_error pf r = Some a -> nth_error pg r = Some b -> snd a = snd b.
Proof.
  intros Hh Rf Rg [A1 A2] Pf Pg Ea Eb. destruct a as [la fa], b as [lb fb].
  assert (h <= n). { unfold predict in Pf. rewrite (proj1 Rf) in Pf. destruct (h <=? n) eqn:L; [now apply Nat.leb_le in L|discriminate]. }
  assert (h <= m). { unfold predict in Pg. rewrite (proj1 Rg) in Pg. destruct (h <=? m) eqn:L; [now apply Nat.leb_le in L|discriminate]. }
  destruct (predict_spec sv se uv model h f n Hh ltac:(assumption) Rf) as [ps [E1 [_ D]]]. rewrite Pf in E1. injection E1 as <-. destruct (D r la fa Ea) as [_ [w [e [-> [Sw Ee]]]]].
  destruct (predict_spec sv se uv model h g m Hh ltac:(assumption) Rg) as [ps' [E1 [_ D']]]. rewrite Pg in E1. injection E1 as <-. destruct (D' r lb fb Eb) as [_ [w' [e' [-> [Sw' Ee']]]]].
  cbn [snd]. assert (w = w').
  { apply list_ne_ext; [rewrite (proj1 Sw), (proj1 Sw'); reflexivity|]. intros j Hj. rewrite (proj1 Sw) in Hj. rewrite (proj1 (proj2 Sw j Hj)), (proj1 (proj2 Sw' j Hj)), !ne_map. f_equal. eapply firstn_ne; [exact A1|lia]. }
  assert (Some e = Some e') as [= ->]. { rewrite <- Ee, <- Ee', !ne_map. f_equal. eapply firstn_ne; [exact A2|lia]. } now subst.
Qed.
(** The last row's values never matter: no window ends there. *)
Lemma lstm_last_row_unused {T V E} (sv uv : V -> V) (se : E -> E) (model : list V * E -> list V) h (f : frame T V E) n t v v' e e' : 1 <= h -> rows n f ->
  predict h sv uv se model (add_row f t v e) = predict h sv uv se model (add_row f t v' e').
Proof.
  intros Hh [L1 [L2 L3]]. unfold predict, add_row. cbn [labels target exog]. rewrite app_length, L1. cbn [length]. destruct (h <=? n + 1) eqn:Hn; [|reflexivity]. apply Nat.leb_le in Hn. f_equal. f_equal. f_equal. f_equal.
  - rewrite !map_app. cbn [map]. apply list_ne_ext; [rewrite !firstn_length, !windows_length, !app_length; reflexivity|]. intros i Hi. rewrite firstn_length, windows_length, app_length, map_length in Hi. cbn [length] in Hi.
    rewrite !ne_firstn by lia. rewrite !windows_nth by (rewrite app_length, map_length; cbn; lia). f_equal. rewrite !skipn_app, !firstn_app. rewrite skipn_length, map_length, L2. replace (h - (n - i)) with 0 by lia. now rewrite !firstn_O.
  - rewrite !map_app. cbn [map]. rewrite !skipn_app, !firstn_app, skipn_length, map_length, L3. replace (n + 1 - h - (n - (h - 1))) with 0 by lia. now rewrite !firstn_O.
Qed.
(** A frame of exactly the history length gives nothing. *)
Lemma lstm_exact_history {T V E} (sv uv : V -> V) (se : E -> E) (model : list V * E -> list V) h (f : frame T V E) : 1 <= h -> rows h f -> predict h sv uv se model f = Some [].
Proof. intros Hh Hr. destruct (predict_spec sv se uv model h f h Hh (le_n h) Hr) as [ps [E1 [L _]]]. rewrite E1. f_equal. destruct ps; [reflexivity|cbn in L; lia]. Qed.
(** With more than one step ahead a training target is also a validation target. *)
Lemma lstm_split_overlap {T V E} (sv : V -> V) (se : E -> E) h p (f : frame T V E) n ss split : 1 <= h -> 2 <= p -> h + p <= n -> rows n f -> samples h p sv se f = Some ss -> 0 < split < length ss ->
  exists i k s s' j j' v, nth_error (train_part split ss) i = Some s /\ nth_error (val_part split ss) k = Some s' /\ i + j = split + k + j' /\
    nth_error (snd s) j = Some v /\ nth_error (snd s') j' = Some v.
Proof.
  intros Hh Hp Hn Hr Hs Hsp. destruct (samples_spec sv se h p f n Hh ltac:(lia) Hn Hr) as [ss' [A [B C]]]. rewrite Hs in A. injection A as <-.
  destruct (nth_error ss (split - 1)) as [[[w e] y]|] eqn:E1; [|apply nth_error_None in E1; lia]. destruct (nth_error ss split) as [[[w' e'] y']|] eqn:E2; [|apply nth_error_None in E2; lia].
  destruct (C _ _ _ _ E1) as [_ [_ [_ [Ly Sy]]]]. destruct (C _ _ _ _ E2) as [_ [_ [_ [Ly' Sy']]]].
  destruct (Sy 1 ltac:(lia)) as [G1 G2]. destruct (Sy' 0 ltac:(lia)) as [G1' G2']. destruct (nth_error (map sv (target f)) (split + h)) as [v|] eqn:Ev; [|apply nth_error_None in Ev; lia].
  exists (split - 1), 0, (w, e, y), (w', e', y'), 1, 0, v. unfold train_part, val_part. rewrite ne_firstn, ne_skipn by lia. rewrite Nat.add_0_r. split; [exact E1|]. split; [exact E2|]. split; [lia|]. cbn [snd].
  split; [rewrite G1; replace (split - 1 + h + 1) with (split + h) by lia; exact Ev|]. rewrite G1'. now rewrite Nat.add_0_r.
Qed.
