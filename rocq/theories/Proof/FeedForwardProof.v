From Coq Require Import List ZArith Arith Bool Reals Lia Lra.
From Verif Require Import Model.Subsample Model.Quantiles Model.Scaling Model.FeedForward Spec.FeedForwardSpec Proof.SeriesProof Proof.QuantilesProof Proof.ScalingProof.
Import ListNotations.
Local Open Scope R_scope.

Lemma dense_length f p x z : dense f p x = Some z -> length z = f.
Proof.
  unfold dense. destruct ((length p =? f)%nat && _) eqn:E; [|discriminate]. intros H. injection H as <-.
  apply andb_prop in E. destruct E as [E _]. apply Nat.eqb_eq in E. rewrite map_length. assumption.
Qed.
Lemma dense_nonempty p x z : dense 1 p x = Some z -> exists v, z = [v].
Proof. intros H. apply dense_length in H. destruct z as [|v [|? ?]]; try discriminate. eauto. Qed.
Lemma all_some_len {A} (l : list (option A)) z : all_some l = Some z -> length z = length l.
Proof.
  revert z. induction l as [|a l IH]; intros z; cbn [all_some]; [intros H; injection H as <-; reflexivity|].
  destruct a; [|discriminate]. destruct (all_some l); [|discriminate]. intros H. injection H as <-. cbn. f_equal. apply IH. reflexivity.
Qed.
Lemma all_some_nth_eq {A} (l : list (option A)) z d k : all_some l = Some z -> (k < length l)%nat -> nth_error l k = Some (Some (nth k z d)).
Proof.
  revert z k. induction l as [|a l IH]; intros z k; cbn [all_some]; [cbn; lia|].
  destruct a; [|discriminate]. destruct (all_some l) eqn:E; [|discriminate]. intros H L. injection H as <-.
  destruct k; [reflexivity|]. cbn [nth_error nth]. apply (IH l0); [reflexivity|]. cbn in L. lia.
Qed.
Lemma map2_len {A B C} (f : A -> B -> C) a b : length a = length b -> length (Subsample.map2 f a b) = length a.
Proof. intros E. unfold Subsample.map2. rewrite map_length, combine_length. lia. Qed.
Lemma add_length a b z : add a b = Some z -> length a = length b \/ length b = 1%nat -> length z = length a.
Proof.
  unfold add. destruct (Nat.eqb_spec (length a) (length b)) as [E|E].
  - intros H _. injection H as <-. apply map2_len. assumption.
  - intros H [L|L]; [lia|]. destruct b as [|y [|? ?]]; try discriminate. destruct a as [|v [|? ?]]; injection H as <-; try reflexivity; cbn; rewrite map_length; reflexivity.
Qed.
Lemma add_nth a b z k : add a b = Some z -> length a = length b -> (k < length a)%nat -> nth k z 0 = nth k a 0 + nth k b 0.
Proof.
  unfold add. intros H E L. rewrite (proj2 (Nat.eqb_eq _ _) E) in H. injection H as <-.
  rewrite (map2_nth Rplus a b k 0 0 0) by lia. reflexivity.
Qed.
Lemma last_app_one {A} (l : list A) x d : last (l ++ [x]) d = x.
Proof. induction l as [|a l IH]; [reflexivity|]. cbn [app]. destruct (l ++ [x]) eqn:E; [destruct l; discriminate|]. cbn [last] in *. rewrite <- IH. reflexivity. Qed.

Section S.
Context (par : name -> layer) (norm : nat -> list R -> list R) (outside : list R -> Z -> R).

Lemma last_layer_length o sizes h z : last_layer par o sizes h = Some z ->
  length z = if o_split o then match o_out o with Some n => n | None => last sizes O end else last sizes O.
Proof.
  unfold last_layer. destruct (o_split o).
  - destruct (match o_out o with Some n => n | None => last sizes O end) as [|n]; [discriminate|]. intros H. apply all_some_len in H.
    rewrite map_length, seq_length in H. assumption.
  - apply dense_length.
Qed.
Lemma shortcut_length o sizes x y : shortcut par outside o sizes x = Some y ->
  length y = match o_selector o with Some s => length s | None => if o_skip o then last sizes O else 1%nat end.
Proof.
  unfold shortcut. destruct (o_selector o) as [s|]; [intros H; injection H as <-; apply map_length|].
  destruct (o_skip o); [|intros H; injection H as <-; reflexivity]. destruct sizes; [discriminate|]. apply dense_length.
Qed.
Lemma sizes_count o n sizes : o_layers o = Count n -> layer_sizes o = Some sizes -> exists m, o_out o = Some m /\ last sizes O = m /\ sizes <> [].
Proof.
  unfold layer_sizes. intros ->. destruct n as [|n]; [discriminate|]. destruct (o_neurons o) as [k|]; [|discriminate]. destruct (o_out o) as [m|]; [|discriminate].
  intros H. injection H as <-. exists m. repeat split; [apply last_app_one|]. destruct (repeat k n); discriminate.
Qed.
Lemma forward_split o x out sizes : layer_sizes o = Some sizes -> sizes <> [] -> forward par norm outside o x = Some out ->
  exists y h z, shortcut par outside o sizes x = Some y /\ trunk par norm O sizes x = Some h /\ last_layer par o sizes h = Some z /\ add z y = Some out.
Proof.
  intros E N. unfold forward. rewrite E. destruct (shortcut par outside o sizes x) as [y|] eqn:Y; [|discriminate]. destruct sizes as [|n sizes]; [congruence|].
  destruct (trunk par norm 0 (n :: sizes) x) as [h|] eqn:T; [|discriminate]. destruct (last_layer par o (n :: sizes) h) as [z|] eqn:Z; [|discriminate].
  intros H. exists y, h, z. auto.
Qed.
Lemma forward_some o x : forward par norm outside o x <> None -> exists sizes, layer_sizes o = Some sizes.
Proof. unfold forward. destruct (layer_sizes o); [eauto|congruence]. Qed.
End S.

(** C161 *)
Lemma outputs_as_asked (par : name -> layer) (norm : nat -> list R -> list R) (outside : list R -> Z -> R) (o : options) (n : nat) (x out : list R) :
  o_layers o = Count n -> (forall s, o_selector o = Some s -> o_out o = Some (length s)) ->
  forward par norm outside o x = Some out -> o_out o = Some (length out).
Proof.
  intros L S F. destruct (forward_some par norm outside o x) as [sizes E]; [congruence|].
  destruct (sizes_count _ _ _ L E) as (m & M & La & N). destruct (forward_split _ _ _ _ _ _ _ E N F) as (y & h & z & Y & _ & Z & A).
  apply last_layer_length in Z. apply shortcut_length in Y. rewrite M, La in Z. rewrite M. f_equal.
  assert (Lz : length z = m) by (destruct (o_split o); assumption).
  rewrite <- Lz. symmetry. apply (add_length _ _ _ A). rewrite Lz, Y. destruct (o_selector o) as [s|].
  - left. specialize (S s eq_refl). rewrite M in S. injection S as ->. reflexivity.
  - destruct (o_skip o); [left; symmetry; assumption|right; reflexivity].
Qed.
Lemma outputs_from_sizes (par : name -> layer) (norm : nat -> list R -> list R) (outside : list R -> Z -> R) (o : options) (l : list nat) (n : option nat) (x : list R) :
  o_layers o = Sizes l -> o_split o = false ->
  forward par norm outside (with_out n o) x = forward par norm outside o x /\
  (l <> [] -> o_selector o = None -> forall out, forward par norm outside o x = Some out -> length out = last l O).
Proof.
  intros L Sp. split.
  - unfold forward, layer_sizes, with_out, shortcut, last_layer. cbn [o_layers o_out o_neurons o_split o_selector o_skip]. rewrite L, Sp. reflexivity.
  - intros N Se out F. assert (E : layer_sizes o = Some l) by (unfold layer_sizes; rewrite L; reflexivity).
    destruct (forward_split _ _ _ _ _ _ _ E N F) as (y & h & z & Y & _ & Z & A). apply last_layer_length in Z. apply shortcut_length in Y.
    rewrite Sp in Z. rewrite Se in Y. rewrite <- Z. apply (add_length _ _ _ A). rewrite Z, Y. destruct (o_skip o); auto.
Qed.
Lemma outputs_from_selector (par : name -> layer) (norm : nat -> list R -> list R) (outside : list R -> Z -> R) (o : options) (n : nat) (s : list Z) (x out : list R) :
  o_layers o = Count n -> o_out o = Some 1%nat -> o_selector o = Some s -> forward par norm outside o x = Some out -> length out = length s.
Proof.
  intros L O1 Se F. destruct (forward_some par norm outside o x) as [sizes E]; [congruence|].
  destruct (sizes_count _ _ _ L E) as (m & M & La & N). rewrite O1 in M. injection M as <-. destruct (forward_split _ _ _ _ _ _ _ E N F) as (y & h & z & Y & _ & Z & A).
  apply last_layer_length in Z. apply shortcut_length in Y. rewrite O1, La in Z. rewrite Se in Y.
  assert (Lz : length z = 1%nat) by (destruct (o_split o); assumption).
  destruct z as [|v [|? ?]]; try discriminate. rewrite <- Y. unfold add in A. destruct (Nat.eqb_spec (length [v]) (length y)) as [Q|Q].
  - injection A as <-. rewrite map2_len by assumption. assumption.
  - destruct y as [|y0 [|y1 y2]]; [| cbn in Q; lia |]; injection A as <-; [reflexivity|]. cbn. rewrite map_length. reflexivity.
Qed.

(** C162 *)
Lemma trunk_same par par' norm i sizes x : (forall i, par (Hidden i) = par' (Hidden i)) -> trunk par norm i sizes x = trunk par' norm i sizes x.
Proof.
  intros H. revert i x. induction sizes as [|n rest IH]; intros i x; [reflexivity|]. cbn [trunk]. destruct rest; [reflexivity|].
  rewrite H. destruct (dense n (par' (Hidden i)) x); [|reflexivity]. apply IH.
Qed.
Lemma add_entry (a b a' z z' : list R) k : length a = length a' -> add a b = Some z -> add a' b = Some z' -> nth k a 0 = nth k a' 0 -> (k < length a)%nat -> nth k z 0 = nth k z' 0.
Proof.
  unfold add. intros L. rewrite <- L. destruct (Nat.eqb_spec (length a) (length b)) as [E|E].
  - intros H H' N K. injection H as <-. injection H' as <-. rewrite (map2_nth Rplus a b k 0 0 0), (map2_nth Rplus a' b k 0 0 0) by lia. rewrite N. reflexivity.
  - destruct b as [|y [|y1 b]].
    + destruct a as [|v [|? ?]], a' as [|v' [|? ?]]; try discriminate. intros H H' N K. injection H as <-. injection H' as <-. reflexivity.
    + assert (P : forall c : list R, (k < length c)%nat -> nth k (map (fun v => v + y) c) 0 = nth k c 0 + y).
      { intros c K. rewrite (nth_indep _ 0 (0 + y)) by (rewrite map_length; assumption). apply (map_nth (fun v => v + y)). }
      intros H H' N K. assert (Z : z = map (fun v => v + y) a) by (destruct a as [|v [|? ?]]; injection H as <-; reflexivity).
      assert (Z' : z' = map (fun v => v + y) a') by (destruct a' as [|v [|? ?]]; injection H' as <-; reflexivity).
      subst. rewrite !P by lia. rewrite N. reflexivity.
    + destruct a as [|v [|? ?]], a' as [|v' [|? ?]]; try discriminate. intros H H' N K. injection H as <-. injection H' as <-. cbn in K. assert (k = 0)%nat by lia. subst k.
      cbn [nth] in N. subst. reflexivity.
Qed.
Lemma heads_independent (par par' : name -> layer) (norm : nat -> list R -> list R) (outside : list R -> Z -> R) (o : options) (n k : nat) (x out out' : list R) :
  o_split o = true -> o_out o = Some n -> (k < n)%nat -> same_but_other_heads k par par' ->
  forward par norm outside o x = Some out -> forward par' norm outside o x = Some out' -> nth k out 0 = nth k out' 0.
Proof.
  intros Sp O K (Hh & Hs & Hi & Ho) F F'. destruct (forward_some par norm outside o x) as [sizes E]; [congruence|].
  assert (Sh : shortcut par' outside o sizes x = shortcut par outside o sizes x) by (unfold shortcut; rewrite Hs; reflexivity).
  destruct (list_eq_dec Nat.eq_dec sizes []) as [->|N].
  - unfold forward in F, F'. rewrite E in F, F'. rewrite Sh in F'. destruct (shortcut par outside o [] x); [|discriminate]. rewrite F in F'. injection F' as ->. reflexivity.
  - destruct (forward_split _ _ _ _ _ _ _ E N F) as (y & h & z & Y & T & Z & A). destruct (forward_split _ _ _ _ _ _ _ E N F') as (y' & h' & z' & Y' & T' & Z' & A').
    rewrite Sh, Y in Y'. injection Y' as <-. rewrite <- (trunk_same par par') in T' by assumption. rewrite T in T'. injection T' as <-.
    pose proof (last_layer_length _ _ _ _ _ Z) as Lz. pose proof (last_layer_length _ _ _ _ _ Z') as Lz'. rewrite Sp, O in Lz, Lz'.
    apply (add_entry z y z'); try assumption; try congruence; try lia.
    unfold last_layer in Z, Z'. rewrite Sp, O in Z, Z'. destruct n as [|n]; [lia|].
    assert (P : forall q c, all_some (map (head q (head_width sizes) h) (seq 0 (S n))) = Some c -> head q (head_width sizes) h k = Some (nth k c 0)).
    { intros q c H. apply (all_some_nth_eq _ _ 0 k) in H; [|rewrite map_length, seq_length; lia]. rewrite nth_error_map in H.
      rewrite (nth_error_nth' _ 0%nat) in H by (rewrite seq_length; lia). rewrite seq_nth in H by lia. cbn [option_map] in H. injection H as H. assumption. }
    apply P in Z. apply P in Z'. unfold head in Z, Z'. rewrite Hi, Ho in Z. rewrite Z in Z'. injection Z' as ->. reflexivity.
Qed.

(** C163 *)
Lemma sizes_shortcuts o s b : layer_sizes (with_shortcuts s b o) = layer_sizes o.
Proof. reflexivity. Qed.
Lemma add_zero z : add z [0] = Some z.
Proof.
  unfold add. destruct (Nat.eqb_spec (length z) (length [0])) as [E|E].
  - destruct z as [|v [|? ?]]; try (cbn in E; discriminate E). unfold Subsample.map2. cbn [combine map]. rewrite Rplus_0_r. reflexivity.
  - assert (M : map (fun v => v + 0) z = z) by (rewrite <- (map_id z) at 2; apply map_ext; intros; lra).
    destruct z as [|v [|? ?]]; rewrite ?M; try reflexivity.
Qed.
Lemma select_nth outside x k : (k < length x)%nat -> select_one outside x (Z.of_nat k) = nth k x 0.
Proof.
  intros K. unfold select_one. destruct (Z.ltb_spec (Z.of_nat k) 0) as [?|?]; [lia|].
  rewrite (proj2 (Z.leb_le 0 (Z.of_nat k))) by lia. rewrite (proj2 (Z.ltb_lt (Z.of_nat k) (Z.of_nat (length x)))) by lia. cbn [andb]. rewrite Nat2Z.id. reflexivity.
Qed.
Lemma selector_adds (par : name -> layer) (norm : nat -> list R -> list R) (outside : list R -> Z -> R) (o : options) (n : nat) (s : list nat) (skip : bool) (x out : list R) :
  o_layers o = Count n -> o_out o = Some (length s) -> Forall (fun k => (k < length x)%nat) s ->
  forward par norm outside (with_shortcuts (Some (positions s)) skip o) x = Some out ->
  exists z, forward par norm outside (with_shortcuts None false o) x = Some z /\
    length z = length s /\ length out = length s /\ forall i, (i < length s)%nat -> nth i out 0 = nth i z 0 + nth (nth i s O) x 0.
Proof.
  intros L O Fs F. destruct (forward_some par norm outside _ x ltac:(rewrite F; discriminate)) as [sizes E]. rewrite sizes_shortcuts in E.
  destruct (sizes_count _ _ _ L E) as (m & M & La & N).
  destruct (forward_split _ _ _ _ _ _ _ (eq_trans (sizes_shortcuts o _ _) E) N F) as (y & h & z & Y & T & Z & A).
  assert (Z2 : last_layer par (with_shortcuts None false o) sizes h = Some z) by exact Z.
  pose proof (last_layer_length _ _ _ _ _ Z) as Lz. cbn [with_shortcuts o_split o_out] in Lz. rewrite O in M. injection M as <-. rewrite O, La in Lz.
  assert (Lz' : length z = length s) by (destruct (o_split o); assumption). clear Lz.
  exists z. split; [|split; [assumption|]].
  - unfold forward. rewrite sizes_shortcuts, E. unfold shortcut. cbn [with_shortcuts o_selector o_skip]. destruct sizes as [|c sizes]; [congruence|].
    rewrite T, Z2. apply add_zero.
  - unfold shortcut in Y. cbn [with_shortcuts o_selector] in Y. injection Y as <-.
    assert (Ly : length z = length (map (select_one outside x) (positions s))) by (unfold positions; rewrite !map_length; assumption).
    split; [rewrite <- Lz'; apply (add_length _ _ _ A); left; assumption|].
    intros i I. rewrite (add_nth _ _ _ _ A Ly) by lia. f_equal. unfold positions. rewrite map_map.
    rewrite (nth_indep _ 0 ((fun k => select_one outside x (Z.of_nat k)) 0%nat)) by (rewrite map_length; assumption).
    rewrite (map_nth (fun k => select_one outside x (Z.of_nat k))). apply select_nth. rewrite Forall_forall in Fs. apply Fs. apply nth_In. assumption.
Qed.
Lemma selector_hides_skip (par : name -> layer) (norm : nat -> list R -> list R) (outside : list R -> Z -> R) (o : options) (s : list Z) (x : list R) (l : layer) :
  forward (fun nm => match nm with Skip => l | _ => par nm end) norm outside (with_shortcuts (Some s) true o) x
  = forward par norm outside (with_shortcuts (Some s) false o) x.
Proof.
  unfold forward. rewrite !sizes_shortcuts. destruct (layer_sizes o) as [sizes|]; [|reflexivity]. unfold shortcut. cbn [with_shortcuts o_selector].
  destruct sizes as [|c sizes]; [reflexivity|]. rewrite (trunk_same _ par) by reflexivity. destruct (trunk par norm 0 (c :: sizes) x); [|reflexivity].
  reflexivity.
Qed.

(** C164 *)
Lemma dot_zero w x : Forall (fun v => v = 0) w -> dot w x = 0.
Proof.
  intros F. unfold dot. revert x. induction F as [|a w E F IH]; intros [|v x]; try reflexivity. rewrite map2_cons. cbn [fold_right]. rewrite IH, E. lra.
Qed.
Lemma dense_zero f p x z : zero_layer p -> dense f p x = Some z -> z = repeat 0 f.
Proof.
  intros Zl H. pose proof (dense_length _ _ _ _ H) as L. unfold dense in H. destruct (_ && _); [|discriminate]. injection H as H. subst z.
  rewrite map_length in L. subst f. clear -Zl. induction p as [|[w b] p IH]; [reflexivity|]. cbn [map length repeat fst snd]. f_equal.
  - destruct (Zl w b) as [-> Fw]; [left; reflexivity|]. rewrite dot_zero by assumption. lra.
  - apply IH. intros w' b' I. apply Zl. right. assumption.
Qed.
Lemma transform_row_nth sc row k : length sc = length row -> (k < length row)%nat -> nth k (transform_row sc row) 0 = transform (nth k sc (0, 0)) (nth k row 0).
Proof. intros E K. unfold transform_row. rewrite (map2_nth transform sc row k (0, 0) 0 0) by lia. reflexivity. Qed.
Lemma nth_fit_table b cols rows k d : (k < cols)%nat -> nth k (fit_table b cols rows) d = fit_column b (column k rows).
Proof.
  intros K. unfold fit_table. rewrite (nth_indep _ d (fit_column b (column 0 rows))) by (rewrite map_length, seq_length; assumption).
  rewrite (map_nth (fun j => fit_column b (column j rows))). rewrite seq_nth by assumption. reflexivity.
Qed.
Lemma zero_forward (par : name -> layer) (norm : nat -> list R -> list R) (outside : list R -> Z -> R) (o : options) (n : nat) (s : list nat) (x out : list R) :
  o_layers o = Count n -> o_split o = false -> o_out o = Some (length s) -> o_selector o = Some (positions s) ->
  Forall (fun k => (k < length x)%nat) s -> zero_layer (par (Hidden (n - 1))) ->
  forward par norm outside o x = Some out -> out = map (fun k => nth k x 0) s.
Proof.
  intros L Sp O Se Fs Zl F. assert (Eo : o = with_shortcuts (Some (positions s)) (o_skip o) o) by (destruct o; cbn in *; subst; reflexivity).
  rewrite Eo in F. destruct (selector_adds _ _ _ _ _ _ _ _ _ L O Fs F) as (z & Fz & Lz & Lo & H).
  assert (Hz : forall i, (i < length s)%nat -> nth i z 0 = 0).
  { destruct (forward_some par norm outside _ x ltac:(rewrite Fz; discriminate)) as [sizes E]. rewrite sizes_shortcuts in E.
    destruct (sizes_count _ _ _ L E) as (m & M & La & N).
    destruct (forward_split _ _ _ _ _ _ _ (eq_trans (sizes_shortcuts o _ _) E) N Fz) as (y & h & z' & Y & T & Z & A).
    unfold shortcut in Y. cbn [with_shortcuts o_selector o_skip] in Y. injection Y as <-. rewrite add_zero in A. injection A as ->.
    unfold last_layer in Z. cbn [with_shortcuts o_split] in Z. rewrite Sp in Z. assert (Ls : (length sizes = n)%nat).
    { unfold layer_sizes in E. rewrite L in E. destruct n; [discriminate|]. destruct (o_neurons o); [|discriminate]. destruct (o_out o); [|discriminate]. injection E as <-.
      rewrite app_length, repeat_length. cbn. lia. }
    rewrite Ls in Z. apply dense_zero in Z; [|assumption]. intros i I. subst z. rewrite La. apply nth_repeat. }
  apply (list_eq_nth _ _ 0); [rewrite map_length; assumption|]. intros i I. rewrite Lo in I. rewrite H, Hz by assumption.
  rewrite (nth_indep (map _ s) 0 ((fun k => nth k x 0) 0%nat)) by (rewrite map_length; assumption). rewrite (map_nth (fun k => nth k x 0)). lra.
Qed.
Lemma zero_predict (par : name -> layer) (norm : nat -> list R -> list R) (outside : list R -> Z -> R) (o : options) (n : nat) (s : list nat)
    (centre : bool) (xs ys : list (list R)) (row out : list R) :
  o_layers o = Count n -> o_split o = false -> o_out o = Some (length s) -> o_selector o = Some (positions s) ->
  Forall (fun k => (k < length row)%nat) s -> zero_layer (par (Hidden (n - 1))) -> ys <> [] ->
  (forall i, (i < length s)%nat -> column (nth i s O) xs = column i ys) ->
  predict_row par norm outside (fit_table centre (length row) xs) (Some (fit_table true (length s) ys)) o row = Some out ->
  length out = length s /\ forall i, (i < length s)%nat -> nth i out 0 = nth (nth i s O) row 0 + if centre then 0 else col_mean (column i ys).
Proof.
  intros L Sp O Se Fs Zl Ny C P. unfold predict_row in P. destruct (forward _ _ _ _ _) as [z|] eqn:F; [|discriminate]. injection P as <-.
  assert (Lf : forall b c r, length (fit_table b c r) = c) by (intros; unfold fit_table; rewrite map_length, seq_length; reflexivity).
  assert (Lt : length (transform_row (fit_table centre (length row) xs) row) = length row) by (unfold transform_row; rewrite map2_len; rewrite Lf; reflexivity).
  apply zero_forward with (n := n) (s := s) in F; try assumption; [|rewrite Lt; assumption]. subst z.
  split; [unfold inverse_row; rewrite map2_len; rewrite ?map_length; rewrite Lf; reflexivity|].
  intros i I. unfold inverse_row. rewrite (map2_nth inverse _ _ i (0, 0) 0 0); rewrite ?Lf, ?map_length; try assumption.
  rewrite nth_fit_table by assumption.
  set (t := transform_row (fit_table centre (length row) xs) row) in *.
  rewrite (nth_indep (map _ s) 0 ((fun k => nth k t 0) 0%nat)) by (rewrite map_length; assumption). rewrite (map_nth (fun k => nth k t 0)).
  assert (K : (nth i s 0 < length row)%nat) by (rewrite Forall_forall in Fs; apply Fs; apply nth_In; assumption).
  unfold t. rewrite transform_row_nth; [|apply Lf|assumption]. rewrite nth_fit_table by assumption. rewrite C by assumption.
  assert (Ncol : column i ys <> []) by (unfold column; destruct ys; [congruence|discriminate]).
  unfold inverse, transform, fit_column. cbn [fst snd].
  assert (Sc : col_scale (column i ys) <> 0).
  { unfold col_scale. destruct (Req_EM_T (col_var (column i ys)) 0); [lra|]. intros Q.
    assert (0 <= col_var (column i ys)) by (apply var_nonneg; assumption). apply sqrt_eq_0 in Q; [contradiction|assumption]. }
  destruct centre; field; assumption.
Qed.

(** C165 *)
Lemma quantiles_dense (k : kind) (probabilistic : bool) : k <> Recurrent -> quantiles_return k probabilistic true Frame = true.
Proof. destruct k; try congruence; destruct probabilistic; reflexivity. Qed.
Lemma quantiles_recurrent (probabilistic : bool) (d : data) : quantiles_return Recurrent probabilistic true d = false.
Proof. destruct probabilistic, d; reflexivity. Qed.
Lemma quantiles_raw (k : kind) : k <> Invertible -> k <> Recurrent -> quantiles_return k true false Frame = false.
Proof. destruct k; congruence || reflexivity. Qed.
Lemma zero_centred (par : name -> layer) (norm : nat -> list R -> list R) (outside : list R -> Z -> R) (o : options) (n : nat) (s : list nat)
    (xs ys : list (list R)) (row out : list R) :
  o_layers o = Count n -> o_split o = false -> o_out o = Some (length s) -> o_selector o = Some (positions s) ->
  Forall (fun k => (k < length row)%nat) s -> zero_layer (par (Hidden (n - 1))) -> ys <> [] ->
  (forall i, (i < length s)%nat -> column (nth i s O) xs = column i ys) ->
  predict_row par norm outside (fit_table true (length row) xs) (Some (fit_table true (length s) ys)) o row = Some out ->
  length out = length s /\ forall i, (i < length s)%nat -> nth i out 0 = nth (nth i s O) row 0.
Proof.
  intros H1 H2 H3 H4 H5 H6 H7 H8 H9. destruct (zero_predict par norm outside o n s true xs ys row out H1 H2 H3 H4 H5 H6 H7 H8 H9) as [L E].
  split; [assumption|]. intros i I. rewrite E by assumption. lra.
Qed.
Lemma zero_default (par : name -> layer) (norm : nat -> list R -> list R) (outside : list R -> Z -> R) (o : options) (n : nat) (s : list nat)
    (xs ys : list (list R)) (row out : list R) :
  o_layers o = Count n -> o_split o = false -> o_out o = Some (length s) -> o_selector o = Some (positions s) ->
  Forall (fun k => (k < length row)%nat) s -> zero_layer (par (Hidden (n - 1))) -> ys <> [] ->
  (forall i, (i < length s)%nat -> column (nth i s O) xs = column i ys) ->
  predict_row par norm outside (fit_table false (length row) xs) (Some (fit_table true (length s) ys)) o row = Some out ->
  length out = length s /\ forall i, (i < length s)%nat -> nth i out 0 = nth (nth i s O) row 0 + col_mean (column i ys).
Proof.
  intros H1 H2 H3 H4 H5 H6 H7 H8 H9. exact (zero_predict par norm outside o n s false xs ys row out H1 H2 H3 H4 H5 H6 H7 H8 H9).
Qed.
