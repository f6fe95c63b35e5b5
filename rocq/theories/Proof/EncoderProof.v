From Coq Require Import List ZArith Bool Arith Ascii Lia Permutation Sorted String.
From Verif Require Import Model.Names Model.Encoder Spec.EncoderSpec.
Import ListNotations.
Local Open Scope list_scope.

Lemma same_spec a b : same a b = true <-> a = b.
Proof. unfold same. destruct (list_eq_dec _ a b); split; congruence. Qed.
Lemma same_refl a : same a a = true.
Proof. now apply same_spec. Qed.
Lemma same_false a b : same a b = false <-> a <> b.
Proof. unfold same. destruct (list_eq_dec _ a b); split; congruence. Qed.

Lemma tlt_before a b : tlt a b = true <-> before a b.
Proof.
  split.
  - revert b. induction a as [|x a IH]; intros [|y b] H; cbn [tlt] in H; try congruence; [constructor|].
    destruct (Nat.ltb_spec (nat_of_ascii x) (nat_of_ascii y)) as [Hlt|Hge]; [now constructor|].
    destruct (Nat.eqb_spec (nat_of_ascii x) (nat_of_ascii y)) as [He|]; [|congruence].
    assert (x = y) as ->.
    { rewrite <- (ascii_nat_embedding x), <- (ascii_nat_embedding y). now rewrite He. }
    apply before_tail. now apply IH.
  - induction 1 as [y b|x a y b H|x a b _ IH]; cbn [tlt].
    + reflexivity.
    + apply Nat.ltb_lt in H. now rewrite H.
    + rewrite Nat.ltb_irrefl, Nat.eqb_refl. exact IH.
Qed.
Lemma before_irrefl a : ~ before a a.
Proof. induction a as [|x a IH]; intros H; inversion H; subst; [lia|auto]. Qed.
Lemma before_trans a b c : before a b -> before b c -> before a c.
Proof.
  intros H. revert c. induction H as [y b|x a y b H|x a b Hb IH]; intros c Hc; inversion Hc; subst.
  - apply before_nil.
  - apply before_nil.
  - apply before_head. lia.
  - now apply before_head.
  - now apply before_head.
  - apply before_tail. now apply IH.
Qed.
Lemma before_total a b : before a b \/ a = b \/ before b a.
Proof.
  revert b. induction a as [|x a IH]; intros [|y b].
  - right. now left.
  - left. constructor.
  - right. right. constructor.
  - destruct (lt_eq_lt_dec (nat_of_ascii x) (nat_of_ascii y)) as [[H|H]|H].
    + left. now constructor.
    + assert (x = y) as ->.
      { rewrite <- (ascii_nat_embedding x), <- (ascii_nat_embedding y). now rewrite H. }
      destruct (IH b) as [Hb|[->|Hb]]; [left; now apply before_tail|right; now left|right; right; now apply before_tail].
    + right. right. now constructor.
Qed.

(** Classes are the distinct values in increasing order. *)
Lemma tinsert_in x l v : In v (tinsert x l) <-> v = x \/ In v l.
Proof.
  induction l as [|a l IH]; cbn; [intuition|]. destruct (same x a) eqn:E.
  - apply same_spec in E. subst. cbn. intuition (subst; auto).
  - destruct (tlt x a); cbn; [intuition|]. rewrite IH. intuition.
Qed.
Lemma tinsert_sorted x l : StronglySorted before l -> StronglySorted before (tinsert x l).
Proof.
  induction l as [|a l IH]; intros H; cbn; [repeat constructor|]. destruct (same x a) eqn:E; [exact H|].
  inversion H as [|? ? Hs Hf]; subst. destruct (tlt x a) eqn:Et.
  - apply tlt_before in Et. constructor; [exact H|]. constructor; [exact Et|]. eapply Forall_impl; [|exact Hf].
    intros b Hb. eapply before_trans; eassumption.
  - constructor; [now apply IH|]. apply Forall_forall. intros b Hb. apply tinsert_in in Hb. destruct Hb as [->|Hb].
    + destruct (before_total a x) as [H1|[H1|H1]]; [exact H1| |].
      * apply same_false in E. congruence.
      * apply tlt_before in H1. congruence.
    + rewrite Forall_forall in Hf. now apply Hf.
Qed.
Lemma classes_in l v : In v (classes l) <-> In v l.
Proof. induction l as [|a l IH]; [tauto|]. cbn. rewrite tinsert_in, IH. intuition. Qed.
Lemma classes_sorted l : StronglySorted before (classes l).
Proof. induction l as [|a l IH]; [constructor|]. cbn. now apply tinsert_sorted. Qed.
Lemma sorted_nodup l : StronglySorted before l -> NoDup l.
Proof.
  induction 1 as [|a l Hs IH Hf]; constructor; [|exact IH]. intros H. rewrite Forall_forall in Hf.
  exact (before_irrefl _ (Hf _ H)).
Qed.

Lemma position_code l v : StronglySorted before l -> In v l ->
  exists smaller, NoDup smaller /\ (forall w, In w smaller <-> In w l /\ before w v) /\ position v l = List.length smaller.
Proof.
  induction 1 as [|a l Hs IH Hf]; intros Hv; [destruct Hv|]. cbn. rewrite Forall_forall in Hf. destruct (same v a) eqn:E.
  - apply same_spec in E. subst a. exists []. split; [constructor|]. split; [|reflexivity]. intros w. split; [intros []|].
    intros [[<-|Hw] Hb]; [exact (before_irrefl _ Hb)|]. exact (before_irrefl _ (before_trans _ _ _ Hb (Hf w Hw))).
  - apply same_false in E. destruct Hv as [->|Hv]; [congruence|]. destruct (IH Hv) as (s & H1 & H2 & H3).
    exists (a :: s). split.
    { constructor; [|exact H1]. intros Ha. apply H2 in Ha. destruct Ha as [Ha _]. exact (before_irrefl _ (Hf a Ha)). }
    split; [|cbn; now rewrite H3]. intros w. cbn. rewrite H2. split.
    + intros [<-|[Hw Hb]]; [split; [now left|now apply Hf]|]. split; [now right|exact Hb].
    + intros [[<-|Hw] Hb]; [now left|]. right. split; assumption.
Qed.
Lemma codes_spec first v k : (forall w, In w v -> In w first) -> k < List.length v ->
  is_code first (nth k v []) (nth k (codes (classes first) v) 0%Z).
Proof.
  intros Hi Hk. unfold codes. rewrite nth_indep with (d' := Z.of_nat (position [] (classes first))) by (now rewrite map_length).
  rewrite (map_nth (fun s => Z.of_nat (position s (classes first)))).
  destruct (position_code (classes first) (nth k v []) (classes_sorted first)) as (s & H1 & H2 & H3).
  { apply classes_in, Hi, nth_In, Hk. }
  exists s. split; [exact H1|]. split; [|now rewrite H3]. intros w. rewrite H2. now rewrite classes_in.
Qed.

(** The code is unique. *)
Lemma is_code_unique first v k k' : is_code first v k -> is_code first v k' -> k = k'.
Proof.
  intros (s & H1 & H2 & ->) (s' & H1' & H2' & ->). f_equal. apply Permutation_length, NoDup_Permutation; auto.
  intros w. now rewrite H2, H2'.
Qed.
Lemma is_code_order first v w k l : In v first -> In w first -> is_code first v k -> is_code first w l ->
  (before v w <-> (k < l)%Z).
Proof.
  intros Hv Hw (s & H1 & H2 & ->) (s' & H1' & H2' & ->).
  assert (Hlt : forall a b sa sb, In a first -> NoDup sa -> NoDup sb -> (forall w, In w sa <-> In w first /\ before w a) ->
     (forall w, In w sb <-> In w first /\ before w b) -> before a b -> List.length sa < List.length sb).
  { intros a b sa sb Ha Na Nb Ia Ib Hab.
    assert (Hn : ~ In a sa) by (rewrite Ia; intros [_ H]; exact (before_irrefl _ H)).
    change (List.length (a :: sa) <= List.length sb). apply NoDup_incl_length; [now constructor|].
    intros w' [<-|Hw']; apply Ib; [tauto|]. apply Ia in Hw'. split; [tauto|]. eapply before_trans; [apply Hw'|exact Hab]. }
  split.
  - intros H. apply Nat2Z.inj_lt. exact (Hlt v w s s' Hv H1 H1' H2 H2' H).
  - intros H. destruct (before_total v w) as [Hb|[->|Hb]]; [exact Hb| |].
    + enough (List.length s = List.length s') by lia. apply Permutation_length, NoDup_Permutation; auto. intros z. now rewrite H2, H2'.
    + pose proof (Hlt w v s' s Hw H1' H1 H2' H2 Hb). lia.
Qed.
Lemma is_code_range first v k : In v first -> is_code first v k -> (0 <= k < Z.of_nat (List.length (nodup (list_eq_dec Ascii.ascii_dec) first)))%Z.
Proof.
  intros Hv (s & H1 & H2 & ->). split; [lia|]. apply Nat2Z.inj_lt.
  change (List.length (v :: s) <= List.length (nodup (list_eq_dec Ascii.ascii_dec) first)). apply NoDup_incl_length.
  - constructor; [|exact H1]. rewrite H2. intros [_ H]. exact (before_irrefl _ H).
  - intros w [<-|Hw]; apply nodup_In; [exact Hv|]. now apply H2 in Hw.
Qed.

(** State of the encoders. *)
Lemma lookup_app {V} k (a b : list (text * V)) : lookup k (a ++ b) = match lookup k a with Some v => Some v | None => lookup k b end.
Proof. induction a as [|[k' v] a IH]; [reflexivity|]. cbn. destruct (same k k'); [reflexivity|exact IH]. Qed.

Fixpoint cat_of (c : text) (x : table) : option (list text) :=
  match x with
  | [] => None
  | (n, Cat v) :: x' => if same c n then Some v else cat_of c x'
  | (n, Num _) :: x' => cat_of c x'
  end.
Lemma cat_of_spec c x v : named x -> (cat_of c x = Some v <-> categorical c x v).
Proof.
  unfold named, categorical. induction x as [|[n k] x IH]; intros Hn; [cbn; split; [discriminate|tauto]|].
  cbn in Hn. inversion Hn as [|? ? Hn1 Hn2]; subst. specialize (IH Hn2). cbn. destruct k as [l|l].
  - rewrite IH. intuition discriminate.
  - destruct (same c n) eqn:E.
    + apply same_spec in E. subst n. split.
      * intros [= ->]. now left.
      * intros [[= ->]|H]; [reflexivity|]. destruct Hn1. apply in_map_iff. exists (c, Cat v). split; [reflexivity|exact H].
    + rewrite IH. split; [tauto|]. intros [[= -> ->]|H]; [rewrite same_refl in E; discriminate|exact H].
Qed.

(** Once created an encoder never changes. *)
Lemma encode_stable c cl : forall x le le' y ok, encode le x = (le', y, ok) -> lookup c le = Some cl -> lookup c le' = Some cl.
Proof.
  induction x as [|[n k] x IH]; intros le le' y ok H Hc; cbn [encode] in H; [now injection H as <- _ _|].
  assert (H1 : forall le1 c1 b, encode_col le n k = (le1, c1, b) -> lookup c le1 = Some cl).
  { intros le1 c1 b E. unfold encode_col in E. destruct k as [l|l]; [now injection E as <- _ _|].
    destruct (lookup n le) eqn:El.
    - destruct (forallb _ l); now injection E as <- _ _.
    - injection E as <- _ _. rewrite lookup_app, Hc. reflexivity. }
  destruct (encode_col le n k) as [[le1 c1] b] eqn:E. specialize (H1 _ _ _ eq_refl). destruct b.
  - destruct (encode le1 x) as [[le2 x2] ok2] eqn:E2. injection H as <- _ _. eapply IH; eassumption.
  - injection H as <- _ _. exact H1.
Qed.

Lemma encode_ok_lookup c : forall x le le' y, named x -> encode le x = (le', y, true) ->
  lookup c le' = match lookup c le with Some cl => Some cl | None => option_map classes (cat_of c x) end.
Proof.
  induction x as [|[n k] x IH]; intros le le' y Hn H; cbn [encode] in H.
  - injection H as <- _. destruct (lookup c le); reflexivity.
  - unfold named in Hn. cbn in Hn. inversion Hn as [|? ? Hn1 Hn2]; subst.
    destruct (encode_col le n k) as [[le1 c1] b] eqn:E. destruct b; [|discriminate].
    destruct (encode le1 x) as [[le2 x2] ok2] eqn:E2. injection H as -> _ ->. specialize (IH _ _ _ Hn2 E2). rewrite IH.
    unfold encode_col in E. destruct k as [l|l].
    + injection E as <- _. cbn. reflexivity.
    + destruct (lookup n le) eqn:El.
      * destruct (forallb _ l); [|discriminate]. injection E as <- _. cbn. destruct (same c n) eqn:Es.
        -- apply same_spec in Es. subst. now rewrite El.
        -- reflexivity.
      * injection E as <- _. rewrite lookup_app. destruct (lookup c le) eqn:Ec; [reflexivity|]. cbn.
        destruct (same c n) eqn:Es; reflexivity.
Qed.

Fixpoint first_of (c : text) (xs : list table) : option (list text) :=
  match xs with
  | [] => None
  | x :: xs' => match cat_of c x with Some v => Some v | None => first_of c xs' end
  end.
Lemma first_of_spec c xs v : Forall named xs -> first_seen c xs v -> first_of c xs = Some v.
Proof.
  intros Hn H. induction H as [x xs v Hc|x xs v Hno _ IH]; inversion Hn; subst; cbn.
  - apply cat_of_spec in Hc; [|assumption]. now rewrite Hc.
  - destruct (cat_of c x) eqn:E; [|now apply IH]. apply cat_of_spec in E; [|assumption]. destruct (Hno _ E).
Qed.
Lemma first_of_app c xs ys : first_of c (xs ++ ys) = match first_of c xs with Some v => Some v | None => first_of c ys end.
Proof. induction xs as [|x xs IH]; [reflexivity|]. cbn. destruct (cat_of c x); [reflexivity|exact IH]. Qed.

Lemma encode_all_lookup c : forall xs le le' ys, Forall named xs -> encode_all le xs = (le', ys) ->
  Forall (fun p => snd p = true) ys ->
  lookup c le' = match lookup c le with Some cl => Some cl | None => option_map classes (first_of c xs) end.
Proof.
  induction xs as [|x xs IH]; intros le le' ys Hn H Hok; cbn in H.
  - injection H as <- <-. destruct (lookup c le); reflexivity.
  - inversion Hn; subst. destruct (encode le x) as [[le1 y] ok] eqn:E. destruct (encode_all le1 xs) as [le2 ys2] eqn:E2.
    injection H as <- <-. inversion Hok as [|? ? Hk Hok']; subst. cbn in Hk. subst ok.
    rewrite (IH _ _ _ H3 E2 Hok'). rewrite (encode_ok_lookup c x le le1 y H2 E). cbn.
    destruct (lookup c le); [reflexivity|]. destruct (cat_of c x); reflexivity.
Qed.

Lemma member_spec cl v : member cl v = true <-> In v cl.
Proof.
  unfold member. rewrite existsb_exists. split.
  - intros (w & Hw & E). apply same_spec in E. now subst.
  - intros H. exists v. split; [exact H|apply same_refl].
Qed.

(** Output of one call, column by column. *)
Lemma encode_output : forall x le le' y ok, named x -> encode le x = (le', y, ok) ->
  map fst y = map fst x /\
  (ok = true <-> forall c v cl, categorical c x v -> lookup c le = Some cl -> incl v cl) /\
  (ok = true -> forall c v, categorical c x v ->
     In (c, Num (codes (match lookup c le with Some cl => cl | None => classes v end) v)) y) /\
  (ok = true -> forall c l, In (c, Num l) x -> In (c, Num l) y).
Proof.
  induction x as [|[n k] x IH]; intros le le' y ok Hn H; cbn [encode] in H.
  - injection H as <- <- <-. split; [reflexivity|]. unfold categorical. split; [split; [intros _ c v cl []|reflexivity]|]. split; intros _ ? ? [].
  - unfold named in Hn. cbn in Hn. inversion Hn as [|? ? Hn1 Hn2]; subst.
    assert (Hfresh : forall c v, categorical c x v -> c <> n).
    { intros c v Hc ->. apply Hn1. apply in_map_iff. now exists (n, Cat v). }
    destruct (encode_col le n k) as [[le1 c1] b] eqn:E. destruct b.
    + destruct (encode le1 x) as [[le2 x2] ok2] eqn:E2. injection H as <- <- <-.
      destruct (IH _ _ _ _ Hn2 E2) as (I1 & I2 & I3 & I4).
      assert (Hsame : forall c v, categorical c x v -> lookup c le1 = lookup c le).
      { intros c v Hc. specialize (Hfresh c v Hc). unfold encode_col in E. destruct k as [l|l]; [now injection E as <- _|].
        destruct (lookup n le) eqn:El; [destruct (forallb _ l); [now injection E as <- _|discriminate]|].
        injection E as <- _. rewrite lookup_app. destruct (lookup c le); [reflexivity|]. cbn.
        apply same_false in Hfresh. now rewrite Hfresh. }
      split; [cbn; now rewrite I1|]. split; [|split].
      * rewrite I2. split.
        -- intros HH c v cl [Hc|Hc] Hl.
           ++ injection Hc as -> ->. unfold encode_col in E. rewrite Hl in E.
              destruct (forallb (member cl) v) eqn:Ef; [|discriminate]. rewrite forallb_forall in Ef.
              intros w Hw. apply member_spec. now apply Ef.
           ++ eapply HH; [exact Hc|]. now rewrite (Hsame c v Hc).
        -- intros HH c v cl Hc Hl. eapply HH; [right; exact Hc|]. now rewrite <- (Hsame c v Hc).
      * intros -> c v [Hc|Hc].
        -- injection Hc as -> ->. left. unfold encode_col in E. destruct (lookup c le) eqn:El.
           ++ destruct (forallb _ v); [|discriminate]. now injection E as _ <-.
           ++ now injection E as _ <-.
        -- right. rewrite <- (Hsame c v Hc). now apply I3.
      * intros -> c l [Hc|Hc]; [|right; now apply I4]. injection Hc as -> ->. cbn in E. injection E as _ <-. now left.
    + injection H as <- <- <-. split; [reflexivity|]. split; [|split; discriminate].
      split; [discriminate|]. intros HH. exfalso. unfold encode_col in E. destruct k as [l|l]; [discriminate|].
      destruct (lookup n le) as [cl|] eqn:El; [|discriminate]. destruct (forallb (member cl) l) eqn:Ef; [discriminate|].
      assert (Hf : forallb (member cl) l = true); [|congruence]. apply forallb_forall. intros w Hw. apply member_spec.
      exact (HH n l cl (or_introl eq_refl) El w Hw).
Qed.

Lemma encoding_history :
  forall history outputs le x le' y ok,
  Forall named history -> named x ->
  encode_all [] history = (le, outputs) -> Forall (fun p => snd p = true) outputs ->
  encode le x = (le', y, ok) ->
  (ok = true <-> forall c v first, categorical c x v -> first_seen c (history ++ [x]) first -> incl v first) /\
  (ok = true -> forall c v first, categorical c x v -> first_seen c (history ++ [x]) first ->
     exists k, In (c, Num k) y /\ List.length k = List.length v /\
       forall r, r < List.length v -> is_code first (nth r v []) (nth r k 0%Z)) /\
  (ok = true -> forall c l, In (c, Num l) x -> In (c, Num l) y) /\
  map fst y = map fst x.
Proof.
  intros hist outs le x le' y ok Hn Hx Hall Hok Henc.
  destruct (encode_output x le le' y ok Hx Henc) as (O1 & O2 & O3 & O4).
  assert (Hlk : forall c v first, categorical c x v -> first_seen c (hist ++ [x]) first ->
     (lookup c le = Some (classes first)) \/ (lookup c le = None /\ first = v)).
  { intros c v first Hc Hf. apply first_of_spec in Hf; [|apply Forall_app; split; [exact Hn|constructor; [exact Hx|constructor]]].
    rewrite first_of_app in Hf. rewrite (encode_all_lookup c hist [] le outs Hn Hall Hok). cbn.
    destruct (first_of c hist) as [w|]; [left; cbn; congruence|]. right. split; [reflexivity|].
    cbn in Hf. apply cat_of_spec in Hc; [|exact Hx]. rewrite Hc in Hf. congruence. }
  assert (Hseen : forall c cl, lookup c le = Some cl -> exists first, cl = classes first /\ first_seen c (hist ++ [x]) first).
  { intros c cl Hl. rewrite (encode_all_lookup c hist [] le outs Hn Hall Hok) in Hl. cbn in Hl.
    destruct (first_of c hist) as [w|] eqn:Ef; [|discriminate]. injection Hl as <-. exists w. split; [reflexivity|].
    clear -Hn Ef. induction hist as [|z hs IH]; [discriminate|]. inversion Hn; subst. cbn in *. destruct (cat_of c z) eqn:Ec.
    - injection Ef as <-. apply first_here. now apply cat_of_spec.
    - apply first_later; [|now apply IH]. intros u Hu. apply cat_of_spec in Hu; [|assumption]. congruence. }
  split; [|split; [|split]].
  - rewrite O2. split.
    + intros HH c v first Hc Hf. destruct (Hlk c v first Hc Hf) as [Hl|[_ ->]]; [|apply incl_refl].
      intros w Hw. apply classes_in. exact (HH c v _ Hc Hl w Hw).
    + intros HH c v cl Hc Hl w Hw. destruct (Hseen c cl Hl) as (first & -> & Hf). apply classes_in.
      exact (HH c v first Hc Hf w Hw).
  - intros Ht c v first Hc Hf. specialize (O3 Ht c v Hc). eexists. split; [exact O3|].
    split; [unfold codes; apply map_length|]. intros r Hr. destruct (Hlk c v first Hc Hf) as [Hl|[Hl ->]]; rewrite Hl.
    + apply codes_spec; [|exact Hr]. intros w Hw. apply classes_in. apply (proj1 O2 Ht c v _ Hc Hl w Hw).
    + apply codes_spec; [|exact Hr]. auto.
  - exact O4.
  - exact O1.
Qed.

(** Stability holds in every history, with failed calls too. *)
Lemma encoding_never_changes :
  forall calls le le' outputs c cl,
  lookup c le = Some cl -> encode_all le calls = (le', outputs) -> lookup c le' = Some cl.
Proof.
  induction calls as [|x calls IH]; intros le le' outs c cl Hc H; cbn in H; [now injection H as <- _|].
  destruct (encode le x) as [[le1 y] ok] eqn:E. destruct (encode_all le1 calls) as [le2 ys] eqn:E2. injection H as <- _.
  eapply IH; [|exact E2]. eapply encode_stable; eassumption.
Qed.

(** The caller's frame is overwritten. *)
Lemma caller_frame_changed :
  exists le x le' y, encode le x = (le', y, true) /\ named x /\ y <> x.
Proof.
  exists [], [(txt "c", Cat [txt "b"; txt "a"])]%string. eexists. eexists. split; [vm_compute; reflexivity|].
  split; [repeat constructor; intros []|]. discriminate.
Qed.

(** ** Parameters *)
Section ParamsProof.
Context {V : Type}.
Lemma lookup_assign k k' (v : V) d : lookup k (assign k' v d) = if same k k' then Some v else lookup k d.
Proof.
  induction d as [|[q w] d IH]; cbn.
  - reflexivity.
  - destruct (same k' q) eqn:E; cbn.
    + apply same_spec in E. subst q. destruct (same k k'); reflexivity.
    + rewrite IH. destruct (same k q) eqn:E2; [|reflexivity]. apply same_spec in E2. subst q.
      destruct (same k k') eqn:E3; [|reflexivity]. apply same_spec in E3. subst. rewrite same_refl in E. discriminate.
Qed.
Lemma assign_keys k (v : V) d : has k d = true -> map fst (assign k v d) = map fst d.
Proof.
  unfold has. induction d as [|[q w] d IH]; cbn; [discriminate|]. destruct (same k q); [reflexivity|]. cbn. intros H. now rewrite IH.
Qed.
Lemma lookup_none k (d : dict V) : lookup k d = None <-> ~ In k (map fst d).
Proof.
  induction d as [|[q w] d IH]; cbn; [tauto|]. destruct (same k q) eqn:E.
  - apply same_spec in E. subst. split; [discriminate|]. intros H. destruct H. now left.
  - rewrite IH. apply same_false in E. split; [intros H [H'|H']; congruence|tauto].
Qed.
Lemma set_params_lookup (kw d : dict V) k : NoDup (map fst kw) ->
  lookup k (set_params kw d) =
  match lookup k d with None => None | Some old => match lookup k kw with Some new => Some new | None => Some old end end.
Proof.
  unfold set_params. revert d. induction kw as [|[q w] kw IH]; intros d Hn; cbn [fold_left map] in *.
  - cbn. destruct (lookup k d); reflexivity.
  - inversion Hn as [|? ? Hn1 Hn2]; subst. rewrite IH by exact Hn2. clear IH. cbn [fst snd lookup].
    unfold has. destruct (lookup q d) as [old|] eqn:Eq.
    + rewrite lookup_assign. destruct (same k q) eqn:E; [|reflexivity].
      apply same_spec in E. subst q. rewrite Eq. apply lookup_none in Hn1. now rewrite Hn1.
    + destruct (lookup k d) as [old|] eqn:Ek; [|reflexivity]. destruct (same k q) eqn:E; [|reflexivity].
      apply same_spec in E. subst. congruence.
Qed.
Lemma set_params_keys (kw d : dict V) : map fst (set_params kw d) = map fst d.
Proof.
  unfold set_params. revert d. induction kw as [|[q w] kw IH]; intros d; [reflexivity|]. cbn [fold_left]. rewrite IH. cbn [fst snd].
  destruct (has q d) eqn:E; [|reflexivity]. now apply assign_keys.
Qed.
Lemma get_params_lookup sig (d : dict V) k :
  lookup k (get_params sig d) = if in_dec (list_eq_dec Ascii.ascii_dec) k sig then lookup k d else None.
Proof.
  unfold get_params. induction sig as [|q sig IH]; [reflexivity|]. cbn [flat_map]. rewrite lookup_app, IH. clear IH.
  destruct (in_dec (list_eq_dec Ascii.ascii_dec) k (q :: sig)) as [H|H]; destruct (in_dec (list_eq_dec Ascii.ascii_dec) k sig) as [H'|H'].
  - destruct (lookup q d) eqn:E; cbn; [|reflexivity]. destruct (same k q) eqn:Es; [|reflexivity]. apply same_spec in Es. now subst.
  - destruct H as [->|H]; [|contradiction]. destruct (lookup k d); cbn; [now rewrite same_refl|reflexivity].
  - destruct H. now right.
  - destruct (lookup q d) eqn:E; cbn; [|reflexivity]. destruct (same k q) eqn:Es; [|reflexivity]. apply same_spec in Es. subst. destruct H. now left.
Qed.
End ParamsProof.

Lemma params_round_trip (V : Type) :
  forall (sig : list text) (kw d : dict V) k, NoDup (map fst kw) ->
  lookup k (get_params sig (set_params kw d)) =
    (if in_dec (list_eq_dec Ascii.ascii_dec) k sig then
       match lookup k d with
       | None => None
       | Some old => match lookup k kw with Some new => Some new | None => Some old end
       end
     else None) /\
  map fst (set_params kw d) = map fst d.
Proof.
  intros sig kw d k Hn. rewrite get_params_lookup, set_params_lookup by exact Hn. split; [reflexivity|]. apply set_params_keys.
Qed.

Lemma take_lookup {V} (d : text -> V) kw names k :
  lookup k (take d kw names) = if in_dec (list_eq_dec Ascii.ascii_dec) k names then Some (argument kw (k, d k)) else None.
Proof.
  unfold take. induction names as [|n names IH]; [reflexivity|]. cbn [map lookup]. rewrite IH. clear IH.
  destruct (same k n) eqn:E.
  - apply same_spec in E. subst. destruct (in_dec (list_eq_dec Ascii.ascii_dec) n (n :: names)) as [_|H]; [reflexivity|]. destruct H. now left.
  - apply same_false in E. destruct (in_dec (list_eq_dec Ascii.ascii_dec) k names) as [H|H]; destruct (in_dec (list_eq_dec Ascii.ascii_dec) k (n :: names)) as [H'|H']; try reflexivity.
    + destruct H'. now right.
    + destruct H' as [->|H']; [congruence|contradiction].
Qed.

(** The parameters LightGBM is trained with never follow [set_params]. *)
Lemma training_frozen (V : Type) :
  forall (d : text -> V) kw (updates : list (dict V)),
  let e := fold_left (fun e u => estimator_set u e) updates (lgb_init d kw) in
  trained_with e = trained_with (lgb_init d kw) /\ e_scengen e = e_scengen (lgb_init d kw).
Proof.
  intros d kw updates. induction updates as [|u us IH] using rev_ind; [split; reflexivity|].
  rewrite fold_left_app. cbn. exact IH.
Qed.
Lemma training_stale :
  exists (d : text -> Z) kw u k new,
    let e := estimator_set u (lgb_init d kw) in
    lookup k (get_params lgb_signature (e_attrs e)) = Some new /\ In k (map fst (trained_with e)) /\
    lookup k (trained_with e) <> Some new.
Proof.
  exists (fun _ => 100%Z), [], [(txt "max_depth", 3%Z)]%string, (txt "max_depth"%string), 3%Z. cbv zeta.
  split; [vm_compute; reflexivity|]. split; [vm_compute; tauto|]. vm_compute. discriminate.
Qed.
Lemma levels_stale :
  exists (d : text -> Z) kw u new,
    let e := estimator_set u (linear_init d kw) in
    lookup (txt "q_vect") (get_params linear_signature (e_attrs e)) = Some new /\
    lookup (txt "q_vect") (e_scengen e) <> Some new.
Proof.
  exists (fun _ => 0%Z), [], [(txt "q_vect", 3%Z)]%string, 3%Z. cbv zeta.
  split; [vm_compute; reflexivity|]. vm_compute. discriminate.
Qed.

(** Copies made from the parameters. *)
Lemma clone_attributes (V : Type) :
  forall (d : text -> V) e k, In k linear_signature -> In k (base_attributes ++ [txt "kind"]) ->
  (exists kw, e = linear_init d kw) ->
  lookup k (e_attrs (clone_linear d e)) = lookup k (e_attrs e).
Proof.
  intros d e k Hs Hb (kw & ->). unfold clone_linear, linear_init. cbn [e_attrs]. rewrite !take_lookup.
  destruct (in_dec (list_eq_dec Ascii.ascii_dec) k (base_attributes ++ [txt "kind"])) as [_|H]; [|contradiction]. f_equal.
  unfold argument at 1. cbn [fst snd]. rewrite get_params_lookup.
  destruct (in_dec (list_eq_dec Ascii.ascii_dec) k linear_signature) as [_|H]; [|contradiction].
  rewrite take_lookup. destruct (in_dec (list_eq_dec Ascii.ascii_dec) k (base_attributes ++ [txt "kind"])) as [_|H]; [|contradiction].
  reflexivity.
Qed.
(** What a copy keeps, by name, and what it replaces by the defaults. *)
Lemma clone_keeps (V : Type) :
  forall (d : text -> V) kw k, In k (map txt ["q_vect"; "val_ratio"; "kind"; "max_scengen_rows"; "scengen_random_state"]%string) ->
  lookup k (e_attrs (clone_linear d (linear_init d kw))) = Some (match lookup k kw with Some v => v | None => d k end) /\
  lookup (txt "q_vect") (e_scengen (clone_linear d (linear_init d kw))) = lookup (txt "q_vect") (e_scengen (linear_init d kw)).
Proof.
  intros d kw k Hk. split; [|vm_compute; reflexivity].
  cbn [map In] in Hk. repeat (destruct Hk as [<-|Hk]; [vm_compute; reflexivity|]). destruct Hk.
Qed.
Lemma clone_resets (V : Type) :
  forall (d : text -> V) kw k,
  (In k (map txt ["nodes_at_step"; "additional_node"; "online_tree_reduction"; "copula_type"; "tree_type"]%string) ->
   lookup k (e_scengen (linear_init d kw)) = Some (match lookup k kw with Some v => v | None => d k end) /\
   lookup k (e_scengen (clone_linear d (linear_init d kw))) = Some (d k)) /\
  (In k (map txt ["n_scen_fit"; "additional_node"; "formatter"; "conditional_to_hour"]%string) ->
   lookup k (e_attrs (linear_init d kw)) = Some (match lookup k kw with Some v => v | None => d k end) /\
   lookup k (e_attrs (clone_linear d (linear_init d kw))) = Some (d k)).
Proof.
  intros d kw k. split; intros Hk; cbn [map In] in Hk; repeat (destruct Hk as [<-|Hk]; [split; vm_compute; reflexivity|]); destruct Hk.
Qed.
Lemma clone_loses :
  exists (d : text -> Z) kw,
    lookup (txt "nodes_at_step") (e_scengen (clone_linear d (linear_init d kw))) <>
      lookup (txt "nodes_at_step") (e_scengen (linear_init d kw)) /\
    lookup (txt "n_scen_fit") (e_attrs (clone_linear d (linear_init d kw))) <>
      lookup (txt "n_scen_fit") (e_attrs (linear_init d kw)).
Proof.
  exists (fun _ => 0%Z), [(txt "nodes_at_step", 3%Z); (txt "n_scen_fit", 7%Z)]%string.
  split; vm_compute; discriminate.
Qed.

(** What a decorated call does to the frame of the caller. *)
Lemma encode_frame : forall (x : table) le le' y, encode le x = (le', y, true) ->
  (y = x <-> forall n c, In (n, c) x -> exists l, c = Num l) /\ map fst y = map fst x /\ (forall n l, In (n, Num l) x -> In (n, Num l) y) /\
  forall le2, encode le2 y = (le2, y, true).
Proof.
  induction x as [|[name c] x IH]; intros le le' y E; cbn [encode] in E.
  - injection E as <- <-. repeat split; try easy.
  - destruct (encode_col le name c) as [[le1 c1] ok] eqn:Ec. destruct ok; [|discriminate]. destruct (encode le1 x) as [[le2 x2] ok2] eqn:Ex.
    injection E as <- <- ->. destruct (IH le1 le2 x2 Ex) as [A [B [C D]]].
    assert (N : exists l, c1 = Num l).
    { unfold encode_col in Ec. destruct c as [l|v]; [injection Ec as _ <-; now exists l|]. destruct (lookup name le) as [cl|]; [destruct (forallb (member cl) v); [|discriminate]|]; injection Ec as _ <-; eexists; reflexivity. }
    destruct N as [l ->].
    assert (K : forall l', c = Num l' -> l = l') by (intros l' ->; cbn in Ec; now injection Ec as _ ->).
    split; [|split; [|split]].
    + split.
      * intros E. assert (c = Num l) as -> by congruence. assert (x2 = x) as -> by congruence. intros n c' [I|I]; [injection I as <- <-; now exists l|]. now apply (proj1 A eq_refl n).
      * intros H. destruct (H name c (or_introl eq_refl)) as [l' ->]. rewrite (K l' eq_refl). f_equal. apply A. intros n c' I. apply (H n c'). now right.
    + cbn. now rewrite B.
    + intros n l' [I|I]; [left; injection I as <- ->; now rewrite (K l' eq_refl)|right; now apply C].
    + intros le3. cbn. now rewrite D.
Qed.
(** Without [set_params], training and scenario generation use what the constructor was given and [get_params] reports. *)
Lemma trained_as_reported (V : Type) (d : text -> V) (kw : dict V) k : In k lgb_training ->
  lookup k (trained_with (lgb_init d kw)) = lookup k (get_params lgb_signature (e_attrs (lgb_init d kw))) /\
  lookup k (trained_with (lgb_init d kw)) = Some (match lookup k kw with Some v => v | None => d k end).
Proof.
  intros I. rewrite get_params_lookup. destruct (in_dec (list_eq_dec Ascii.ascii_dec) k lgb_signature) as [_|N]; [|exfalso; apply N; unfold lgb_signature; apply in_or_app; now left].
  unfold trained_with, lgb_init. cbn [e_training e_attrs].
  assert (T : forall l, In k l -> lookup k (take d kw l) = Some (match lookup k kw with Some v => v | None => d k end)).
  { clear. unfold take. induction l as [|q l IH]; [easy|]. intros I. cbn. unfold same. destruct (list_eq_dec Ascii.ascii_dec k q) as [->|N]; [reflexivity|]. destruct I as [->|I]; [congruence|]. now apply IH. }
  rewrite (T _ I), T by (apply in_or_app; right; apply in_or_app; now left). split; reflexivity.
Qed.
Lemma trained_as_named :
  forall (V : Type) (d : text -> V) (kw : dict V) k,
  In k (map txt ["device_type"; "objective"; "max_depth"; "n_estimators"; "num_leaves"; "learning_rate"; "verbose"; "metric";
                 "min_child_samples"; "n_jobs"; "colsample_bytree"; "colsample_bynode"]%string) ->
  lookup k (trained_with (lgb_init d kw)) = lookup k (get_params lgb_signature (e_attrs (lgb_init d kw))) /\
  lookup k (trained_with (lgb_init d kw)) = Some (match lookup k kw with Some v => v | None => d k end).
Proof. exact trained_as_reported. Qed.
Lemma levels_as_reported (V : Type) (d : text -> V) (kw : dict V) :
  lookup (txt "q_vect") (e_scengen (lgb_init d kw)) = lookup (txt "q_vect") (get_params lgb_signature (e_attrs (lgb_init d kw))) /\
  lookup (txt "q_vect") (e_scengen (linear_init d kw)) = lookup (txt "q_vect") (get_params linear_signature (e_attrs (linear_init d kw))).
Proof. split; reflexivity. Qed.
