From Coq Require Import List ZArith Bool Lia.
From Coq Require Import ZifyBool ZifyNat.
From Verif Require Import Model.Names Model.Series Model.Transformer Spec.TransformerSpec Spec.TransformerInput
  Proof.SeriesProof Proof.TransformerProof.
Import ListNotations.
Local Open Scope Z_scope.
Ltac Zify.zify_post_hook ::= Z.div_mod_to_equations.

Lemma map_flat_map {A B C} (f : B -> C) (g : A -> list B) l :
  map f (flat_map g l) = flat_map (fun x => map f (g x)) l.
Proof. induction l as [|x l IH]; [reflexivity|]. cbn. now rewrite map_app, IH. Qed.

Lemma flat_map_ext_in {A B} (f g : A -> list B) l :
  (forall x, In x l -> f x = g x) -> flat_map f l = flat_map g l.
Proof.
  induction l as [|x l IH]; intros H; [reflexivity|]. cbn.
  rewrite (H x (or_introl eq_refl)). f_equal. apply IH. intros y Hy. apply H. now right.
Qed.

Section T.
Context {V : Type}.
Implicit Types (c : config V) (d : series V) (x : frame V).

(** Canonical description of one generated column. *)
Record key := Key { k_name : text; k_fun : aggfun V; k_lag : option Z; k_src : text; k_lo : Z; k_len : Z }.

Definition canon_col (n : nat) (sig : text -> series V) (k : key) : text * series V :=
  (k_name k, map (fun i => window_feature (fn (k_fun k)) (sig (k_src k)) (Z.of_nat i + k_lo k) (k_len k)) (seq 0 n)).
Definition canon_meta (dt : Z) (k : key) : meta :=
  Meta (k_name k) (fn_name (k_fun k)) (k_lag k) (k_lo k * dt) ((k_lo k + k_len k) * dt) (k_src k).

Lemma transform_names_closed c s s1 idx (x : list (text * series V)) names sig
   (G : text -> list (text * series V)) (H : text -> list meta) :
  (forall nm, In nm names -> get_col x nm = Some (sig nm)) ->
  (forall nm, In nm names -> transform_name c s idx nm (sig nm) = Some (s1, G nm, H nm)) ->
  (forall nm, In nm names -> transform_name c s1 idx nm (sig nm) = Some (s1, G nm, H nm)) ->
  exists s2, transform_names c s idx x names = Some (s2, flat_map G names, flat_map H names) /\
             (names <> [] -> s2 = s1).
Proof.
  revert s. induction names as [|nm names IH]; intros s Hget Hs Hs1.
  - exists s. split; [reflexivity|congruence].
  - cbn [transform_names]. rewrite (Hget nm (or_introl eq_refl)), (Hs nm (or_introl eq_refl)).
    destruct (IH s1) as (s2 & E & Es2).
    + intros m Hm. apply Hget. now right.
    + intros m Hm. apply Hs1. now right.
    + intros m Hm. apply Hs1. now right.
    + rewrite E. exists s2. split; [reflexivity|]. intros _. destruct names as [|m names].
      * cbn in E. congruence.
      * apply Es2. discriminate.
Qed.

Lemma denotes_steps_ns agg dt a : denotes_steps agg dt a -> agg_ns (resolve_agg agg dt) = a * dt.
Proof. destruct agg; cbn; intros; subst; lia. Qed.

Lemma knows_dt_sampling dt0 dt t0 idx :
  regular t0 dt idx -> knows_dt dt0 dt (length idx) -> sampling_time dt0 idx = Some dt.
Proof.
  intros Hreg [->|[-> Hn]]; [reflexivity|]. cbn. eapply median_diffs_regular; eassumption.
Qed.

Definition simple_keys (names : list text) (fs : list (aggfun V)) (lags : option (list Z)) (rel : bool)
    (agg : agg_spec) (a : Z) : list key :=
  flat_map (fun nm => map (fun p =>
      let c := Config names fs lags rel None None in
      Key (simple_name c agg nm p) (snd p) (fst p) nm (- lag_rows c a (fst p) - a + 1) a)
      (list_prod (match lags with None => [None] | Some ls => map Some ls end) fs)) names.

Lemma transform_simple names fs agg_freq lags rel dt0 c s x sig t0 dt a augment :
  init_transformer names fs agg_freq lags rel None dt0 = Some (c, s) ->
  fs <> [] -> regular t0 dt (f_idx x) -> knows_dt dt0 dt (length (f_idx x)) ->
  has_signals x names sig -> denotes_steps agg_freq dt a -> 1 <= a ->
  let Q := simple_keys names fs lags rel (resolve_agg agg_freq dt) a in
  exists s', transform c s augment x =
    Some (s', Frame (f_idx x) ((if augment then f_cols x else []) ++ map (canon_col (length (f_idx x)) sig) Q),
          map (canon_meta dt) Q).
Proof.
  unfold init_transformer. intros [= <- <-] Hfs Hreg Hdt Hsig Hden Ha.
  set (Q := simple_keys names fs lags rel (resolve_agg agg_freq dt) a).
  pose proof (knows_dt_sampling dt0 dt t0 _ Hreg Hdt) as Hst.
  pose proof (denotes_steps_ns _ _ _ Hden) as Hns.
  set (c := Config names fs lags rel None dt0).
  set (agg := resolve_agg agg_freq dt) in *.
  set (G := fun nm => map (fun p => (simple_name c agg nm p, simple_col c a (sig nm) p)) (list_prod (lag_keys c) (c_functions c))).
  set (H := fun nm => map (simple_meta c agg a dt nm) (list_prod (lag_keys c) (c_functions c))).
  unfold transform. fold c.
  destruct (transform_names_closed c (State agg_freq []) (State agg []) (f_idx x) (f_cols x) names sig G H) as (s2 & E & _).
  - intros nm Hnm. apply Hsig. exact Hnm.
  - intros nm Hnm. destruct (Hsig nm Hnm) as [_ Hlen].
    apply (transform_name_simple c (State agg_freq []) (f_idx x) nm (sig nm) t0 dt a); auto.
  - intros nm Hnm. destruct (Hsig nm Hnm) as [_ Hlen].
    pose proof (transform_name_simple c (State agg []) (f_idx x) nm (sig nm) t0 dt a) as L.
    assert (Hid : resolve_agg agg dt = agg) by apply resolve_idem.
    cbn [st_agg st_subs] in L. rewrite Hid in L. apply L; auto.
  - change (c_names c) with names. rewrite E. exists s2. f_equal. f_equal.
    + f_equal. f_equal. f_equal. unfold G, Q, simple_keys. rewrite map_flat_map.
      apply flat_map_ext_in. intros nm Hnm. destruct (Hsig nm Hnm) as [_ Hlen].
      rewrite map_map. apply map_ext. intros [l f]. unfold canon_col. cbn [k_name k_fun k_lag k_src k_lo k_len fst snd].
      f_equal. unfold simple_col. rewrite Hlen. apply map_ext. intros i. cbn [fst snd]. f_equal.
      change (lag_rows (Config names fs lags rel None None) a l) with (lag_rows c a l). lia.
    + unfold H, Q, simple_keys. rewrite map_flat_map.
      apply flat_map_ext_in. intros nm Hnm.
      rewrite map_map. apply map_ext. intros [l f]. unfold canon_meta, simple_meta.
      cbn [k_name k_fun k_lag k_src k_lo k_len fst snd].
      change (lag_rows (Config names fs lags rel None None) a l) with (lag_rows c a l).
      f_equal; ring.
Qed.

Lemma simple_keys_in names fs lags rel agg a q :
  In q (simple_keys names fs lags rel agg a) -> In (k_fun q) fs /\ In (k_src q) names /\ k_len q = a.
Proof.
  unfold simple_keys. intros Hin. apply in_flat_map in Hin. destruct Hin as (nm & Hnm & Hin).
  apply in_map_iff in Hin. destruct Hin as ([l f] & <- & Hin). cbn.
  apply in_prod_iff in Hin. tauto.
Qed.

(** Bins. *)
Definition bins_keys (names : list text) (fs : list (aggfun V)) (lags : option (list Z)) (rel : bool)
    (orig : list Z) : list key :=
  flat_map (fun nm => map (fun p =>
      let c := Config names fs lags rel (Some orig) None in
      let l := bin_lag_rows c orig (fst p) in
      Key (binlag_name orig nm p) (snd (snd p)) (Some l) nm (- l - nth (fst (snd p)) orig 0 + 1)
          (nth (fst (snd p)) orig 0 - nth (S (fst (snd p))) orig 0))
      (bin_keys (Config names fs lags rel (Some orig) None) orig fs)) names.
End T.
