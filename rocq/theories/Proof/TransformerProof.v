From Coq Require Import List ZArith Bool Lia.
From Coq Require Import ZifyBool ZifyNat.
From Verif Require Import Model.Names Model.Series Model.Transformer Spec.TransformerSpec Spec.TransformerInput Proof.SeriesProof.
Import ListNotations.
Local Open Scope Z_scope.
Ltac Zify.zify_post_hook ::= Z.div_mod_to_equations.

Lemma flat_map_list_prod {A B C} (g : A -> B -> C) (la : list A) (lb : list B) :
  flat_map (fun a => map (g a) lb) la = map (fun p => g (fst p) (snd p)) (list_prod la lb).
Proof.
  induction la as [|a la IH]; [reflexivity|]. cbn. rewrite map_app, map_map, IH. reflexivity.
Qed.

Lemma list_prod_map_l {A A' B} (g : A -> A') (la : list A) (lb : list B) :
  list_prod (map g la) lb = map (fun p => (g (fst p), snd p)) (list_prod la lb).
Proof.
  induction la as [|a la IH]; [reflexivity|]. cbn. rewrite map_app, map_map, IH. reflexivity.
Qed.

Lemma list_prod_map_r {A B B'} (g : B -> B') (la : list A) (lb : list B) :
  list_prod la (map g lb) = map (fun p => (fst p, g (snd p))) (list_prod la lb).
Proof.
  induction la as [|a la IH]; [reflexivity|]. cbn. rewrite map_app, !map_map, IH. reflexivity.
Qed.

Lemma combine_map_map {A B C} (f : A -> B) (g : A -> C) l :
  combine (map f l) (map g l) = map (fun x => (f x, g x)) l.
Proof. induction l as [|x l IH]; [reflexivity|]. cbn. now rewrite IH. Qed.

Lemma nth_error_map_inv {A B} (f : A -> B) l k y :
  nth_error (map f l) k = Some y -> exists x, nth_error l k = Some x /\ y = f x.
Proof.
  rewrite nth_error_map. destruct (nth_error l k) as [x|]; [|discriminate].
  cbn. intros [= <-]. eauto.
Qed.

Section T.
Context {V : Type}.
Implicit Types (c : config V) (d : series V).

Definition lag_keys c : list (option Z) :=
  match c_lags c with None => [None] | Some ls => map Some ls end.
Definition lag_num (o : option Z) : Z := match o with None => 0 | Some l => l end.
Definition lag_rows c (a : Z) (o : option Z) : Z :=
  if c_rel c then lag_num o * a else lag_num o.

Lemma resolve_idem a dt dt' : resolve_agg (resolve_agg a dt) dt' = resolve_agg a dt.
Proof. destruct a; reflexivity. Qed.

Definition simple_name c agg name (p : option Z * aggfun V) : text :=
  let base := name ++ us ++ agg_text agg ++ us ++ fn_name (snd p) in
  match fst p with None => base | Some l => lag_name base l end.

Definition simple_col c (a : Z) d (p : option Z * aggfun V) : series V :=
  map (fun i => window_feature (fn (snd p)) d (Z.of_nat i - lag_rows c a (fst p) - a + 1) a)
      (seq 0 (length d)).

Definition simple_meta c agg (a dt : Z) name (p : option Z * aggfun V) : meta :=
  Meta (simple_name c agg name p) (fn_name (snd p)) (fst p)
       ((- lag_rows c a (fst p) - a + 1) * dt) ((- lag_rows c a (fst p) + 1) * dt) name.

Lemma transform_name_simple c s idx name d t0 dt a :
  c_bins c = None -> c_functions c <> [] ->
  sampling_time (c_dt c) idx = Some dt -> regular t0 dt idx -> length d = length idx ->
  agg_ns (resolve_agg (st_agg s) dt) = a * dt -> 1 <= a ->
  let agg := resolve_agg (st_agg s) dt in
  let keys := list_prod (lag_keys c) (c_functions c) in
  transform_name c s idx name d =
  Some (State agg (st_subs s),
        map (fun p => (simple_name c agg name p, simple_col c a d p)) keys,
        map (simple_meta c agg a dt name) keys).
Proof.
  intros Hb Hf Hdt Hreg Hlen Hagg Ha agg keys. unfold transform_name.
  rewrite Hdt, Hb. fold agg. fold agg in Hagg.
  assert (Hdtpos : 0 < dt) by apply Hreg.
  assert (Hst : agg_ns agg ÷ dt = a) by (rewrite Hagg; apply Z.quot_mul; lia).
  rewrite Hst.
  assert (Hbase : base_columns idx agg a (c_functions c) name d =
     map (fun f => (name ++ us ++ agg_text agg ++ us ++ fn_name f,
                    rolling idx (a * dt) a (fn f) d)) (c_functions c)).
  { unfold base_columns. rewrite Hagg. destruct (c_functions c); [congruence|reflexivity]. }
  rewrite Hbase. clear Hbase.
  assert (Hcols :
    lagged (c_lags c) (fun l => if c_rel c then l * a else l)
      (map (fun f => (name ++ us ++ agg_text agg ++ us ++ fn_name f, rolling idx (a * dt) a (fn f) d)) (c_functions c))
    = map (fun p => (simple_name c agg name p, simple_col c a d p)) keys).
  { unfold lagged, keys, lag_keys. destruct (c_lags c) as [ls|].
    - rewrite list_prod_map_l, map_map.
      rewrite <- (flat_map_list_prod (fun l f => (simple_name c agg name (Some l, f), simple_col c a d (Some l, f)))).
      apply flat_map_ext. intros l. rewrite map_map. apply map_ext. intros f. cbn [fst snd].
      f_equal. unfold simple_col. cbn [fst snd].
      rewrite (shift_rolling_regular idx t0 dt a (fn f) d _ Hreg Hlen Ha).
      unfold lag_rows, lag_num. destruct (c_rel c); reflexivity.
    - cbn [list_prod]. rewrite app_nil_r, map_map. apply map_ext. intros f. cbn [fst snd].
      f_equal. unfold simple_col. cbn [fst snd].
      rewrite (rolling_regular idx t0 dt a (fn f) d Hreg Hlen Ha).
      apply map_ext. intros i. f_equal. unfold lag_rows, lag_num. destruct (c_rel c); lia. }
  rewrite Hcols. f_equal. f_equal.
  assert (Hfn : function_names (c_functions c) = map fn_name (c_functions c))
    by (unfold function_names; destruct (c_functions c); [congruence|reflexivity]).
  rewrite Hfn. rewrite list_prod_map_r. fold (lag_keys c). fold keys.
  rewrite map_map, combine_map_map, map_map. apply map_ext. intros [l f]. cbn [fst snd].
  unfold simple_meta. cbn [fst snd]. unfold lag_rows. fold (lag_num l).
  f_equal; destruct (c_rel c); ring.
Qed.

(** Nested bins with at most one lag. *)
Definition bin_name (orig : list Z) name (p : nat * aggfun V) : text :=
  name ++ us ++ fn_name (snd p) ++ us ++ bin_text (nth (fst p) orig 0) ++ us ++ bin_text (nth (S (fst p)) orig 0).

Definition bin_col (orig : list Z) (l : Z) d (p : nat * aggfun V) : series V :=
  map (fun i => window_feature (fn (snd p)) d
                  (Z.of_nat i - l - nth (fst p) orig 0 + 1)
                  (nth (fst p) orig 0 - nth (S (fst p)) orig 0))
      (seq 0 (length d)).

Lemma bin_columns_closed idx t0 dt subs orig fs name d :
  regular t0 dt idx -> length d = length idx -> fs <> [] ->
  (forall i, (S i < length orig)%nat ->
     1 <= nth i orig 0 - nth (S i) orig 0 /\
     agg_ns (resolve_agg (nth i subs AggNone) dt) = (nth i orig 0 - nth (S i) orig 0) * dt) ->
  bin_columns idx dt subs orig fs name d =
  map (fun p => (bin_name orig name p, bin_col orig 0 d p)) (list_prod (seq 0 (length orig - 1)) fs).
Proof.
  intros Hreg Hlen Hfs Hord. unfold bin_columns, bin_names.
  assert (Hfn : function_names fs = map fn_name fs)
    by (unfold function_names; destruct fs; [congruence|reflexivity]).
  rewrite Hfn.
  assert (H1 : flat_map (fun i => map (fun p => name ++ us ++ p ++ us ++ bin_text (nth i orig 0) ++ us ++ bin_text (nth (S i) orig 0)) (map fn_name fs)) (seq 0 (length orig - 1))
     = map (bin_name orig name) (list_prod (seq 0 (length orig - 1)) fs)).
  { transitivity (flat_map (fun i => map (fun f => bin_name orig name (i, f)) fs) (seq 0 (length orig - 1))).
    - apply flat_map_ext. intros i. rewrite map_map. reflexivity.
    - rewrite (flat_map_list_prod (fun i f => bin_name orig name (i, f))).
      apply map_ext. intros [i f]. reflexivity. }
  rewrite H1.
  assert (Hin : forall i, In i (seq 0 (length orig - 1)) -> (S i < length orig)%nat)
    by (intros i Hi; apply in_seq in Hi; lia).
  assert (H2 : flat_map (fun i => map snd (sub_columns idx dt (resolve_agg (nth i subs AggNone) dt) fs (nth (S i) orig 0) name d)) (seq 0 (length orig - 1))
     = map (bin_col orig 0 d) (list_prod (seq 0 (length orig - 1)) fs)).
  { transitivity (flat_map (fun i => map (fun f => bin_col orig 0 d (i, f)) fs) (seq 0 (length orig - 1))).
    - rewrite !flat_map_concat_map. f_equal. apply map_ext_in. intros i Hi.
      destruct (Hord i (Hin i Hi)) as [Hge Hag].
      unfold sub_columns. rewrite Hag.
      assert (Hdt : 0 < dt) by apply Hreg.
      rewrite Z.quot_mul by lia. unfold lagged. cbn [flat_map]. rewrite app_nil_r.
      unfold base_columns. rewrite Hag. destruct fs as [|f0 fs']; [congruence|].
      rewrite !map_map. apply map_ext. intros f. cbn [fst snd].
      rewrite (shift_rolling_regular idx t0 dt _ (fn f) d _ Hreg Hlen Hge).
      unfold bin_col. cbn [fst snd]. apply map_ext. intros k. f_equal; lia.
    - rewrite (flat_map_list_prod (fun i f => bin_col orig 0 d (i, f))).
      apply map_ext. intros [i f]. reflexivity. }
  rewrite H2. rewrite combine_map_map. reflexivity.
Qed.

Definition binlag_name (orig : list Z) name (p : option Z * (nat * aggfun V)) : text :=
  match fst p with None => bin_name orig name (snd p) | Some l => lag_name (bin_name orig name (snd p)) l end.

Lemma shift_bin_col orig l d p :
  0 <= l -> 0 <= nth (S (fst p)) orig 0 -> 1 <= nth (fst p) orig 0 - nth (S (fst p)) orig 0 ->
  shift l (bin_col orig 0 d p) = bin_col orig l d p.
Proof.
  intros Hl Hc Hlen. unfold bin_col.
  set (len := nth (fst p) orig 0 - nth (S (fst p)) orig 0) in *.
  set (cc := nth (S (fst p)) orig 0) in *.
  transitivity (shift l (map (fun i => window_feature (fn (snd p)) d (Z.of_nat i - cc - len + 1) len) (seq 0 (length d)))).
  - f_equal. apply map_ext. intros i. f_equal. unfold len, cc. lia.
  - rewrite shift_windows by lia. apply map_seq_ext. intros i Hi.
    destruct ((0 <=? Z.of_nat i - l) && (Z.of_nat i - l <? Z.of_nat (length d))) eqn:E.
    + f_equal. unfold len, cc. lia.
    + symmetry. apply window_feature_none with (k := 0%nat); [lia|]. apply sample_out. unfold len, cc in *. lia.
Qed.

Definition bin_lag_rows c (orig : list Z) (o : option Z) : Z :=
  let steps := nth 0 orig 0 - nth (length orig - 1) orig 0 in
  if c_rel c then lag_num o * steps else lag_num o.

Lemma lagged_bins c idx t0 dt subs orig fs name d :
  regular t0 dt idx -> length d = length idx -> fs <> [] ->
  (forall i, (S i < length orig)%nat ->
     0 <= nth (S i) orig 0 /\
     1 <= nth i orig 0 - nth (S i) orig 0 /\
     agg_ns (resolve_agg (nth i subs AggNone) dt) = (nth i orig 0 - nth (S i) orig 0) * dt) ->
  (forall l, In l (lag_keys c) -> 0 <= bin_lag_rows c orig l) ->
  lagged (c_lags c) (fun l => if c_rel c then l * (nth 0 orig 0 - nth (length orig - 1) orig 0) else l)
    (bin_columns idx dt subs orig fs name d)
  = map (fun p => (binlag_name orig name p, bin_col orig (bin_lag_rows c orig (fst p)) d (snd p)))
        (list_prod (lag_keys c) (list_prod (seq 0 (length orig - 1)) fs)).
Proof.
  intros Hreg Hlen Hfs Hord Hlags.
  rewrite (bin_columns_closed idx t0 dt subs orig fs name d Hreg Hlen Hfs)
    by (intros i Hi; destruct (Hord i Hi) as (_ & H1 & H2); split; assumption).
  unfold lagged. unfold lag_keys in *. destruct (c_lags c) as [ls|].
  - rewrite list_prod_map_l, map_map.
    rewrite <- (flat_map_list_prod (fun l p => (binlag_name orig name (Some l, p), bin_col orig (bin_lag_rows c orig (Some l)) d p))).
    rewrite !flat_map_concat_map. f_equal. apply map_ext_in. intros l Hl.
    rewrite map_map. apply map_ext_in. intros [i f] Hin. cbn [fst snd].
    apply in_prod_iff in Hin. destruct Hin as [Hi Hf]. apply in_seq in Hi.
    destruct (Hord i ltac:(lia)) as (H0 & H1 & _).
    f_equal. apply (shift_bin_col orig _ d (i, f)); cbn [fst snd]; try assumption.
    apply (Hlags (Some l)). apply in_map. exact Hl.
  - cbn [list_prod]. rewrite app_nil_r, map_map. apply map_ext. intros [i f]. cbn [fst snd].
    f_equal. f_equal. unfold bin_lag_rows. cbn. destruct (c_rel c); reflexivity.
Qed.

Lemma list_prod_single_l {A B} (a : A) (lb : list B) : list_prod [a] lb = map (fun b => (a, b)) lb.
Proof. cbn. apply app_nil_r. Qed.
Lemma list_prod_single_r {A B} (la : list A) (b : B) : list_prod la [b] = map (fun a => (a, b)) la.
Proof. induction la as [|a la IH]; [reflexivity|]. cbn. now rewrite IH. Qed.

Lemma flat_map_single {A B} (g : A -> B) l : flat_map (fun x => [g x]) l = map g l.
Proof. induction l as [|x l IH]; [reflexivity|]. cbn. now rewrite IH. Qed.

Lemma repeat_map_seq {A} (x : A) n : repeat x n = map (fun _ => x) (seq 0 n).
Proof.
  induction n as [|n IH]; [reflexivity|]. cbn [repeat seq map]. f_equal.
  rewrite <- seq_shift, map_map. exact IH.
Qed.

(** The metadata rows that [transform_name] attaches, when at most one of the
    numbers of lags, functions and bins exceeds one. *)
Definition bin_meta c (orig : list Z) dt name (p : option Z * (nat * aggfun V)) : meta :=
  let l := bin_lag_rows c orig (fst p) in
  Meta (binlag_name orig name p) (fn_name (snd (snd p))) (Some l)
       ((- l - nth (fst (snd p)) orig 0 + 1) * dt) ((- l - nth (S (fst (snd p))) orig 0 + 1) * dt) name.

Definition bin_keys c (orig : list Z) (fs : list (aggfun V)) :=
  list_prod (lag_keys c) (list_prod (seq 0 (length orig - 1)) fs).

Lemma length_one {A} (l : list A) : length l = 1%nat -> exists x, l = [x].
Proof. destruct l as [|x [|y l]]; cbn; intros H; try lia. eauto. Qed.

Definition raw_metas c (orig : list Z) dt name : list meta :=
  let nb := (length orig - 1)%nat in
  let lag_steps := map (bin_lag_rows c orig) (lag_keys c) in
  let fnames := map fn_name (c_functions c) in
  let fun_lag := list_prod fnames (flat_map (fun l => repeat l nb) lag_steps) in
  let starts := flat_map (fun i => flat_map (fun _ : text => map (fun l => - (dt * (nth i orig 0 + l)) + dt) lag_steps) fnames) (seq 0 nb) in
  let ends := flat_map (fun i => flat_map (fun _ : text => map (fun l => - (dt * (nth (S i) orig 0 + l)) + dt) lag_steps) fnames) (seq 0 nb) in
  map (fun p => let '(nm, ((f, l), (st, en))) := p in Meta nm f (Some l) st en name)
      (combine (map (binlag_name orig name) (bin_keys c orig (c_functions c)))
               (combine fun_lag (combine starts ends))).

Lemma flat_repeat_length (l : list Z) n : length (flat_map (fun z => repeat z n) l) = (length l * n)%nat.
Proof. induction l as [|z l IH]; [reflexivity|]. cbn. rewrite app_length, repeat_length, IH. lia. Qed.

Lemma prod3_length (g : nat -> Z -> Z) (lag_steps : list Z) (fnames : list text) : forall (n st : nat),
     length (flat_map (fun i => flat_map (fun _ : text => map (g i) lag_steps) fnames) (seq st n))
     = (n * (length fnames * length lag_steps))%nat.
Proof.
  intros n. induction n as [|n IH]; intros st; [reflexivity|].
  cbn [seq flat_map]. rewrite app_length, IH.
  assert (Hin : forall (l : list text), length (flat_map (fun _ => map (g st) lag_steps) l) = (length l * length lag_steps)%nat).
  { induction l as [|t l IHl]; [reflexivity|]. cbn. rewrite app_length, map_length, IHl. reflexivity. }
  rewrite Hin. lia.
Qed.

Lemma transform_name_bins c s idx name d t0 dt orig :
  c_bins c = Some orig -> c_functions c <> [] ->
  sampling_time (c_dt c) idx = Some dt -> median (diffs idx) = Some dt ->
  regular t0 dt idx -> length d = length idx ->
  (forall i, (S i < length orig)%nat ->
     0 <= nth (S i) orig 0 /\
     1 <= nth i orig 0 - nth (S i) orig 0 /\
     agg_ns (resolve_agg (nth i (st_subs s) AggNone) dt) = (nth i orig 0 - nth (S i) orig 0) * dt) ->
  (forall l, In l (lag_keys c) -> 0 <= bin_lag_rows c orig l) ->
  transform_name c s idx name d =
  Some (State (resolve_agg (st_agg s) dt) (map (fun a => resolve_agg a dt) (st_subs s)),
        map (fun p => (binlag_name orig name p, bin_col orig (bin_lag_rows c orig (fst p)) d (snd p)))
            (bin_keys c orig (c_functions c)),
        raw_metas c orig dt name).
Proof.
  intros Hb Hf Hdt Hmed Hreg Hlen Hord Hlags. unfold transform_name.
  rewrite Hdt, Hb, Hmed.
  assert (Hbase : match c_functions c with [] => [(name, d)] | fs => bin_columns idx dt (st_subs s) orig fs name d end
                  = bin_columns idx dt (st_subs s) orig (c_functions c) name d)
    by (destruct (c_functions c); [congruence|reflexivity]).
  rewrite Hbase. clear Hbase.
  rewrite (lagged_bins c idx t0 dt (st_subs s) orig (c_functions c) name d Hreg Hlen Hf Hord Hlags).
  fold (bin_keys c orig (c_functions c)).
  assert (Hfn : function_names (c_functions c) = map fn_name (c_functions c))
    by (unfold function_names; destruct (c_functions c); [congruence|reflexivity]).
  rewrite Hfn.
  assert (Hls : match c_lags c with None => [0] | Some ls => map (fun l => if c_rel c then l * (nth 0 orig 0 - nth (length orig - 1) orig 0) else l) ls end
                = map (bin_lag_rows c orig) (lag_keys c)).
  { unfold lag_keys, bin_lag_rows. destruct (c_lags c) as [ls|].
    - rewrite map_map. reflexivity.
    - cbn. destruct (c_rel c); reflexivity. }
  rewrite Hls. clear Hls.
  set (nb := (length orig - 1)%nat).
  assert (Hsubs : match c_functions c with [] => st_subs s | _ => map (fun a => resolve_agg a dt) (st_subs s) end
                  = map (fun a => resolve_agg a dt) (st_subs s))
    by (destruct (c_functions c); [congruence|reflexivity]).
  rewrite Hsubs. clear Hsubs.
  assert (Hlen2 : length (list_prod (map fn_name (c_functions c)) (flat_map (fun l => repeat l nb) (map (bin_lag_rows c orig) (lag_keys c))))
          = length (bin_keys c orig (c_functions c))).
  { unfold bin_keys. rewrite !prod_length, flat_repeat_length, seq_length. fold nb.
    rewrite !map_length. lia. }
  rewrite map_length, Hlen2, Nat.eqb_refl.
  unfold raw_metas. fold nb. rewrite map_map. cbn [fst]. reflexivity.
Qed.

Lemma raw_metas_shape c orig dt name :
  let K := bin_keys c orig (c_functions c) in
  length (raw_metas c orig dt name) = length K /\
  map m_index (raw_metas c orig dt name) = map (binlag_name orig name) K /\
  map m_name (raw_metas c orig dt name) = map (fun _ => name) K.
Proof.
  cbv zeta. unfold raw_metas.
  set (nb := (length orig - 1)%nat).
  set (lag_steps := map (bin_lag_rows c orig) (lag_keys c)).
  set (fnames := map fn_name (c_functions c)).
  set (K := bin_keys c orig (c_functions c)).
  set (starts := flat_map (fun i => flat_map (fun _ : text => map (fun l => - (dt * (nth i orig 0 + l)) + dt) lag_steps) fnames) (seq 0 nb)).
  set (ends := flat_map (fun i => flat_map (fun _ : text => map (fun l => - (dt * (nth (S i) orig 0 + l)) + dt) lag_steps) fnames) (seq 0 nb)).
  set (fl := list_prod fnames (flat_map (fun l => repeat l nb) lag_steps)).
  assert (Hfl : length fl = length K).
  { unfold fl, K, bin_keys. rewrite !prod_length, flat_repeat_length, seq_length. fold nb.
    unfold fnames, lag_steps. rewrite !map_length. lia. }
  assert (Hst : length starts = length K).
  { unfold starts. rewrite (prod3_length (fun i l => - (dt * (nth i orig 0 + l)) + dt)).
    unfold K, bin_keys. rewrite !prod_length, seq_length. fold nb.
    unfold fnames, lag_steps. rewrite !map_length. lia. }
  assert (Hen : length ends = length K).
  { unfold ends. rewrite (prod3_length (fun i l => - (dt * (nth (S i) orig 0 + l)) + dt)).
    unfold K, bin_keys. rewrite !prod_length, seq_length. fold nb.
    unfold fnames, lag_steps. rewrite !map_length. lia. }
  assert (Hclen : length (combine fl (combine starts ends)) = length K).
  { rewrite combine_length, combine_length, Hst, Hen, Hfl. lia. }
  assert (Hcf : forall (A B : Type) (la : list A) (lb : list B), length la = length lb -> map fst (combine la lb) = la).
  { clear. induction la as [|a la IH]; intros [|b lb] H; cbn in *; try lia; [reflexivity|]. f_equal. apply IH. lia. }
  split; [|split].
  - rewrite map_length, combine_length, map_length, Hclen. lia.
  - rewrite map_map.
    transitivity (map fst (combine (map (binlag_name orig name) K) (combine fl (combine starts ends)))).
    + apply map_ext. intros [nm [[f l] [st en]]]. reflexivity.
    + apply Hcf. rewrite map_length, Hclen. reflexivity.
  - rewrite map_map.
    transitivity (map (fun _ : text => name) (map fst (combine (map (binlag_name orig name) K) (combine fl (combine starts ends))))).
    + rewrite map_map. apply map_ext. intros [nm [[f l] [st en]]]. reflexivity.
    + rewrite Hcf by (rewrite map_length, Hclen; reflexivity). now rewrite map_map.
Qed.

Lemma raw_metas_two_singletons c orig dt name :
  two_singletons (length (lag_keys c)) (length (c_functions c)) (length orig - 1) ->
  raw_metas c orig dt name = map (bin_meta c orig dt name) (bin_keys c orig (c_functions c)).
Proof.
  unfold raw_metas.
  set (nb := (length orig - 1)%nat).
  intros [[Hl1 Hf1]|[[Hl1 Hb1]|[Hf1 Hb1]]].
  + apply length_one in Hl1, Hf1. destruct Hl1 as [l El], Hf1 as [f Ef].
    unfold bin_keys. rewrite El, Ef. cbn [map].
    rewrite list_prod_single_l. rewrite !map_map. cbn [flat_map]. rewrite app_nil_r.
    rewrite !list_prod_single_l, list_prod_single_r, repeat_map_seq. fold nb.
    rewrite !map_map. cbn [app].
    rewrite !flat_map_single.
    rewrite combine_map_map, combine_map_map, combine_map_map, map_map.
    apply map_ext. intros i. unfold bin_meta. cbn [fst snd]. f_equal; ring.
  + apply length_one in Hl1. destruct Hl1 as [l El].
    unfold bin_keys. rewrite El. fold nb. rewrite Hb1.
    cbn [map seq flat_map repeat app]. rewrite !list_prod_single_l, list_prod_single_r.
    rewrite !app_nil_r, !map_map. rewrite !flat_map_single, !map_map.
    rewrite combine_map_map, combine_map_map, combine_map_map, map_map.
    apply map_ext. intros f. unfold bin_meta. cbn [fst snd]. f_equal; ring.
  + apply length_one in Hf1. destruct Hf1 as [f Ef].
    unfold bin_keys. rewrite Ef. fold nb. rewrite Hb1.
    cbn [map seq flat_map repeat app list_prod].
    rewrite list_prod_single_r. rewrite !app_nil_r, !map_map. rewrite flat_map_single, map_id || idtac.
    rewrite !map_map.
    rewrite ?combine_map_map, ?map_map.
    apply map_ext. intros l. unfold bin_meta. cbn [fst snd]. f_equal; ring.
Qed.

Lemma flat_map_map_in {A B C} (f : B -> list C) (g : A -> B) l : flat_map f (map g l) = flat_map (fun x => f (g x)) l.
Proof. induction l as [|x l IH]; [reflexivity|]. cbn. now rewrite IH. Qed.

(** With one lag the windows are right whatever the number of functions. *)
Lemma raw_metas_one_lag c orig dt name l :
  lag_keys c = [l] ->
  map (fun m => (m_start m, m_end m)) (raw_metas c orig dt name) =
  map (fun p => (m_start (bin_meta c orig dt name p), m_end (bin_meta c orig dt name p)))
      (bin_keys c orig (c_functions c)).
Proof.
  intros El.
  assert (Hcs : forall (A B : Type) (la : list A) (lb : list B), length la = length lb -> map snd (combine la lb) = lb).
  { clear. induction la as [|a la IH]; intros [|b lb] H; cbn in *; try lia; [reflexivity|]. f_equal. apply IH. lia. }
  unfold raw_metas.
  set (nb := (length orig - 1)%nat).
  set (lag_steps := map (bin_lag_rows c orig) (lag_keys c)).
  set (fnames := map fn_name (c_functions c)).
  set (K := bin_keys c orig (c_functions c)).
  set (starts := flat_map (fun i => flat_map (fun _ : text => map (fun l => - (dt * (nth i orig 0 + l)) + dt) lag_steps) fnames) (seq 0 nb)).
  set (ends := flat_map (fun i => flat_map (fun _ : text => map (fun l => - (dt * (nth (S i) orig 0 + l)) + dt) lag_steps) fnames) (seq 0 nb)).
  set (fl := list_prod fnames (flat_map (fun l => repeat l nb) lag_steps)).
  assert (Hfl : length fl = length K).
  { unfold fl, K, bin_keys. rewrite !prod_length, flat_repeat_length, seq_length. fold nb.
    unfold fnames, lag_steps. rewrite !map_length. lia. }
  assert (Hst : length starts = length K).
  { unfold starts. rewrite (prod3_length (fun i l => - (dt * (nth i orig 0 + l)) + dt)).
    unfold K, bin_keys. rewrite !prod_length, seq_length. fold nb.
    unfold fnames, lag_steps. rewrite !map_length. lia. }
  assert (Hen : length ends = length K).
  { unfold ends. rewrite (prod3_length (fun i l => - (dt * (nth (S i) orig 0 + l)) + dt)).
    unfold K, bin_keys. rewrite !prod_length, seq_length. fold nb.
    unfold fnames, lag_steps. rewrite !map_length. lia. }
  assert (Hse : length (combine starts ends) = length K) by (rewrite combine_length; lia).
  rewrite map_map.
  transitivity (map snd (map snd (combine (map (binlag_name orig name) K) (combine fl (combine starts ends))))).
  { rewrite map_map. apply map_ext. intros [nm [[f z] [st en]]]. reflexivity. }
  rewrite Hcs by (rewrite map_length, combine_length, Hse, Hfl; lia).
  rewrite Hcs by congruence.
  unfold starts, ends, K, bin_keys, lag_steps, fnames. rewrite El. fold nb.
  cbn [map]. rewrite list_prod_single_l, map_map.
  assert (Hx : forall g : nat -> Z,
     flat_map (fun i => flat_map (fun _ : text => [g i]) (map fn_name (c_functions c))) (seq 0 nb)
     = map (fun p => g (fst p)) (list_prod (seq 0 nb) (c_functions c))).
  { intros g. rewrite <- (flat_map_list_prod (fun i (_ : aggfun V) => g i)).
    apply flat_map_ext. intros i. rewrite flat_map_single, map_map. reflexivity. }
  rewrite !Hx, combine_map_map. apply map_ext. intros [i f]. cbn [fst snd].
  unfold bin_meta. cbn [fst snd m_start m_end]. f_equal; ring.
Qed.
End T.
