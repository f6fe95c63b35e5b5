From Coq Require Import String Ascii List ZArith Bool Arith Lia.
From Verif Require Import Model.Names Model.Series Model.Transformer Model.Rename Spec.RenameSpec.
Import ListNotations.
Local Open Scope Z_scope.

Lemma rename_fails : forall features targets x sa,
  built_by_transformers features -> built_by_transformers targets ->
  rename_features features targets x sa = None.
Proof.
  intros features targets x sa F T. unfold rename_features, table_col. rewrite F, T.
  replace (existsb (text_eqb referring_time) metadata_columns) with false by reflexivity.
  destruct (existsb (text_eqb lag_column) metadata_columns); reflexivity.
Qed.

Lemma text_eqb_true a b : text_eqb a b = true -> a = b.
Proof. unfold text_eqb. destruct (list_eq_dec ascii_dec a b); [auto|discriminate]. Qed.

Lemma rename_keeps : forall features targets x sa names,
  rename_features features targets x sa = Some names ->
  length names = length x /\
  forall k c, nth_error x k = Some c -> ~ In c (t_index features) -> nth_error names k = Some c.
Proof.
  intros features targets x sa names. unfold rename_features.
  destruct (table_col targets lag_column) as [lags|]; [|discriminate].
  destruct (table_col targets referring_time) as [times|]; [|discriminate].
  destruct (map snd _) as [|p [|? ?]]; try discriminate.
  destruct (table_col features referring_time) as [refs|]; [|discriminate].
  intros [= <-]. split; [apply map_length|]. intros k c K N. rewrite nth_error_map, K. cbn [option_map].
  destruct (find _ _) as [q|] eqn:F; [|reflexivity]. exfalso. apply N.
  apply find_some in F as [I E]. apply text_eqb_true in E. subst c. destruct q as [a b]. apply in_combine_l in I. exact I.
Qed.

Lemma starts_with_spec p : forall s, starts_with p s = true <-> exists v, s = (p ++ v)%list.
Proof.
  induction p as [|a p IH]; intros s; cbn [starts_with].
  - split; [intros _; now exists s | reflexivity].
  - destruct s as [|b s]; [split; [discriminate | intros [v E]; discriminate]|].
    destruct (ascii_dec a b) as [->|N].
    + rewrite IH. split; intros [v E]; exists v; [now rewrite E | now injection E].
    + split; [discriminate | intros [v E]; injection E; congruence].
Qed.
Lemma before_lag_cut c : before_first_lag c (before_lag c).
Proof.
  induction c as [|a c (A & B & C)].
  - split; [exists []; now right|]. split; [cbn; auto with arith|]. intros _ u v E. symmetry in E. apply app_eq_nil in E as [_ E]. discriminate.
  - cbn [before_lag]. destruct (starts_with (list_ascii_of_string "_lag") (a :: c)) eqn:S.
    + apply starts_with_spec in S as [v E]. split; [exists v; now left|]. split; [intros; cbn; auto with arith | intros Q; discriminate].
    + assert (forall v, (a :: c)%list <> (list_ascii_of_string "_lag" ++ v)%list) as N.
      { intros v E. assert (starts_with (list_ascii_of_string "_lag") (a :: c) = true) by (apply starts_with_spec; now exists v). congruence. }
      split; [|split].
      * destruct A as [rest [A | A]]; exists rest; [left | right]; cbn [app]; [now rewrite A at 1 | now rewrite <- A].
      * intros [|b u] v E; [now apply N in E|]. injection E as -> E. cbn [length]. apply le_n_S, (B u v E).
      * intros Q. injection Q as Q. intros [|b u] v E; [now apply N in E|]. injection E as -> E. now apply (C Q u v).
Qed.
Lemma filter_pair_single (lags times : list Z) (l : Z) p :
  map snd (filter (fun q => fst q =? l) (combine lags times)) = [p] ->
  exists i, nth_error lags i = Some l /\ nth_error times i = Some p /\ forall j, (j < length times)%nat -> nth_error lags j = Some l -> j = i.
Proof.
  revert times. induction lags as [|a lags IH]; intros [|b times] H; try discriminate. cbn [combine filter fst] in H.
  destruct (Z.eqb_spec a l) as [->|N].
  - cbn [map snd] in H. injection H as -> H. exists 0%nat. split; [reflexivity|]. split; [reflexivity|]. intros [|j] J E; [reflexivity|]. exfalso.
    cbn [nth_error length] in E, J. assert (j < length times)%nat as J' by lia. clear J. rename J' into J. apply map_eq_nil in H. assert (In (l, nth j times 0) (filter (fun q => fst q =? l) (combine lags times))) as K.
    { apply filter_In. split; [|apply Z.eqb_refl]. clear H IH. revert times J. revert j E. induction lags as [|x lags IH]; intros [|j] E [|y times] J; cbn [nth_error combine nth length] in *; try discriminate; try lia.
      - injection E as ->. now left.
      - right. apply IH; [exact E | lia]. }
    now rewrite H in K.
  - destruct (IH times H) as (i & A & B & C). exists (S i). split; [exact A|]. split; [exact B|].
    intros [|j] J E; cbn [nth_error length] in *; [congruence|]. f_equal. apply C; [lia | exact E].
Qed.
Lemma text_eqb_refl a : text_eqb a a = true.
Proof. unfold text_eqb. destruct (list_eq_dec ascii_dec a a); [reflexivity | congruence]. Qed.
Lemma find_new (index : list text) : forall (refs : list Z) (F : text -> Z -> text) i c r, NoDup index -> nth_error index i = Some c -> nth_error refs i = Some r ->
  find (fun p => text_eqb (fst p) c) (combine index (map (fun p => F (fst p) (snd p)) (combine index refs))) = Some (c, F c r).
Proof.
  induction index as [|a index IH]; intros [|b refs] F [|i] c r D I Q; try discriminate; cbn [nth_error combine map fst snd find] in *.
  - injection I as ->. injection Q as ->. now rewrite text_eqb_refl.
  - inversion D; subst. destruct (text_eqb a c) eqn:E; [|now apply (IH refs F i)]. apply text_eqb_true in E. subst. exfalso. apply H1. now apply nth_error_In in I.
Qed.
(** A renamed feature: the part of its name before the lag, and the time from the prediction to what it refers to. *)
Lemma rename_new : forall features targets x sa names,
  NoDup (t_index features) -> rename_features features targets x sa = Some names ->
  exists prediction, refers_to targets sa prediction /\
  forall k i c time, nth_error x k = Some c -> nth_error (t_index features) i = Some c -> nth_error (t_cell features referring_time) i = Some time ->
  exists stem, before_first_lag c stem /\ nth_error names k = Some (stem ++ hr_timedelta true ((time - prediction) / 1000000000))%list.
Proof.
  intros features targets x sa names D. unfold rename_features, table_col.
  destruct (existsb (text_eqb lag_column) (t_columns targets)); [|discriminate].
  destruct (existsb (text_eqb referring_time) (t_columns targets)); [|discriminate].
  destruct (map snd _) as [|p [|? ?]] eqn:M; try discriminate.
  destruct (existsb (text_eqb referring_time) (t_columns features)); [|discriminate].
  intros [= <-]. exists p. split; [exact (filter_pair_single _ _ _ _ M)|]. intros k i c time K I T. exists (before_lag c). split; [apply before_lag_cut|].
  rewrite nth_error_map, K. cbn [option_map].
  pose proof (find_new (t_index features) (t_cell features referring_time) (fun a b => (before_lag a ++ hr_timedelta true ((b - p) / 1000000000))%list) i c time D I T) as Q. cbv beta in Q. change (t_index features) with (t_index features) in Q. match goal with |- context [find ?a ?b] => replace (find a b) with (Some (c, (before_lag c ++ hr_timedelta true ((time - p) / 1000000000))%list)) by (symmetry; exact Q) end. reflexivity.
Qed.
