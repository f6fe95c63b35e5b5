From Coq Require Import String List Arith Bool Lia.
From Verif Require Import Model.Names Model.Encoder Model.Quantiles Model.Trainer Model.SaveLoad Proof.QuantilesProof Proof.SaveLoadProof.
Import ListNotations.

Lemma at_hour_in {D} (h : nat) (t : list (nat * D)) : 
  match at_hour h t with Some d => In (h, d) t | None => forall d, ~ In (h, d) t end.
Proof.
  induction t as [|[h' d] t IH]; cbn [at_hour]; [intros d []|]. destruct (Nat.eqb_spec h h') as [->|Hne]; [now left|].
  destruct (at_hour h t); [now right|]. intros d' [E|Hin]; [congruence|]. apply (IH d' Hin).
Qed.
Lemma quantiles_own_hour {V D O Q} (k : kind) (network : list (option (value V D)) -> O) gauss (add : O -> D -> Q) (o : object V D) (hours : list nat) t :
  lookup (txt "probabilistic") o <> Some (Flag true) -> lookup (txt "err_distr") o = Some (ByHour t) ->
  (forall qs, quantiles k network gauss add hours o = Some qs ->
     length qs = length hours /\
     forall i h, nth_error hours i = Some h -> exists d, In (h, d) t /\ nth_error qs i = Some (add (predict k network o) d)) /\
  (quantiles k network gauss add hours o = None <-> exists h, In h hours /\ forall d, ~ In (h, d) t).
Proof.
  intros Hp He.
  assert (Eq : quantiles k network gauss add hours o = all_some (map (fun h => option_map (add (predict k network o)) (at_hour h t)) hours)).
  { unfold quantiles. rewrite He. destruct (lookup (txt "probabilistic") o) as [[?|[|]|?]|]; try reflexivity. congruence. }
  rewrite Eq. clear Eq Hp He. split.
  - induction hours as [|h hours IH]; cbn [map all_some].
    + intros qs E. injection E as <-. split; [reflexivity|]. intros [|i] h; discriminate.
    + intros qs E. pose proof (at_hour_in h t) as Hh. destruct (at_hour h t) as [d|]; cbn [option_map] in E; [|discriminate].
      destruct (all_some _) as [r|]; [|discriminate]. injection E as <-. destruct (IH r eq_refl) as [L N]. split; [cbn; lia|].
      intros [|i] h'; cbn [nth_error]; [|apply N]. intros E. injection E as <-. eauto.
  - induction hours as [|h hours IH]; cbn [map all_some]; [split; [discriminate|intros (? & [] & _)]|].
    pose proof (at_hour_in h t) as Hh. destruct (at_hour h t) as [d|]; cbn [option_map].
    + destruct (all_some _) as [r|].
      * split; [discriminate|]. intros (h' & [<-|Hin] & Hno); [destruct (Hno d Hh)|]. assert (Some r = None) by (apply IH; eauto). discriminate.
      * split; [|reflexivity]. intros _. destruct (proj1 IH eq_refl) as (h' & Hin & Hno). exists h'. split; [now right|exact Hno].
    + split; [|reflexivity]. intros _. exists h. split; [now left|exact Hh].
Qed.
