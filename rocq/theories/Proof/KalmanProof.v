From mathcomp Require Import all_ssreflect all_algebra.
From Verif Require Import Model.Kalman Spec.KalmanSpec.
Set Implicit Arguments.
Unset Strict Implicit.
Unset Printing Implicit Defensive.
Import Order.Theory GRing.Theory Num.Theory.
Local Open Scope ring_scope.

Section Cov.
Context {F : realFieldType}.
Lemma cov_add m (A B : 'M[F]_m) : covariance A -> covariance B -> covariance (A + B).
Proof.
move=> [a1 a2] [b1 b2]; split; first by rewrite linearD /= a1 b1.
by move=> v; rewrite mulmxDr mulmxDl mxE addr_ge0.
Qed.
Lemma cov_conj m n (A : 'M[F]_m) (L : 'M[F]_(n, m)) : covariance A -> covariance (L *m A *m L^T).
Proof.
move=> [a1 a2]; split; first by rewrite !trmx_mul trmxK a1 mulmxA.
by move=> v; have := a2 (L^T *m v); rewrite trmx_mul trmxK !mulmxA.
Qed.
Lemma cov_no_larger m (A B : 'M[F]_m) : covariance (B - A) -> no_larger A B.
Proof. by move=> [_ h] v; have := h v; rewrite mulmxBr mulmxBl mxE [X in _ + X]mxE subr_ge0. Qed.

Lemma pinv_unique m (S G G' : 'M[F]_m) : pseudo_inverse S G -> pseudo_inverse S G' -> G = G'.
Proof.
move=> [e1 e2 e3 e4] [e1' e2' e3' e4'].
have l : S *m G = S *m G'.
  have <- : (S *m G *m (S *m G'))^T = S *m G' by rewrite mulmxA e1 e3'.
  by rewrite trmx_mul e3 e3' mulmxA e1'.
have r : G *m S = G' *m S.
  have <- : (G' *m S *m (G *m S))^T = G' *m S by rewrite -mulmxA (mulmxA S) e1 e4'.
  by rewrite trmx_mul e4 e4' -mulmxA (mulmxA S) e1'.
by rewrite -e2 -[RHS]e2' -r -!mulmxA l.
Qed.
(** A symmetric matrix has a symmetric pseudo-inverse. *)
Lemma pinv_sym m (S G : 'M[F]_m) : S^T = S -> pseudo_inverse S G -> G^T = G.
Proof.
move=> sS [e1 e2 e3 e4]; apply: (@pinv_unique _ S); last by split.
split.
- by rewrite -{1 2}sS -!trmx_mul mulmxA e1 sS.
- by rewrite -{1}sS -!trmx_mul mulmxA e2.
- by rewrite -{1}sS -trmx_mul trmxK -e4 trmx_mul sS.
- by rewrite -{1}sS -trmx_mul trmxK -e3 trmx_mul sS.
Qed.
Lemma pinv_unit m (S : 'M[F]_m) : S \in unitmx -> pseudo_inverse S (invmx S).
Proof. by move=> u; split; rewrite ?mulmxV ?mulVmx ?mul1mx ?trmx1. Qed.

Context {n m : nat} (pinv : 'M[F]_m -> 'M[F]_m).
Context (P : 'M[F]_n) (H : 'M[F]_(m, n)) (R : 'M[F]_m).
Context (cP : covariance P) (cR : covariance R) (hp : pseudo_inverse (innovation P H R) (pinv (innovation P H R))).
Let S := innovation P H R.
Let K := gain pinv P H R.
Lemma cov_S : covariance S.
Proof. by rewrite /S /innovation mulmxA; apply: cov_add cR; apply: cov_conj. Qed.
Lemma pinvS_sym : (pinv S)^T = pinv S.
Proof. by apply: (@pinv_sym _ S) => //; case: cov_S. Qed.
Lemma gain_T : K^T = pinv S *m (H *m P).
Proof. by rewrite /K /gain !trmx_mul trmxK pinvS_sym; case: cP => -> _; rewrite mulmxA. Qed.
Lemma KSK : K *m S *m K^T = K *m (H *m P).
Proof.
rewrite gain_T /K /gain -/S; case: hp => _ e2 _ _; rewrite -/S in e2.
by rewrite -!mulmxA; congr (_ *m _); congr (_ *m _); rewrite !mulmxA e2.
Qed.
Lemma error_expand (L : 'M[F]_(n, m)) : error_covariance P H R L = P - L *m (H *m P) - P *m H^T *m L^T + L *m S *m L^T.
Proof.
rewrite /error_covariance /S /innovation linearB /= trmx1 trmx_mul.
rewrite !(mulmxBl, mulmxBr, mulmxDl, mulmxDr, mul1mx, mulmx1) !mulmxA opprB !addrA.
by rewrite -!addrA; congr (_ + _); rewrite !addrA; congr (_ + _); rewrite addrAC; congr (_ + _); rewrite addrC.
Qed.
(** The first correction is the error covariance of the estimate. *)
Lemma first_correction : P - K *m (H *m P) = error_covariance P H R K.
Proof.
rewrite error_expand KSK; have -> : P *m H^T *m K^T = K *m (H *m P).
  by rewrite gain_T /K /gain -/S !mulmxA.
by rewrite subrK.
Qed.
Lemma cov_error L : covariance (error_covariance P H R L).
Proof. by rewrite /error_covariance; apply: cov_add; apply: cov_conj. Qed.
Lemma update_cov_eq x y : (kalman_update pinv x P y H R).2 = error_covariance (error_covariance P H R K) H R K.
Proof. by rewrite /kalman_update /= -/K first_correction /error_covariance !mulmxA. Qed.
End Cov.

Lemma code_covariance {F : realFieldType} n m (pinv : 'M[F]_m -> 'M[F]_m) x (P A Q : 'M[F]_n) y (H : 'M[F]_(m, n)) (R : 'M[F]_m) :
  covariance P -> covariance Q -> covariance R -> (forall S, pseudo_inverse S (pinv S)) -> covariance (kalman pinv x P A Q y H R).2.
Proof.
move=> cP cQ cR hp; rewrite /kalman /kalman_predict; have c1 : covariance (A *m (P *m A^T) + Q).
  by rewrite mulmxA; apply: cov_add cQ; apply: cov_conj.
by rewrite (update_cov_eq c1 cR (hp _)); apply: cov_error => //; apply: cov_error.
Qed.

(** The gain is the best one, and the estimate is the corresponding one. *)
Lemma gain_optimal {F : realFieldType} n m (pinv : 'M[F]_m -> 'M[F]_m) x (P : 'M[F]_n) y (H : 'M[F]_(m, n)) (R : 'M[F]_m) :
  covariance P -> covariance R -> (forall S, pseudo_inverse S (pinv S)) -> innovation P H R \in unitmx ->
  exists K, (kalman_update pinv x P y H R).1 = x + K *m (y - H *m x) /\
    forall L, no_larger (error_covariance P H R K) (error_covariance P H R L).
Proof.
move=> cP cR hp u; exists (gain pinv P H R); split=> // L; apply: cov_no_larger.
set S := innovation P H R in u *; set K := gain pinv P H R.
have [sS _] := cov_S H cP cR; rewrite -/S in sS.
have -> : error_covariance P H R L - error_covariance P H R K = (L - K) *m S *m (L - K)^T; last by apply: cov_conj; apply: cov_S.
have PH : P *m H^T = K *m S.
  rewrite /K /gain -/S; have -> : pinv S = invmx S by apply: pinv_unique (hp _) (pinv_unit u).
  by rewrite -!mulmxA mulVmx // mulmx1.
have HP : H *m P = S *m K^T by rewrite -[LHS]trmxK trmx_mul; case: (cP) => -> _; rewrite PH trmx_mul sS.
rewrite !error_expand -/S -/K PH HP !mulmxA linearB /= !(mulmxBl, mulmxBr).
set a := L *m S *m K^T; set b := K *m S *m L^T; set c := L *m S *m L^T; set d := K *m S *m K^T.
rewrite subrK [RHS](_ : _ = (c - b) + (d - a)); last by rewrite ?opprB // -?addrA.
by rewrite opprB (AC (4*2) ((1*6)*((4*3)*(5*2)))) /= subrr add0r.
Qed.

(** The reported covariance is not larger than the true one. *)
Lemma code_smaller {F : realFieldType} n m (pinv : 'M[F]_m -> 'M[F]_m) x (P : 'M[F]_n) y (H : 'M[F]_(m, n)) (R : 'M[F]_m) :
  covariance P -> covariance R -> (forall S, pseudo_inverse S (pinv S)) ->
  exists K, (kalman_update pinv x P y H R).1 = x + K *m (y - H *m x) /\
    no_larger (kalman_update pinv x P y H R).2 (error_covariance P H R K).
Proof.
move=> cP cR hp; exists (gain pinv P H R); split=> //; set K := gain pinv P H R; apply: cov_no_larger.
rewrite (update_cov_eq cP cR (hp _)) -/K.
have -> : error_covariance P H R K - error_covariance (error_covariance P H R K) H R K =
  (1%:M - K *m H) *m (K *m innovation P H R *m K^T) *m (1%:M - K *m H)^T.
  rewrite (KSK cP cR (hp _)) -/K; have e := first_correction cP cR (hp _); rewrite -/K in e.
  rewrite -e {1}/error_covariance e [X in X - _]/error_covariance opprD addrACA subrr addr0 -mulmxBl -mulmxBr; congr (_ *m _ *m _).
  by rewrite -e opprB addrC subrK.
by apply: cov_conj; apply: cov_conj; apply: cov_S.
Qed.

(** It differs from it: prior, observation and noise of variance one. *)
Lemma code_overconfident : exists pinv : 'M[rat]_1 -> 'M[rat]_1, (forall S, pseudo_inverse S (pinv S)) /\
  covariance (1%:M : 'M[rat]_1) /\
  forall x y, (kalman_update pinv x 1%:M y (1%:M : 'M[rat]_(1, 1)) 1%:M).1 = x + (1 / 2%:R)%:M *m (y - 1%:M *m x) /\
    error_covariance (1%:M : 'M[rat]_1) (1%:M : 'M[rat]_(1, 1)) 1%:M (1 / 2%:R)%:M = (1 / 2%:R)%:M /\
    (kalman_update pinv x 1%:M y (1%:M : 'M[rat]_(1, 1)) 1%:M).2 = (3%:R / 8%:R)%:M.
Proof.
pose pinv (S : 'M[rat]_1) := (S 0 0)^-1%:M : 'M[rat]_1; exists pinv.
have mul1 (a b : rat) : a%:M *m b%:M = (a * b)%:M :> 'M_1 by rewrite mul_scalar_mx scale_scalar_mx.
have one : covariance (1%:M : 'M[rat]_1).
  by split; rewrite ?trmx1 // => v; rewrite mulmx1 mxE big_ord1 mxE -expr2 sqr_ge0.
split=> [S|]; last split=> //.
  have eS : S = (S 0 0)%:M by apply/matrixP=> i j; rewrite !ord1 !mxE eqxx.
  suff h : pseudo_inverse ((S 0 0)%:M : 'M[rat]_1) ((S 0 0)^-1%:M : 'M[rat]_1) by rewrite {1}eS.
  case: (eqVneq (S 0 0) 0) => [->|z]; first by rewrite invr0; split; rewrite ?raddf0 ?mulmx0 ?mul0mx ?trmx0.
  by split; rewrite !mul1 ?mulfV ?mulVf ?mul1r ?mulr1 ?trmx1.
move=> x y; have iv : innovation 1%:M (1%:M : 'M[rat]_(1, 1)) 1%:M = 2%:R%:M.
  by rewrite /innovation !mul1mx trmx1 -raddfD.
have g : gain pinv 1%:M (1%:M : 'M[rat]_(1, 1)) 1%:M = (1 / 2%:R)%:M.
  by rewrite /gain iv /pinv trmx1 !mul1mx mxE eqxx mulr1n div1r.
split; first by rewrite /kalman_update /= g.
split; first by rewrite /error_covariance ?(mulmx1, mul1mx, trmx1) -raddfB !tr_scalar_mx !mul1 -raddfD /=; congr (_%:M).
rewrite /kalman_update /= g !(mulmx1, mul1mx) -!raddfB !tr_scalar_mx !mul1 -raddfD; by congr (_%:M).
Qed.
Lemma code_covariance_run {F : realFieldType} n m (pinv : 'M[F]_m -> 'M[F]_m) (A : 'M[F]_n) (H : 'M[F]_(m, n)) x (P : 'M[F]_n) steps :
  covariance P -> (forall q, q \in steps -> covariance q.1.1 /\ covariance q.2) -> (forall S, pseudo_inverse S (pinv S)) ->
  covariance (kalman_run pinv A H x P steps).2.
Proof.
rewrite /kalman_run => cP hq hp; elim: steps x P cP hq => [|q steps IH] x P cP hq //=.
have [c1 c2] := hq q (mem_head _ _).
case E : (kalman pinv x P A q.1.1 q.1.2 H q.2) => [x1 P1]; apply: IH; last by move=> r hr; apply: hq; rewrite inE hr orbT.
by have := code_covariance x A q.1.2 H cP c1 c2 hp; rewrite E.
Qed.

(** The filter is linear in states and observations, and follows a change that the transition keeps. *)
Lemma kalman_scaled : forall (F : fieldType) (n m : nat) (pinv : 'M[F]_m -> 'M[F]_m) (c : F) (x : 'cV[F]_n) (P A Q : 'M[F]_n) (y : 'cV[F]_m) (H : 'M[F]_(m, n)) (R : 'M[F]_m),
  kalman pinv (c *: x) P A Q (c *: y) H R = (c *: (kalman pinv x P A Q y H R).1, (kalman pinv x P A Q y H R).2).
Proof. by move=> *; rewrite /kalman /kalman_predict /kalman_update /= -!scalemxAr -scalerBr -!scalemxAr -scalerDr. Qed.
Lemma kalman_moved : forall (F : fieldType) (n m : nat) (pinv : 'M[F]_m -> 'M[F]_m) (u x : 'cV[F]_n) (P A Q : 'M[F]_n) (y : 'cV[F]_m) (H : 'M[F]_(m, n)) (R : 'M[F]_m),
  A *m u = u -> kalman pinv (x + u) P A Q (y + H *m u) H R = ((kalman pinv x P A Q y H R).1 + u, (kalman pinv x P A Q y H R).2).
Proof.
move=> F n m pinv u x P A Q y H R Au; rewrite /kalman /kalman_predict /kalman_update /=.
have -> : y + H *m u - H *m (A *m (x + u)) = y - H *m (A *m x).
  by rewrite (mulmxDr A) Au (mulmxDr H) opprD addrACA subrr addr0.
by rewrite (mulmxDr A) Au addrAC.
Qed.
