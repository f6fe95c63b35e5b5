(** Model of forecasting_models/fast_adaptive_models.py: windows, Fourier basis and Fourier_es. *)
From Coq Require Import Reals List Arith Bool.
Import ListNotations.
Local Open Scope R_scope.

(** fast_adaptive_models.py:27-44 (and 105-122): the window at row [i]; [w] is the stored one. [np.roll(w, -k)] moves the
    first k entries to the end, where they are overwritten. *)
Definition recent_history {V} (y w : list V) (start i : nat) : list V :=
  let m := length w in
  let y_w := firstn (i + 1 - start) (skipn start y) in
  if (length y_w =? m)%nat then y_w
  else let r := skipn (length y_w mod m) w ++ firstn (length y_w mod m) w in
       firstn (m - length y_w) r ++ y_w.
(** fast_adaptive_models.py:229-231: [start] = max(0, i - m + 1). *)
Definition window_at {V} (y w : list V) (i : nat) : list V := recent_history y w (i + 1 - length w) i.

(** fast_adaptive_models.py:17-25: row [t] of the basis with period [l]; column 0 is the constant, columns 2k-1 and 2k
    are the sine and cosine of harmonic k. *)
Definition basis (l t j : nat) : R :=
  sqrt (2 / INR l) *
  (match j with
   | O => 1 / sqrt 2
   | _ => let k := INR ((j + 1) / 2) in
          let angle := 2 * PI * k * INR t / INR l in
          if Nat.odd j then sin angle else cos angle
   end).
(** Used by [coeffs], fast_adaptive_models.py:236. *)
Fixpoint rsum (f : nat -> R) (n : nat) : R := match n with O => 0 | S n' => rsum f n' + f n' end.

(** Parameters (fast_adaptive_models.py:157-186); [harmonics] is n_harmonics_int. *)
Record fparams := FParams { fm : nat; fsa : nat; fperiod : nat; fharmonics : nat; falpha : R; fomega : R }.
(** Used by [fstep], fast_adaptive_models.py:226-240. *)
Record fstate := FState { fx : list R; feps : R; flast : R; fw : list R }.
(** Used by [coeffs], fast_adaptive_models.py:236. *)
Definition dim (p : fparams) : nat := 2 * fharmonics p + 1.
(** fast_adaptive_models.py:236: coefficients of the window, whose row r is matched with row i mod m + r of the basis. *)
Definition coeffs (p : fparams) (i : nat) (w : list R) : list R :=
  map (fun j => rsum (fun r => basis (fm p) (i mod fm p + r) j * nth r w 0) (fm p)) (seq 0 (dim p)).
(** fast_adaptive_models.py:228, 238: the reconstruction from [i mod m + m - period] on (period <= m). *)
Definition reconstruct (p : fparams) (i : nat) (x : list R) : list R :=
  map (fun h => rsum (fun j => basis (fm p) (i mod fm p + fm p - fperiod p + h) j * nth j x 0) (dim p)) (seq 0 (fsa p)).
(** Used by [fstep], fast_adaptive_models.py:226-240. *)
Definition mix (a : R) (u v : list R) : list R := map (fun uv => a * fst uv + (1 - a) * snd uv) (combine u v).
(** fast_adaptive_models.py:239-240. *)
Definition corrected (p : fparams) (eps : R) (pr : list R) : list R :=
  map (fun hv => snd hv + eps * (INR (fsa p - fst hv) ^ 2) / INR (fsa p) ^ 2) (combine (seq 0 (fsa p)) pr).
(** fast_adaptive_models.py:226-240: one row; [w0] is the window stored at the beginning of the call. *)
Definition fstep (p : fparams) (y w0 : list R) (s : fstate) (i : nat) : fstate * list R :=
  let w := window_at y w0 i in
  let eps := fomega p * (last w 0 - flast s) + (1 - fomega p) * feps s in
  let x := mix (falpha p) (coeffs p i w) (fx s) in
  let pr := reconstruct p i x in
  (FState x eps (hd 0 pr) w, corrected p eps pr).
(** Used by [frun], fast_adaptive_models.py:208-250. *)
Fixpoint fsteps (p : fparams) (y w0 : list R) (s : fstate) (is : list nat) : list (list R) * fstate :=
  match is with
  | [] => ([], s)
  | i :: is' => let '(s1, r) := fstep p y w0 s i in let '(rs, s2) := fsteps p y w0 s1 is' in (r :: rs, s2)
  end.
(** What is stored: no coefficients before the first fit (fast_adaptive_models.py:189-199). *)
Record fstored := FStored { st_x : option (list R); st_eps : R; st_last : R; st_w : list R }.
(** With [fstored], fast_adaptive_models.py:189-199. *)
Definition fresh (p : fparams) : fstored := FStored None 0 0 (repeat 0 (fm p)).
(** fast_adaptive_models.py:215-220. *)
Definition fstart (p : fparams) (st : fstored) (y : list R) : fstate :=
  FState (match st_x st with Some x => x | None => hd 0 y * sqrt (INR (fm p)) :: repeat 0 (2 * fharmonics p) end)
    (st_eps st) (st_last st) (st_w st).
(** fast_adaptive_models.py:208-250: predictions and the state afterwards (stored only when fitting). *)
Definition frun (p : fparams) (st : fstored) (y : list R) (fit : bool) : list (list R) * fstored :=
  let '(rows, s) := fsteps p y (st_w st) (fstart p st y) (seq 0 (length y)) in
  (rows, if fit then FStored (Some (fx s)) (feps s) (flast s) (fw s) else st).
