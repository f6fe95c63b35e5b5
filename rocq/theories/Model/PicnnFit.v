(** The network read from a parameter dictionary, and the training step of the input-convex models. *)
From Coq Require Import Reals String List Arith Bool.
From Verif Require Import Model.Names Model.Encoder Model.Quantiles Model.Reproject Model.Picnn.
Import ListNotations.
Local Open Scope R_scope.

(** Used by [read_layer], layers.py:150-167. *)
Definition matrix (d : Reproject.dense) : nat -> vec := fun j k => nth k (nth j (kernel d) []) 0.
(** Used by [read_layer], layers.py:150-167. *)
Definition vector (d : Reproject.dense) : vec := fun k => nth k (bias d) 0.
(** Used by [get], layers.py:150-167. *)
Definition empty_dense : Reproject.dense := Reproject.Dense [] [].
(** Used by [read_layer], layers.py:150-167. *)
Definition get (g : group) (k : text) : Reproject.dense := match lookup k g with Some d => d | None => empty_dense end.
(** layers.py:150-167: the dense maps of one layer by name; [nx], [ny], [nz] are the input sizes. The prediction layer
    has no [u_dense], and its value is not used. *)
Definition read_layer (nx ny nz : nat) (g : group) : weights :=
  Weights nx ny nz (matrix (get g (txt "wzu"))) (vector (get g (txt "wzu"))) (matrix (get g (txt "wyu"))) (vector (get g (txt "wyu")))
    (matrix (get g k_wz)) (matrix (get g k_wy)) (matrix (get g (txt "wuz"))) (vector (get g (txt "wuz"))) (matrix (get g (txt "u_dense"))) (vector (get g (txt "u_dense"))).
(** ICNN.py:133-146: layer [i] is stored under ["PICNNLayer_i"]; entries are listed in order. [sizes] gives (nx, ny, nz). *)
Definition read_net (t : tree) (sizes : nat * nat * nat) : list weights :=
  flat_map (fun e => if contains picnn_tag (fst e) then match snd e with Flat g => [read_layer (fst (fst sizes)) (snd (fst sizes)) (snd sizes) g] | Nested _ => [] end else []) t.
(** base_nn.py:389-391: optimiser step [update], then the reprojection. A KeyError is left out: see [well_formed]. *)
Definition convex_step {O} (rec_stable monotone : bool) (update : tree -> O -> list nat -> tree * O) (p : tree) (o : O) (rows : list nat) : tree * O :=
  let (q, o') := update p o rows in (match reproject rec_stable monotone q with Some r => r | None => q end, o').
(** The prediction of the network with parameters [t]; the last layer is the prediction layer. ICNN.py:117-164. *)
Definition predict_net (opts : options) (n : nat) (sizes : nat * nat * nat) (t : tree) (x y : vec) (k : nat) : R :=
  match rev (read_net t sizes) with [] => 0 | last :: hs => picnn opts n (rev hs) last x y k end.
