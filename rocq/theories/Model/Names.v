(** Column-name building blocks: lag suffixes and human-readable offsets. *)
From Coq Require Import List Ascii NArith ZArith.
Import ListNotations.
Local Open Scope char_scope.

(** Used by [dec_aux], formatter.py:800-801. *)
Definition text := list ascii.

(** One decimal digit. Used by [dec_aux], formatter.py:800-801. *)
Definition digit (n : N) : ascii := ascii_of_N (48 + n).

(** Decimal representation, most significant digit first ([str] of a
    nonnegative python int). [fuel] bounds the number of divisions; the callers
    pass the bit size, which always suffices (proved in Proof/NamesProof.v). Used by [dec], formatter.py:800-801. *)
Fixpoint dec_aux (fuel : nat) (n : N) (acc : text) : text :=
  match fuel with
  | O => digit n :: acc
  | S f => if (n <? 10)%N then digit n :: acc
           else dec_aux f (n / 10) (digit (n mod 10) :: acc)
  end.
(** Used by [fmt_int], formatter.py:800-801. *)
Definition dec (n : N) : text := dec_aux (N.size_nat n) n [].

(** [zfill]-style padding of the format specs [{:02d}], [{:03d}], [{:04d}]
    (python format mini-language: zeros are inserted after the sign up to the
    total width). Used by [fmt_int], formatter.py:800-801. *)
Definition pad (width : nat) (s : text) : text :=
  repeat "0" (width - List.length s) ++ s.

(** ['{:0wd}'.format(z)]. Used by [lag_name], formatter.py:800-801. *)
Definition fmt_int (width : nat) (z : Z) : text :=
  if (z <? 0)%Z then "-" :: pad (width - 1) (dec (Z.abs_N z))
  else pad width (dec (Z.abs_N z)).

(** formatter.py:800-801: ['{}_lag_{:03d}'] for nonnegative lags,
    ['{}_lag_{:04d}'] for negative ones. *)
Definition lag_tag : text := ["_"; "l"; "a"; "g"; "_"].
(** formatter.py:800-801. *)
Definition lag_name (base : text) (lag : Z) : text :=
  base ++ lag_tag ++ (if (lag >=? 0)%Z then fmt_int 3 lag else fmt_int 4 lag).

(** formatter.py:866-894 [hr_timedelta], for an offset already converted to
    whole seconds (line 874). [str * int(cond)] is the conditional string. *)
Definition when (b : bool) (s : text) : text := if b then s else [].

(** formatter.py:866-894. *)
Definition hr_timedelta (zero_padding : bool) (secs : Z) : text :=
  let t := Z.abs secs in                                             (* 875-876 *)
  let s := (t mod 60)%Z in                                           (* 878 *)
  let days := (t / (3600 * 24))%Z in                                 (* 879 *)
  let hours := ((t - days * 3600 * 24) / 3600)%Z in                  (* 880 *)
  let minutes := ((t - days * 3600 * 24 - hours * 3600) / 60)%Z in   (* 881 *)
  let time :=
    if zero_padding then                                             (* 883-887 *)
      fmt_int 2 days ++ ["d"] ++ fmt_int 2 hours ++ ["h"] ++
      fmt_int 2 minutes ++ ["m"] ++ when (0 <? s)%Z (fmt_int 2 s ++ ["s"])
    else                                                             (* 888-892 *)
      when (0 <? days)%Z (fmt_int 0 days ++ ["d"]) ++
      when (0 <? hours)%Z (fmt_int 0 hours ++ ["h"]) ++
      when (0 <? minutes)%Z (fmt_int 0 minutes ++ ["m"]) ++
      when (0 <? s)%Z (fmt_int 0 s ++ ["s"]) in
  if (secs <? 0)%Z then "-" :: time else time.                       (* 893 *)
