(** How a person reads the names back. *)
From Coq Require Import List Ascii NArith ZArith Bool.
Import ListNotations.
Local Open Scope char_scope.

(** Value of a decimal digit character. *)
Definition digit_value (c : ascii) : option Z :=
  let n := N_of_ascii c in
  if ((48 <=? n) && (n <=? 57))%N then Some (Z.of_N n - 48)%Z else None.

(** Value of a unit letter in seconds. *)
Definition unit_seconds (c : ascii) : option Z :=
  match c with
  | "d" => Some 86400%Z | "h" => Some 3600%Z | "m" => Some 60%Z | "s" => Some 1%Z
  | _ => None
  end.

(** Reads digits as a decimal number, multiplies by the unit that follows, and
    adds up: ["01d02h03m"] is 1*86400 + 2*3600 + 3*60. *)
Fixpoint read_units (s : list ascii) (number total : Z) : option Z :=
  match s with
  | [] => Some total
  | c :: s' =>
      match digit_value c with
      | Some d => read_units s' (10 * number + d)%Z total
      | None => match unit_seconds c with
                | Some u => read_units s' 0%Z (total + number * u)%Z
                | None => None
                end
      end
  end.

Definition read_offset (s : list ascii) : option Z :=
  match s with
  | "-" :: s' => option_map Z.opp (read_units s' 0%Z 0%Z)
  | _ => read_units s 0%Z 0%Z
  end.

(** Plain signed decimal numbers. *)
Fixpoint read_digits (s : list ascii) (number : Z) : option Z :=
  match s with
  | [] => Some number
  | c :: s' => match digit_value c with
               | Some d => read_digits s' (10 * number + d)%Z
               | None => None
               end
  end.
Definition read_int (s : list ascii) : option Z :=
  match s with
  | "-" :: s' => option_map Z.opp (read_digits s' 0%Z)
  | _ => read_digits s 0%Z
  end.
