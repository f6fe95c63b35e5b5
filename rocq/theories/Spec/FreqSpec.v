(** What normalising a pandas frequency string means: each deprecated unit
    letter is spelled the modern way, every other character stays. *)
From Coq Require Import List Ascii.
Import ListNotations.
Local Open Scope char_scope.

Definition modern_spelling (c : ascii) : list ascii :=
  match c with
  | "H" => ["h"]
  | "T" => ["m"; "i"; "n"]
  | "S" => ["s"]
  | "L" => ["m"; "s"]
  | "U" => ["u"; "s"]
  | "N" => ["n"; "s"]
  | c => [c]
  end.

Definition deprecated_letter (c : ascii) : Prop :=
  In c ["H"; "T"; "S"; "L"; "U"; "N"].
