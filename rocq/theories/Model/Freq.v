(** Model of the frequency-string normalisation of the formatter. *)
From Coq Require Import List Ascii.
Import ListNotations.
Local Open Scope char_scope.

(** A python [str] is a list of characters. Used by [replace_char], formatter.py:35. *)
Definition text := list ascii.

(** [s.replace(old, new)] for a one-character [old] (python builtin, used at
    formatter.py:35): every occurrence is replaced, the replacement is not
    rescanned. *)
Definition replace_char (old : ascii) (new s : text) : text :=
  flat_map (fun c => if Ascii.eqb c old then new else [c]) s.

(** formatter.py:25-32, the [replacements] dictionary in insertion order. *)
Definition replacements : list (ascii * text) :=
  [ ("H", ["h"]); ("T", ["m"; "i"; "n"]); ("S", ["s"]);
    ("L", ["m"; "s"]); ("U", ["u"; "s"]); ("N", ["n"; "s"]) ].

(** formatter.py:33-36, the loop over the dictionary. *)
Definition normalize_text (s : text) : text :=
  fold_left (fun acc on => replace_char (fst on) (snd on) acc) replacements s.

(** A frequency argument: a string or any other object (Timedelta, int, None).
    formatter.py:22-24. *)
Inductive freq_arg (A : Type) := FStr (s : text) | FOther (a : A).
Arguments FStr {A} s.
Arguments FOther {A} a.

(** formatter.py:22-36 [_normalize_timedelta_freq]. *)
Definition normalize_timedelta_freq {A} (f : freq_arg A) : freq_arg A :=
  match f with
  | FOther a => FOther a
  | FStr s => FStr (normalize_text s)
  end.
