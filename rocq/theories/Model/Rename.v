(** Model of [Formatter.rename_features_prediction_time] (formatter.py:553-576). *)
From Coq Require Import String Ascii List ZArith Bool.
From Verif Require Import Model.Names Model.Series Model.Transformer.
Import ListNotations.
Local Open Scope Z_scope.

(** Columns of the metadata table a transformer builds (formatter.py:813-841), with
    bins or without, simulated or not. *)
Definition metadata_columns : list text :=
  map list_ascii_of_string
    ["lag"; "function"; "aggregation_time"; "spacing_time"; "start_time"; "end_time"; "name"; "relative_lags"]%string.

(** A metadata table: its columns and its rows as functions of the column. Only what
    the function reads: durations in nanoseconds. Used by [table_col], formatter.py:560-576. *)
Record table := Table { t_columns : list text; t_index : list text; t_cell : text -> list Z }.

(** [df[col]]: KeyError when there is no such column. Used by [rename_features], formatter.py:560-576. *)
Definition table_col (t : table) (col : text) : option (list Z) :=
  if existsb (text_eqb col) (t_columns t) then Some (t_cell t col) else None.

(** Used by [rename_features], formatter.py:560-576. *)
Definition referring_time : text := list_ascii_of_string "referring_time".
(** Used by [rename_features], formatter.py:560-576. *)
Definition lag_column : text := list_ascii_of_string "lag".

(** The text before the first ["_lag"] ([str.split('_lag')[0]], formatter.py:570). *)
Fixpoint starts_with (p s : text) : bool :=
  match p, s with
  | [], _ => true
  | a :: p', b :: s' => if ascii_dec a b then starts_with p' s' else false
  | _, _ => false
  end.
(** Used by [rename_features], formatter.py:560-576. *)
Fixpoint before_lag (s : text) : text :=
  match s with
  | [] => []
  | c :: s' => if starts_with (list_ascii_of_string "_lag") s then [] else c :: before_lag s'
  end.

(** formatter.py:560-576 with the two concatenated tables. [x] are the column names of
    the frame. [None] = an exception: a missing column, or the assertion at 565. *)
Definition rename_features (features targets : table) (x : list text) (sa : Z) : option (list text) :=
  match table_col targets lag_column with
  | None => None
  | Some lags =>
      match table_col targets referring_time with                                  (* 564 *)
      | None => None
      | Some times =>
          match map snd (filter (fun p => fst p =? - sa) (combine lags times)) with
          | [prediction] =>
              match table_col features referring_time with                         (* 567 *)
              | None => None
              | Some refs =>
                  let new := combine (t_index features)
                               (map (fun p => before_lag (fst p) ++ hr_timedelta true ((snd p - prediction) / 1000000000))
                                    (combine (t_index features) refs)) in
                  Some (map (fun c => match find (fun p => text_eqb (fst p) c) new with
                                      | Some p => snd p
                                      | None => c
                                      end) x)
              end
          | _ => None
          end
      end
  end.
