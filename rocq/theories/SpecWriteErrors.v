(** * SpecWriteErrors: rows that cannot be written *)
From Verif Require Import Base Parser Dialect CsvLib.

(** Characters that can only be written behind an escape character. *)
Definition needs_escape (w : wdialect) (c : N) : Prop :=
  match wd_quoting w with
  | QUOTE_NONE => c = wd_delim w \/ wd_quote w = Some c \/ c = LF \/ c = CR \/ In c (wd_term w)
  | _ => wd_quote w = Some c /\ wd_doublequote w = false
  end.
Definition unwritable (w : wdialect) (row : list value) : Prop :=
  (wd_escape w = None /\ exists v c, In v row /\ In c (value_str v) /\ needs_escape w c) \/
  (wd_quoting w = QUOTE_NONE /\ exists v, row = [v] /\ value_str v = []) \/
  (wd_quoting w = QUOTE_NONE /\ wd_delim w = SPACE /\ wd_skipspace w = true /\ exists v, In v row /\ value_str v = []).
