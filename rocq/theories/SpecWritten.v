(** * SpecWritten: the text of a row of values, for every dialect of the csv module

    A row is written as the texts of its values, separated by the delimiter and
    followed by the line terminator.  The text of a value is made character by
    character, and stands between quotes if there is a reason to. *)
From Verif Require Import Base Parser Dialect CsvLib SpecLayout.

(** Characters that separate: the delimiter and those that may end a line. *)
Definition separator (w : wdialect) (c : N) : bool :=
  existsb (N.eqb c) (wd_delim w :: LF :: CR :: wd_term w).
Definition unquoted_dialect (w : wdialect) : bool := match wd_quoting w with QUOTE_NONE => true | _ => false end.

(** A character is written twice, behind the escape character, or as it is. *)
Inductive way := Twice | Escaped | Plain.
Definition char_way (w : wdialect) (c : N) : way :=
  if unquoted_dialect w then
    if separator w c || is_opt (wd_quote w) c || is_opt (wd_escape w) c then Escaped else Plain
  else if is_opt (wd_quote w) c then if wd_doublequote w then Twice else Escaped
  else if is_opt (wd_escape w) c then Escaped
  else Plain.
Definition char_text (w : wdialect) (c : N) : str :=
  match char_way w c with
  | Twice => [c; c]
  | Escaped => opt_str (wd_escape w) ++ [c]
  | Plain => [c]
  end.

(** The reasons for quotes: the quoting style, a doubled quote, a separator that
    is not escaped, an empty value between spaces that are skipped when read. *)
Definition style_quotes (w : wdialect) (v : value) : bool :=
  match wd_quoting w, v with
  | QUOTE_ALL, _ => true
  | QUOTE_NONNUMERIC, VNum _ => false
  | QUOTE_NONNUMERIC, _ => true
  | _, _ => false
  end.
Definition char_quotes (w : wdialect) (c : N) : bool :=
  match char_way w c with
  | Twice => true
  | Escaped => false
  | Plain => separator w c
  end.
Definition lost_empty (w : wdialect) (s : str) : bool :=
  match s with [] => (wd_delim w =? SPACE)%N && wd_skipspace w | _ => false end.
Definition in_quotes (w : wdialect) (v : value) : bool :=
  style_quotes w v || existsb (char_quotes w) (value_str v) || lost_empty w (value_str v).

Definition quotes (w : wdialect) (s : str) : str := opt_str (wd_quote w) ++ s ++ opt_str (wd_quote w).
Definition value_text (w : wdialect) (v : value) : str :=
  let s := concat (map (char_text w) (value_str v)) in if in_quotes w v then quotes w s else s.
(** A row of one value without any text is written as a pair of quotes. *)
Definition row_text (w : wdialect) (row : list value) : str :=
  match row with
  | [v] => match value_text w v with [] => quotes w [] | s => s end
  | _ => join [wd_delim w] (map (value_text w) row)
  end ++ wd_term w.
Definition table_text (w : wdialect) (rows : list (list value)) : str := concat (map (row_text w) rows).
