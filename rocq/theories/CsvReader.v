(** * CsvReader: the reader of CPython's csv module

    CleverCSV offers its reader as a replacement of [csv.reader].  To compare
    the two this file models [_csv.reader] of CPython 3.11.10
    ([Modules/_csv.c], which is not in /repo); like CsvLib.v it is part of the
    trusted base of the theorems that mention it.  Not modelled: the conversion
    of unquoted fields to floats under QUOTE_NONNUMERIC, and lines that are no
    strings.  Allocation failure is not modelled either. *)
From Verif Require Import Base Parser Dialect CsvLib.

(** [ReaderObj]: the state, the field being read and the fields of the row. *)
Record cobj := mk_cobj { c_state : pstate; c_field : str; c_fields : list str }.
Definition c_new : cobj := mk_cobj START_RECORD [] [].

Section Read.
Variable w : wdialect.
Variable strict : bool.
(** [csv.field_size_limit()] *)
Variable limit : Z.

(** [parse_add_char], followed by a change of state. *)
Definition c_add (o : cobj) (c : N) (st : pstate) : res pyexc cobj :=
  if (limit <=? Z.of_nat (length (c_field o)))%Z then Err CsvError
  else Ok (mk_cobj st (c_field o ++ [c]) (c_fields o)).
(** [parse_save_field], followed by a change of state. *)
Definition c_save (o : cobj) (st : pstate) : cobj := mk_cobj st [] (c_fields o ++ [c_field o]).
Definition c_goto (o : cobj) (st : pstate) : cobj := mk_cobj st (c_field o) (c_fields o).

(** [None] is the end of a line; [NOT_SET] equals no character. *)
Definition c_nl (c : option N) : bool := match c with Some c => is_nl c | None => false end.
Definition c_end (c : option N) : bool := match c with Some c => is_nl c | None => true end.
Definition c_is (o : option N) (c : option N) : bool :=
  match c with Some c => opt_is o c | None => false end.
Definition c_quote (c : option N) : bool :=
  match wd_quoting w with QUOTE_NONE => false | _ => c_is (wd_quote w) c end.
Definition c_after (c : option N) : pstate := match c with None => START_RECORD | Some _ => EAT_CRNL end.
Definition c_char (c : option N) : N := match c with Some c => c | None => LF end.

Definition c_start_field (o : cobj) (c : option N) : res pyexc cobj :=
  if c_end c then Ok (c_save o (c_after c))
  else if c_quote c then Ok (c_goto o IN_QUOTED_FIELD)
  else if c_is (wd_escape w) c then Ok (c_goto o ESCAPED_CHAR)
  else if c_is (Some SPACE) c && wd_skipspace w then Ok (c_goto o START_FIELD)
  else if c_is (Some (wd_delim w)) c then Ok (c_save o START_FIELD)
  else c_add o (c_char c) IN_FIELD.
Definition c_in_field (o : cobj) (c : option N) : res pyexc cobj :=
  if c_end c then Ok (c_save o (c_after c))
  else if c_is (wd_escape w) c then Ok (c_goto o ESCAPED_CHAR)
  else if c_is (Some (wd_delim w)) c then Ok (c_save o START_FIELD)
  else c_add o (c_char c) (c_state o).
(** [parse_process_char] *)
Definition c_process (o : cobj) (c : option N) : res pyexc cobj :=
  match c_state o with
  | START_RECORD =>
      match c with
      | None => Ok o
      | Some _ => if c_nl c then Ok (c_goto o EAT_CRNL) else c_start_field o c
      end
  | START_FIELD => c_start_field o c
  | ESCAPED_CHAR => c_add o (c_char c) (if c_nl c then AFTER_ESCAPED_CRNL else IN_FIELD)
  | AFTER_ESCAPED_CRNL => match c with None => Ok o | Some _ => c_in_field o c end
  | IN_FIELD => c_in_field o c
  | IN_QUOTED_FIELD =>
      match c with
      | None => Ok o
      | Some _ =>
          if c_is (wd_escape w) c then Ok (c_goto o ESCAPE_IN_QUOTED_FIELD)
          else if c_quote c then Ok (c_goto o (if wd_doublequote w then QUOTE_IN_QUOTED_FIELD else IN_FIELD))
          else c_add o (c_char c) IN_QUOTED_FIELD
      end
  | ESCAPE_IN_QUOTED_FIELD => c_add o (c_char c) IN_QUOTED_FIELD
  | QUOTE_IN_QUOTED_FIELD =>
      if c_quote c then c_add o (c_char c) IN_QUOTED_FIELD
      else if c_is (Some (wd_delim w)) c then Ok (c_save o START_FIELD)
      else if c_end c then Ok (c_save o (c_after c))
      else if negb strict then c_add o (c_char c) IN_FIELD
      else Err CsvError
  | EAT_CRNL =>
      match c with
      | None => Ok (c_goto o START_RECORD)
      | Some _ => if c_nl c then Ok o else Err CsvError
      end
  end.
Fixpoint c_chars (o : cobj) (line : str) : res pyexc cobj :=
  match line with
  | [] => Ok o
  | c :: rest => bind (c_process o (Some c)) (fun o => c_chars o rest)
  end.
(** The end of the input in [Reader_iternext]. *)
Definition c_eof (o : cobj) : list (list str) * option pyexc :=
  if negb (Nat.eqb (length (c_field o)) 0) || (match c_state o with IN_QUOTED_FIELD => true | _ => false end)
  then if strict then ([], Some CsvError) else ([c_fields o ++ [c_field o]], None)
  else ([], None).
(** [list(csv.reader(lines, dialect))]: the rows ([Reader_iternext], called until
    it raises), and the exception that ends it if it is not StopIteration. *)
Fixpoint c_run (o : cobj) (lines : list str) : list (list str) * option pyexc :=
  match lines with
  | [] => c_eof o
  | l :: ls =>
      match bind (c_chars o l) (fun o => c_process o None) with
      | Err x => ([], Some x)
      | Ok o =>
          match c_state o with
          | START_RECORD => let '(rows, x) := c_run c_new ls in (c_fields o :: rows, x)
          | _ => c_run o ls
          end
      end
  end.
(** The rows of a file opened with [newline=""]. *)
Definition csv_reader (t : str) : list (list str) * option pyexc := c_run c_new (univ_lines t).
End Read.
