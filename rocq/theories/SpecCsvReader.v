(** * SpecCsvReader: texts on which CleverCSV and csv.reader should agree *)
From Verif Require Import Base Parser Dialect CsvLib SpecLayout SpecParse.

(** A layout in which a cell is either quoted as a whole or not at all, and the
    escape character only stands before characters that need it. *)
Definition std_piece (D : chars) (p : piece) : bool :=
  match p with
  | PChar _ => true
  | PEsc c => is_opt (cd D) c || is_opt (ce D) c || is_nl c
  | PQuoted _ => false
  end.
Definition std_qitem (D : chars) (i : qitem) : bool :=
  match i with QEsc c => special D c | _ => true end.
Definition std_cell (D : chars) (ps : list piece) : bool :=
  match ps with
  | [PQuoted l] => forallb (std_qitem D) l
  | _ => forallb (std_piece D) ps
  end.
Definition std_doc (D : chars) (d : doc) : bool :=
  forallb (fun r => forallb (std_cell D) (fst r)) (records d) &&
  match last d with
  | TEnd => true
  | TRow cells => forallb (std_cell D) cells
  | _ => false
  end.

(** The characters that [csv.reader] uses with a dialect.  (Quotes are doubled,
    and spaces behind delimiters count.) *)
Record csv_chars (w : wdialect) (D : chars) : Prop := mk_csv_chars {
  cc_delim : cd D = Some (wd_delim w);
  cc_quote : cq D = match wd_quoting w with QUOTE_NONE => None | _ => wd_quote w end;
  cc_escape : ce D = wd_escape w;
  cc_double : wd_doublequote w = true;
  cc_space : wd_skipspace w = false;
  cc_strings : wd_quoting w <> QUOTE_NONNUMERIC
}.

(** Both iterations are exhausted, or both end with their module's error. *)
Definition same_end (clever std : option pyexc) : Prop :=
  match clever, std with
  | None, None => True
  | Some (CleverError _), Some CsvError => True
  | _, _ => False
  end.
(** A text without quote and escape characters (and without NUL). *)
Definition bare (D : chars) (t : str) : Prop :=
  forall c, In c t -> c <> NUL /\ is_opt (cq D) c = false /\ is_opt (ce D) c = false.
(** Cells that [csv.reader] can return with this field size limit. *)
Definition csv_fits (limit : Z) (rows : list (list str)) : Prop :=
  forall r s, In r rows -> In s r -> no_nul s /\ (Z.of_nat (length s) <= limit)%Z.
