(** * Writer: clevercsv/write.py *)
From Verif Require Import Base Parser Dialect CsvLib Reader.

(** Keyword arguments of the writer (clevercsv/write.py:70-72).  Unknown keys
    become unused class attributes ([WOther]). *)
Inductive wparam :=
| WDelimiter (s : option str)
| WQuotechar (s : option str)
| WEscapechar (s : option str)
| WDoublequote (b : bool)
| WSkipinitialspace (b : bool)
| WLineterminator (s : option str)
| WQuoting (q : quoting)
| WStrict (b : bool)
| WOther.

Definition set_wparam (d : csvdialect) (k : wparam) : csvdialect :=
  match d with
  | mk_csvdialect dl q e dq sk lt qt st =>
      match k with
      | WDelimiter s => mk_csvdialect s q e dq sk lt qt st
      | WQuotechar s => mk_csvdialect dl s e dq sk lt qt st
      | WEscapechar s => mk_csvdialect dl q s dq sk lt qt st
      | WDoublequote b => mk_csvdialect dl q e b sk lt qt st
      | WSkipinitialspace b => mk_csvdialect dl q e dq b lt qt st
      | WLineterminator s => mk_csvdialect dl q e dq sk s qt st
      | WQuoting x => mk_csvdialect dl q e dq sk lt x st
      | WStrict b => mk_csvdialect dl q e dq sk lt qt (Some b)
      | WOther => d
      end
  end.

(** clevercsv/write.py:54-80 [writer._make_python_dialect]: the attributes of
    the new dialect class. *)
Definition make_python_dialect (reg : registry) (h : heap) (dialect : dialect_arg)
    (fmtparams : list wparam) : res pyexc csvdialect :=
  bind (match dialect with
        | DName s => match reg s with Some d => Ok d | None => Err CsvError end
        | DCompiled d => Ok d
        | DSimple a => to_csv_dialect (deref h a)
        | DClass d => Ok d
        | DInstance _ | DOther => Err ValueError
        end) (fun d =>
  let props := fold_left set_wparam fmtparams d in
  Ok (match cv_lineterminator props with
      | None => set_wparam props (WLineterminator (Some [LF]))
      | Some _ => props
      end)).

(** clevercsv/write.py:42-52 [writer.__init__]: [_csv.writer] checks the
    dialect. *)
Definition new_writer (reg : registry) (h : heap) (dialect : dialect_arg)
    (fmtparams : list wparam) : res pyexc wdialect :=
  bind (make_python_dialect reg h dialect fmtparams) dialect_new.

(** clevercsv/write.py:82-86 [writerow] and 88-92 [writerows]: csv.Error is re-raised as
    clevercsv's Error. *)
Definition clever_exc (x : pyexc) : pyexc := match x with CsvError => WriteError | _ => x end.
Definition writerow (w : wdialect) (row : list value) : res pyexc str :=
  match csv_writerow w row with Ok t => Ok t | Err x => Err (clever_exc x) end.
(** The text that reached the file, and the exception. *)
Definition writerows (w : wdialect) (rows : list (list value)) : str * option pyexc :=
  let '(t, x) := csv_writerows w rows in (t, option_map clever_exc x).
