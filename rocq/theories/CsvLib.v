(** * CsvLib: the parts of CPython's csv module that CleverCSV calls

    CleverCSV's writer is a thin wrapper over CPython's [_csv.writer], and its
    dialect conversions go through [csv.Dialect] and [csv.get_dialect].  This
    file models those pieces of CPython 3.11.10 ([Modules/_csv.c] and
    [Lib/csv.py], which are not in /repo); it is part of the trusted base. *)
From Coq Require Import String.
From Verif Require Import Base Parser Dialect.

(** The QUOTE_* constants. *)
Inductive quoting := QUOTE_MINIMAL | QUOTE_ALL | QUOTE_NONNUMERIC | QUOTE_NONE.

(** The attributes of a [csv.Dialect] (sub)class or instance, or of a
    [_csv.Dialect] object, which all have the same meaning.  [None] is Python's
    None, except for [cv_strict], where [None] is a missing attribute (the
    class [csv.Dialect] has no [strict]). *)
Record csvdialect := mk_csvdialect {
  cv_delimiter : option str;
  cv_quotechar : option str;
  cv_escapechar : option str;
  cv_doublequote : bool;
  cv_skipinitialspace : bool;
  cv_lineterminator : option str;
  cv_quoting : quoting;
  cv_strict : option bool
}.

(** Lib/csv.py: the registered dialects [excel], [excel-tab] and [unix], as
    returned by [csv.get_dialect] (which fills in [strict]). *)
Definition excel_csv : csvdialect :=
  mk_csvdialect (Some [COMMA]) (Some [DQ]) None true false (Some [CR; LF]) QUOTE_MINIMAL (Some false).
Definition excel_tab_csv : csvdialect :=
  mk_csvdialect (Some [TAB]) (Some [DQ]) None true false (Some [CR; LF]) QUOTE_MINIMAL (Some false).
Definition unix_csv : csvdialect :=
  mk_csvdialect (Some [COMMA]) (Some [DQ]) None true false (Some [LF]) QUOTE_ALL (Some false).

(** [csv.get_dialect]: [None] stands for [_csv.Error("unknown dialect")].
    Other names can be registered by the user, so functions take the registry
    as a parameter; this is the initial one. *)
Definition registry := str -> option csvdialect.
Definition std_registry : registry := fun name =>
  if str_eqb name (s2l "excel") then Some excel_csv
  else if str_eqb name (s2l "excel-tab") then Some excel_tab_csv
  else if str_eqb name (s2l "unix") then Some unix_csv
  else None.

(** [Modules/_csv.c] [DialectObj] after the checks of [dialect_new]: [wd_quote]
    and [wd_escape] are [None] for NOT_SET. *)
Record wdialect := mk_wdialect {
  wd_delim : N;
  wd_quote : option N;
  wd_escape : option N;
  wd_doublequote : bool;
  wd_skipspace : bool;
  wd_term : str;
  wd_quoting : quoting
}.

(** [_set_char_or_none]: None is not set; a string must have length one. *)
Definition char_or_none (f : option str) : res pyexc (option N) :=
  match f with
  | None => Ok None
  | Some [c] => Ok (Some c)
  | Some _ => Err TypeError
  end.

(** [dialect_new] (the checks are all TypeErrors). *)
Definition dialect_new (d : csvdialect) : res pyexc wdialect :=
  match cv_delimiter d with
  | Some [dc] =>
      bind (char_or_none (cv_quotechar d)) (fun q =>
      bind (char_or_none (cv_escapechar d)) (fun e =>
      match cv_quoting d, q with
      | QUOTE_NONE, _ | _, Some _ =>
          match cv_lineterminator d with
          | Some t => Ok (mk_wdialect dc q e (cv_doublequote d) (cv_skipinitialspace d) t (cv_quoting d))
          | None => Err TypeError
          end
      | _, None => Err TypeError
      end))
  | _ => Err TypeError
  end.

(** Lib/csv.py [Dialect.__init__] / [_validate] of a subclass: a TypeError of
    [_Dialect(self)] becomes [csv.Error]. *)
Definition csv_Dialect_init (d : csvdialect) : res pyexc csvdialect :=
  match dialect_new d with
  | Ok _ => Ok d
  | Err _ => Err CsvError
  end.

(** ** [_csv.writer] *)

(** A value passed to [writerow]: a string, None, or a number given by its
    [str()].  Other objects behave like strings with their [str()]. *)
Inductive value :=
| VStr (s : str)
| VNone
| VNum (s : str).

Definition value_str (v : value) : str :=
  match v with VStr s => s | VNone => [] | VNum s => s end.

Section Write.
  Variable w : wdialect.

  Definition opt_is (o : option N) (c : N) : bool :=
    match o with Some x => (c =? x)%N | None => false end.

  (** [join_append_data]: the test for characters that need care. *)
  Definition w_special (c : N) : bool :=
    (c =? wd_delim w)%N || opt_is (wd_escape w) c || opt_is (wd_quote w) c ||
    (c =? LF)%N || (c =? CR)%N || mem_char c (wd_term w).

  (** [join_append_data]: one character; whether it needs an escape, whether
      the quote is doubled, and whether it makes the field quoted. *)
  Definition w_char (quoted : bool) (c : N) : res pyexc (str * bool) :=
    if w_special c then
      let '(pre, want_escape, quoted') :=
        match wd_quoting w with
        | QUOTE_NONE => ([], true, quoted)
        | _ =>
            if opt_is (wd_quote w) c then
              if wd_doublequote w then ([c], false, true) else ([], true, quoted)
            else if opt_is (wd_escape w) c then ([], true, quoted)
            else ([], false, true)
        end in
      if want_escape then
        match wd_escape w with
        | None => Err CsvError
        | Some e => Ok (pre ++ [e; c], quoted')
        end
      else Ok (pre ++ [c], quoted')
    else Ok ([c], quoted).

  Fixpoint w_field (quoted : bool) (s : str) : res pyexc (str * bool) :=
    match s with
    | [] => Ok ([], quoted)
    | c :: s' =>
        bind (w_char quoted c) (fun '(t, q) =>
        bind (w_field q s') (fun '(t', q') => Ok (t ++ t', q')))
    end.

  (** [join_append] for the [n]-th field; the two phases are merged. *)
  Definition w_quote_str : str := match wd_quote w with Some q => [q] | None => [] end.
  (** An empty field behind a space delimiter with [skipinitialspace] must be
      quoted. *)
  Definition w_empty (quoted : bool) (s : str) : res pyexc bool :=
    match s with
    | [] =>
        if (wd_delim w =? SPACE)%N && wd_skipspace w then
          match wd_quoting w with QUOTE_NONE => Err CsvError | _ => Ok true end
        else Ok quoted
    | _ => Ok quoted
    end.
  Definition w_append (first quoted : bool) (s : str) : res pyexc str :=
    bind (w_empty quoted s) (fun quoted =>
    bind (w_field quoted s) (fun '(t, q) =>
    Ok ((if first then [] else [wd_delim w]) ++
        (if q then w_quote_str ++ t ++ w_quote_str else t)))).

  (** [csv_writerow]: the initial value of [quoted]. *)
  Definition w_quoted (v : value) : bool :=
    match wd_quoting w, v with
    | QUOTE_ALL, _ => true
    | QUOTE_NONNUMERIC, VNum _ => false
    | QUOTE_NONNUMERIC, _ => true
    | _, _ => false
    end.

  Fixpoint w_fields (first : bool) (row : list value) : res pyexc str :=
    match row with
    | [] => Ok []
    | v :: row' =>
        bind (w_append first (w_quoted v) (value_str v)) (fun t =>
        bind (w_fields false row') (fun t' => Ok (t ++ t')))
    end.

  (** [csv_writerow]: the text appended to the file. *)
  Definition csv_writerow (row : list value) : res pyexc str :=
    bind (w_fields true row) (fun t =>
    match row, t with
    | _ :: _, [] =>
        match wd_quoting w with
        | QUOTE_NONE => Err CsvError
        | _ => Ok (w_quote_str ++ w_quote_str ++ wd_term w)
        end
    | _, _ => Ok (t ++ wd_term w)
    end).

  (** [csv_writerows]: the text written, and the error that stopped it. *)
  Fixpoint csv_writerows (rows : list (list value)) : str * option pyexc :=
    match rows with
    | [] => ([], None)
    | r :: rows' =>
        match csv_writerow r with
        | Err x => ([], Some x)
        | Ok t => let '(t', x) := csv_writerows rows' in (t ++ t', x)
        end
    end.
End Write.
