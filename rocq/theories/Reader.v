(** * Reader: clevercsv/read.py and the dialect conversions it uses *)
From Verif Require Import Base Parser Dialect CsvLib.

(** ** Conversions (clevercsv/dialect.py) *)

(** clevercsv/dialect.py:95-103 [SimpleDialect.from_csv_dialect]. *)
Definition from_csv_dialect (d : csvdialect) : res pyexc SimpleDialect :=
  let delimiter := match cv_delimiter d with None => Some [] | s => s end in
  let quotechar := match cv_quoting d with QUOTE_NONE => Some [] | _ => cv_quotechar d end in
  let escapechar := match cv_escapechar d with None => Some [] | s => s end in
  match cv_strict d with
  | None => Err AttributeError
  | Some b => Ok (mk_dialect delimiter quotechar escapechar b)
  end.

(** clevercsv/dialect.py:105-120 [SimpleDialect.to_csv_dialect]: the attributes
    of the local class... *)
Definition csv_attrs (sd : SimpleDialect) : csvdialect :=
  mk_csvdialect (sd_delimiter sd)
    (match sd_quotechar sd with Some [] => Some [DQ] | q => q end)
    (match sd_escapechar sd with Some [] => None | e => e end)
    true false (Some [LF])
    (match sd_quotechar sd with Some [] => QUOTE_NONE | _ => QUOTE_MINIMAL end)
    None.
(** ... and its instance. *)
Definition to_csv_dialect (sd : SimpleDialect) : res pyexc csvdialect :=
  match sd_delimiter sd with
  | None => Err AssertionError
  | Some _ => csv_Dialect_init (csv_attrs sd)
  end.

(** ** Objects

    SimpleDialect objects are mutable and shared, so they live in a heap. *)
Definition heap := list SimpleDialect.
Definition addr := nat.
Definition deref (h : heap) (a : addr) : SimpleDialect := nth a h (dialect3 [] [] []).
Fixpoint store (h : heap) (a : addr) (d : SimpleDialect) : heap :=
  match h, a with
  | [], _ => []
  | _ :: h', O => d :: h'
  | x :: h', S a' => x :: store h' a' d
  end.

(** What can be passed as [dialect]: a name, an instance of (a subclass of)
    [csv.Dialect], a [_csv.Dialect] object (from [csv.get_dialect]), one of the
    classes [csv.excel], [csv.excel_tab], [csv.unix_dialect] (given by its
    attributes), a SimpleDialect object, or anything else. *)
Inductive dialect_arg :=
| DName (name : str)
| DInstance (d : csvdialect)
| DCompiled (d : csvdialect)
| DClass (d : csvdialect)
| DSimple (a : addr)
| DOther.

(** Keyword arguments the reader looks at (clevercsv/read.py:55-57); any other
    keyword is [KOther] and ignored.  A value of None is possible. *)
Inductive fmtparam :=
| KDelimiter (s : option str)
| KQuotechar (s : option str)
| KEscapechar (s : option str)
| KStrict (b : bool)
| KOther.

Definition set_param (sd : SimpleDialect) (k : fmtparam) : SimpleDialect :=
  match k with
  | KDelimiter s => mk_dialect s (sd_quotechar sd) (sd_escapechar sd) (sd_strict sd)
  | KQuotechar s => mk_dialect (sd_delimiter sd) s (sd_escapechar sd) (sd_strict sd)
  | KEscapechar s => mk_dialect (sd_delimiter sd) (sd_quotechar sd) s (sd_strict sd)
  | KStrict b => mk_dialect (sd_delimiter sd) (sd_quotechar sd) (sd_escapechar sd) b
  | KOther => sd
  end.

(** clevercsv/read.py:44-59 [reader._make_simple_dialect]: the address of the
    dialect object the reader keeps, and the heap afterwards.  For a
    SimpleDialect argument that is the caller's object. *)
Definition make_simple_dialect (reg : registry) (h : heap) (dialect : dialect_arg)
    (fmtparams : list fmtparam) : res pyexc addr * heap :=
  let '(start, h1) :=
    match dialect with
    | DName s =>
        match reg s with
        | None => (Err CsvError, h)
        | Some d =>
            match from_csv_dialect d with
            | Err x => (Err x, h)
            | Ok sd => (Ok (length h), h ++ [sd])
            end
        end
    | DInstance d =>
        match from_csv_dialect d with
        | Err x => (Err x, h)
        | Ok sd => (Ok (length h), h ++ [sd])
        end
    | DSimple a => (Ok a, h)
    | DCompiled _ | DClass _ | DOther => (Err ValueError, h)
    end in
  match start with
  | Err x => (Err x, h1)
  | Ok a =>
      let sd := fold_left set_param fmtparams (deref h1 a) in
      let h2 := store h1 a sd in
      if validate sd then (Ok a, h2) else (Err ValueError, h2)
  end.

(** clevercsv/read.py:27-38: a reader object.  [csvfile] is an iterator ([None]:
    iterating again continues where it was) or a re-iterable sequence
    ([Some items]: iterating again starts over).  [r_rest] is the unread part of
    the iterator in use. *)
Record reader := mk_reader {
  r_seq : option (list item);
  r_rest : list item;
  r_dialect : addr;
  r_line_num : nat;
  r_parser : option (pconf * pobj membuf)
}.

(** clevercsv/read.py:28-38 [reader.__init__] *)
Definition new_reader (reg : registry) (h : heap) (seq : bool) (csvfile : list item)
    (dialect : dialect_arg) (fmtparams : list fmtparam) : res pyexc reader * heap :=
  let '(a, h') := make_simple_dialect reg h dialect fmtparams in
  match a with
  | Err x => (Err x, h')
  | Ok a => (Ok (mk_reader (if seq then Some csvfile else None) csvfile a 0 None), h')
  end.

(** clevercsv/read.py:61-70 [reader.__iter__], with the current value of
    [field_size_limit()] and the current dialect objects. *)
Definition reader_iter (limit : Z) (h : heap) (r : reader) : res pyexc reader :=
  let sd := deref h (r_dialect r) in
  bind (make_conf limit (sd_delimiter sd) (sd_quotechar sd) (sd_escapechar sd) (sd_strict sd) false)
  (fun cf =>
    Ok (mk_reader (r_seq r)
          (match r_seq r with Some items => items | None => r_rest r end)
          (r_dialect r) (r_line_num r) (Some (cf, new_parser)))).

(** What [next(reader)] does: return a row, or raise. *)
Inductive next_result :=
| NRow (row : list cell)
| NStop
| NRaise (x : pyexc).

(** clevercsv/read.py:72-81 [reader.__next__]. *)
Definition reader_next (limit : Z) (h : heap) (r : reader) : next_result * reader :=
  match (match r_parser r with Some _ => Ok r | None => reader_iter limit h r end) with
  | Err x => (NRaise x, r)
  | Ok r =>
      match r_parser r with
      | None => (NRaise AssertionError, r)
      | Some (cf, o) =>
          let '(out, o', rest) := iternext mem_ops cf o (r_rest r) in
          let r' n := mk_reader (r_seq r) rest (r_dialect r) n (Some (cf, o')) in
          match out with
          | Row row => (NRow row, r' (S (r_line_num r)))
          | Stop => (NStop, r' (r_line_num r))
          | Raise EIter => (NRaise InputExc, r' (r_line_num r))
          | Raise e => (NRaise (CleverError e), r' (r_line_num r))
          end
      end
  end.

(** The rows of [for row in reader] / [list(reader)]: [iter(reader)] and then
    [next] until it stops.  [fuel] bounds the number of calls. *)
Fixpoint reader_drain (fuel : nat) (limit : Z) (h : heap) (r : reader)
  : list (list cell) * option pyexc :=
  match fuel with
  | O => ([], Some Diverged)
  | S f =>
      match reader_next limit h r with
      | (NRow row, r') => let '(rows, e) := reader_drain f limit h r' in (row :: rows, e)
      | (NStop, _) => ([], None)
      | (NRaise x, _) => ([], Some x)
      end
  end.
Definition reader_rows (limit : Z) (h : heap) (r : reader) : list (list cell) * option pyexc :=
  match reader_iter limit h r with
  | Err x => ([], Some x)
  | Ok r => reader_drain (S (length (r_rest r))) limit h r
  end.
