(** * Dialect: SimpleDialect and the Python entry points of the parser *)
From Verif Require Import Base Parser.

(** The Python exceptions that occur in the model. *)
Inductive pyexc :=
| CleverError (e : perr)      (* clevercsv.exceptions.Error wrapping a parser error *)
| InputExc                    (* an exception raised by the input iterator *)
| ValueError
| TypeError
| OverflowError
| JSONDecodeError
| RecursionError
| AttributeError
| KeyError
| IndexError
| StopIteration
| AssertionError
| UnicodeEncodeError
| LookupError                 (* unknown encoding *)
| OSError                     (* e.g. FileNotFoundError *)
| ImportError
| NoDetectionResult           (* clevercsv.exceptions.NoDetectionResult *)
| CsvError                    (* _csv.Error *)
| WriteError                  (* clevercsv.exceptions.Error wrapping _csv.Error *)
| Diverged.                   (* model artefact: fuel exhausted; never reached *)

(** clevercsv/dialect.py:28-63 [SimpleDialect].  [None] is Python's None.  The
    strict attribute is a bool. *)
Record SimpleDialect := mk_dialect {
  sd_delimiter : option str;
  sd_quotechar : option str;
  sd_escapechar : option str;
  sd_strict : bool
}.

(** A dialect given by three strings. *)
Definition dialect3 (d q e : str) : SimpleDialect :=
  mk_dialect (Some d) (Some q) (Some e) false.

(** clevercsv/dialect.py:65-84 [validate]: true when no ValueError is raised. *)
Definition field_valid (f : option str) : bool :=
  match f with None => false | Some s => Nat.leb (length s) 1 end.
Definition validate (d : SimpleDialect) : bool :=
  field_valid (sd_delimiter d) && field_valid (sd_quotechar d) && field_valid (sd_escapechar d).

(** src/cparser.c:126-153 [_set_char]: None and "" become NUL, a longer string
    is a TypeError. *)
Definition set_char (f : option str) : res pyexc N :=
  match f with
  | None | Some [] => Ok 0%N
  | Some [c] => Ok c
  | Some (_ :: _ :: _) => Err TypeError
  end.

(** src/cparser.c:665-674: the attributes of the parser object.  The limit is
    assumed to fit a C [long]. *)
Definition make_conf (limit : Z) (d q e : option str) (strict rq : bool) : res pyexc pconf :=
  bind (set_char d) (fun d => bind (set_char q) (fun q => bind (set_char e) (fun e =>
  Ok (mk_pconf d q e limit strict rq)))).

(** clevercsv/cparser_util.py:66-70: parser errors are re-raised as
    clevercsv's Error; other exceptions pass through. *)
Definition py_ending (e : ending) : option pyexc :=
  match e with
  | Done => None
  | Raised EIter => Some InputExc
  | Raised e => Some (CleverError e)
  | OutOfFuel => Some Diverged
  end.

(** clevercsv/cparser_util.py:49-70 [_parse_data], for the value of
    [field_size_limit()] in force when the generator is started: the rows
    yielded and the exception that ends the iteration ([None]: exhausted). *)
Definition parse_data_ (limit : Z) (input : list item) (d q e : option str) (strict rq : bool)
  : list (list cell) * option pyexc :=
  match make_conf limit d q e strict rq with
  | Err x => ([], Some x)
  | Ok cf => let '(rows, en) := parse_items cf input in (rows, py_ending en)
  end.

Definition or_else {A} (o : option A) (d : A) : A :=
  match o with Some a => a | None => d end.

(** clevercsv/cparser_util.py:73-139 [parse_data]. *)
Definition parse_data (limit : Z) (input : list item) (dialect : option SimpleDialect)
    (delimiter quotechar escapechar : option str) (strict : option bool) (rq : bool)
  : list (list cell) * option pyexc :=
  let dl := or_else dialect (dialect3 [] [] []) in
  parse_data_ limit input
    (match delimiter with Some s => Some s | None => sd_delimiter dl end)
    (match quotechar with Some s => Some s | None => sd_quotechar dl end)
    (match escapechar with Some s => Some s | None => sd_escapechar dl end)
    (or_else strict (sd_strict dl)) rq.

(** clevercsv/cparser_util.py:142-152 [parse_string]. *)
Definition parse_string (limit : Z) (data : str) (dl : SimpleDialect) (rq : bool)
  : list (list cell) * option pyexc :=
  parse_data limit (map ILine (univ_lines data)) (Some dl) None None None None rq.
