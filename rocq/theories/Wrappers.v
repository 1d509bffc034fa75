(** * Wrappers: clevercsv/wrappers.py (tables)

    The parts of the program that are modelled elsewhere or not at all are
    collected in an environment. *)
From Verif Require Import Base Parser Dialect CsvLib Reader Writer Files.

Record env := mk_env {
  e_registry : registry;                        (* csv.get_dialect *)
  e_codec : option str -> res pyexc codec;      (* encodings; None is the locale's *)
  e_get_encoding : bytes -> option str;         (* clevercsv/encoding.py *)
  e_detect : str -> res pyexc (option SimpleDialect);  (* Detector().detect(data) *)
  e_limit : Z                                   (* field_size_limit() *)
}.

(** A [dialect] argument that may be None. *)
Definition no_dialect : option dialect_arg := None.

(** Opening a file for reading and detecting its dialect, common to
    [stream_table] (clevercsv/wrappers.py:273-281), [stream_dicts] (91-97) and
    [detect_dialect] (395-397). *)
Definition open_text (E : env) (f : fs) (p : path) (encoding : option str)
  : res pyexc (codec * bytes) :=
  match f p with
  | None => Err OSError
  | Some b =>
      let enc := match encoding with None => e_get_encoding E b | e => e end in
      bind (e_codec E enc) (fun c => Ok (c, b))
  end.

(** clevercsv/wrappers.py:225-283 [stream_table], from the start to the
    creation of the reader.  A detected dialect is a new object. *)
Definition open_reader (E : env) (f : fs) (h : heap) (p : path) (dialect : option dialect_arg)
    (encoding : option str) (num_chars : option Z) : res pyexc reader * heap :=
  match open_text E f p encoding with
  | Err x => (Err x, h)
  | Ok (c, b) =>
      match dialect with
      | Some d => new_reader (e_registry E) h false (text_items c b) d []
      | None =>
          match bind (read_chars c b num_chars) (e_detect E) with
          | Err x => (Err x, h)
          | Ok None => (Err NoDetectionResult, h)
          | Ok (Some sd) =>
              new_reader (e_registry E) (h ++ [sd]) false (text_items c b) (DSimple (length h)) []
          end
      end
  end.

(** clevercsv/wrappers.py:225-283 [stream_table] / 166-222 [read_table]: the
    rows yielded, and the exception that ends the generator. *)
Definition stream_table (E : env) (f : fs) (h : heap) (p : path) (dialect : option dialect_arg)
    (encoding : option str) (num_chars : option Z) : list (list cell) * option pyexc :=
  match open_reader E f h p dialect encoding num_chars with
  | (Err x, _) => ([], Some x)
  | (Ok r, h') => reader_rows (e_limit E) h' r
  end.
Definition read_table (E : env) (f : fs) (h : heap) (p : path) (dialect : option dialect_arg)
    (encoding : option str) (num_chars : option Z) : res pyexc (list (list cell)) :=
  match stream_table E f h p dialect encoding num_chars with
  | (rows, None) => Ok rows
  | (_, Some x) => Err x
  end.

(** [encoding or get_encoding(filename)] (clevercsv/wrappers.py:395,
    clevercsv/console/commands/standardize.py:185): the empty string counts as
    not given. *)
Definition or_encoding (encoding : option str) : option str :=
  match encoding with Some [] => None | e => e end.

(** clevercsv/wrappers.py:350-401 [detect_dialect] with the default method. *)
Definition detect_dialect (E : env) (f : fs) (p : path) (encoding : option str) (num_chars : option Z)
  : res pyexc (option SimpleDialect) :=
  bind (open_text E f p (or_encoding encoding)) (fun '(c, b) =>
  bind (read_chars c b num_chars) (e_detect E)).

(** [list(map(list, zip(star table)))] where [zip] gets all rows: columns up to the length
    of the shortest row (clevercsv/wrappers.py:449). *)
Fixpoint zip_star {A} (rows : list (list A)) : list (list A) :=
  match rows with
  | [] => []
  | [r] => map (fun x => [x]) r
  | r :: rs => map (fun '(x, col) => x :: col) (zip r (zip_star rs))
  end.

(** The texts of the rows that can be written, and the exception after them. *)
Fixpoint row_texts (w : wdialect) (rows : list (list value)) : list str * option pyexc :=
  match rows with
  | [] => ([], None)
  | r :: rows' =>
      match writerow w r with
      | Err x => ([], Some x)
      | Ok t => let '(ts, x) := row_texts w rows' in (t :: ts, x)
      end
  end.

(** Writing the rows to an open text file: the text accepted, and the
    exception.  An encoding error comes first if it is at an earlier row. *)
Definition put_rows (c : codec) (w : wdialect) (rows : list (list value)) : str * option pyexc :=
  let '(ts, x) := row_texts w rows in
  let '(t, y) := put c [] ts in
  (t, match y with Some _ => y | None => x end).

(** [open(filename, "w", newline="", encoding=encoding)]: the file is created or
    truncated before the encoding is looked up. *)
Definition open_write (E : env) (f : fs) (p : path) (encoding : option str) : res pyexc codec * fs :=
  (e_codec E encoding, upd f p (Some [])).

(** clevercsv/wrappers.py:404-458 [write_table], for a list of lists: the file
    system afterwards and the exception. *)
Definition write_table (E : env) (f : fs) (h : heap) (table : list (list value)) (p : path)
    (dialect : dialect_arg) (transpose : bool) (encoding : option str) : fs * option pyexc :=
  match table with
  | [] => (f, None)
  | _ =>
      let list_table := if transpose then zip_star table else table in
      if Nat.ltb 1 (length (nodup Nat.eq_dec (map (@length value) list_table))) then (f, Some ValueError)
      else
        match open_write E f p encoding with
        | (Err x, f') => (f', Some x)
        | (Ok c, f') =>
            match new_writer (e_registry E) h dialect [] with
            | Err x => (f', Some x)
            | Ok w =>
                let '(t, x) := put_rows c w list_table in
                (upd f' p (Some (content c t)), x)
            end
        end
  end.
