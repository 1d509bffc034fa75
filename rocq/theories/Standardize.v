(** * Standardize: clevercsv/console/commands/standardize.py *)
From Coq Require Import String.
From Verif Require Import Base Parser Dialect CsvLib Reader Writer Files Wrappers.

(** What else the command needs: a hash (clevercsv/utils.py:30-50, see Files.v)
    and a fresh temporary path ([tempfile.mkstemp]). *)
Record senv := mk_senv {
  s_env : env;
  s_sha1 : bytes -> str;
  s_mkstemp : fs -> path
}.

(** clevercsv/console/commands/standardize.py:49-113: the command line. *)
Record sargs := mk_sargs {
  a_paths : list path;
  a_encodings : list str;
  a_target : option str;
  a_in_place : bool;
  a_num_chars : option Z;
  a_outputs : list path;
  a_transpose : bool
}.

Definition excel : dialect_arg := DName (s2l "excel").

(** Cells of the reader as values for the writer. *)
Definition cell_value_of (x : cell) : value :=
  match x with CStr s => VStr s | CTuple s _ => VStr s end.

(** clevercsv/console/commands/standardize.py:200-238: the rows handed to [write.writerow], and the
    exception that ends reading (or creating the reader or writer).  The file
    is opened again here. *)
Definition source_rows (S : senv) (f : fs) (p : path) (dl : SimpleDialect) (encoding : option str)
    (transpose : bool) : list (list cell) * option pyexc :=
  let E := s_env S in
  match f p with
  | None => ([], Some OSError)
  | Some b =>
      match e_codec E encoding with
      | Err x => ([], Some x)
      | Ok c =>
          match new_reader (e_registry E) [dl] false (text_items c b) (DSimple 0) [] with
          | (Err x, _) => ([], Some x)
          | (Ok r, h) =>
              let '(rows, x) := reader_rows (e_limit E) h r in
              if transpose then match x with
                                | Some _ => ([], x)           (* list(read) raises *)
                                | None => (zip_star rows, None)
                                end
              else (rows, x)
          end
      end
  end.

(** clevercsv/console/commands/standardize.py:228-238 [_write_to_stream] onto a stream with a codec: the
    text the stream accepted and the exception. *)
Definition write_to_stream (S : senv) (f : fs) (p : path) (c : codec) (dl : SimpleDialect)
    (encoding : option str) (transpose : bool) : str * option pyexc :=
  match new_writer (e_registry (s_env S)) [] excel [] with
  | Err x => ([], Some x)
  | Ok w =>
      let '(rows, x) := source_rows S f p dl encoding transpose in
      let '(t, y) := put_rows c w (map (map cell_value_of) rows) in
      (t, match y with Some _ => y | None => x end)
  end.

Inductive exit :=
| Code (n : nat)
| Uncaught (x : pyexc).

(** clevercsv/console/commands/standardize.py:240-267 [_in_place]. *)
Definition in_place (S : senv) (f : fs) (p : path) (dl : SimpleDialect)
    (encoding target : option str) (transpose : bool) : exit * fs :=
  let tmp := s_mkstemp S f in
  let f1 := upd f tmp (Some []) in
  match e_codec (s_env S) target with
  | Err x => (Uncaught x, f1)
  | Ok c =>
      let '(t, x) := write_to_stream S f1 p c dl encoding transpose in
      let f2 := upd f1 tmp (Some (content c t)) in
      match x with
      | Some x => (Uncaught x, f2)
      | None =>
          match f2 p with
          | None => (Uncaught OSError, f2)
          | Some old =>
              if str_eqb (s_sha1 S old) (s_sha1 S (content c t))
              then (Code 0, upd f2 tmp None)
              else (Code 2, upd (upd f2 p (Some (content c t))) tmp None)
          end
      end
  end.

(** [io.StringIO(newline="")] accepts every text. *)
Definition stringio : codec := mk_codec (fun _ => ([], true)) (fun t => Some t).

(** clevercsv/console/commands/standardize.py:269-276 [_to_stdout]: also the text printed. *)
Definition to_stdout (S : senv) (f : fs) (p : path) (dl : SimpleDialect)
    (encoding : option str) (transpose : bool) : exit * str :=
  match write_to_stream S f p stringio dl encoding transpose with
  | (t, None) => (Code 0, t)
  | (_, Some x) => (Uncaught x, [])
  end.

(** clevercsv/console/commands/standardize.py:278-288 [_to_file]. *)
Definition to_file (S : senv) (f : fs) (p output : path) (dl : SimpleDialect)
    (encoding target : option str) (transpose : bool) : exit * fs :=
  match open_write (s_env S) f output target with
  | (Err x, f1) => (Uncaught x, f1)
  | (Ok c, f1) =>
      let '(t, x) := write_to_stream S f1 p c dl encoding transpose in
      (match x with Some x => Uncaught x | None => Code 0 end, upd f1 output (Some (content c t)))
  end.

(** clevercsv/console/commands/standardize.py:176-198 [handle_path]: the exit code, the file system and
    what is printed to stdout. *)
Definition handle_path (S : senv) (A : sargs) (f : fs) (p : path) (output : option path)
    (encoding : option str) : exit * fs * str :=
  match f p with
  | None => (Uncaught OSError, f, [])
  | Some b =>
      let encoding := match or_encoding encoding with
                      | None => e_get_encoding (s_env S) b | e => e end in
      let target := match or_encoding (a_target A) with None => encoding | e => e end in
      match detect_dialect (s_env S) f p encoding (a_num_chars A) with
      | Err x => (Uncaught x, f, [])
      | Ok None => (Code 1, f, [])
      | Ok (Some dl) =>
          if a_in_place A then
            let '(c, f') := in_place S f p dl encoding target (a_transpose A) in (c, f', [])
          else
            match output with
            | None => let '(c, t) := to_stdout S f p dl encoding (a_transpose A) in (c, f, t)
            | Some o =>
                let '(c, f') := to_file S f p o dl encoding target (a_transpose A) in (c, f', [])
            end
      end
  end.

(** clevercsv/console/commands/standardize.py:160-174: the loop over the files. *)
Fixpoint handle_loop (S : senv) (A : sargs) (f : fs) (global : nat)
    (jobs : list (path * (option path * option str))) : exit * fs * str :=
  match jobs with
  | [] => (Code global, f, [])
  | (p, (o, e)) :: jobs' =>
      match handle_path S A f p o e with
      | (Uncaught x, f', t) => (Uncaught x, f', t)
      | (Code n, f', t) =>
          let global' := if Nat.ltb 0 n && Nat.eqb global 0 then n else global in
          if Nat.eqb n 1 then (Code 1, f', t)
          else
            let '(c, f'', t') := handle_loop S A f' global' jobs' in (c, f'', t ++ t')
      end
  end.

(** clevercsv/console/commands/standardize.py:115-174 [handle]. *)
Definition handle (S : senv) (A : sargs) (f : fs) : exit * fs * str :=
  let n := List.length (a_paths A) in
  if a_in_place A && negb (Nat.eqb (List.length (a_outputs A)) 0) then (Code 1, f, [])
  else
    let outputs := match a_outputs A with [] => repeat None n | os => map Some os end in
    if negb (a_in_place A) && negb (Nat.eqb (List.length outputs) n) then (Code 1, f, [])
    else
      let encs := match a_encodings A with [] => repeat None n | es => map Some es end in
      match (match encs with
             | [e] => Some (repeat e n)
             | _ => if Nat.eqb (List.length encs) n then Some encs else None
             end) with
      | None => (Code 1, f, [])
      | Some encs => handle_loop S A f 0 (zip (a_paths A) (zip outputs encs))
      end.
