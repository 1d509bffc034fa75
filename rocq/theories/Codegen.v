(** * Codegen: clevercsv/console/commands/_utils.py and code.py *)
From Coq Require Import String.
From Verif Require Import Base Parser Dialect CsvLib Reader Files Wrappers.

(** Text of a replacement field in a format string for a string or None. *)
Definition fmt (x : option str) : str := match x with Some s => s | None => s2l "None" end.

(** Every double quote gets a backslash. *)
Definition escape_dq (s : str) : str := flat_map (fun c => if (c =? DQ)%N then [BACKSLASH; DQ] else [c]) s.
(** Every single quote becomes a double quote. *)
Definition sq_to_dq (s : str) : str := map (fun c => if (c =? SQ)%N then DQ else c) s.

(** Lower case hexadecimal, [n] digits. *)
Definition hex_char (v : N) : N := if (v <? 10)%N then (48 + v)%N else (87 + v)%N.
Fixpoint hex_digits (n : nat) (v : N) : str :=
  match n with
  | 0%nat => []
  | S k => hex_digits k (v / 16)%N ++ [hex_char (v mod 16)]
  end.

(** CPython 3.11 Objects/unicodeobject.c [unicode_repr], one character between
    quotes [q].  [printable] tells which characters from U+007F on are
    printable ([str.isprintable]). *)
Definition repr_char (printable : N -> bool) (q c : N) : str :=
  if ((c =? q) || (c =? BACKSLASH))%N then [BACKSLASH; c]
  else if (c =? TAB)%N then [BACKSLASH; 116%N]
  else if (c =? LF)%N then [BACKSLASH; 110%N]
  else if (c =? CR)%N then [BACKSLASH; 114%N]
  else if ((c <? 32) || (c =? 127))%N then [BACKSLASH; 120%N] ++ hex_digits 2 c
  else if (c <? 127)%N then [c]
  else if printable c then [c]
  else if (c <=? 255)%N then [BACKSLASH; 120%N] ++ hex_digits 2 c
  else if (c <=? 65535)%N then [BACKSLASH; 117%N] ++ hex_digits 4 c
  else [BACKSLASH; 85%N] ++ hex_digits 8 c.
(** [repr(s)]: single quotes, unless the text has single but no double quotes. *)
Definition repr (printable : N -> bool) (s : str) : str :=
  let q := if existsb (N.eqb SQ) s && negb (existsb (N.eqb DQ) s) then DQ else SQ in
  q :: flat_map (repr_char printable q) s ++ [q].

(** clevercsv/__version__.py *)
Definition version : str := s2l "0.8.5".

(** clevercsv/console/commands/_utils.py:23-58 [generate_code].  Strings of the
    dialect's attributes may have any length. *)
Definition generate_code (printable : N -> bool) (filename : str) (dialect : SimpleDialect)
    (encoding : option str) (use_pandas : bool) : res pyexc (list str) :=
  match sd_quotechar dialect with
  | None => Err AssertionError
  | Some quotechar =>
      let tab := match sd_delimiter dialect with Some s => str_eqb s [TAB] | None => false end in
      let d := if tab then [DQ; BACKSLASH; 116%N; DQ] else DQ :: fmt (sd_delimiter dialect) ++ [DQ] in
      let q := DQ :: escape_dq quotechar ++ [DQ] in
      let e := sq_to_dq (repr printable (fmt (sd_escapechar dialect))) in
      let base := [ []; s2l "# Code generated with CleverCSV version " ++ version; []; s2l "import clevercsv" ] in
      if use_pandas then
        Ok (base ++
          [ [];
            s2l "df = clevercsv.read_dataframe(""" ++ filename ++ s2l """, delimiter=" ++ d ++ s2l ", " ++
            s2l "quotechar=" ++ q ++ s2l ", escapechar=" ++ e ++ s2l ")";
            [] ])
      else
        let enc := match encoding with None => s2l "None" | Some x => DQ :: x ++ [DQ] end in
        Ok (base ++
          [ [];
            s2l "with open(""" ++ filename ++ s2l """, ""r"", newline="""", encoding=" ++ enc ++ s2l ") as fp:";
            s2l "    reader = clevercsv.reader(fp, " ++
            s2l "delimiter=" ++ d ++ s2l ", quotechar=" ++ q ++ s2l ", escapechar=" ++ e ++ s2l ")";
            s2l "    rows = list(reader)";
            [] ])
  end.

(** How the command ends: printed lines and exit code, or an exception. *)
Inductive outcome :=
| Printed (lines : list str) (code : nat)
| Raised (x : pyexc).

(** clevercsv/console/commands/_utils.py:11-20 [parse_int] for an option of the
    command line; [int_of s] is [int(s)], [None] for a ValueError.  (On the
    command line argparse has converted the option before, [type=int].) *)
Definition parse_int (int_of : str -> option Z) (val : option str) : res pyexc (option Z) :=
  match val with
  | None => Ok None
  | Some s => match int_of s with Some z => Ok (Some z) | None => Err ValueError end
  end.

(** clevercsv/console/commands/code.py:60-78 [CodeCommand.handle].  [locate]
    finds the file of a name; the message of a failed detection goes to stderr. *)
Definition code_command (E : env) (printable : N -> bool) (int_of : str -> option Z) (locate : str -> path)
    (f : fs) (filename : str) (encoding : option str) (num_chars : option str) (pandas : bool) : outcome :=
  let p := locate filename in
  match
    match or_encoding encoding with
    | Some e => Ok (Some e)
    | None => match f p with Some b => Ok (e_get_encoding E b) | None => Err OSError end
    end with
  | Err x => Raised x
  | Ok encoding =>
      match parse_int int_of num_chars with
      | Err x => Raised x
      | Ok n =>
          match detect_dialect E f p encoding n with
          | Err x => Raised x
          | Ok None => Printed [] 1
          | Ok (Some dialect) =>
              match generate_code printable filename dialect encoding pandas with
              | Err x => Raised x
              | Ok lines => Printed lines 0
              end
          end
      end
  end.
