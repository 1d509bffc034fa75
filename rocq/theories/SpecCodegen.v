(** * SpecCodegen: reading the generated program

    A reader for the Python programs that generate_code writes: the fixed words
    are matched literally and the string literals are evaluated by the rules of
    the Python reference, section 2.4.1. *)
From Coq Require Import String.
From Verif Require Import Base Parser Dialect CsvLib Reader Files Wrappers.

Definition hex_value (c : N) : option N :=
  if ((48 <=? c) && (c <=? 57))%N then Some (c - 48)%N
  else if ((65 <=? c) && (c <=? 70))%N then Some (c - 55)%N
  else if ((97 <=? c) && (c <=? 102))%N then Some (c - 87)%N
  else None.
(** The number written with the next [n] hexadecimal digits. *)
Fixpoint hex_number (n : nat) (v : N) (s : str) : option N :=
  match n, s with
  | 0%nat, _ => Some v
  | S k, c :: r => match hex_value c with Some x => hex_number k (16 * v + x)%N r | None => None end
  | S _, [] => None
  end.
Definition octal (c : N) : bool := ((48 <=? c) && (c <=? 55))%N.

(** Escapes of one letter. *)
Definition letter_escape (c : N) : option N :=
  option_map snd (find (fun p => (fst p =? c)%N)
    [(92, 92); (39, 39); (34, 34); (97, 7); (98, 8); (102, 12); (110, 10); (114, 13); (116, 9); (118, 11)]%N).

(** The text of a string between quotes [quote], from behind the opening quote:
    its value and what follows the closing quote.  [None]: not a string of this
    kind.  [skip] characters belong to an escape already evaluated.  An unknown
    escape stands for itself; named characters (backslash N) are not read. *)
Fixpoint string_rest (quote : N) (skip : nat) (s : str) : option (str * str) :=
  let yield c r := match r with Some (v, rest) => Some (c :: v, rest) | None => None end in
  match s with
  | [] => None
  | c :: r =>
      match skip with
      | S k => string_rest quote k r
      | 0%nat =>
          if (c =? quote)%N then Some ([], r)
          else if ((c =? LF) || (c =? CR) || (c =? NUL))%N then None
          else if (c =? BACKSLASH)%N then
            match r with
            | [] => None
            | e :: r' =>
                match letter_escape e with
                | Some v => yield v (string_rest quote 1 r)
                | None =>
                    if octal e then
                      match r' with
                      | x :: y :: _ =>
                          if octal x && octal y then yield (64 * (e - 48) + 8 * (x - 48) + (y - 48))%N (string_rest quote 3 r)
                          else if octal x then yield (8 * (e - 48) + (x - 48))%N (string_rest quote 2 r)
                          else yield (e - 48)%N (string_rest quote 1 r)
                      | [x] =>
                          if octal x then yield (8 * (e - 48) + (x - 48))%N (string_rest quote 2 r)
                          else yield (e - 48)%N (string_rest quote 1 r)
                      | [] => yield (e - 48)%N (string_rest quote 1 r)
                      end
                    else if (e =? 120)%N then
                      match hex_number 2 0 r' with Some v => yield v (string_rest quote 3 r) | None => None end
                    else if (e =? 117)%N then
                      match hex_number 4 0 r' with Some v => yield v (string_rest quote 5 r) | None => None end
                    else if (e =? 85)%N then
                      match hex_number 8 0 r' with
                      | Some v => if (v <=? 1114111)%N then yield v (string_rest quote 9 r) else None
                      | None => None
                      end
                    else if (e =? 78)%N then None
                    else if (e =? NUL)%N then None
                    else if (e =? LF)%N then string_rest quote 1 r
                    else if (e =? CR)%N then
                      match r' with x :: _ => string_rest quote (if (x =? LF)%N then 2 else 1) r | [] => None end
                    else yield BACKSLASH (string_rest quote 0 r)
                end
            end
          else yield c (string_rest quote 0 r)
      end
  end.
(** A literal in single or double quotes.  Three quotes would start a string
    over several lines; these are not read. *)
Definition string_literal (s : str) : option (str * str) :=
  match s with
  | a :: r =>
      if ((a =? DQ) || (a =? SQ))%N then
        match r with
        | b :: c :: _ => if ((b =? a) && (c =? a))%N then None else string_rest a 0 r
        | _ => string_rest a 0 r
        end
      else None
  | [] => None
  end.

(** The rest of [s] behind the words [w]. *)
Fixpoint after (w s : str) : option str :=
  match w, s with
  | [], _ => Some s
  | a :: w', b :: s' => if (a =? b)%N then after w' s' else None
  | _ :: _, [] => None
  end.
(** Words, a literal, words, a literal, ...: the values, and the rest. *)
Fixpoint fields (words : list str) (s : str) : option (list str * str) :=
  match words with
  | [] => Some ([], s)
  | w :: ws =>
      match after w s with
      | None => None
      | Some s =>
          match string_literal s with
          | None => None
          | Some (v, s) => match fields ws s with Some (vs, s) => Some (v :: vs, s) | None => None end
          end
      end
  end.

(** The three arguments of a call, from a line [head delimiter=..., quotechar=...,
    escapechar=...)]. *)
Definition arguments (head : str) (line : str) : option (str * str * str) :=
  match fields [head ++ s2l "delimiter="; s2l ", quotechar="; s2l ", escapechar="] line with
  | Some ([d; q; e], [41%N]) => Some (d, q, e)
  | _ => None
  end.

(** What a generated program does. *)
Inductive program :=
| ReadRows (filename : str) (encoding : option str) (d q e : str)
| ReadFrame (filename : str) (d q e : str).

Definition heading : list str :=
  [ []; s2l "# Code generated with CleverCSV version 0.8.5"; []; s2l "import clevercsv"; [] ].

(** The line that opens the file, with mode r, newline "" and an encoding. *)
Definition open_line (line : str) : option (str * option str) :=
  match fields [s2l "with open("; s2l ", "; s2l ", newline="] line with
  | Some ([name; mode; newline], rest) =>
      if str_eqb mode (s2l "r") && str_eqb newline [] then
        if str_eqb rest (s2l ", encoding=None) as fp:") then Some (name, None)
        else match fields [s2l ", encoding="] rest with
             | Some ([enc], rest) => if str_eqb rest (s2l ") as fp:") then Some (name, Some enc) else None
             | _ => None
             end
      else None
  | _ => None
  end.

Definition program_of (lines : list str) : option program :=
  if list_eqb str_eqb (firstn 5 lines) heading then
    match skipn 5 lines with
    | [l1; l2; l3; l4] =>
        if str_eqb l3 (s2l "    rows = list(reader)") && str_eqb l4 [] then
          match open_line l1, arguments (s2l "    reader = clevercsv.reader(fp, ") l2 with
          | Some (name, enc), Some (d, q, e) => Some (ReadRows name enc d q e)
          | _, _ => None
          end
        else None
    | [l1; l2] =>
        if str_eqb l2 [] then
          match fields [s2l "df = clevercsv.read_dataframe("] l1 with
          | Some ([name], rest) =>
              match arguments (s2l ", ") rest with
              | Some (d, q, e) => Some (ReadFrame name d q e)
              | None => None
              end
          | _ => None
          end
        else None
    | _ => None
    end
  else None.

(** ** Which strings survive *)

(** Copied into a literal without escapes, the text denotes itself. *)
Definition plain (s : str) : Prop := forall c, In c s -> ~ In c [DQ; BACKSLASH; LF; CR; NUL].

Definition plain_opt (s : option str) : Prop := match s with Some x => plain x | None => True end.

(** The characters for which the three literals are right. *)
Definition good_delimiter (d : str) : Prop := d = [] \/ exists c, d = [c] /\ ~ In c [DQ; BACKSLASH].
Definition good_quotechar (q : str) : Prop := q = [] \/ exists c, q = [c] /\ c <> BACKSLASH.
Definition good_escapechar (e : str) : Prop := e = [] \/ exists c, e = [c] /\ ~ In c [SQ; DQ].

(** A code point that is not a line break or NUL. *)
Definition inline (s : str) : Prop := forall c, In c s -> ~ In c [LF; CR; NUL].
Definition scalar (s : str) : Prop := forall c, In c s -> (c <= 1114111)%N.

(** For cases: only ASCII is printable. *)
Definition ascii_only (c : N) : bool := (c <? 127)%N.

(** ** Running the program *)
Definition run_rows (E : env) (locate : str -> path) (f : fs) (h : heap) (name : str) (enc : option str) (d q e : str)
  : list (list cell) * option pyexc :=
  match f (locate name) with
  | None => ([], Some OSError)
  | Some b =>
      match e_codec E enc with
      | Err x => ([], Some x)
      | Ok c =>
          match new_reader (e_registry E) h false (text_items c b) (DName (s2l "excel"))
                  [KDelimiter (Some d); KQuotechar (Some q); KEscapechar (Some e)] with
          | (Err x, _) => ([], Some x)
          | (Ok r, h') => reader_rows (e_limit E) h' r
          end
      end
  end.
