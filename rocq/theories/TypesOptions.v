(** * TypesOptions: the type detector with its two options

    [Types.v] has the detector as [type_score] and the consistency detector
    create it.  Here it may have other patterns and need not strip white space.
    The assertions are taken to be executed (no option -O). *)
From Coq Require Import String.
From Verif Require Import Base Parser Dialect Json Regex Types.

(** A compiled pattern: for a text that [fullmatch] accepts, what [group(1)] of
    the match gives (no such group, a group that took no part, its text). *)
Definition pattern := str -> option (res pyexc (option str)).
(** A dictionary of patterns. *)
Definition patterns := list (string * pattern).
Definition get_pattern (ps : patterns) (name : string) : option pattern :=
  option_map snd (find (fun x => String.eqb (fst x) name) ps).

(** [a or b], [a and b] *)
Definition or_else (a b : res pyexc bool) : res pyexc bool := bind a (fun x => if x then Ok true else b).
Definition and_then (a b : res pyexc bool) : res pyexc bool := bind a (fun x => if x then b else Ok false).

Section Default.
Variable U : unidata.
Definition groupless (r : re) : pattern := fun s => match fullmatch r s with Some _ => Some (Err IndexError) | None => None end.
Definition first_group (r : re) : pattern := fun s => match fullmatch r s with Some (_, _, e) => Some (Ok (group e 1)) | None => None end.
(** clevercsv/_regexes.py:289-307; only the group of the currency is asked for. *)
Definition DEFAULT_TYPE_REGEXES : patterns :=
  [ ("number_1", groupless (re_number_1 U)); ("number_2", groupless (re_number_2 U)); ("number_3", groupless (re_number_3 U));
    ("url", groupless (re_url U)); ("email", groupless re_email); ("ipv4", groupless (re_ipv4 U));
    ("unicode_alphanum", groupless (re_alphanum U)); ("unicode_alphanum_quoted", groupless (re_alphanum_quoted U));
    ("time_hhmmss", groupless re_time_hhmmss); ("time_hhmm", groupless re_time_hhmm); ("time_HHMM", groupless re_time_HHMM);
    ("time_HH", groupless re_time_HH); ("time_hmm", groupless re_time_hmm); ("time_hhmmsszz", groupless re_time_hhmmsszz);
    ("currency", first_group (re_currency U)); ("unix_path", groupless re_unix_path); ("date", groupless (re_date U)) ]%string.
(** clevercsv/detect_type.py:25-32: [patterns or DEFAULT_TYPE_REGEXES.copy()] *)
Definition init_patterns (ps : option patterns) : patterns :=
  match ps with None | Some [] => DEFAULT_TYPE_REGEXES | Some ps => ps end.
End Default.

Section Detector.
Variable U : unidata.
Variable ps : patterns.
Variable strip_whitespace : bool.
Definition strip_o (s : str) : str := if strip_whitespace then strip U s else s.
(** clevercsv/detect_type.py:66-71 *)
Definition run_regex_o (name : string) (cell : str) : res pyexc bool :=
  match get_pattern ps name with
  | None => Err AssertionError
  | Some p => Ok (match p (strip_o cell) with Some _ => true | None => false end)
  end.
(** clevercsv/detect_type.py:73-91 *)
Definition is_number_o (cell : str) : res pyexc bool :=
  if str_eqb cell [] then Ok false
  else or_else (run_regex_o "number_1" cell) (or_else (run_regex_o "number_2" cell) (run_regex_o "number_3" cell)).
Definition is_ipv4_o (cell : str) := run_regex_o "ipv4" cell.
Definition is_url_o (cell : str) := run_regex_o "url" cell.
Definition is_email_o (cell : str) := run_regex_o "email" cell.
(** [self.is_number(None)], for a group that took no part in the match:
    [None.strip()], or the missing pattern, or [fullmatch(None)]. *)
Definition is_number_none : res pyexc bool :=
  if strip_whitespace then Err AttributeError
  else match get_pattern ps "number_1" with None => Err AssertionError | Some _ => Err TypeError end.
(** clevercsv/detect_type.py:93-96 *)
Definition is_unicode_alphanum_o (cell : str) (is_quoted : bool) : res pyexc bool :=
  if is_quoted then run_regex_o "unicode_alphanum_quoted" cell else run_regex_o "unicode_alphanum" cell.
(** clevercsv/detect_type.py:98-105, 107-118 *)
Definition is_date_o (cell : str) : res pyexc bool :=
  let cell := strip_o cell in if digit_first U cell then run_regex_o "date" cell else Ok false.
Definition is_time_o (cell : str) : res pyexc bool :=
  let cell := strip_o cell in
  if digit_first U cell then
    or_else (run_regex_o "time_hmm" cell) (or_else (run_regex_o "time_hhmm" cell)
      (or_else (run_regex_o "time_hhmmss" cell) (run_regex_o "time_hhmmsszz" cell)))
  else Ok false.
(** clevercsv/detect_type.py:123-124 *)
Definition is_percentage_o (cell : str) : res pyexc bool :=
  if ends_with (s2l "%") cell then is_number_o (rstrip_by (N.eqb 37) cell) else Ok false.
(** clevercsv/detect_type.py:126-135 *)
Definition is_currency_o (cell : str) : res pyexc bool :=
  match get_pattern ps "currency" with
  | None => Err AssertionError
  | Some p =>
      match p cell with
      | None => Ok false
      | Some g => bind g (fun grp => match grp with Some grp => is_number_o grp | None => is_number_none end)
      end
  end.
(** clevercsv/detect_type.py:163-174, 175-186 *)
Definition zoned_o (sep : str) (part : str) : res pyexc bool :=
  match py_split sep part with
  | p0 :: p1 :: _ =>
      and_then (is_time_o p0) (or_else (is_time_o p1) (or_else (run_regex_o "time_HHMM" p1) (run_regex_o "time_HH" p1)))
  | _ => Err IndexError
  end.
(** clevercsv/detect_type.py:137-187; a text that contains the separator splits into two parts at least. *)
Definition is_datetime_o (cell : str) : res pyexc bool :=
  if digit_first U cell then
    if contains (s2l " ") cell then
      match py_split (s2l " ") cell with
      | [p0; p1] => and_then (is_date_o p0) (is_time_o p1)
      | _ => Ok false
      end
    else if contains (s2l "T") cell then
      match py_split (s2l "T") cell with
      | [p0; p1] =>
          and_then (is_date_o p0)
            (or_else (if ends_with (s2l "Z") p1 then is_time_o (removelast p1) else Ok false)
              (or_else (is_time_o p1)
                (if contains (s2l "+") p1 then zoned_o (s2l "+") p1
                 else if contains (s2l "-") p1 then zoned_o (s2l "-") p1
                 else Ok false)))
      | _ => Ok false
      end
    else Ok false
  else Ok false.
Definition is_unix_path_o (cell : str) := run_regex_o "unix_path" cell.

(** clevercsv/detect_type.py:34-51 *)
Definition type_tests_o : list (string * (str -> bool -> res pyexc bool)) :=
  let test f := fun cell (_ : bool) => f cell in
  let pure f := fun cell (_ : bool) => @Ok pyexc bool (f cell) in
  [ ("empty", pure is_empty); ("url", test is_url_o); ("email", test is_email_o); ("ipv4", test is_ipv4_o);
    ("number", test is_number_o); ("time", test is_time_o); ("percentage", test is_percentage_o); ("currency", test is_currency_o);
    ("unix_path", test is_unix_path_o); ("nan", pure (is_nan U)); ("date", test is_date_o); ("datetime", test is_datetime_o);
    ("unicode_alphanum", is_unicode_alphanum_o); ("bytearray", pure is_bytearray); ("json", test (is_json_obj U)) ]%string.
(** clevercsv/detect_type.py:53-54 *)
Definition list_known_types : list string := map fst type_tests_o.
(** clevercsv/detect_type.py:59-64 *)
Definition detect_type_o (cell : str) (is_quoted : bool) : res pyexc (option string) :=
  first_type type_tests_o (strip_o cell) is_quoted.
(** clevercsv/detect_type.py:56-57 *)
Definition is_known_type_o (cell : str) (is_quoted : bool) : res pyexc bool :=
  bind (detect_type_o cell is_quoted) (fun t => Ok (match t with Some _ => true | None => false end)).
End Detector.

(** clevercsv/detect_type.py:210-217 [gen_known_type]: what the generator yields, and the exception that ends it. *)
Fixpoint gen_known_type (U : unidata) (cells : list str) : list bool * option pyexc :=
  match cells with
  | [] => ([], None)
  | cell :: cells' =>
      match is_known_type_o U (init_patterns U None) true cell false with
      | Ok b => let '(l, x) := gen_known_type U cells' in (b :: l, x)
      | Err x => ([], Some x)
      end
  end.
