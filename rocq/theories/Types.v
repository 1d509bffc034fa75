(** * Types: clevercsv/_regexes.py and the type detector of detect_type.py *)
From Coq Require Import String.
From Verif Require Import Base Parser Dialect Json Regex.

(** What the code asks about characters: the general category, [str.isspace],
    the class [\s], [str.isdigit] and [str.lower].  [json.loads] needs the
    interpreter's limits on digits and nesting. *)
Record unidata := mk_unidata {
  u_cat : N -> str;
  u_space : N -> bool;
  u_ws : N -> bool;
  u_isdigit : N -> bool;
  u_lower : str -> str;
  u_maxdigits : nat;
  u_depth : nat
}.

Section Types.
Variable U : unidata.

(** ** Character classes *)
Definition cat_is (name : string) (c : N) : bool := str_eqb (u_cat U c) (s2l name).
(** [\d], [\p{L}], [\p{N}], [\p{Sc}] *)
Definition nd (c : N) : bool := cat_is "Nd" c.
Definition letter (c : N) : bool := starts_with (s2l "L") (u_cat U c).
Definition numeral (c : N) : bool := starts_with (s2l "N") (u_cat U c).
Definition sc (c : N) : bool := cat_is "Sc" c.
Definition az (c : N) : bool := in_range 97 122 c.
Definition AZ (c : N) : bool := in_range 65 90 c.
Definition d09 (c : N) : bool := in_range 48 57 c.
Definition one_of (s : str) (c : N) : bool := existsb (N.eqb c) s.

Definition D : re := Chr nd.
Definition sign : re := opt (any_of (s2l "+-")).
(** [[eE][+-]?\d+] *)
Definition exponent : re := seqs [any_of (s2l "eE"); sign; plus D].

(** ** Numbers (clevercsv/_regexes.py:13-44); groups 0 [dot] and 1 [comma] *)
Definition re_number_1 : re :=
  seqs [ Bol; Look (Chr (fun c => in_range 43 46 c || nd c)); sign;
         opt (Alt (is 48) (Seq (range 49 57) (star D)));
         Alt (Seq (opt (Grp 0 (Alt (Seq (Behind nd) (is 46)) (Seq (is 46) (Look D)))))
                  (IfGrp 0 (Seq (star D) (opt (Seq (star D) exponent)))
                           (opt (Seq (Behind nd) exponent))))
             (Seq (opt (Grp 1 (is 44)))
                  (IfGrp 1 (Seq (plus D) (opt (Seq (plus D) exponent)))
                           (opt (Seq (Behind nd) exponent))));
         Eol ].
Definition grouped (sep dec : N) : re :=
  seqs [ sign; Alt (range 49 57) (Seq (range 49 57) (Rep 0 (Some 2%nat) D));
         plus (seqs [is sep; D; D; D]); is dec; star D ].
Definition re_number_2 : re := grouped 44 46.
Definition re_number_3 : re := grouped 46 44.

(** ** URL, e-mail, IP (50-69) *)
Definition D13 : re := Rep 1 (Some 3%nat) D.
Definition re_ipv4 : re := Seq (Rep 3 (Some 3%nat) (Seq D13 (is 46))) D13.
Definition port : re := opt (Seq (is 58) (Rep 1 (Some 5%nat) D)).
Definition lower_word (lo : nat) (hi : option nat) : re := Rep lo hi (Chr az).
Definition re_url : re :=
  seqs [ opt (seqs [Alt (seqs [lit (s2l "http"); opt (is 115)]) (lit (s2l "ftp")); lit (s2l "://"); NotLook (is 45)]);
         alts [ seqs [ plus (Seq (plus (Chr (fun c => letter c || numeral c || (c =? 45)%N))) (is 46));
                       Alt (lower_word 2 None) (lit (s2l "local"));
                       opt (Seq (is 46) (lower_word 2 (Some 3%nat))) ];
                Seq (lit (s2l "localhost")) port;
                seqs [D13; is 46; D13; is 46; D13; is 46; D13; port] ];
         opt (Seq (is 47) (star (Chr (fun c => letter c || numeral c || one_of (s2l "_/()~?=&%-#.:") c))));
         opt (Seq (is 46) (lower_word 1 None)) ].
Definition alnum (c : N) : bool := az c || AZ c || d09 c.
Definition re_email : re :=
  seqs [ Bol; plus (Chr (fun c => alnum c || one_of (s2l "_.+-") c)); is 64;
         plus (Chr (fun c => alnum c || (c =? 45)%N)); is 46;
         plus (Chr (fun c => alnum c || one_of (s2l "-.") c)); Eol ].

(** ** Times (75-105) *)
Definition hh : re := alts [Seq (is 48) (Chr d09); Seq (is 49) (Chr d09); Seq (is 50) (range 48 51)].
Definition sixty : re := Seq (range 48 53) (Chr d09).
Definition re_time_hhmmsszz : re :=
  seqs [hh; is 58; sixty; is 58; sixty; any_of (s2l "+-"); Seq (range 48 49) (Chr d09); is 58; sixty].
Definition re_time_hhmmss : re := seqs [hh; is 58; sixty; is 58; sixty].
Definition re_time_hhmm : re := seqs [hh; is 58; sixty].
Definition re_time_HHMM : re := seqs [hh; sixty].
Definition re_time_HH : re := seqs [hh; sixty].
Definition re_time_hmm : re :=
  seqs [alts [Chr d09; Seq (is 49) (Chr d09); Seq (is 50) (range 48 51)]; is 58; sixty].

(** ** Dates (114-165); groups 1 to 5 are [sep1] to [sep5] *)
Definition month2 : re := Alt (Seq (is 48) (range 49 57)) (Seq (is 49) (range 48 50)).
Definition month : re := Alt (Seq (opt (is 48)) (range 49 57)) (Seq (is 49) (range 48 50)).
Definition day2 : re := alts [Seq (is 48) (range 49 57); Seq (range 49 50) D; Seq (is 51) (range 48 49)].
Definition day : re := alts [Seq (opt (is 48)) (range 49 57); Seq (range 49 50) D; Seq (is 51) (range 48 49)].
Definition year : re := Alt (seqs [range 49 50; D; D; D]) (Seq D D).
Definition sep_chr : re := any_of (s2l "-/. ").
Definition re_date : re :=
  alts [ Seq month2 (Alt (Seq day2 year) (seqs [Grp 1 sep_chr; day; Back 1; year]));
         Seq day2 (Alt (Seq month2 year) (seqs [Grp 2 sep_chr; month; Back 2; year]));
         Seq year (alts [ seqs [Grp 3 sep_chr; month; Back 3; day];
                          seqs [is 24180; month; is 26376; day; is 26085];   (* Japanese/Chinese year, month, day *)
                          seqs [is 45380; month; is 50900; day; is 51068];   (* the same in Korean *)
                          Seq month2 day2 ]);
         Alt (seqs [Alt (range 49 57) (Seq (is 49) (range 48 50)); Grp 4 sep_chr; day; Back 4; year])
             (seqs [alts [range 49 57; Seq (range 49 50) D; Seq (is 51) (range 48 49)]; Grp 5 sep_chr; month; Back 5; year]) ].

(** ** Text (173-269) *)
Definition SPECIALS_ALLOWED : list N :=
  [45; 95; 46; 1748; 12290; 65106; 65294; 65377; 40; 41; 10222; 10223; 65288; 65289;
   63; 191; 894; 1374; 1567; 4967; 6469; 8263; 8264; 8265; 11514; 11515; 11822; 42511; 42743; 65046; 65110; 65311; 69955; 125279;
   33; 161; 451; 1372; 2041; 4255; 6468; 8252; 8264; 8265; 43639; 65045; 65111; 65281; 125278]%N.
Definition QUOTED_SPECIALS_ALLOWED : list N := [44; 1548; 4963; 6146; 6152; 65292; 65104]%N.
Definition re_alphanum_of (specials : list N) : re :=
  let cls := Chr (fun c => numeral c || letter c || (c =? 32)%N || one_of specials c) in
  Alt (seqs [opt (Chr numeral); plus (Chr letter); star cls]) (seqs [opt (Chr letter); plus cls]).
Definition re_alphanum : re := re_alphanum_of SPECIALS_ALLOWED.
Definition re_alphanum_quoted : re := re_alphanum_of (SPECIALS_ALLOWED ++ QUOTED_SPECIALS_ALLOWED).

(** ** Currency (275) and paths (281-283); group 1 *)
Definition re_currency : re :=
  seqs [Chr sc; opt (Chr (u_ws U)); Grp 1 (star (Chr (fun c => negb (c =? LF)%N)))].
Definition re_unix_path : re :=
  seqs [opt (any_of (s2l "~.")); plus (Seq (is 47) (plus (Chr (fun c => alnum c || one_of (s2l ".-_") c)))); opt (is 47)].

(** ** The detector, with [strip_whitespace=True] and the default patterns *)
Definition strip (s : str) : str := strip_by (u_space U) s.
(** clevercsv/detect_type.py:66-71 [_run_regex] *)
Definition run_regex (r : re) (cell : str) : bool := fullmatches r (strip cell).
(** clevercsv/detect_type.py:73-91 *)
Definition is_number (cell : str) : bool :=
  negb (str_eqb cell []) && (run_regex re_number_1 cell || run_regex re_number_2 cell || run_regex re_number_3 cell).
Definition is_ipv4 (cell : str) : bool := run_regex re_ipv4 cell.
Definition is_url (cell : str) : bool := run_regex re_url cell.
Definition is_email (cell : str) : bool := run_regex re_email cell.
(** clevercsv/detect_type.py:93-96 *)
Definition is_unicode_alphanum (cell : str) (is_quoted : bool) : bool :=
  if is_quoted then run_regex re_alphanum_quoted cell else run_regex re_alphanum cell.
(** [cell and cell[0].isdigit()] *)
Definition digit_first (cell : str) : bool := match cell with c :: _ => u_isdigit U c | [] => false end.
(** clevercsv/detect_type.py:98-105, 107-118, 120-121 *)
Definition is_date (cell : str) : bool :=
  let cell := strip cell in digit_first cell && run_regex re_date cell.
Definition is_time (cell : str) : bool :=
  let cell := strip cell in
  digit_first cell &&
  (run_regex re_time_hmm cell || run_regex re_time_hhmm cell || run_regex re_time_hhmmss cell || run_regex re_time_hhmmsszz cell).
Definition is_empty (cell : str) : bool := str_eqb cell [].
(** clevercsv/detect_type.py:123-124 *)
Definition is_percentage (cell : str) : bool :=
  ends_with (s2l "%") cell && is_number (rstrip_by (N.eqb 37) cell).
(** clevercsv/detect_type.py:126-135 *)
Definition is_currency (cell : str) : bool :=
  match fullmatch re_currency cell with
  | None => false
  | Some (_, _, e) => match group e 1 with Some grp => is_number grp | None => false end
  end.
(** clevercsv/detect_type.py:163-174, 175-186: the two branches for a time zone *)
Definition zoned (sep : str) (part : str) : bool :=
  match py_split sep part with
  | p0 :: p1 :: _ => is_time p0 && (is_time p1 || run_regex re_time_HHMM p1 || run_regex re_time_HH p1)
  | _ => false
  end.
(** clevercsv/detect_type.py:137-187 *)
Definition is_datetime (cell : str) : bool :=
  digit_first cell &&
  (if contains (s2l " ") cell then
     match py_split (s2l " ") cell with
     | [p0; p1] => is_date p0 && is_time p1
     | _ => false
     end
   else if contains (s2l "T") cell then
     match py_split (s2l "T") cell with
     | [p0; p1] =>
         is_date p0 &&
         ((ends_with (s2l "Z") p1 && is_time (removelast p1)) || is_time p1 ||
          (if contains (s2l "+") p1 then zoned (s2l "+") p1
           else if contains (s2l "-") p1 then zoned (s2l "-") p1
           else false))
     | _ => false
     end
   else false).
(** clevercsv/detect_type.py:189-195 *)
Definition is_nan (cell : str) : bool :=
  existsb (str_eqb (u_lower U cell)) [s2l "n/a"; s2l "na"; s2l "nan"].
Definition is_unix_path (cell : str) : bool := run_regex re_unix_path cell.
(** clevercsv/detect_type.py:197-198 *)
Definition is_bytearray (cell : str) : bool := starts_with (s2l "bytearray(b") cell && ends_with (s2l ")") cell.
(** clevercsv/detect_type.py:200-207 *)
Definition is_json_obj (cell : str) : res pyexc bool :=
  if starts_with (s2l "{") cell && ends_with (s2l "}") cell then
    match loads (u_maxdigits U) (u_depth U) cell with
    | Ok _ => Ok true
    | Err JSONDecodeError => Ok false
    | Err x => Err x
    end
  else Ok false.

(** clevercsv/detect_type.py:34-51: the tests in their order; all but the last only return. *)
Definition type_tests : list (string * (str -> bool -> res pyexc bool)) :=
  let pure f := fun cell (_ : bool) => @Ok pyexc bool (f cell) in
  [ ("empty", pure is_empty); ("url", pure is_url); ("email", pure is_email); ("ipv4", pure is_ipv4);
    ("number", pure is_number); ("time", pure is_time); ("percentage", pure is_percentage); ("currency", pure is_currency);
    ("unix_path", pure is_unix_path); ("nan", pure is_nan); ("date", pure is_date); ("datetime", pure is_datetime);
    ("unicode_alphanum", fun cell q => Ok (is_unicode_alphanum cell q)); ("bytearray", pure is_bytearray);
    ("json", fun cell _ => is_json_obj cell) ]%string.

(** clevercsv/detect_type.py:59-64 [detect_type] *)
Fixpoint first_type (tests : list (string * (str -> bool -> res pyexc bool))) (cell : str) (q : bool) : res pyexc (option string) :=
  match tests with
  | [] => Ok None
  | (name, f) :: tests' => bind (f cell q) (fun b => if b then Ok (Some name) else first_type tests' cell q)
  end.
Definition detect_type (cell : str) (is_quoted : bool) : res pyexc (option string) :=
  first_type type_tests (strip cell) is_quoted.
(** clevercsv/detect_type.py:56-57 *)
Definition is_known_type (cell : str) (is_quoted : bool) : res pyexc bool :=
  bind (detect_type cell is_quoted) (fun t => Ok (match t with Some _ => true | None => false end)).
End Types.
