(** * NormalForm: clevercsv/normal_form.py

    Messages of the verbose mode are not modelled.  Attributes of the dialects
    built here are strings, so the assertions never fail. *)
From Coq Require Import String.
From Verif Require Import Base Parser Dialect Potential.

(** clevercsv/normal_form.py:29-30 *)
Definition DELIMS : list str := [[COMMA]; [SEMI]; [124%N]; [TAB]].
Definition QUOTECHARS : list str := [[39%N]; [34%N]].

(** Comparison of one character with a string. *)
Definition first_is (s q : str) : bool := match s with c :: _ => is_char c q | [] => false end.
Definition last_is (s q : str) : bool := first_is (rev s) q.
(** [s[1:-1]] *)
Definition inner (s : str) : str := removelast (tl s).

(** clevercsv/normal_form.py:105-108 [is_quoted_cell] *)
Definition is_quoted_cell (cell q : str) : bool :=
  if Nat.ltb (List.length cell) 2 then false else first_is cell q && last_is cell q.
(** Lines 111-112 [is_any_quoted_cell] *)
Definition is_any_quoted_cell (cell : str) : bool :=
  is_quoted_cell cell [39%N] || is_quoted_cell cell [34%N].
(** Lines 115-120 [is_any_partial_quoted_cell] *)
Definition is_any_partial_quoted_cell (cell : str) : bool :=
  if Nat.ltb (List.length cell) 1 then false
  else first_is cell [34%N] || first_is cell [39%N] || last_is cell [34%N] || last_is cell [39%N].
(** Lines 123-124 [is_empty_quoted] *)
Definition is_empty_quoted (cell q : str) : bool := Nat.eqb (List.length cell) 2 && is_quoted_cell cell q.
(** Lines 127-128 [is_empty_unquoted] *)
Definition is_empty_unquoted (cell : str) : bool := str_eqb cell [].
(** Lines 131-136 [is_any_empty] *)
Definition is_any_empty (cell : str) : bool :=
  is_empty_unquoted cell || is_empty_quoted cell [39%N] || is_empty_quoted cell [34%N].
(** Lines 139-140 [has_delimiter] *)
Definition has_delimiter (s d : str) : bool := contains d s.
(** Lines 143-144 [has_nested_quotes] *)
Definition has_nested_quotes (s q : str) : bool := contains q (inner s).

(** Character classes of the regular expressions, lines 192 and 323-324. *)
Definition letter_digit (c : N) : bool :=
  ((97 <=? c) && (c <=? 122))%N || ((65 <=? c) && (c <=? 90))%N || ((48 <=? c) && (c <=? 57))%N.
Definition elementary_char (c : N) : bool := letter_digit c || mem_char c (s2l "._&-@+%() /").
Definition word_char (c : N) : bool := letter_digit c || mem_char c (s2l "._&-").
Definition word_space_char (c : N) : bool := letter_digit c || mem_char c (s2l "._&- ").
(** Lines 190-194 [is_elementary]: [fullmatch] of one or more. *)
Definition is_elementary (cell : str) : bool :=
  match cell with [] => false | _ => forallb elementary_char cell end.

(** Lines 158-163 [strip_trailing_crnl] *)
Definition strip_trailing_crnl (data : str) : str :=
  rstrip_by (N.eqb CR) (rstrip_by (N.eqb LF) data).

(** Lines 197-205 [split_file] *)
Definition split_file (data : str) : list str :=
  let data := strip_trailing_crnl data in
  if contains [CR; LF] data then py_split [CR; LF] data
  else if contains [LF] data then py_split [LF] data
  else if contains [CR] data then py_split [CR] data
  else [data].

(** Lines 208-230 [split_row] *)
Fixpoint split_row_loop (d q : str) (cells : list str) (cur : str) (inq : bool) (row : str) : list str :=
  match row with
  | [] => match cur with [] => cells | _ => cells ++ [cur] end
  | c :: row' =>
      if is_char c d && negb inq then split_row_loop d q (cells ++ [cur]) [] inq row'
      else if is_char c q then split_row_loop d q cells (cur ++ [c]) (negb inq) row'
      else split_row_loop d q cells (cur ++ [c]) inq row'
  end.
Definition split_row (row d q : str) : list str :=
  if str_eqb q [] || negb (contains q row) then
    if str_eqb d [] then [row] else py_split d row
  else split_row_loop d q [] [] false row.

(** Lines 166-171 [every_row_has_delim] *)
Definition every_row_has_delim (rows : list str) (d : str) : bool :=
  forallb (fun row => has_delimiter row d) rows.
(** Lines 174-187 [every_row_has_delim_and_is_the_same_length] *)
Definition every_row_same_length (rows : list str) (d q : str) : bool :=
  match rows with
  | [] => false
  | row0 :: _ =>
      let first_len := List.length (split_row row0 d q) in
      forallb (fun row => has_delimiter row d && Nat.eqb (List.length (split_row row d q)) first_len) rows
  end.

(** Lines 233-258 [is_form_1] *)
Definition is_form_1 (rows : list str) (d q : str) : bool :=
  every_row_same_length rows d q &&
  forallb (fun row =>
    let cells := split_row row d q in
    negb (Nat.eqb (List.length cells) 1) &&
    forallb (fun cell => negb (is_empty_unquoted cell) && is_quoted_cell cell q &&
                         negb (has_nested_quotes cell q)) cells) rows.
(** Lines 261-280 [is_form_2] *)
Definition is_form_2 (rows : list str) (d q : str) : bool :=
  every_row_same_length rows d q &&
  forallb (fun row =>
    let cells := split_row row d q in
    negb (Nat.eqb (List.length cells) 1) &&
    forallb (fun cell => negb (is_any_quoted_cell cell) && negb (is_any_partial_quoted_cell cell) &&
                         (is_empty_unquoted cell || is_elementary cell)) cells) rows.
(** Lines 283-313 [is_form_3] *)
Definition is_form_3 (rows : list str) (d q : str) : bool :=
  every_row_same_length rows d q && negb (Nat.leb (List.length rows) 1) &&
  forallb (fun row =>
    let cells := split_row row d q in
    negb (Nat.eqb (List.length cells) 1) &&
    forallb (fun cell => negb (is_any_empty cell) &&
      (if is_any_quoted_cell cell then is_quoted_cell cell q else is_elementary cell)) cells) rows.
(** Lines 316-338 [is_form_4] *)
Definition is_form_4 (rows : list str) (q : str) : bool :=
  negb (Nat.leb (List.length rows) 1) &&
  forallb (fun cell =>
    if str_eqb q [] then negb (is_any_quoted_cell cell) && forallb word_char cell
    else is_quoted_cell cell q && forallb word_space_char (inner cell)) rows.
(** Lines 341-361 [is_form_5] *)
Definition is_form_5 (rows : list str) (d q : str) : bool :=
  every_row_has_delim rows d && negb (Nat.leb (List.length rows) 1) &&
  forallb (fun row => Nat.ltb 2 (List.length row) && first_is row q && last_is row q) rows &&
  is_form_2 (map inner rows) d q.

Section Detect.
Variable cat : N -> str.

(** Lines 147-155 [maybe_has_escapechar] *)
Fixpoint escape_loop (E : encoding) (d q : str) (ps : list (N * N)) : res pyexc bool :=
  match ps with
  | [] => Ok false
  | (u, v) :: ps' =>
      if is_char v d || is_char v q then
        bind (is_potential_escapechar cat u E) (fun b => if b then Ok true else escape_loop E d q ps')
      else escape_loop E d q ps'
  end.
Definition maybe_has_escapechar (data : str) (E : encoding) (d q : str) : res pyexc bool :=
  if negb (contains d data) && negb (contains q data) then Ok false
  else escape_loop E d q (pairwise data).

(** Lines 58-62 *)
Fixpoint any_escapechar (data : str) (E : encoding) (ps : list (str * str)) : res pyexc bool :=
  match ps with
  | [] => Ok false
  | (d, q) :: ps' =>
      bind (maybe_has_escapechar data E d q) (fun b => if b then Ok true else any_escapechar data E ps')
  end.

(** Lines 64-91: the form tests in the order in which they are tried. *)
Inductive form := F1 | F2 | F3 | F4 | F5.
Definition forms (delims : list str) : list (form * str * str) :=
  map (fun d => (F2, d, [])) delims ++
  flat_map (fun '(d, q) => [(F1, d, q); (F3, d, q); (F5, d, q)]) (list_prod delims QUOTECHARS) ++
  map (fun q => (F4, [], q)) QUOTECHARS ++ [(F4, [], [])].
Definition form_test (rows : list str) (f : form * str * str) : bool :=
  let '(k, d, q) := f in
  match k with
  | F1 => is_form_1 rows d q
  | F2 => is_form_2 rows d q
  | F3 => is_form_3 rows d q
  | F4 => is_form_4 rows q
  | F5 => is_form_5 rows d q
  end.

(** clevercsv/normal_form.py:33-102 [detect_dialect_normal] *)
Definition detect_dialect_normal (data : str) (E : encoding) (delimiters : option (list str))
  : res pyexc (option SimpleDialect) :=
  let delims := match delimiters with None => DELIMS | Some l => l end in
  bind (any_escapechar data E (list_prod delims QUOTECHARS)) (fun b =>
  if b then Ok None
  else match find (form_test (split_file data)) (forms delims) with
       | Some (_, d, q) => Ok (Some (dialect3 d q []))
       | None => Ok None
       end).
End Detect.
