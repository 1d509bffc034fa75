(** * PropsRefuse: strict mode and the field size limit only refuse (C104) *)
From Coq Require Import String.
From Verif Require Import Base Parser Dialect CsvLib CsvReader Reader SpecRefuse Refuse.
Open Scope list_scope.

(** ** C104: without strict mode, or with a larger limit, the rows are the same
    unless one of the two was the reason for the error; in any case the rows
    returned before the error are the first ones. *)
Theorem C104_parser cf cf' input : laxer cf cf' ->
  begins (fst (parse_items cf input)) (fst (parse_items cf' input)) /\
  ((exists e, snd (parse_items cf input) = Raised e /\ refusal e) \/ parse_items cf' input = parse_items cf input).
Proof. exact (fun HL => lax_parse cf cf' HL input). Qed.
Print Assumptions C104_parser.
Example C104_parser_case :
  let cf := mk_pconf 44%N 34%N 0%N 3 true false in
  let cf' := mk_pconf 44%N 34%N 0%N 9 false false in
  let input := [ILine (s2l "a,b"); ILine (s2l "c,""d"""); ILine (s2l "long,e"); INotStr] in
  laxer cf cf' /\ parse_items cf input = ([[CStr (s2l "a"); CStr (s2l "b")]], Raised EQuoteExpected) /\
  parse_items cf' input = ([[CStr (s2l "a"); CStr (s2l "b")]; [CStr (s2l "c"); CStr (s2l "d")]; [CStr (s2l "long"); CStr (s2l "e")]], Raised ENotStr).
Proof. repeat split; try discriminate; vm_compute; intros [=]. Qed.

(** The functions on top of the parser. *)
Theorem C104_parse_data limit limit' input dialect d q e strict strict' rq rows :
  (limit <= limit')%Z -> (strict' = true -> strict = true) ->
  parse_data limit input dialect d q e (Some strict) rq = (rows, None) ->
  parse_data limit' input dialect d q e (Some strict') rq = (rows, None).
Proof. exact (lax_data limit limit' input dialect d q e strict strict' rq rows). Qed.
Print Assumptions C104_parse_data.
Example C104_parse_data_case :
  parse_data 3 [ILine (s2l "abc,d")] None (Some (s2l ",")) None None (Some true) true = ([[CTuple (s2l "abc") false; CTuple (s2l "d") false]], None) /\
  snd (parse_data 2 [ILine (s2l "abc,d")] None (Some (s2l ",")) None None (Some true) true) = Some (CleverError EFieldLimit).
Proof. split; reflexivity. Qed.
Theorem C104_reader reg h seq file dialect params r h' h1 limit limit' rows :
  new_reader reg h seq file dialect params = (Ok r, h') -> (limit <= limit')%Z ->
  reader_rows limit h1 r = (rows, None) -> reader_rows limit' h1 r = (rows, None).
Proof. exact (lax_reader reg h seq file dialect params r h' h1 limit limit' rows). Qed.
Print Assumptions C104_reader.
Example C104_reader_case :
  exists r, new_reader (fun _ => None) [dialect3 (s2l ",") [] []] true [ILine (s2l "abc,d")] (DSimple 0%nat) [] = (Ok r, [dialect3 (s2l ",") [] []]) /\
    reader_rows 3 [dialect3 (s2l ",") [] []] r = ([[CStr (s2l "abc"); CStr (s2l "d")]], None) /\
    snd (reader_rows 2 [dialect3 (s2l ",") [] []] r) = Some (CleverError EFieldLimit).
Proof. eexists. repeat split. Qed.

(** The same holds for [csv.reader]. *)
Theorem C104_csv_reader w strict strict' limit limit' t :
  (strict' = true -> strict = true) -> (limit <= limit')%Z ->
  begins (fst (csv_reader w strict limit t)) (fst (csv_reader w strict' limit' t)) /\
  (snd (csv_reader w strict limit t) = None -> csv_reader w strict' limit' t = csv_reader w strict limit t).
Proof. exact (fun HS HM => clax_reader w strict strict' limit limit' HS HM t). Qed.
Print Assumptions C104_csv_reader.
Example C104_csv_reader_case :
  let w := mk_wdialect 44%N (Some 34%N) None true false [LF] QUOTE_MINIMAL in
  let t := s2l "a" ++ [LF] ++ s2l "b,""c" in
  csv_reader w true 9 t = ([[s2l "a"]], Some CsvError) /\ csv_reader w false 9 t = ([[s2l "a"]; [s2l "b"; s2l "c"]], None).
Proof. split; reflexivity. Qed.
