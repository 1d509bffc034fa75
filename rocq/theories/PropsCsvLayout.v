(** * Properties: quotes inside cells and csv.reader (C99) *)
From Coq Require Import String.
From Verif Require Import Base Parser Dialect CsvLib SpecLayout SpecParse CsvReader SpecCsvReader SpecCsvLayout CsvLayoutFacts CsvAgree.
Open Scope N_scope.

(** What [csv.reader] returns for a layout whose cells it does not cut. *)
Theorem C99_reads w limit D d :
  wf_chars D = true -> csv_chars w D -> wf_doc D d = true -> uncut D d = true ->
  Forall (fun s => (Z.of_nat (List.length s) <= limit)%Z) (List.concat (csv_rows D d)) ->
  csv_reader w false limit (render D d) = (csv_rows D d, None).
Proof. exact (fun WF CC => csv_reads_layout w limit D WF CC d). Qed.
Print Assumptions C99_reads.
Definition comma_chars : chars := mk_chars (Some COMMA) (Some DQ) (Some BACKSLASH).
Definition comma_csv : wdialect := mk_wdialect COMMA (Some DQ) (Some BACKSLASH) true false [LF] QUOTE_MINIMAL.
Example C99_reads_case :
  let D := comma_chars in
  let d := mk_doc [([[PQuoted [QChar 97; QQuote; QChar LF; QEsc 98]; PChar 99; PQuoted [QQuote; QChar 100]]; [PChar 101; PEsc 102; PQuoted [QQuote]; PEsc COMMA]], ECRLF)] (TOpen [[]] [PChar 103] [QChar 104; QEsc LF]) in
  render D d = s2l """a""""" ++ [LF] ++ s2l "\b""c""""""d"",e\f""""""""\," ++ [CR; LF] ++ s2l ",g""h\" ++ [LF] /\
  csv_rows D d = [[s2l "a""" ++ [LF] ++ s2l "bc""""""d"""; s2l "ef"""""""","]; [[]; s2l "g""h" ++ [LF]]] /\
  csv_reader comma_csv false 20 (render D d) = (csv_rows D d, None) /\
  fst (parse_string 20 (render D d) (simple D false) false) <> map (map CStr) (csv_rows D d) /\
  wf_chars D = true /\ csv_chars comma_csv D /\ wf_doc D d = true /\ uncut D d = true.
Proof. cbv zeta. repeat split; (vm_compute; reflexivity) || (vm_compute; intros [=]). Qed.

(** Without an escape character the readers agree exactly on the layouts with
    [agreeing], whether or not the text ends inside quotes. *)
Theorem C99_agree w limit D d :
  wf_chars D = true -> csv_chars w D -> ce D = None -> wf_doc D d = true ->
  (Z.of_nat (List.length (render D d)) < limit)%Z ->
  map (map CStr) (fst (csv_reader w false limit (render D d))) = fst (parse_string limit (render D d) (simple D false) false) <->
  agreeing D d = true.
Proof. exact (fun WF CC NE => readers_agree w limit D WF CC NE d). Qed.
Print Assumptions C99_agree.
Definition plain_chars : chars := mk_chars (Some COMMA) (Some DQ) None.
Definition plain_csv : wdialect := mk_wdialect COMMA (Some DQ) None true false [LF] QUOTE_MINIMAL.
Definition both d := (fst (csv_reader plain_csv false 20 (render plain_chars d)), fst (parse_string 20 (render plain_chars d) (simple plain_chars false) false), agreeing plain_chars d).
(** Only the first of the four is read alike. *)
Example C99_agree_case :
  let doc1 cells := mk_doc [] (TRow cells) in
  let d1 := doc1 [[PChar 53; PQuoted [QChar 54]]; [PQuoted [QChar COMMA; QQuote]]] in
  let d2 := doc1 [[PQuoted [QChar 97]; PChar 98]; [PChar 99]] in
  let d3 := doc1 [[PChar 97; PQuoted [QChar 98; QChar COMMA; QChar 99]]] in
  let d4 := doc1 [[PChar 97; PQuoted [QQuote]]] in
  both d1 = ([[s2l "5""6"""; s2l ","""]], [[CStr (s2l "5""6"""); CStr (s2l ",""")]], true) /\
  both d2 = ([[s2l "ab"; s2l "c"]], [[CStr (s2l """a""b"); CStr (s2l "c")]], false) /\
  both d3 = ([[s2l "a""b"; s2l "c"""]], [[CStr (s2l "a""b,c""")]], false) /\
  both d4 = ([[s2l "a"""""""""]], [[CStr (s2l "a""""""")]], false) /\
  forallb (wf_doc plain_chars) [d1; d2; d3; d4] = true /\ csv_chars plain_csv plain_chars.
Proof. cbv zeta. repeat split; (vm_compute; reflexivity) || (vm_compute; intros [=]). Qed.
(** Open quotes: a text ending with a doubled quote is read differently, and so
    are quotes behind closed quotes; the others are read alike. *)
Example C99_agree_open :
  let d1 := mk_doc [] (TOpen [[PChar 97]] [] [QChar 98; QChar COMMA; QQuote; QChar LF]) in
  let d2 := mk_doc [] (TOpen [[PChar 97]] [] [QChar 98; QQuote]) in
  let d3 := mk_doc [] (TOpen [] [PChar 97] [QChar 98]) in
  let d4 := mk_doc [] (TOpen [] [PQuoted []; PChar 97] [QQuote]) in
  both d1 = ([[s2l "a"; s2l "b,""" ++ [LF]]], [[CStr (s2l "a"); CStr (s2l "b,""" ++ [LF])]], true) /\
  both d2 = ([[s2l "a"; s2l "b"""]], [[CStr (s2l "a"); CStr (s2l "b")]], false) /\
  both d3 = ([[s2l "a""b"]], [[CStr (s2l "a""b")]], true) /\
  both d4 = ([[s2l "a"""""""]], [[CStr (s2l "a""")]], false) /\
  forallb (wf_doc plain_chars) [d1; d2; d3; d4] = true.
Proof. cbv zeta. repeat split; vm_compute; reflexivity. Qed.

(** Every text without NUL has a layout, so this decides for every such text
    whether the readers agree. *)
Theorem C99_agree_texts w limit D t :
  wf_chars D = true -> csv_chars w D -> ce D = None -> no_nul t ->
  (Z.of_nat (List.length t) < limit)%Z ->
  exists d, wf_doc D d = true /\ render D d = t /\
    (map (map CStr) (fst (csv_reader w false limit t)) = fst (parse_string limit t (simple D false) false) <-> agreeing D d = true).
Proof. exact (fun WF CC NE => texts_agree w limit D WF CC NE t). Qed.
Print Assumptions C99_agree_texts.
Example C99_agree_texts_case :
  let t := s2l "1,""a b""" ++ [CR; LF] ++ s2l "5""6""" in
  no_nul t /\ (Z.of_nat (List.length t) < 20)%Z /\
  map (map CStr) (fst (csv_reader plain_csv false 20 t)) = fst (parse_string 20 t (simple plain_chars false) false) /\
  fst (csv_reader plain_csv false 20 t) = [[s2l "1"; s2l "a b"]; [s2l "5""6"""]].
Proof. cbv zeta. repeat split; try (vm_compute; reflexivity). intros H. vm_compute in H. repeat destruct H as [H|H]; discriminate H || contradiction. Qed.
