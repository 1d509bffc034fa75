(** * PropsCsvReader: C92 *)
From Coq Require Import String.
From Verif Require Import Base Parser Dialect CsvLib Reader Writer Files Wrappers Standardize SpecLayout SpecParse SpecWriter SpecFiles CsvReader SpecCsvReader CsvReaderMore CsvReaderApi StandardizeFacts TableFacts ExcelText.
Open Scope N_scope.

(** ** C92: CleverCSV's reader and csv.reader *)

(** [csv_chars w D] holds for what [to_csv_dialect] makes of a dialect. *)
Theorem C92_converted D st c w :
  to_csv_dialect (simple D st) = Ok c -> dialect_new c = Ok w -> csv_chars w D.
Proof. exact (converted_chars D st c w). Qed.
Print Assumptions C92_converted.

(** Texts without quote and escape characters are read alike, whatever the two
    [strict] flags are, and also when a field is too long. *)
Theorem C92_bare w D s1 s2 limit t :
  csv_chars w D -> bare D t ->
  fst (parse_string limit t (simple D s1) false) = map (map CStr) (fst (csv_reader w s2 limit t)) /\
  same_end (snd (parse_string limit t (simple D s1) false)) (snd (csv_reader w s2 limit t)).
Proof. intros H. exact (bare_read w D s1 s2 limit H t). Qed.
Print Assumptions C92_bare.
Example C92_bare_case :
  let D := mk_chars (Some COMMA) (Some DQ) None in
  let w := mk_wdialect COMMA (Some DQ) None true false [LF] QUOTE_MINIMAL in
  let t := s2l "a,bc,'d" ++ [CR; LF; LF] ++ s2l "e;" ++ [CR] ++ s2l ",long" in
  csv_reader w true 10 t = ([[s2l "a"; s2l "bc"; s2l "'d"]; []; [s2l "e;"]; [[]; s2l "long"]], None) /\
  csv_reader w false 3 t = ([[s2l "a"; s2l "bc"; s2l "'d"]; []; [s2l "e;"]], Some CsvError) /\
  parse_string 3 t (simple D false) false = ([[CStr (s2l "a"); CStr (s2l "bc"); CStr (s2l "'d")]; []; [CStr (s2l "e;")]], Some (CleverError EFieldLimit)) /\
  csv_chars w D /\ bare D t.
Proof.
  cbv zeta. split; [vm_compute; reflexivity|]. split; [vm_compute; reflexivity|]. split; [vm_compute; reflexivity|]. split.
  - constructor; (reflexivity || discriminate).
  - intros c Hc. repeat (destruct Hc as [<-|Hc]; [repeat split; discriminate|]). destruct Hc.
Qed.

(** Layouts whose cells are quoted as a whole or not at all, with escapes where
    they are needed only. *)
Theorem C92_standard w D strict limit d :
  wf_chars D = true -> csv_chars w D -> wf_doc D d = true -> std_doc D d = true -> strict = false \/ last d = TEnd ->
  Forall (fun s => (Z.of_nat (List.length s) <= limit)%Z) (raw_cells D d) ->
  csv_reader w strict limit (render D d) = (map (map fst) (denote D d), None) /\
  parse_string limit (render D d) (simple D false) false = (map (map CStr) (map (map fst) (denote D d)), None).
Proof. exact (both_read w D strict limit d). Qed.
Print Assumptions C92_standard.
Example C92_standard_case :
  let D := mk_chars (Some COMMA) (Some DQ) (Some BACKSLASH) in
  let w := mk_wdialect COMMA (Some DQ) (Some BACKSLASH) true false [LF] QUOTE_MINIMAL in
  let d := mk_doc [([[PChar 97]; [PQuoted [QChar 98; QQuote; QChar LF; QEsc DQ; QChar COMMA]]; []], ECRLF); ([], ELF); ([[PEsc COMMA; PChar 99; PEsc LF]], ECR)] (TRow [[]; [PChar 100]]) in
  wf_doc D d = true /\ std_doc D d = true /\ csv_chars w D /\
  render D d = s2l "a,""b""""" ++ [LF] ++ s2l "\"",""," ++ [CR; LF; LF] ++ s2l "\,c\" ++ [LF; CR] ++ s2l ",d" /\
  csv_reader w false 20 (render D d) = ([[s2l "a"; s2l "b""" ++ [LF] ++ s2l ""","; []]; []; [s2l ",c" ++ [LF]]; [[]; s2l "d"]], None).
Proof. repeat split; (vm_compute; reflexivity) || discriminate. Qed.

(** What CleverCSV writes is read by [csv.reader]. *)
Theorem C92_written_simple reg h a D st d q rows limit strict :
  deref h a = simple D st -> cd D = Some d -> cq D = Some q -> wf_chars D = true -> csv_fits limit (map (map value_str) rows) ->
  exists c w text, to_csv_dialect (simple D st) = Ok c /\ dialect_new c = Ok w /\
    new_writer reg h (DSimple a) [] = Ok w /\ writerows w rows = (text, None) /\
    csv_reader w strict limit text = (map (map value_str) rows, None).
Proof. exact (written_simple_csv reg h a D st d q rows limit strict). Qed.
Print Assumptions C92_written_simple.
Theorem C92_written_named reg h name c D d q rows limit strict :
  reg name = Some c -> quoting_csv c D d q -> cv_skipinitialspace c = false -> cv_quoting c <> QUOTE_NONNUMERIC ->
  wf_chars D = true -> csv_fits limit (map (map value_str) rows) ->
  exists w text, dialect_new c = Ok w /\ new_writer reg h (DName name) [] = Ok w /\ writerows w rows = (text, None) /\
    csv_reader w strict limit text = (map (map value_str) rows, None).
Proof. exact (written_named_csv reg h name c D d q rows limit strict). Qed.
Print Assumptions C92_written_named.
Example C92_written_case :
  let rows := [[VStr (s2l "a,b"); VStr (s2l "say ""x"""); VNone]; []; [VStr []]] in
  csv_fits 20 (map (map value_str) rows) /\
  match dialect_new excel_csv with
  | Ok w => csv_reader w true 20 (fst (writerows w rows)) = (map (map value_str) rows, None)
  | Err _ => False
  end.
Proof.
  split; [|vm_compute; reflexivity]. intros r s Hr Hs. cbn in Hr. repeat (destruct Hr as [<-|Hr]; [|]); try destruct Hr; cbn in Hs;
    repeat (destruct Hs as [<-|Hs]; [split; [intros Hn; repeat (destruct Hn as [Hn|Hn]; [discriminate Hn|]); destruct Hn|cbn; lia]|]); destruct Hs.
Qed.
Theorem C92_standardized S f p dl enc cin b rows limit strict (tr : bool) w :
  e_registry (s_env S) (s2l "excel") = Some excel_csv -> validate dl = true -> f p = Some b -> e_codec (s_env S) enc = Ok cin ->
  file_rows (e_limit (s_env S)) cin b dl = (rows, None) -> dialect_new excel_csv = Ok w ->
  let out := map (map cell_str) (if tr then zip_star rows else rows) in csv_fits limit out ->
  exists text, to_stdout S f p dl enc tr = (Code 0, text) /\ csv_reader w strict limit text = (out, None).
Proof.
  intros H1 H2 H3 H4 H5 [= <-]. exact (standardized_csv S f p dl enc cin b rows limit strict tr H1 H2 H3 H4 H5).
Qed.
Print Assumptions C92_standardized.

(** Without these conditions the readers differ: a quote inside a cell, text
    behind a closing quote, an escape before an ordinary character, and the
    [strict] flag. *)
Definition both (esc : option N) (strict : bool) (t : str) : list (list str) * list (list str) :=
  let D := mk_chars (Some COMMA) (Some DQ) esc in
  (map (map cell_str) (fst (parse_string 131072 t (simple D strict) false)),
   fst (csv_reader (mk_wdialect COMMA (Some DQ) esc true false [LF] QUOTE_MINIMAL) strict 131072 t)).
Theorem C92_all_texts_refuted : exists t1 t2 t3 t4 : str,
  both None false t1 = ([[t1]], [[s2l "a""b"; s2l "c"""]]) /\
  both None false t2 = ([[t2]], [[s2l "ab"]]) /\
  both (Some BACKSLASH) false t3 = ([[t3]], [[s2l "ab"]]) /\
  both None true t4 = ([], [[s2l "a"]]).
Proof. exists (s2l "a""b,c"""), (s2l """a""b"), (s2l "a\b"), (s2l """a"""). vm_compute. repeat split. Qed.
Print Assumptions C92_all_texts_refuted.
