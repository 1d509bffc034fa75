(** * Properties: a sample of the file is enough (C101) *)
From Coq Require Import String.
From Verif Require Import Base Parser Dialect CsvLib Reader Writer Files Wrappers Standardize SpecLayout SpecParse SpecWriter SpecFiles TableFacts Potential SpecPotential MaskedFacts Consistency DetectCases Detect NormalForm SpecNormal
  SpecTables FilesCases SpecQuoted SpecColumn SpecExcel SpecDocument Documents DocumentCases SpecSample Sample SampleCases.
Open Scope N_scope.

(** If the first [nc] characters are in simple form with the delimiter and quote
    character of the whole file, then they lead to the same answer ... *)
Theorem C101_answer cat url known O o_set E method skip s f p encoding cod b text d q cells nc :
  In method [MStr (s2l "normal"); MEnum NORMAL; MStr (s2l "auto"); MEnum AUTO] ->
  (forall sample, e_detect E sample = fst (detector_detect cat url known O o_set sample None method skip s)) ->
  document cat text d q cells -> simple_sample cat (head_chars nc text) d q ->
  open_text E f p (or_encoding encoding) = Ok (cod, b) -> cd_decode cod b = (text, true) ->
  detect_dialect E f p encoding nc = Ok (Some (dialect3 d q [])) /\ detect_dialect E f p encoding None = Ok (Some (dialect3 d q [])).
Proof.
  exact (fun HM HE HD HS Ho Hb => conj
    (document_answer cat url known O o_set E method skip s HM HE f p encoding cod b text d q nc Hb (simple_normal cat _ _ _ HS) Ho)
    (document_answer cat url known O o_set E method skip s HM HE f p encoding cod b text d q None Hb (document_normal cat _ _ _ _ HD) Ho)).
Qed.
Print Assumptions C101_answer.
(** ... and all rows of the file are read, *)
Theorem C101_read cat url known O o_set E method skip s f h p encoding cod b text d q cells nc :
  In method [MStr (s2l "normal"); MEnum NORMAL; MStr (s2l "auto"); MEnum AUTO] ->
  (forall sample, e_detect E sample = fst (detector_detect cat url known O o_set sample None method skip s)) ->
  document cat text d q cells -> simple_sample cat (head_chars nc text) d q ->
  open_text E f p encoding = Ok (cod, b) -> cd_decode cod b = (text, true) ->
  cells_fit (e_limit E) cells -> read_table E f h p None encoding nc = Ok (map (map CStr) cells).
Proof.
  exact (fun HM HE HD HS Ho Hb HL => document_read cat url known O o_set E method skip s HM HE f p encoding cod b text d q cells nc HD Hb (simple_normal cat _ _ _ HS) h Ho HL).
Qed.
Print Assumptions C101_read.
(** ... standardized to the standard output, *)
Theorem C101_stdout cat url known O o_set S A method skip s f p encoding cod b text d q cells :
  In method [MStr (s2l "normal"); MEnum NORMAL; MStr (s2l "auto"); MEnum AUTO] ->
  (forall sample, e_detect (s_env S) sample = fst (detector_detect cat url known O o_set sample None method skip s)) ->
  e_registry (s_env S) (s2l "excel") = Some excel_csv ->
  document cat text d q cells -> simple_sample cat (head_chars (a_num_chars A) text) d q ->
  open_text (s_env S) f p (or_encoding encoding) = Ok (cod, b) -> cd_decode cod b = (text, true) ->
  cells_fit (e_limit (s_env S)) cells -> a_in_place A = false ->
  handle_path S A f p None encoding = (Code 0, f, excel_table (if a_transpose A then zip_star cells else cells)).
Proof.
  exact (fun HM HE Hr HD HS Ho Hb HL => document_stdout cat url known O o_set S A method skip s HM HE Hr f p encoding cod b text d q cells HD Ho Hb (simple_normal cat _ _ _ HS) HL).
Qed.
Print Assumptions C101_stdout.
(** ... and standardized in place. *)
Theorem C101_in_place cat url known O o_set S A method skip s f p encoding cod b text d q cells output cout b' :
  In method [MStr (s2l "normal"); MEnum NORMAL; MStr (s2l "auto"); MEnum AUTO] ->
  (forall sample, e_detect (s_env S) sample = fst (detector_detect cat url known O o_set sample None method skip s)) ->
  e_registry (s_env S) (s2l "excel") = Some excel_csv ->
  document cat text d q cells -> simple_sample cat (head_chars (a_num_chars A) text) d q ->
  open_text (s_env S) f p (or_encoding encoding) = Ok (cod, b) -> cd_decode cod b = (text, true) ->
  cells_fit (e_limit (s_env S)) cells -> a_in_place A = true -> f (s_mkstemp S f) = None ->
  let used := match or_encoding encoding with None => e_get_encoding (s_env S) b | e => e end in
  e_codec (s_env S) (match or_encoding (a_target A) with None => used | e => e end) = Ok cout -> lawful cout ->
  cd_encode cout (excel_table (if a_transpose A then zip_star cells else cells)) = Some b' ->
  exists f', (s_sha1 S b <> s_sha1 S b' -> handle_path S A f p output encoding = (Code 2, f', []) /\ same_fs f' (upd f p (Some b'))) /\
             (s_sha1 S b = s_sha1 S b' -> handle_path S A f p output encoding = (Code 0, f', []) /\ same_fs f' f).
Proof.
  exact (fun HM HE Hr HD HS Ho Hb HL => document_in_place cat url known O o_set S A method skip s HM HE Hr f p encoding cod b text d q cells HD Ho Hb (simple_normal cat _ _ _ HS) HL output cout b').
Qed.
Print Assumptions C101_in_place.

(** The first rows of an unquoted table, with or without the last line end. *)
Theorem C101_rows cat c k rows final e rows1 final1 :
  In c common_delimiters -> (2 <= k)%nat -> Forall (fun r => List.length r = k /\ Forall (over elementary) r) (table_of rows final) ->
  (forall r, In r rows -> snd r = e) -> ~ escape_suspect cat common_delimiters (table_text c rows final) ->
  first_rows rows rows1 final1 -> table_of rows1 final1 <> [] ->
  let sample := table_text c rows1 final1 in
  document cat sample [c] [] (table_of rows1 final1) /\ head_chars (chars_of sample) (table_text c rows final) = sample.
Proof. exact (bare_rows cat c k rows final e rows1 final1). Qed.
Print Assumptions C101_rows.
(** It may end anywhere in the last cell of a row. *)
Theorem C101_last_cell cat c k rows final e rows1 r x y :
  In c common_delimiters -> (2 <= k)%nat -> Forall (fun r => List.length r = k /\ Forall (over elementary) r) (table_of rows final) ->
  (forall r, In r rows -> snd r = e) -> ~ escape_suspect cat common_delimiters (table_text c rows final) ->
  first_rows rows rows1 (Some (r ++ [x ++ y])) \/ rows = rows1 /\ final = Some (r ++ [x ++ y]) ->
  let sample := table_text c rows1 (Some (r ++ [x])) in
  document cat sample [c] [] (table_of rows1 (Some (r ++ [x]))) /\ head_chars (chars_of sample) (table_text c rows final) = sample.
Proof. exact (bare_cell cat c k rows final e rows1 r x y). Qed.
Print Assumptions C101_last_cell.
(** With quotes, the first rows must show them. *)
Theorem C101_quoted_rows cat c q k rows final e rows1 final1 :
  a_quote q -> In c common_delimiters -> simple_grid k q (table_of rows final) -> all_cells (fun x => ~ In NUL (snd x)) (table_of rows final) ->
  (forall r, In r rows -> snd r = e) -> ~ escape_suspect cat common_delimiters (quoted_text c q rows final) ->
  first_rows rows rows1 final1 -> table_of rows1 final1 <> [] -> simple_quotes (table_of rows1 final1) ->
  let sample := quoted_text c q rows1 final1 in
  document cat sample [c] [q] (map (map snd) (table_of rows1 final1)) /\ head_chars (chars_of sample) (quoted_text c q rows final) = sample.
Proof. exact (quoted_rows cat c q k rows final e rows1 final1). Qed.
Print Assumptions C101_quoted_rows.
(** Of a column two lines are enough. *)
Theorem C101_lines cat rows final e rows1 final1 :
  (forall r, In r rows -> snd r = e) -> (forall s, In s (column_of rows final) -> s <> [] /\ over word s) ->
  first_rows rows rows1 final1 -> (2 <= List.length (column_of rows1 final1))%nat ->
  let sample := column_text rows1 final1 in
  document cat sample [] [] (map (fun s => [s]) (column_of rows1 final1)) /\ head_chars (chars_of sample) (column_text rows final) = sample.
Proof. exact (line_rows cat rows final e rows1 final1). Qed.
Print Assumptions C101_lines.
Theorem C101_quoted_lines cat q rows final e rows1 final1 :
  a_quote q -> (forall r, In r rows -> snd r = e) -> (forall s, In s (column_of rows final) -> over (SPACE :: word) s) ->
  ~ escape_suspect cat common_delimiters (quoted_column q rows final) ->
  first_rows rows rows1 final1 -> (2 <= List.length (column_of rows1 final1))%nat ->
  let sample := quoted_column q rows1 final1 in
  document cat sample [] [q] (map (fun s => [s]) (column_of rows1 final1)) /\ head_chars (chars_of sample) (quoted_column q rows final) = sample.
Proof. exact (quoted_line_rows cat q rows final e rows1 final1). Qed.
Print Assumptions C101_quoted_lines.
(** The sample may end between the CR and the LF of a line end. *)
Theorem C101_cut_line_end cat s y d q cells rest : document cat (s ++ [y]) d q cells -> y <> CR -> y <> LF ->
  let text := (s ++ [y]) ++ [CR] ++ rest in let sample := (s ++ [y]) ++ [CR] in
  simple_sample cat sample d q /\ head_chars (chars_of sample) text = sample.
Proof. exact (cut_head cat s y d q cells rest). Qed.
Print Assumptions C101_cut_line_end.
Example C101_cut_line_end_case : document ascii_cat (s2l "a b," ++ [49]) [COMMA] [] (strs [["a b"; "1"]]%string) /\
  document ascii_cat ((s2l "a b," ++ [49]) ++ [CR] ++ ([LF] ++ s2l "c d,2" ++ [CR; LF])) [COMMA] [] (strs [["a b"; "1"]; ["c d"; "2"]]%string).
Proof. exact crlf_documents. Qed.
(** The samples in the middle of the second row and behind it. *)
Example C101_case :
  let sample1 := table_text COMMA [([s2l "a b"; s2l "1"], ELF)] None in
  let sample2 := table_text COMMA [([s2l "a b"; s2l "1"], ELF)] (Some [s2l "c d"; []]) in
  sample1 = s2l "a b,1" ++ [LF] /\ sample2 = s2l "a b,1" ++ [LF] ++ s2l "c d," /\
  first_rows cut_rows [([s2l "a b"; s2l "1"], ELF)] None /\ first_rows cut_rows [([s2l "a b"; s2l "1"], ELF)] (Some ([s2l "c d"] ++ [[] ++ s2l "2"])) /\
  document ascii_cat (table_text COMMA cut_rows None) [COMMA] [] (strs [["a b"; "1"]; ["c d"; "2"]]%string) /\
  first_rows late_rows [([(false, s2l "a"); (false, s2l "b")], ELF)] (Some [(true, s2l "c,d"); (false, s2l "e")]) /\
  first_rows lone_rows [(s2l "a b", ELF)] (Some (s2l "c d")).
Proof.
  cbv zeta. split; [reflexivity|]. split; [reflexivity|]. split; [eexists; split; [reflexivity|now left]|]. split; [eexists; split; [reflexivity|right; eexists _, _, _; split; reflexivity]|].
  split; [exact cut_document|]. split; (eexists; split; [reflexivity|right; eexists _, _, _; split; reflexivity]).
Qed.

(** A sample that ends before the last cell of a row can mislead: a space is
    taken for the delimiter of a table with commas. *)
Theorem C101_any_sample_refuted : exists text cells sample rest,
  document ascii_cat text [COMMA] [] cells /\ text = sample ++ rest /\ cells = strs [["a b"; "1"]; ["c d"; "2"]]%string /\
  shipped_detect (mk_state None 131072) sample = Ok (Some (dialect3 [32] [] [])) /\
  read_table shipped_env (one_file text) [] 1 None None (chars_of sample) = Ok (map (map CStr) (strs [["a"; "b,1"]; ["c"; "d,2"]]%string)).
Proof.
  exact (ex_intro _ cut_text (ex_intro _ _ (ex_intro _ cut_sample (ex_intro _ (s2l ",2" ++ [LF])
    (conj cut_document (conj eq_refl (conj eq_refl (conj cut_detected cut_read)))))))).
Qed.
Print Assumptions C101_any_sample_refuted.
(** A sample of whole rows without the quotes of the later ones: the quotes stay
    and the cells are cut. *)
Theorem C101_late_quotes_refuted : exists rows rows1 cells,
  let text := quoted_text COMMA 34 rows None in let sample := quoted_text COMMA 34 rows1 None in
  document ascii_cat text [COMMA] [34] cells /\ first_rows rows rows1 None /\ rows1 <> [] /\ cells = strs [["a"; "b"]; ["c,d"; "e"]]%string /\
  shipped_detect (mk_state None 131072) sample = Ok (Some (dialect3 [COMMA] [] [])) /\
  read_table shipped_env (one_file text) [] 1 None None (chars_of sample) = Ok (map (map CStr) (strs [["a"; "b"]; ["""c"; "d"""; "e"]]%string)).
Proof.
  exact (ex_intro _ late_rows (ex_intro _ [([(false, s2l "a"); (false, s2l "b")], ELF)] (ex_intro _ _
    (conj late_document (conj late_first (conj (fun H => @nil_cons _ _ _ (eq_sym H)) (conj eq_refl (conj late_detected late_read)))))))).
Qed.
Print Assumptions C101_late_quotes_refuted.
