(** * PropsDocument: C88 *)
From Coq Require Import String.
From Verif Require Import Base Parser Dialect CsvLib Reader Writer Files Wrappers Standardize SpecLayout SpecParse SpecFiles StandardizeFacts TableFacts Potential SpecPotential NormalForm Consistency Detect
  Json SpecJson SpecText Codegen SpecCodegen Console SpecConsole SpecTables SpecQuoted SpecColumn SpecExcel SpecDocument Documents DocumentsTwice TypesUrl MaskedFacts DetectCases SimpleCases ColumnCases DocumentCases.
Open Scope N_scope.

(** ** C88 *)
Theorem C88_detect cat url known O o_set s E printable space rt rt6 f p A cod b text d q cells :
  let det := fun m skip sample => fst (detector_detect cat url known O o_set sample None m skip s) in
  document cat text d q cells -> open_text E f p (or_encoding (da_encoding A)) = Ok (cod, b) -> cd_decode cod b = (text, true) ->
  head_chars (da_num_chars A) text = text -> da_consistency A = false ->
  exists lines, detect_command E det printable space rt rt6 f p A = Printed lines 0 /\
    (da_plain A = true -> python_space space -> plain_fields lines = Some (visible space d, visible space q, [])) /\
    (da_plain A = false -> da_json A = true -> forall md depth, (1 <= depth)%nat -> float_text rt ->
       exists line v j, lines = [line] /\ loads md depth line = Ok v /\ from_dict v = Ok j /\ same_dialect j (dialect3 d q [])) /\
    (da_plain A = false -> da_json A = false -> exists line more, lines = line :: more /\ detected_fields line = Some (d, q, [])).
Proof. intros det HD Ho Hb Hh. exact (document_detect cat url known O o_set s E printable space rt rt6 f p A cod b text d q cells HD Ho Hb (whole_sample cat _ _ _ _ _ HD Hh)). Qed.
Print Assumptions C88_detect.
Theorem C88_read cat url known O o_set E method skip s f h p encoding cod b text d q cells nc :
  In method [MStr (s2l "normal"); MEnum NORMAL; MStr (s2l "auto"); MEnum AUTO] ->
  (forall sample, e_detect E sample = fst (detector_detect cat url known O o_set sample None method skip s)) ->
  document cat text d q cells -> open_text E f p encoding = Ok (cod, b) -> cd_decode cod b = (text, true) -> head_chars nc text = text ->
  cells_fit (e_limit E) cells -> read_table E f h p None encoding nc = Ok (map (map CStr) cells).
Proof. intros HM HE HD Ho Hb Hh HL. exact (document_read cat url known O o_set E method skip s HM HE f p encoding cod b text d q cells nc HD Hb (whole_sample cat _ _ _ _ _ HD Hh) h Ho HL). Qed.
Print Assumptions C88_read.
Theorem C88_dataframe {V} cat url known O o_set E method skip s f p encoding cod b text d q cells nc imp vlt (args : list V) kwargs m :
  In method [MStr (s2l "normal"); MEnum NORMAL; MStr (s2l "auto"); MEnum AUTO] ->
  (forall sample, e_detect E sample = fst (detector_detect cat url known O o_set sample None method skip s)) ->
  document cat text d q cells -> open_text E f p (or_encoding encoding) = Ok (cod, b) -> cd_decode cod b = (text, true) -> head_chars nc text = text ->
  import_optional_dependency imp vlt (s2l "pandas") true = Ok m -> existsb (fun kv => str_eqb (fst kv) (s2l "dialect")) kwargs = false ->
  read_dataframe E imp vlt f p args nc encoding kwargs =
  match d with
  | [] => Err CsvError
  | _ => Ok (mk_csv_call p args
           (mk_csvdialect (Some d) (Some (match q with [] => [DQ] | _ => q end)) None true false (Some [LF]) (match q with [] => QUOTE_NONE | _ => QUOTE_MINIMAL end) None)
           (match or_encoding encoding with Some e => Some e | None => e_get_encoding E b end) kwargs)
  end.
Proof. intros HM HE HD Ho Hb Hh HI Hk. exact (document_dataframe cat url known O o_set E method skip s HM HE f p encoding cod b text d q cells nc HD Hb (whole_sample cat _ _ _ _ _ HD Hh) imp vlt args kwargs m Ho HI Hk). Qed.
Print Assumptions C88_dataframe.

(** The encodings that are used to read and to write. *)
Theorem C88_stdout cat url known O o_set S A method skip s f p encoding cod b text d q cells :
  In method [MStr (s2l "normal"); MEnum NORMAL; MStr (s2l "auto"); MEnum AUTO] ->
  (forall sample, e_detect (s_env S) sample = fst (detector_detect cat url known O o_set sample None method skip s)) ->
  e_registry (s_env S) (s2l "excel") = Some excel_csv ->
  document cat text d q cells -> open_text (s_env S) f p (or_encoding encoding) = Ok (cod, b) -> cd_decode cod b = (text, true) -> head_chars (a_num_chars A) text = text ->
  cells_fit (e_limit (s_env S)) cells -> a_in_place A = false ->
  handle_path S A f p None encoding = (Code 0, f, excel_table (if a_transpose A then zip_star cells else cells)).
Proof. intros HM HE Hr HD Ho Hb Hh HL. exact (document_stdout cat url known O o_set S A method skip s HM HE Hr f p encoding cod b text d q cells HD Ho Hb (whole_sample cat _ _ _ _ _ HD Hh) HL). Qed.
Print Assumptions C88_stdout.
Theorem C88_file cat url known O o_set S A method skip s f p encoding cod b text d q cells o cout b' :
  In method [MStr (s2l "normal"); MEnum NORMAL; MStr (s2l "auto"); MEnum AUTO] ->
  (forall sample, e_detect (s_env S) sample = fst (detector_detect cat url known O o_set sample None method skip s)) ->
  e_registry (s_env S) (s2l "excel") = Some excel_csv ->
  document cat text d q cells -> open_text (s_env S) f p (or_encoding encoding) = Ok (cod, b) -> cd_decode cod b = (text, true) -> head_chars (a_num_chars A) text = text ->
  cells_fit (e_limit (s_env S)) cells -> a_in_place A = false -> o <> p ->
  let used := match or_encoding encoding with None => e_get_encoding (s_env S) b | e => e end in
  e_codec (s_env S) (match or_encoding (a_target A) with None => used | e => e end) = Ok cout -> lawful cout ->
  cd_encode cout (excel_table (if a_transpose A then zip_star cells else cells)) = Some b' ->
  exists f', handle_path S A f p (Some o) encoding = (Code 0, f', []) /\ same_fs f' (upd f o (Some b')).
Proof. intros HM HE Hr HD Ho Hb Hh HL. exact (document_file cat url known O o_set S A method skip s HM HE Hr f p encoding cod b text d q cells HD Ho Hb (whole_sample cat _ _ _ _ _ HD Hh) HL o cout b'). Qed.
Print Assumptions C88_file.
Theorem C88_in_place cat url known O o_set S A method skip s f p encoding cod b text d q cells output cout b' :
  In method [MStr (s2l "normal"); MEnum NORMAL; MStr (s2l "auto"); MEnum AUTO] ->
  (forall sample, e_detect (s_env S) sample = fst (detector_detect cat url known O o_set sample None method skip s)) ->
  e_registry (s_env S) (s2l "excel") = Some excel_csv ->
  document cat text d q cells -> open_text (s_env S) f p (or_encoding encoding) = Ok (cod, b) -> cd_decode cod b = (text, true) -> head_chars (a_num_chars A) text = text ->
  cells_fit (e_limit (s_env S)) cells -> a_in_place A = true -> f (s_mkstemp S f) = None ->
  let used := match or_encoding encoding with None => e_get_encoding (s_env S) b | e => e end in
  e_codec (s_env S) (match or_encoding (a_target A) with None => used | e => e end) = Ok cout -> lawful cout ->
  cd_encode cout (excel_table (if a_transpose A then zip_star cells else cells)) = Some b' ->
  exists f', (s_sha1 S b <> s_sha1 S b' -> handle_path S A f p output encoding = (Code 2, f', []) /\ same_fs f' (upd f p (Some b'))) /\
             (s_sha1 S b = s_sha1 S b' -> handle_path S A f p output encoding = (Code 0, f', []) /\ same_fs f' f).
Proof. intros HM HE Hr HD Ho Hb Hh HL. exact (document_in_place cat url known O o_set S A method skip s HM HE Hr f p encoding cod b text d q cells HD Ho Hb (whole_sample cat _ _ _ _ _ HD Hh) HL output cout b'). Qed.
Print Assumptions C88_in_place.
(** The standardized file is a document again, if its cells need no quotes ... *)
Theorem C88_again cat text d q cells : cat LF <> s2l "Po" -> document cat text d q cells -> settled d cells ->
  document cat (excel_table cells) (match d with [] => [] | _ => [COMMA] end) [] cells.
Proof. intros HC. exact (document_again cat HC text d q cells). Qed.
Print Assumptions C88_again.
Theorem C88_unquoted_settled cat text d cells : document cat text d [] cells -> settled d cells.
Proof. exact (bare_settled cat text d cells). Qed.
Print Assumptions C88_unquoted_settled.
(** ... and then a second run changes nothing. *)
Theorem C88_twice cat url known O o_set S A method skip s f p encoding cod b b' text d q cells output : cat LF <> s2l "Po" ->
  In method [MStr (s2l "normal"); MEnum NORMAL; MStr (s2l "auto"); MEnum AUTO] ->
  (forall sample, e_detect (s_env S) sample = fst (detector_detect cat url known O o_set sample None method skip s)) ->
  e_registry (s_env S) (s2l "excel") = Some excel_csv ->
  a_in_place A = true -> a_transpose A = false -> a_num_chars A = None -> a_target A = None -> encoding <> [] ->
  (forall g, same_fs_but [p] g f -> g (s_mkstemp S g) = None) ->
  document cat text d q cells -> settled d cells -> f p = Some b -> e_codec (s_env S) (Some encoding) = Ok cod -> lawful cod -> cd_decode cod b = (text, true) ->
  cells_fit (e_limit (s_env S)) cells -> cd_encode cod (excel_table cells) = Some b' ->
  exists n f1 f2, handle_path S A f p output (Some encoding) = (Code n, f1, []) /\ In n [0; 2]%nat /\
    handle_path S A f1 p output (Some encoding) = (Code 0, f2, []) /\ same_fs f2 f1.
Proof. intros HC HM HE Hr. exact (in_place_twice cat HC url known O o_set S A method skip s HM HE Hr f p encoding cod b b' text d q cells output). Qed.
Print Assumptions C88_twice.
(** A column of quoted cells with spaces changes twice. *)
Theorem C88_every_document_twice_refuted : exists text d q cells f1 f2,
  document ascii_cat text d q cells /\
  handle_path lone_senv lone_args (one_file text) 1 None (Some (s2l "latin1")) = (Code 2, f1, []) /\ f1 1 = Some (s2l "a b" ++ [CR; LF] ++ s2l "c d" ++ [CR; LF]) /\
  handle_path lone_senv lone_args f1 1 None (Some (s2l "latin1")) = (Code 2, f2, []) /\ f2 1 = Some (s2l "a,b" ++ [CR; LF] ++ s2l "c,d" ++ [CR; LF]).
Proof.
  exact (ex_intro _ lone_text (ex_intro _ [] (ex_intro _ [34] (ex_intro _ (strs [["a b"]; ["c d"]]%string)
    (match lone_twice with ex_intro _ f1 (ex_intro _ f2 H) => ex_intro _ f1 (ex_intro _ f2 (conj lone_document H)) end))))).
Qed.
Print Assumptions C88_every_document_twice_refuted.

Example C88_bare_table : document ascii_cat (table_text 124 signs_rows signs_final) [124] [] (strs [["(x y)"; "50%"; ""]; ["a@b+c"; "-"; "a/b"]]%string).
Proof. exact signs_document. Qed.
Example C88_quoted_table : document ascii_cat (SpecQuoted.quoted_text COMMA 34 mixed_rows mixed_final) [COMMA] [34] (strs [["O'Brien; {1,2}"; "2.5 (%)"]; ["x"; "~#\x"]]%string).
Proof. exact mixed_document. Qed.
Example C88_bare_lines : document ascii_cat (column_text names_rows names_final) [] [] (strs [["id_no"]; ["R&D-2.5"]; ["-"]]%string).
Proof. exact names_document. Qed.
Example C88_quoted_lines : document ascii_cat (quoted_column 39 words_rows None) [] [39] (strs [["two words"]; [""]]%string).
Proof. exact words_document. Qed.
Example C88_settled : document ascii_cat (SpecQuoted.quoted_text SEMI 39 calm_rows None) [SEMI] [39] (strs [["a b"; "1"]; ["c"; "50%"]]%string) /\
  settled [SEMI] (strs [["a b"; "1"]; ["c"; "50%"]]%string) /\ ascii_cat LF <> s2l "Po" /\ cells_fit 131072 (strs [["a b"; "1"]; ["c"; "50%"]]%string) /\
  (forall g, same_fs_but [1] g (one_file []) -> g (s_mkstemp lone_senv g) = None).
Proof.
  split; [exact (proj1 calm_document)|]. split; [exact (proj2 calm_document)|]. split; [vm_compute; discriminate|]. split.
  - intros r s Hr Hs. destruct Hr as [<-|[<-|[]]]; (destruct Hs as [<-|[<-|[]]]); vm_compute; discriminate.
  - intros g Hg. refine (eq_trans (Hg _ _) _); [intros [E|[]]; discriminate E|reflexivity].
Qed.
