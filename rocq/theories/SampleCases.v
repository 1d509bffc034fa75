(** * SampleCases: samples that mislead the detection *)
From Coq Require Import String.
From Verif Require Import Base Parser Dialect CsvLib Reader Writer Files Wrappers SpecLayout SpecFiles TableFacts StandardizeFacts Potential SpecPotential MaskedFacts Consistency DetectCases Detect NormalForm Types SpecTypes TypesUrl TypesCases SpecNormal
  SpecTables SpecQuoted SpecColumn Simple SpecDocument SpecSample FilesCases SimpleCases Documents DocumentCases Sample.
Open Scope N_scope.

(** A sample that ends in the middle of a row. *)
Definition cut_rows : list (list str * eol) := [([s2l "a b"; s2l "1"], ELF); ([s2l "c d"; s2l "2"], ELF)].
Definition cut_sample : str := s2l "a b,1" ++ [LF] ++ s2l "c d".
Lemma cut_detected : shipped_detect (mk_state None 131072) cut_sample = Ok (Some (dialect3 [32] [] [])).
Proof.
  unfold shipped_detect, detector_detect.
  assert (E : detect_dialect_normal ascii_cat cut_sample utf8 None = Ok None) by (vm_compute; reflexivity).
  rewrite E. cbn -[detect cut_sample]. rewrite small_detect_ok. vm_compute. reflexivity.
Qed.
Definition cut_text : str := table_text COMMA cut_rows None.
Lemma cut_document : document ascii_cat cut_text [COMMA] [] (strs [["a b"; "1"]; ["c d"; "2"]]%string).
Proof.
  refine (bare_table ascii_cat COMMA 2 cut_rows None ELF _ _ _ _ _ _).
  - cbn. tauto.
  - discriminate.
  - lia.
  - cbn [table_of cut_rows map fst app]. items; (split; [reflexivity|]); items; apply over_elementary; vm_compute; reflexivity.
  - intros r [<-|[<-|[]]]; reflexivity.
  - apply unsuspicious. vm_compute. reflexivity.
Qed.
Lemma cut_read : read_table shipped_env (one_file cut_text) [] 1 None None (chars_of cut_sample) = Ok (map (map CStr) (strs [["a"; "b,1"]; ["c"; "d,2"]]%string)).
Proof.
  unfold read_table. rewrite (num_chars_detection shipped_env (one_file cut_text) [] 1 None latin1 cut_text cut_text (chars_of cut_sample) _ eq_refl eq_refl cut_detected eq_refl).
  vm_compute. reflexivity.
Qed.

(** A sample without the quotes of the later rows. *)
Definition late_rows : list (list qcell * eol) := [([(false, s2l "a"); (false, s2l "b")], ELF); ([(true, s2l "c,d"); (false, s2l "e")], ELF)].
Definition late_text : str := quoted_text COMMA 34 late_rows None.
Definition late_sample : str := s2l "a,b" ++ [LF].
Lemma late_document : document ascii_cat late_text [COMMA] [34] (strs [["a"; "b"]; ["c,d"; "e"]]%string).
Proof.
  refine (quoted_table ascii_cat COMMA 34 2 late_rows None ELF _ _ _ _ _ _ _).
  - now left.
  - cbn. tauto.
  - split; [discriminate|]. split; [lia|]. cbn [table_of late_rows map fst app]. items; (split; [reflexivity|]); items; simple.
  - right. split; [cbn; lia|]. cbn [table_of late_rows map fst app]. split; [unfold all_cells; items; items; discriminate|]. eexists _, _. split; [right; now left|]. now left.
  - cbn [table_of late_rows map fst app]. unfold all_cells. items; items; cbn; intuition discriminate.
  - intros r [<-|[<-|[]]]; reflexivity.
  - apply unsuspicious. vm_compute. reflexivity.
Qed.
Lemma late_detected : shipped_detect (mk_state None 131072) late_sample = Ok (Some (dialect3 [COMMA] [] [])).
Proof.
  unfold shipped_detect, detector_detect.
  assert (E : detect_dialect_normal ascii_cat late_sample utf8 None = Ok (Some (dialect3 [COMMA] [] []))) by (vm_compute; reflexivity).
  rewrite E. reflexivity.
Qed.
Lemma late_read : read_table shipped_env (one_file late_text) [] 1 None None (chars_of late_sample) = Ok (map (map CStr) (strs [["a"; "b"]; ["""c"; "d"""; "e"]]%string)).
Proof.
  unfold read_table. rewrite (num_chars_detection shipped_env (one_file late_text) [] 1 None latin1 late_text late_text (chars_of late_sample) _ eq_refl eq_refl late_detected eq_refl).
  vm_compute. reflexivity.
Qed.
Lemma late_first : first_rows late_rows [([(false, s2l "a"); (false, s2l "b")], ELF)] None.
Proof. eexists. split; [reflexivity|]. now left. Qed.

(** Line ends of two characters. *)
Lemma crlf_documents : document ascii_cat (s2l "a b," ++ [49]) [COMMA] [] (strs [["a b"; "1"]]%string) /\
  document ascii_cat ((s2l "a b," ++ [49]) ++ [CR] ++ ([LF] ++ s2l "c d,2" ++ [CR; LF])) [COMMA] [] (strs [["a b"; "1"]; ["c d"; "2"]]%string).
Proof.
  split.
  - refine (bare_table ascii_cat COMMA 2 [] (Some [s2l "a b"; s2l "1"]) ECRLF _ _ _ _ _ _).
    + cbn. tauto.
    + discriminate.
    + lia.
    + cbn [table_of map fst app]. items; (split; [reflexivity|]); items; apply over_elementary; vm_compute; reflexivity.
    + intros r [].
    + apply unsuspicious. vm_compute. reflexivity.
  - refine (bare_table ascii_cat COMMA 2 [([s2l "a b"; s2l "1"], ECRLF); ([s2l "c d"; s2l "2"], ECRLF)] None ECRLF _ _ _ _ _ _).
    + cbn. tauto.
    + discriminate.
    + lia.
    + cbn [table_of map fst app]. items; (split; [reflexivity|]); items; apply over_elementary; vm_compute; reflexivity.
    + intros r [<-|[<-|[]]]; reflexivity.
    + apply unsuspicious. vm_compute. reflexivity.
Qed.
