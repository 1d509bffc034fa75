(** * SimpleCases: concrete tables in simple form *)
From Coq Require Import String Permutation.
From Verif Require Import Base Parser Dialect CsvLib Reader Writer Files Wrappers SpecLayout SpecWriter SpecFiles TableFacts StandardizeFacts
  Potential SpecPotential MaskedFacts Consistency DetectCases Detect NormalForm SpecNormal NormalForms Types SpecTypes TypesUrl TypesCases SpecTables TablesFacts TablesCases AutoCases FilesCases
  SpecQuoted QuotedCases QuotedFilesCases.
Open Scope N_scope.

Lemma unsuspicious cat data ds : existsb (fun '(d, q) => esc_pair cat data d q) (list_prod (map (fun c => [c]) ds) QUOTECHARS) = false ->
  ~ escape_suspect cat ds data.
Proof. intros H K. apply escape_suspect_spec in K. congruence. Qed.
Lemma over_elementary s : forallb (fun y => mem_char y elementary) s = true -> over elementary s.
Proof. intros H. apply Forall_forall. intros y Hy. rewrite forallb_forall in H. now apply mem_char_In, H. Qed.

Ltac items := first [apply Forall_nil|apply Forall_cons; [|items]].

(** Cells that are no words: signs and spaces. *)
Definition signs_rows : list (list str * eol) := [([s2l "(x y)"; s2l "50%"; []], ECR)].
Definition signs_final : option (list str) := Some [s2l "a@b+c"; s2l "-"; s2l "a/b"].
Lemma signs_meet : In 124 common_delimiters /\ table_of signs_rows signs_final <> [] /\ (2 <= 3)%nat /\
  Forall (fun r => List.length r = 3%nat /\ Forall (over elementary) r) (table_of signs_rows signs_final) /\
  (forall r, In r signs_rows -> snd r = ECR) /\ ~ escape_suspect ascii_cat common_delimiters (table_text 124 signs_rows signs_final).
Proof.
  split; [cbn; tauto|]. split; [discriminate|]. split; [lia|]. split; [|split].
  - cbn [table_of signs_rows signs_final map fst app]. items; (split; [reflexivity|]); items; apply over_elementary; vm_compute; reflexivity.
  - intros r [<-|[]]. reflexivity.
  - apply unsuspicious. vm_compute. reflexivity.
Qed.
(** Quoted cells with delimiters, braces, other quotes and backslashes. *)
Definition odd_rows : list (list qcell * eol) := [([(true, s2l "O'Brien; {1,2}"); (true, []); (true, s2l "~#\x")], ECRLF)].
Definition mixed_rows : list (list qcell * eol) := [([(true, s2l "O'Brien; {1,2}"); (false, s2l "2.5 (%)")], ELF)].
Definition mixed_final : option (list qcell) := Some [(false, s2l "x"); (true, s2l "~#\x")].
Ltac simple := unfold simple_cell; cbn [fst snd]; first [apply over_elementary; vm_compute; reflexivity|items; repeat split; discriminate].
Lemma odd_meets : a_quote 34 /\ In COMMA common_delimiters /\ simple_grid 3 34 (table_of odd_rows None) /\ simple_quotes (table_of odd_rows None) /\
  (forall r, In r odd_rows -> snd r = ECRLF) /\ ~ escape_suspect ascii_cat common_delimiters (quoted_text COMMA 34 odd_rows None).
Proof.
  split; [now left|]. split; [cbn; tauto|]. split; [|split; [|split]].
  - split; [discriminate|]. split; [lia|]. cbn [table_of odd_rows map fst app]. items; (split; [reflexivity|]); items; simple.
  - left. cbn [table_of odd_rows map fst app]. unfold all_cells. items. items; reflexivity.
  - intros r [<-|[]]. reflexivity.
  - apply unsuspicious. vm_compute. reflexivity.
Qed.
Lemma mixed_meets : a_quote 34 /\ In COMMA common_delimiters /\ simple_grid 2 34 (table_of mixed_rows mixed_final) /\ simple_quotes (table_of mixed_rows mixed_final) /\
  (forall r, In r mixed_rows -> snd r = ELF) /\ ~ escape_suspect ascii_cat common_delimiters (quoted_text COMMA 34 mixed_rows mixed_final).
Proof.
  split; [now left|]. split; [cbn; tauto|]. split; [|split; [|split]].
  - split; [discriminate|]. split; [lia|]. cbn [table_of mixed_rows mixed_final map fst app]. items; (split; [reflexivity|]); items; simple.
  - right. split; [cbn; lia|]. cbn [table_of mixed_rows mixed_final map fst app]. split; [unfold all_cells; items; items; discriminate|].
    eexists _, _. split; [now left|]. now left.
  - intros r [<-|[]]. reflexivity.
  - apply unsuspicious. vm_compute. reflexivity.
Qed.

(** A backslash before a quote is taken for an escape character. *)
Definition hi_row : list qcell := [(true, s2l "Hi\"); (true, s2l "b,c,d,e,f,g")].
Definition hi_text : str := s2l """Hi\"",""b,c,d,e,f,g""" ++ [LF].
Lemma hi_detected : shipped_detect (mk_state None 131072) hi_text = Ok (Some (dialect3 [COMMA] [34] [92])).
Proof.
  unfold shipped_detect, detector_detect.
  assert (E : detect_dialect_normal ascii_cat hi_text utf8 None = Ok None) by (vm_compute; reflexivity).
  rewrite E. cbn -[detect hi_text]. rewrite small_detect_ok. vm_compute. reflexivity.
Qed.
Lemma hi_suspect : exists rows, simple_grid 2 34 (table_of rows None) /\ all_cells (fun x => fst x = true) (table_of rows None) /\ (forall r, In r rows -> snd r = ELF) /\
  shipped_detect (mk_state None 131072) (quoted_text COMMA 34 rows None) = Ok (Some (dialect3 [COMMA] [34] [92])).
Proof.
  exists [(hi_row, ELF)]. split; [|split; [|split; [|exact hi_detected]]].
  - split; [discriminate|]. split; [lia|]. cbn [table_of hi_row map fst app]. items; (split; [reflexivity|]); items; simple.
  - cbn [table_of hi_row map fst app]. unfold all_cells. items; items; reflexivity.
  - intros r [<-|[]]. reflexivity.
Qed.
(** One row in which only one cell is quoted: a,"b,c,d,e,f". *)
Lemma single_row : exists rows, simple_grid 2 34 (table_of rows None) /\ all_cells (fun x => snd x <> []) (table_of rows None) /\
  (exists r s, In r (table_of rows None) /\ In (true, s) r) /\ (forall r, In r rows -> snd r = ECRLF) /\
  ~ escape_suspect ascii_cat common_delimiters (quoted_text COMMA 34 rows None) /\
  shipped_detect (mk_state None 131072) (quoted_text COMMA 34 rows None) = Ok (Some (dialect3 [COMMA] [] [])).
Proof.
  exists [(commas_row, ECRLF)]. split; [|split; [|split; [|split; [|split; [|exact commas_detected]]]]].
  - split; [discriminate|]. split; [lia|]. cbn [table_of commas_row map fst app]. items; (split; [reflexivity|]); items; simple.
  - cbn [table_of commas_row map fst app]. unfold all_cells. items; items; discriminate.
  - eexists _, _. split; [now left|]. right. now left.
  - intros r [<-|[]]. reflexivity.
  - apply unsuspicious. vm_compute. reflexivity.
Qed.
Definition hi_files : fs := upd (upd (one_file []) 1 (Some [])) 1 (Some hi_text).
Lemma hi_lost : exists f',
  write_table shipped_env (one_file []) [] [[VStr (s2l "Hi\"); VStr (s2l "b,c,d,e,f,g")]] 1 (DName (s2l "unix")) false None = (f', None) /\
  read_table shipped_env f' [] 1 None None None = Ok [map CStr ([s2l """Hi"",""b"; s2l "c"; s2l "d"; s2l "e"; s2l "f"; s2l "g""" ++ [LF]])].
Proof.
  exists hi_files. split; [reflexivity|]. unfold read_table.
  rewrite (num_chars_detection shipped_env hi_files [] 1 None latin1 hi_text hi_text None _ eq_refl eq_refl hi_detected eq_refl).
  vm_compute. reflexivity.
Qed.

(** Tables for the dialects unix and excel. *)
Definition odd_values : list (list value) := [[VStr (s2l "O'Brien; {1,2}"); VNone; VNum (s2l "-1e+20")]].
Definition min_values : list (list value) := [[VStr (s2l "2, {'x'}"); VNum (s2l "-1e+20")]; [VStr (s2l "50 %"); VStr (s2l "a/b")]].
Ltac cases H := repeat (destruct H as [<-|H]); try solve [destruct H].
Ltac value_cases := intros r v Hr Hv; cbn [odd_values min_values In] in Hr; cases Hr; cbn [In] in Hv; cases Hv; cbn [value_str].
Ltac limits := repeat split; [intros H; cbn in H; intuition discriminate|intros x [=]|vm_compute; discriminate].
Lemma odd_values_meet : exists w,
  new_writer (e_registry shipped_env) [] (DName (s2l "unix")) [] = Ok w /\ wd_delim w = COMMA /\ wd_skipspace w = false /\ wd_term w = render_eol ELF /\
  wd_quote w = Some 34 /\ wd_quoting w = QUOTE_ALL /\
  (forall r v, In r odd_values -> In v r -> Forall (fun y => y <> 34 /\ y <> CR /\ y <> LF) (value_str v)) /\
  (forall r v, In r odd_values -> In v r -> ~ In NUL (value_str v) /\ (forall x, wd_escape w = Some x -> ~ In x (value_str v)) /\
     (Z.of_nat (List.length (value_str v)) + 2 <= e_limit shipped_env)%Z) /\ wd_escape w <> Some COMMA /\
  ~ escape_suspect ascii_cat common_delimiters (written_text (wd_quoting w) COMMA 34 ELF odd_values).
Proof.
  eexists. split; [reflexivity|]. split; [reflexivity|]. split; [reflexivity|]. split; [reflexivity|]. split; [reflexivity|]. split; [reflexivity|]. split; [|split; [|split; [discriminate|]]].
  - value_cases; items; repeat split; discriminate.
  - value_cases; limits.
  - apply unsuspicious. vm_compute. reflexivity.
Qed.
Lemma min_values_meet : exists w,
  new_writer (e_registry shipped_env) [] (DName (s2l "excel")) [] = Ok w /\ wd_delim w = COMMA /\ wd_skipspace w = false /\ wd_term w = render_eol ECRLF /\
  wd_quote w = Some 34 /\ wd_quoting w = QUOTE_MINIMAL /\
  (forall r v, In r min_values -> In v r ->
     value_str v <> [] /\ (over elementary (value_str v) \/ In COMMA (value_str v) /\ Forall (fun y => y <> 34 /\ y <> CR /\ y <> LF) (value_str v))) /\
  (forall r v, In r min_values -> In v r -> ~ In NUL (value_str v) /\ (forall x, wd_escape w = Some x -> ~ In x (value_str v)) /\
     (Z.of_nat (List.length (value_str v)) + 2 <= e_limit shipped_env)%Z) /\ wd_escape w <> Some COMMA /\
  ~ escape_suspect ascii_cat common_delimiters (written_text (wd_quoting w) COMMA 34 ECRLF min_values).
Proof.
  eexists. split; [reflexivity|]. split; [reflexivity|]. split; [reflexivity|]. split; [reflexivity|]. split; [reflexivity|]. split; [reflexivity|]. split; [|split; [|split; [discriminate|]]].
  - value_cases; (split; [discriminate|]); first [left; apply over_elementary; vm_compute; reflexivity|right; split; [cbn; tauto|items; repeat split; discriminate]].
  - value_cases; limits.
  - apply unsuspicious. vm_compute. reflexivity.
Qed.
