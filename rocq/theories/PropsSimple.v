(** * PropsSimple: C81 and C82 *)
From Coq Require Import String.
From Verif Require Import Base Parser Dialect CsvLib Reader Writer Files Wrappers SpecLayout SpecWriter SpecFiles SpecPotential SpecTies SpecNormal MaskedFacts TableFacts
  NormalForm Consistency Detect Types SpecTypes TypesUrl TypesCases SpecTables FilesCases SpecQuoted Simple SimpleFiles SimpleCases.
Open Scope N_scope.

(** ** C81 *)
Theorem C81_unquoted cat url known O o_set c k rows final e method skip s :
  In c common_delimiters ->
  table_of rows final <> [] -> (2 <= k)%nat -> Forall (fun r => List.length r = k /\ Forall (over elementary) r) (table_of rows final) ->
  (forall r, In r rows -> snd r = e) ->
  let text := table_text c rows final in
  ~ escape_suspect cat common_delimiters text ->
  In method [MStr (s2l "normal"); MEnum NORMAL; MStr (s2l "auto"); MEnum AUTO] ->
  detector_detect cat url known O o_set text None method skip s = (Ok (Some (dialect3 [c] [] [])), mk_state (Some NORMAL) (st_limit s)).
Proof. exact (bare_detected cat url known O o_set c k rows final e method skip s). Qed.
Print Assumptions C81_unquoted.
Example C81_unquoted_case :
  let rows := [([s2l "(x y)"; s2l "50%"; []], ECR)] in let final := Some [s2l "a@b+c"; s2l "-"; s2l "a/b"] in
  In 124 common_delimiters /\ table_of rows final <> [] /\ (2 <= 3)%nat /\
  Forall (fun r => List.length r = 3%nat /\ Forall (over elementary) r) (table_of rows final) /\
  (forall r, In r rows -> snd r = ECR) /\ ~ escape_suspect ascii_cat common_delimiters (table_text 124 rows final).
Proof. exact signs_meet. Qed.
Theorem C81_quoted cat url known O o_set c q k rows final e method skip s :
  a_quote q -> In c common_delimiters -> simple_grid k q (table_of rows final) -> simple_quotes (table_of rows final) ->
  (forall r, In r rows -> snd r = e) ->
  let text := quoted_text c q rows final in
  ~ escape_suspect cat common_delimiters text ->
  In method [MStr (s2l "normal"); MEnum NORMAL; MStr (s2l "auto"); MEnum AUTO] ->
  detector_detect cat url known O o_set text None method skip s = (Ok (Some (dialect3 [c] [q] [])), mk_state (Some NORMAL) (st_limit s)).
Proof. exact (simple_detected cat url known O o_set c q k rows final e method skip s). Qed.
Print Assumptions C81_quoted.
Example C81_all_quoted_case : let rows := [([(true, s2l "O'Brien; {1,2}"); (true, []); (true, s2l "~#\x")], ECRLF)] in
  a_quote 34 /\ In COMMA common_delimiters /\ simple_grid 3 34 (table_of rows None) /\ simple_quotes (table_of rows None) /\
  (forall r, In r rows -> snd r = ECRLF) /\ ~ escape_suspect ascii_cat common_delimiters (quoted_text COMMA 34 rows None).
Proof. exact odd_meets. Qed.
Example C81_some_quoted_case :
  let rows := [([(true, s2l "O'Brien; {1,2}"); (false, s2l "2.5 (%)")], ELF)] in let final := Some [(false, s2l "x"); (true, s2l "~#\x")] in
  a_quote 34 /\ In COMMA common_delimiters /\ simple_grid 2 34 (table_of rows final) /\ simple_quotes (table_of rows final) /\
  (forall r, In r rows -> snd r = ELF) /\ ~ escape_suspect ascii_cat common_delimiters (quoted_text COMMA 34 rows final).
Proof. exact mixed_meets. Qed.
(** Without the condition on escape characters: the witness is "Hi\","b,c,d,e,f,g" in one line. *)
Theorem C81_escapes_refuted : exists rows,
  simple_grid 2 34 (table_of rows None) /\ all_cells (fun x => fst x = true) (table_of rows None) /\ (forall r, In r rows -> snd r = ELF) /\
  shipped_detect (mk_state None 131072) (quoted_text COMMA 34 rows None) = Ok (Some (dialect3 [COMMA] [34] [92])).
Proof. exact hi_suspect. Qed.
Print Assumptions C81_escapes_refuted.
(** One row with an unquoted cell: the witness is a,"b,c,d,e,f". *)
Theorem C81_one_row_refuted : exists rows,
  simple_grid 2 34 (table_of rows None) /\ all_cells (fun x => snd x <> []) (table_of rows None) /\
  (exists r s, In r (table_of rows None) /\ In (true, s) r) /\ (forall r, In r rows -> snd r = ECRLF) /\
  ~ escape_suspect ascii_cat common_delimiters (quoted_text COMMA 34 rows None) /\
  shipped_detect (mk_state None 131072) (quoted_text COMMA 34 rows None) = Ok (Some (dialect3 [COMMA] [] [])).
Proof. exact single_row. Qed.
Print Assumptions C81_one_row_refuted.

(** ** C82 *)
Theorem C82_read cat url known O o_set E method skip s f h p encoding cod b c q k rows final e nc :
  In method [MStr (s2l "normal"); MEnum NORMAL; MStr (s2l "auto"); MEnum AUTO] ->
  (forall sample, e_detect E sample = fst (detector_detect cat url known O o_set sample None method skip s)) ->
  let text := quoted_text c q rows final in
  open_text E f p encoding = Ok (cod, b) -> cd_decode cod b = (text, true) ->
  a_quote q -> In c common_delimiters -> simple_grid k q (table_of rows final) -> simple_quotes (table_of rows final) ->
  (forall r, In r rows -> snd r = e) -> ~ escape_suspect cat common_delimiters text ->
  (forall r x, In r (table_of rows final) -> In x r -> ~ In NUL (snd x)) -> head_chars nc text = text ->
  (forall r x, In r (table_of rows final) -> In x r -> (Z.of_nat (List.length (cell_text q x)) <= e_limit E)%Z) ->
  read_table E f h p None encoding nc = Ok (map (map (fun x : qcell => CStr (snd x))) (table_of rows final)).
Proof. intros H1 H2. exact (simple_file cat url known O o_set E method skip s H1 H2 f h p encoding cod b c q k rows final e nc). Qed.
Print Assumptions C82_read.
(** Whatever the style, the table as it is written must be in simple form. *)
Theorem C82_round_trip cat url known O o_set E method skip s f h h' (table : list (list value)) p dialect encoding cod w e c q k :
  In method [MStr (s2l "normal"); MEnum NORMAL; MStr (s2l "auto"); MEnum AUTO] ->
  (forall sample, e_detect E sample = fst (detector_detect cat url known O o_set sample None method skip s)) ->
  new_writer (e_registry E) h dialect [] = Ok w -> wd_delim w = c -> wd_skipspace w = false -> wd_term w = render_eol e ->
  wd_quoting w <> QUOTE_NONE -> wd_quote w = Some q -> a_quote q -> In c common_delimiters ->
  let written := map (map (as_written (wd_quoting w) c)) table in
  simple_grid k q written -> all_cells (fun x => fst x = false) written \/ simple_quotes written ->
  (forall r v, In r table -> In v r -> ~ In NUL (value_str v) /\ (forall x, wd_escape w = Some x -> ~ In x (value_str v)) /\
     (Z.of_nat (List.length (value_str v)) + 2 <= e_limit E)%Z) -> wd_escape w <> Some c ->
  let text := written_text (wd_quoting w) c q e table in
  ~ escape_suspect cat common_delimiters text ->
  e_codec E (Some encoding) = Ok cod -> lawful cod -> (exists b, cd_encode cod text = Some b) ->
  exists f', write_table E f h table p dialect false (Some encoding) = (f', None) /\ same_fs_but [p] f' f /\
    (exists b, f' p = Some b /\ cd_encode cod text = Some b) /\
    read_table E f' h' p None (Some encoding) None = Ok (as_read table).
Proof. intros H1 H2. exact (simple_round_trip cat url known O o_set E method skip s H1 H2 f h h' table p dialect encoding cod w e c q k). Qed.
Print Assumptions C82_round_trip.
(** The same for dialects that quote all cells or where needed. *)
Theorem C82_styles cat url known O o_set E method skip s f h h' (table : list (list value)) p dialect encoding cod w e c q k :
  In method [MStr (s2l "normal"); MEnum NORMAL; MStr (s2l "auto"); MEnum AUTO] ->
  (forall sample, e_detect E sample = fst (detector_detect cat url known O o_set sample None method skip s)) ->
  new_writer (e_registry E) h dialect [] = Ok w -> wd_delim w = c -> wd_skipspace w = false -> wd_term w = render_eol e ->
  wd_quote w = Some q -> a_quote q -> In c common_delimiters ->
  table <> [] -> (2 <= k)%nat -> (forall r, In r table -> List.length r = k) ->
  (wd_quoting w = QUOTE_ALL /\ (forall r v, In r table -> In v r -> Forall (fun y => y <> q /\ y <> CR /\ y <> LF) (value_str v))) \/
  (wd_quoting w = QUOTE_MINIMAL /\ (2 <= List.length table)%nat /\ (forall r v, In r table -> In v r ->
     value_str v <> [] /\ (over elementary (value_str v) \/ In c (value_str v) /\ Forall (fun y => y <> q /\ y <> CR /\ y <> LF) (value_str v)))) ->
  (forall r v, In r table -> In v r -> ~ In NUL (value_str v) /\ (forall x, wd_escape w = Some x -> ~ In x (value_str v)) /\
     (Z.of_nat (List.length (value_str v)) + 2 <= e_limit E)%Z) -> wd_escape w <> Some c ->
  let text := written_text (wd_quoting w) c q e table in
  ~ escape_suspect cat common_delimiters text ->
  e_codec E (Some encoding) = Ok cod -> lawful cod -> (exists b, cd_encode cod text = Some b) ->
  exists f', write_table E f h table p dialect false (Some encoding) = (f', None) /\ same_fs_but [p] f' f /\
    (exists b, f' p = Some b /\ cd_encode cod text = Some b) /\
    read_table E f' h' p None (Some encoding) None = Ok (as_read table).
Proof. intros H1 H2. exact (simple_styles cat url known O o_set E method skip s H1 H2 f h h' table p dialect encoding cod w e c q k). Qed.
Print Assumptions C82_styles.
Example C82_unix_case : let table := [[VStr (s2l "O'Brien; {1,2}"); VNone; VNum (s2l "-1e+20")]] in exists w,
  new_writer (e_registry shipped_env) [] (DName (s2l "unix")) [] = Ok w /\ wd_delim w = COMMA /\ wd_skipspace w = false /\ wd_term w = render_eol ELF /\
  wd_quote w = Some 34 /\ wd_quoting w = QUOTE_ALL /\
  (forall r v, In r table -> In v r -> Forall (fun y => y <> 34 /\ y <> CR /\ y <> LF) (value_str v)) /\
  (forall r v, In r table -> In v r -> ~ In NUL (value_str v) /\ (forall x, wd_escape w = Some x -> ~ In x (value_str v)) /\
     (Z.of_nat (List.length (value_str v)) + 2 <= e_limit shipped_env)%Z) /\ wd_escape w <> Some COMMA /\
  ~ escape_suspect ascii_cat common_delimiters (written_text (wd_quoting w) COMMA 34 ELF table).
Proof. exact odd_values_meet. Qed.
Example C82_excel_case : let table := [[VStr (s2l "2, {'x'}"); VNum (s2l "-1e+20")]; [VStr (s2l "50 %"); VStr (s2l "a/b")]] in exists w,
  new_writer (e_registry shipped_env) [] (DName (s2l "excel")) [] = Ok w /\ wd_delim w = COMMA /\ wd_skipspace w = false /\ wd_term w = render_eol ECRLF /\
  wd_quote w = Some 34 /\ wd_quoting w = QUOTE_MINIMAL /\
  (forall r v, In r table -> In v r ->
     value_str v <> [] /\ (over elementary (value_str v) \/ In COMMA (value_str v) /\ Forall (fun y => y <> 34 /\ y <> CR /\ y <> LF) (value_str v))) /\
  (forall r v, In r table -> In v r -> ~ In NUL (value_str v) /\ (forall x, wd_escape w = Some x -> ~ In x (value_str v)) /\
     (Z.of_nat (List.length (value_str v)) + 2 <= e_limit shipped_env)%Z) /\ wd_escape w <> Some COMMA /\
  ~ escape_suspect ascii_cat common_delimiters (written_text (wd_quoting w) COMMA 34 ECRLF table).
Proof. exact min_values_meet. Qed.
(** A cell that ends with a backslash: a row of two cells comes back as six. *)
Theorem C82_backslash_refuted : let table := [[VStr (s2l "Hi\"); VStr (s2l "b,c,d,e,f,g")]] in exists f',
  write_table shipped_env (one_file []) [] table 1 (DName (s2l "unix")) false None = (f', None) /\
  read_table shipped_env f' [] 1 None None None = Ok [map CStr ([s2l """Hi"",""b"; s2l "c"; s2l "d"; s2l "e"; s2l "f"; s2l "g""" ++ [LF]])].
Proof. exact hi_lost. Qed.
Print Assumptions C82_backslash_refuted.
