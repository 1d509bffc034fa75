(** * PropsQuotedFiles: C79 and C80 *)
From Coq Require Import String Permutation.
From Verif Require Import Base Parser Dialect CsvLib Reader Writer Files Wrappers SpecLayout SpecWriter SpecFiles Potential SpecPotential MaskedFacts TableFacts
  Consistency Detect Json Types SpecTypes TypesUrl TypesCases SpecTables TablesFacts FilesCases SpecQuoted QuotedCases QuotedFiles QuotedFilesCases.
Open Scope N_scope.

(** ** C79 *)
Theorem C79_quoted U c q k rows final O o_set method skip s :
  unicode_like (u_cat U) -> (forall x, digit (u_cat U) x -> u_isdigit U x = true) ->
  a_quote q -> quote_kept U q -> plain_delimiter (u_cat U) c -> quoted_grid k (qcell_ok c) (table_of rows final) ->
  (forall r x, In r (table_of rows final) -> In x r ->
     exists name P, In (name, P) (cell_types (u_cat U) (strip U) (u_ws U) (u_lower U)
       (fun s => exists v, loads (u_maxdigits U) (u_depth U) s = Ok v) (fst x)) /\ P (strip U (snd x))) ->
  let text := quoted_text c q rows final in
  no_quoted_escapes (u_cat U) q text ->
  (forall d, d <> c -> In d text -> default_delimiter (u_cat U) d ->
     outdone k (per_row_bare d (table_of rows final)) /\ outdone k (per_row_all d (table_of rows final))) ->
  unquoted_delimiter c (table_of rows final) \/ uneven k (per_row_all c (table_of rows final)) ->
  (Z.of_nat (List.length text) < 2 ^ 50)%Z -> any_orders O -> (forall l, Permutation (o_set l) l) ->
  (forall v, method = MStr v -> In v [s2l "auto"; s2l "normal"; s2l "consistency"]) ->
  exists s', detector_detect (u_cat U) (shipped_url U) (is_known_type U) O o_set text None method skip s =
    (Ok (Some (dialect3 [c] [q] [])), s') /\ st_limit s' = st_limit s.
Proof. intros H1 H2. exact (auto_quoted U H1 H2 c q k rows final O o_set method skip s). Qed.
Print Assumptions C79_quoted.
Example C79_case :
  a_quote 34 /\ quote_kept ascii_data 34 /\ plain_delimiter ascii_cat SEMI /\ quoted_grid 3 (qcell_ok SEMI) (table_of qcase_rows qcase_final) /\
  (forall r x, In r (table_of qcase_rows qcase_final) -> In x r ->
     exists name P, In (name, P) (cell_types ascii_cat (strip ascii_data) (u_ws ascii_data) (u_lower ascii_data)
       (fun s => exists v, loads (u_maxdigits ascii_data) (u_depth ascii_data) s = Ok v) (fst x)) /\ P (strip ascii_data (snd x))) /\
  no_quoted_escapes ascii_cat 34 (quoted_text SEMI 34 qcase_rows qcase_final) /\
  (forall d, d <> SEMI -> In d (quoted_text SEMI 34 qcase_rows qcase_final) -> default_delimiter ascii_cat d ->
     outdone 3 (per_row_bare d (table_of qcase_rows qcase_final)) /\ outdone 3 (per_row_all d (table_of qcase_rows qcase_final))) /\
  unquoted_delimiter SEMI (table_of qcase_rows qcase_final).
Proof. exact qcase_meets. Qed.
Theorem C79_words U c q k rows final O o_set method skip s :
  unicode_like (u_cat U) -> (forall x, digit (u_cat U) x -> u_isdigit U x = true) ->
  a_quote q -> quote_kept U q -> plain_delimiter (u_cat U) c -> ~ escape_like (u_cat U) c ->
  quoted_grid k (qword (u_cat U) c) (table_of rows final) ->
  unquoted_delimiter c (table_of rows final) \/ uneven k (per_row_all c (table_of rows final)) ->
  let text := quoted_text c q rows final in
  (Z.of_nat (List.length text) < 2 ^ 50)%Z -> any_orders O -> (forall l, Permutation (o_set l) l) ->
  (forall v, method = MStr v -> In v [s2l "auto"; s2l "normal"; s2l "consistency"]) ->
  exists s', detector_detect (u_cat U) (shipped_url U) (is_known_type U) O o_set text None method skip s =
    (Ok (Some (dialect3 [c] [q] [])), s') /\ st_limit s' = st_limit s.
Proof. intros H1 H2. exact (auto_words U H1 H2 c q k rows final O o_set method skip s). Qed.
Print Assumptions C79_words.
(** With commas equally often in the quoted cells of all rows the methods can disagree: the witness is a,"b,c,d,e,f" twice. *)
Theorem C79_methods_agree_refuted : exists rows final O o_set,
  quoted_grid 2 (qcell_ok COMMA) (table_of rows final) /\ any_orders O /\ (forall l, Permutation (o_set l) l) /\
  detect ascii_cat (shipped_url ascii_data) (is_known_type ascii_data) O o_set 100000 true (quoted_text COMMA 34 rows final) None 131072 =
    (Ok (Some (dialect3 [COMMA] [] [])), 131072%Z) /\
  detector_detect ascii_cat (shipped_url ascii_data) (is_known_type ascii_data) O o_set (quoted_text COMMA 34 rows final) None
    (MStr (s2l "auto")) true (mk_state None 131072) = (Ok (Some (dialect3 [COMMA] [34] [])), mk_state (Some NORMAL) 131072).
Proof. exact quoted_disagree. Qed.
Print Assumptions C79_methods_agree_refuted.

(** ** C80 *)
Theorem C80_read U O o_set E method skip s f h p encoding cod b c q k rows final nc :
  unicode_like (u_cat U) -> (forall x, digit (u_cat U) x -> u_isdigit U x = true) ->
  any_orders O -> (forall l, Permutation (o_set l) l) ->
  (forall v, method = MStr v -> In v [s2l "auto"; s2l "normal"; s2l "consistency"]) ->
  (forall sample, e_detect E sample = fst (detector_detect (u_cat U) (shipped_url U) (is_known_type U) O o_set sample None method skip s)) ->
  let text := quoted_text c q rows final in
  open_text E f p encoding = Ok (cod, b) -> cd_decode cod b = (text, true) ->
  a_quote q -> quote_kept U q -> plain_delimiter (u_cat U) c -> quoted_grid k (qcell_ok c) (table_of rows final) ->
  (forall r x, In r (table_of rows final) -> In x r ->
     exists name P, In (name, P) (cell_types (u_cat U) (strip U) (u_ws U) (u_lower U)
       (fun s => exists v, loads (u_maxdigits U) (u_depth U) s = Ok v) (fst x)) /\ P (strip U (snd x))) ->
  no_quoted_escapes (u_cat U) q text ->
  (forall d, d <> c -> In d text -> default_delimiter (u_cat U) d ->
     outdone k (per_row_bare d (table_of rows final)) /\ outdone k (per_row_all d (table_of rows final))) ->
  unquoted_delimiter c (table_of rows final) \/ uneven k (per_row_all c (table_of rows final)) ->
  (Z.of_nat (List.length text) < 2 ^ 50)%Z -> head_chars nc text = text ->
  (forall r x, In r (table_of rows final) -> In x r -> (Z.of_nat (List.length (cell_text q x)) <= e_limit E)%Z) ->
  read_table E f h p None encoding nc = Ok (map (map (fun x : qcell => CStr (snd x))) (table_of rows final)).
Proof. intros H1 H2 H3 H4 H5 H6. exact (quoted_read U H1 H2 O o_set H3 H4 E method skip s H5 H6 f h p encoding cod b c q k rows final nc). Qed.
Print Assumptions C80_read.
Theorem C80_round_trip U O o_set E method skip s f h h' (table : list (list value)) p dialect encoding cod w e c q k :
  unicode_like (u_cat U) -> ascii_like (u_cat U) -> (forall x, digit (u_cat U) x -> u_isdigit U x = true) ->
  any_orders O -> (forall l, Permutation (o_set l) l) ->
  (forall v, method = MStr v -> In v [s2l "auto"; s2l "normal"; s2l "consistency"]) ->
  (forall sample, e_detect E sample = fst (detector_detect (u_cat U) (shipped_url U) (is_known_type U) O o_set sample None method skip s)) ->
  table <> [] -> (2 <= k)%nat -> (forall r, In r table -> List.length r = k) ->
  (forall r v, In r table -> In v r -> words_in (u_cat U) c (value_str v) /\ (Z.of_nat (List.length (value_str v)) + 2 <= e_limit E)%Z) ->
  (forall r v, In r table -> In v r -> ~ In c (value_str v)) \/ uneven k (per_row c (map (map value_str) table)) ->
  new_writer (e_registry E) h dialect [] = Ok w -> wd_delim w = c -> wd_skipspace w = false -> wd_term w = render_eol e ->
  wd_quoting w <> QUOTE_NONE -> wd_quote w = Some q -> a_quote q -> quote_kept U q ->
  (forall x, wd_escape w = Some x -> x <> c /\ ~ plain_char (u_cat U) x) ->
  plain_delimiter (u_cat U) c -> ~ escape_like (u_cat U) c ->
  e_codec E (Some encoding) = Ok cod -> lawful cod ->
  let text := written_text (wd_quoting w) c q e table in
  (exists b, cd_encode cod text = Some b) -> (Z.of_nat (List.length text) < 2 ^ 50)%Z ->
  exists f', write_table E f h table p dialect false (Some encoding) = (f', None) /\ same_fs_but [p] f' f /\
    (exists b, f' p = Some b /\ cd_encode cod text = Some b) /\
    read_table E f' h' p None (Some encoding) None = Ok (as_read table).
Proof. intros H1 H2 H3 H4 H5 H6 H7. exact (quoted_round_trip U H1 H2 H3 O o_set H4 H5 E method skip s H6 H7 f h h' table p dialect encoding cod w e c q k). Qed.
Print Assumptions C80_round_trip.
Example C80_case : let table := [[VStr (s2l "a,b"); VNum (s2l "1.5")]; [VStr (s2l "c"); VNone]] in exists w,
  new_writer (e_registry shipped_env) [] (DName (s2l "excel")) [] = Ok w /\ wd_delim w = COMMA /\ wd_skipspace w = false /\
  wd_term w = render_eol ECRLF /\ wd_quoting w <> QUOTE_NONE /\ wd_quote w = Some 34 /\ a_quote 34 /\ quote_kept ascii_data 34 /\
  (forall x, wd_escape w = Some x -> x <> COMMA /\ ~ plain_char ascii_cat x) /\ plain_delimiter ascii_cat COMMA /\ ~ escape_like ascii_cat COMMA /\
  (forall r v, In r table -> In v r -> words_in ascii_cat COMMA (value_str v) /\ (Z.of_nat (List.length (value_str v)) + 2 <= e_limit shipped_env)%Z) /\
  uneven 2 (per_row COMMA (map (map value_str) table)) /\
  written_text (wd_quoting w) COMMA 34 ECRLF table = s2l """a,b"",1.5" ++ CR :: LF :: s2l "c," ++ [CR; LF].
Proof. exact quoted_values_meet. Qed.
(** A row of two cells comes back as six. *)
Theorem C80_every_table_refuted : let table := [[VStr (s2l "a"); VStr (s2l "b,c,d,e,f")]] in exists f',
  write_table shipped_env (one_file []) [] table 1 (DName (s2l "excel")) false None = (f', None) /\
  read_table shipped_env f' [] 1 None None None = Ok [map (fun s => CStr (s2l s)) ["a"; """b"; "c"; "d"; "e"; "f"""]%string].
Proof. exact commas_lost. Qed.
Print Assumptions C80_every_table_refuted.
