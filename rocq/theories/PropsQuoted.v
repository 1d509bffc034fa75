(** * PropsQuoted: C78 *)
From Coq Require Import String Permutation.
From Verif Require Import Base Dialect SpecLayout Potential SpecPotential MaskedFacts Consistency Json Types SpecTypes TypesUrl TypesCases
  SpecTables TablesFacts SpecQuoted QuotedDetect QuotedWords QuotedCases.
Open Scope N_scope.

(** ** C78 *)
Theorem C78_quoted U c q k rows final O o_set capacity skip old :
  unicode_like (u_cat U) -> (forall x, digit (u_cat U) x -> u_isdigit U x = true) ->
  a_quote q -> quote_kept U q -> plain_delimiter (u_cat U) c -> quoted_grid k (qcell_ok c) (table_of rows final) ->
  (forall r x, In r (table_of rows final) -> In x r ->
     exists name P, In (name, P) (cell_types (u_cat U) (strip U) (u_ws U) (u_lower U)
       (fun s => exists v, loads (u_maxdigits U) (u_depth U) s = Ok v) (fst x)) /\ P (strip U (snd x))) ->
  let text := quoted_text c q rows final in
  no_quoted_escapes (u_cat U) q text ->
  (forall d, d <> c -> In d text -> default_delimiter (u_cat U) d ->
     outdone k (per_row_bare d (table_of rows final)) /\ outdone k (per_row_all d (table_of rows final))) ->
  unquoted_delimiter c (table_of rows final) \/ uneven k (per_row_all c (table_of rows final)) ->
  (Z.of_nat (List.length text) < 2 ^ 50)%Z -> any_orders O -> (forall l, Permutation (o_set l) l) ->
  detect (u_cat U) (shipped_url U) (is_known_type U) O o_set capacity skip text None old = (Ok (Some (dialect3 [c] [q] [])), old).
Proof.
  intros H1 H2 H3 H4 H5 H6 H7 text H8 H9 H10 H11 H12 H13.
  exact (quoted_detected U H1 H2 c q k rows final H3 H5 H6 H4 H7 H8 H9 H10 H11 O o_set capacity skip old H12 H13).
Qed.
Print Assumptions C78_quoted.
Example C78_case :
  a_quote 34 /\ quote_kept ascii_data 34 /\ plain_delimiter ascii_cat SEMI /\ quoted_grid 3 (qcell_ok SEMI) (table_of qcase_rows qcase_final) /\
  (forall r x, In r (table_of qcase_rows qcase_final) -> In x r ->
     exists name P, In (name, P) (cell_types ascii_cat (strip ascii_data) (u_ws ascii_data) (u_lower ascii_data)
       (fun s => exists v, loads (u_maxdigits ascii_data) (u_depth ascii_data) s = Ok v) (fst x)) /\ P (strip ascii_data (snd x))) /\
  no_quoted_escapes ascii_cat 34 (quoted_text SEMI 34 qcase_rows qcase_final) /\
  (forall d, d <> SEMI -> In d (quoted_text SEMI 34 qcase_rows qcase_final) -> default_delimiter ascii_cat d ->
     outdone 3 (per_row_bare d (table_of qcase_rows qcase_final)) /\ outdone 3 (per_row_all d (table_of qcase_rows qcase_final))) /\
  unquoted_delimiter SEMI (table_of qcase_rows qcase_final).
Proof. exact qcase_meets. Qed.
Example C78_case_text : quoted_text SEMI 34 qcase_rows qcase_final = s2l "id;""big blue, cat"";1.5" ++ CR :: LF :: s2l """x"";red;".
Proof. exact qcase_text. Qed.
Theorem C78_words U c q k rows final O o_set capacity skip old :
  unicode_like (u_cat U) -> (forall x, digit (u_cat U) x -> u_isdigit U x = true) ->
  a_quote q -> quote_kept U q -> plain_delimiter (u_cat U) c -> ~ escape_like (u_cat U) c ->
  quoted_grid k (qword (u_cat U) c) (table_of rows final) ->
  unquoted_delimiter c (table_of rows final) \/ uneven k (per_row_all c (table_of rows final)) ->
  let text := quoted_text c q rows final in
  (Z.of_nat (List.length text) < 2 ^ 50)%Z -> any_orders O -> (forall l, Permutation (o_set l) l) ->
  detect (u_cat U) (shipped_url U) (is_known_type U) O o_set capacity skip text None old = (Ok (Some (dialect3 [c] [q] [])), old).
Proof. intros H1 H2. exact (words_detected U H1 H2 c q k rows final O o_set capacity skip old). Qed.
Print Assumptions C78_words.
Example C78_words_case :
  let rows := [([(true, s2l "a,b"); (false, s2l "x1")], ELF); ([(true, s2l "c"); (true, [])], ELF)] in
  ~ escape_like ascii_cat COMMA /\ quoted_grid 2 (qword ascii_cat COMMA) (table_of rows None) /\
  uneven 2 (per_row_all COMMA (table_of rows None)) /\ ~ unquoted_delimiter COMMA (table_of rows None) /\
  quoted_text COMMA 34 rows None = s2l """a,b"",x1" ++ LF :: s2l """c"",""""" ++ [LF].
Proof. exact qwords_meet. Qed.
(** Commas that stand in the quoted cells of every row can win: the witness is the row [a,"b,c,d,e,f"]. *)
Theorem C78_every_table_refuted : exists U O o_set capacity skip c q k rows final old,
  unicode_like (u_cat U) /\ (forall x, digit (u_cat U) x -> u_isdigit U x = true) /\ a_quote q /\ quote_kept U q /\
  plain_delimiter (u_cat U) c /\ quoted_grid k (qcell_ok c) (table_of rows final) /\
  (forall r x, In r (table_of rows final) -> In x r ->
     exists name P, In (name, P) (cell_types (u_cat U) (strip U) (u_ws U) (u_lower U)
       (fun s => exists v, loads (u_maxdigits U) (u_depth U) s = Ok v) (fst x)) /\ P (strip U (snd x))) /\
  no_quoted_escapes (u_cat U) q (quoted_text c q rows final) /\
  (forall d, d <> c -> In d (quoted_text c q rows final) -> ~ default_delimiter (u_cat U) d) /\
  any_orders O /\ (forall l, Permutation (o_set l) l) /\
  detect (u_cat U) (shipped_url U) (is_known_type U) O o_set capacity skip (quoted_text c q rows final) None old =
    (Ok (Some (dialect3 [c] [] [])), old).
Proof. exact quoted_lost. Qed.
Print Assumptions C78_every_table_refuted.
