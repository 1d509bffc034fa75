(** * PropsHeader: C85 *)
From Coq Require Import String.
From Verif Require Import Base Parser Dialect CsvLib Reader SpecLayout SpecPotential SpecTies MaskedFacts NormalForm SpecNormal NormalCases DetectCases Consistency Detect SpecDetect SpecHeader HeaderFacts HeaderTables
  DetectorCases SpecTables SpecQuoted SimpleCases HeaderCases.
Open Scope N_scope.

(** ** C85 *)
Theorem C85_unquoted cat url known O o_set accepts reg c k rows final e max s header below :
  In c common_delimiters ->
  table_of rows final <> [] -> (2 <= k)%nat -> Forall (fun r => List.length r = k /\ Forall (over elementary) r) (table_of rows final) ->
  (forall r, In r rows -> snd r = e) -> e <> ECR ->
  let text := table_text c rows final in
  ~ escape_suspect cat common_delimiters text ->
  (forall r s', In r (table_of rows final) -> In s' r -> (Z.of_nat (List.length s') <= st_limit s)%Z) ->
  table_of rows final = header :: below ->
  exists b, has_header cat url known O o_set (cast_of accepts) reg text max s = (Ok b, mk_state (Some NORMAL) (st_limit s)) /\
    header_answer accepts header below max b.
Proof. exact (bare_header cat url known O o_set accepts reg c k rows final e max s header below). Qed.
Print Assumptions C85_unquoted.
Example C85_unquoted_case :
  let rows := [([s2l "x (cm)"; s2l "age"], ECRLF)] in let final := Some [s2l "12"; s2l "7"] in
  In COMMA common_delimiters /\
  Forall (fun r => List.length r = 2%nat /\ Forall (over elementary) r) (table_of rows final) /\
  (forall r, In r rows -> snd r = ECRLF) /\ ~ escape_suspect ascii_cat common_delimiters (table_text COMMA rows final) /\
  table_of rows final = [s2l "x (cm)"; s2l "age"] :: [[s2l "12"; s2l "7"]] /\
  numbers_below digit_types [s2l "x (cm)"; s2l "age"] [[s2l "12"; s2l "7"]].
Proof. exact aged_meet. Qed.
Theorem C85_quoted cat url known O o_set accepts reg c q k rows final e max s header below :
  a_quote q -> In c common_delimiters ->
  simple_grid k q (table_of rows final) -> simple_quotes (table_of rows final) ->
  (forall r, In r rows -> snd r = e) -> e <> ECR ->
  let text := quoted_text c q rows final in
  ~ escape_suspect cat common_delimiters text ->
  (forall r x, In r (table_of rows final) -> In x r -> ~ In NUL (snd x) /\ (Z.of_nat (List.length (cell_text q x)) <= st_limit s)%Z) ->
  map (map snd) (table_of rows final) = header :: below ->
  exists b, has_header cat url known O o_set (cast_of accepts) reg text max s = (Ok b, mk_state (Some NORMAL) (st_limit s)) /\
    header_answer accepts header below max b.
Proof. exact (simple_header cat url known O o_set accepts reg c q k rows final e max s header below). Qed.
Print Assumptions C85_quoted.
Example C85_quoted_case :
  let rows := [([(true, s2l "a; b"); (false, s2l "15")], ELF); ([(false, s2l "c/d "); (true, s2l "7")], ELF)] in
  a_quote 34 /\ In COMMA common_delimiters /\ simple_grid 2 34 (table_of rows None) /\ simple_quotes (table_of rows None) /\
  (forall r, In r rows -> snd r = ELF) /\ ~ escape_suspect ascii_cat common_delimiters (quoted_text COMMA 34 rows None) /\
  map (map snd) (table_of rows None) = [s2l "a; b"; s2l "15"] :: [[s2l "c/d "; s2l "7"]] /\
  all_alike digit_types [s2l "a; b"; s2l "15"] [[s2l "c/d "; s2l "7"]].
Proof. exact dated_meet. Qed.
(** Line ends CR: an error, whatever the cells contain. *)
Theorem C85_cr_unquoted cat url known O o_set accepts reg c k rows final max s :
  In c common_delimiters -> (2 <= List.length (table_of rows final))%nat -> (2 <= k)%nat ->
  Forall (fun r => List.length r = k /\ Forall (over elementary) r) (table_of rows final) ->
  (forall r, In r rows -> snd r = ECR) ->
  let text := table_text c rows final in
  ~ escape_suspect cat common_delimiters text -> (1 <= st_limit s)%Z ->
  (forall r s', In r (table_of rows final) -> In s' r -> (Z.of_nat (List.length s') <= st_limit s)%Z) ->
  has_header cat url known O o_set (cast_of accepts) reg text max s = (Err (CleverError ENewline), mk_state (Some NORMAL) (st_limit s)).
Proof. exact (bare_header_cr cat url known O o_set accepts reg c k rows final max s). Qed.
Print Assumptions C85_cr_unquoted.
Example C85_cr_case :
  let rows := [([s2l "(x y)"; s2l "50%"; []], ECR)] in let final := Some [s2l "a@b+c"; s2l "-"; s2l "a/b"] in
  In 124 common_delimiters /\ table_of rows final <> [] /\ (2 <= 3)%nat /\
  Forall (fun r => List.length r = 3%nat /\ Forall (over elementary) r) (table_of rows final) /\
  (forall r, In r rows -> snd r = ECR) /\ ~ escape_suspect ascii_cat common_delimiters (table_text 124 rows final).
Proof. exact signs_meet. Qed.
Theorem C85_cr_quoted cat url known O o_set accepts reg c q k rows final max s :
  a_quote q -> In c common_delimiters -> (2 <= List.length (table_of rows final))%nat ->
  simple_grid k q (table_of rows final) -> simple_quotes (table_of rows final) ->
  (forall r, In r rows -> snd r = ECR) ->
  let text := quoted_text c q rows final in
  ~ escape_suspect cat common_delimiters text -> (1 <= st_limit s)%Z ->
  (forall r x, In r (table_of rows final) -> In x r -> ~ In NUL (snd x) /\ (Z.of_nat (List.length (cell_text q x)) <= st_limit s)%Z) ->
  has_header cat url known O o_set (cast_of accepts) reg text max s = (Err (CleverError ENewline), mk_state (Some NORMAL) (st_limit s)).
Proof. exact (simple_header_cr cat url known O o_set accepts reg c q k rows final max s). Qed.
Print Assumptions C85_cr_quoted.
(** At most one order of two rows has a header: the witness is bob,rome and anna,paris. *)
Theorem C85_orders_refuted : exists r1 r2 : list str, r1 <> r2 /\
  fst (ascii_header std_registry (table_text COMMA [(r1, ELF)] (Some r2)) 20 state0) = Ok true /\
  fst (ascii_header std_registry (table_text COMMA [(r2, ELF)] (Some r1)) 20 state0) = Ok true.
Proof. exact both_headers. Qed.
Print Assumptions C85_orders_refuted.
(** Names above words are not recognised if the words have several lengths. *)
Theorem C85_words_refuted : exists header r1 r2 : list str,
  header = [s2l "name"; s2l "city"] /\ r1 = [s2l "bob"; s2l "rome"] /\ r2 = [s2l "anna"; s2l "paris"] /\
  fst (ascii_header std_registry (table_text COMMA [(header, ELF); (r1, ELF)] (Some r2)) 20 state0) = Ok false.
Proof. exact words_header. Qed.
Print Assumptions C85_words_refuted.
