(** * PropsAuto: C71 and C72 *)
From Coq Require Import String Permutation.
From Verif Require Import Base Parser Dialect CsvLib Reader Writer Files Wrappers SpecLayout SpecWriter SpecFiles Potential SpecPotential MaskedFacts TableFacts
  Consistency Detect Json Types SpecTypes TypesUrl TypesCases SpecTables TablesFacts TablesNormal TablesFiles TablesCases AutoCases FilesCases.
Open Scope N_scope.

(** ** C71 *)
Theorem C71_regular U c k rows final O o_set method skip s :
  unicode_like (u_cat U) -> ascii_like (u_cat U) -> (forall x, digit (u_cat U) x -> u_isdigit U x = true) ->
  plain_delimiter (u_cat U) c -> grid k (cell_char c) (table_of rows final) ->
  (forall r s, In r (table_of rows final) -> In s r -> exists name P, In (name, P) (cell_types (u_cat U) (strip U) (u_ws U) (u_lower U)
     (fun s => exists v, loads (u_maxdigits U) (u_depth U) s = Ok v) false) /\ P (strip U s)) ->
  let text := table_text c rows final in
  no_escapes (u_cat U) text ->
  (forall d, d <> c -> In d text -> default_delimiter (u_cat U) d -> outdone k (per_row d (table_of rows final))) ->
  (forall d m, In d common_delimiters -> d <> c -> (1 <= m)%nat -> ~ Forall (eq m) (per_row d (table_of rows final))) ->
  (Z.of_nat (List.length text) < 2 ^ 50)%Z -> any_orders O -> (forall l, Permutation (o_set l) l) ->
  (forall v, method = MStr v -> In v [s2l "auto"; s2l "normal"; s2l "consistency"]) ->
  exists s', detector_detect (u_cat U) (shipped_url U) (is_known_type U) O o_set text None method skip s =
    (Ok (Some (dialect3 [c] [] [])), s') /\ st_limit s' = st_limit s.
Proof. intros H1 H2 H3. exact (auto_regular U H1 H2 H3 c k rows final O o_set method skip s). Qed.
Print Assumptions C71_regular.
(** The table of C69 meets the further conditions. *)
Example C71_case : ascii_like ascii_cat /\
  (forall d m, In d common_delimiters -> d <> SEMI -> (1 <= m)%nat -> ~ Forall (eq m) (per_row d (table_of case_rows case_final))).
Proof. exact (conj ascii_ascii case_common). Qed.
Theorem C71_words U c k rows final O o_set method skip s :
  unicode_like (u_cat U) -> ascii_like (u_cat U) -> (forall x, digit (u_cat U) x -> u_isdigit U x = true) ->
  plain_delimiter (u_cat U) c -> ~ escape_like (u_cat U) c -> grid k (plain_char (u_cat U)) (table_of rows final) ->
  let text := table_text c rows final in
  (Z.of_nat (List.length text) < 2 ^ 50)%Z -> any_orders O -> (forall l, Permutation (o_set l) l) ->
  (forall v, method = MStr v -> In v [s2l "auto"; s2l "normal"; s2l "consistency"]) ->
  exists s', detector_detect (u_cat U) (shipped_url U) (is_known_type U) O o_set text None method skip s =
    (Ok (Some (dialect3 [c] [] [])), s') /\ st_limit s' = st_limit s.
Proof. intros H1 H2 H3. exact (auto_plain U H1 H2 H3 c k rows final O o_set method skip s). Qed.
Print Assumptions C71_words.
(** The methods disagree about the numbers with a comma in  a b 1,234. *)
Theorem C71_methods_agree_refuted : exists rows final O o_set,
  grid 3 (cell_char 32) (table_of rows final) /\ any_orders O /\ (forall l, Permutation (o_set l) l) /\
  detect ascii_cat (shipped_url ascii_data) (is_known_type ascii_data) O o_set 100000 true (table_text 32 rows final) None 131072 =
    (Ok (Some (dialect3 [32] [] [])), 131072%Z) /\
  detector_detect ascii_cat (shipped_url ascii_data) (is_known_type ascii_data) O o_set (table_text 32 rows final) None
    (MStr (s2l "auto")) true (mk_state None 131072) = (Ok (Some (dialect3 [COMMA] [] [])), mk_state (Some NORMAL) 131072).
Proof. exact methods_disagree. Qed.
Print Assumptions C71_methods_agree_refuted.
(** Words between dashes are taken for a single column. *)
Theorem C71_dashes_refuted O o_set skip s : detector_detect ascii_cat (shipped_url ascii_data) (is_known_type ascii_data) O o_set
  (table_text 45 [([s2l "a"; s2l "b"], ELF)] (Some [s2l "c"; s2l "d"])) None (MStr (s2l "auto")) skip s =
  (Ok (Some (dialect3 [] [] [])), mk_state (Some NORMAL) (st_limit s)).
Proof. exact (dashes_lost (is_known_type ascii_data) O o_set skip s). Qed.
Print Assumptions C71_dashes_refuted.

(** ** C72 *)
Theorem C72_read U O o_set E method skip s f h p encoding cod b c k rows final nc :
  unicode_like (u_cat U) -> ascii_like (u_cat U) -> (forall x, digit (u_cat U) x -> u_isdigit U x = true) ->
  any_orders O -> (forall l, Permutation (o_set l) l) ->
  (forall v, method = MStr v -> In v [s2l "auto"; s2l "normal"; s2l "consistency"]) ->
  (forall sample, e_detect E sample = fst (detector_detect (u_cat U) (shipped_url U) (is_known_type U) O o_set sample None method skip s)) ->
  open_text E f p encoding = Ok (cod, b) -> cd_decode cod b = (table_text c rows final, true) ->
  plain_delimiter (u_cat U) c -> ~ escape_like (u_cat U) c -> grid k (plain_char (u_cat U)) (table_of rows final) ->
  (Z.of_nat (List.length (table_text c rows final)) < 2 ^ 50)%Z -> head_chars nc (table_text c rows final) = table_text c rows final ->
  (forall r s, In r (table_of rows final) -> In s r -> (Z.of_nat (List.length s) <= e_limit E)%Z) ->
  read_table E f h p None encoding nc = Ok (map (map CStr) (table_of rows final)).
Proof. intros H1 H2 H3 H4 H5 H6 H7. exact (plain_read U H1 H2 H3 O o_set H4 H5 E method skip s H6 H7 f h p encoding cod b c k rows final nc). Qed.
Print Assumptions C72_read.
Theorem C72_round_trip U O o_set E method skip s f h h' (table : list (list value)) p dialect encoding cod w e c k :
  unicode_like (u_cat U) -> ascii_like (u_cat U) -> (forall x, digit (u_cat U) x -> u_isdigit U x = true) ->
  any_orders O -> (forall l, Permutation (o_set l) l) ->
  (forall v, method = MStr v -> In v [s2l "auto"; s2l "normal"; s2l "consistency"]) ->
  (forall sample, e_detect E sample = fst (detector_detect (u_cat U) (shipped_url U) (is_known_type U) O o_set sample None method skip s)) ->
  grid k (plain_char (u_cat U)) (map (map value_str) table) ->
  (forall r v, In r table -> In v r -> (Z.of_nat (List.length (value_str v)) <= e_limit E)%Z) ->
  new_writer (e_registry E) h dialect [] = Ok w -> wd_delim w = c -> wd_skipspace w = false -> wd_term w = render_eol e ->
  (wd_quoting w = QUOTE_MINIMAL \/ wd_quoting w = QUOTE_NONE) ->
  (forall x, wd_quote w = Some x \/ wd_escape w = Some x -> ~ plain_char (u_cat U) x) ->
  plain_delimiter (u_cat U) c -> ~ escape_like (u_cat U) c ->
  e_codec E (Some encoding) = Ok cod -> lawful cod ->
  (exists b, cd_encode cod (table_text c (map (fun r => (map value_str r, e)) table) None) = Some b) ->
  (Z.of_nat (List.length (table_text c (map (fun r => (map value_str r, e)) table) None)) < 2 ^ 50)%Z ->
  exists f', write_table E f h table p dialect false (Some encoding) = (f', None) /\ same_fs_but [p] f' f /\
    read_table E f' h' p None (Some encoding) None = Ok (as_read table).
Proof. intros H1 H2 H3 H4 H5 H6 H7. exact (plain_round_trip U H1 H2 H3 O o_set H4 H5 E method skip s H6 H7 f h h' table p dialect encoding cod w e c k). Qed.
Print Assumptions C72_round_trip.
Example C72_case : exists w,
  new_writer (e_registry shipped_env) [] (DName (s2l "excel")) [] = Ok w /\ wd_delim w = COMMA /\ wd_skipspace w = false /\
  wd_term w = render_eol ECRLF /\ wd_quoting w = QUOTE_MINIMAL /\
  (forall x, wd_quote w = Some x \/ wd_escape w = Some x -> ~ plain_char ascii_cat x) /\
  plain_delimiter ascii_cat COMMA /\ ~ escape_like ascii_cat COMMA /\
  grid 2 (plain_char ascii_cat) (map (map value_str) [[VStr (s2l "a"); VNum (s2l "1.5")]; [VStr (s2l "B2"); VNone]]).
Proof. exact files_meet. Qed.
(** Not every table written by write_table is read back by read_table. *)
Theorem C72_every_table_refuted : exists f f' table,
  write_table shipped_env f [] table 1 (DName (s2l "excel")) false None = (f', None) /\
  read_table shipped_env f' [] 1 None None None <> Ok (as_read table) /\
  exists rows, read_table shipped_env f' [] 1 None None None = Ok rows.
Proof. exact not_read_back. Qed.
Print Assumptions C72_every_table_refuted.
