(** * PropsColumn: C86 *)
From Coq Require Import String.
From Verif Require Import Base Parser Dialect CsvLib Reader Writer Files Wrappers SpecLayout SpecWriter SpecFiles TableFacts Potential SpecPotential MaskedFacts SpecNormal
  NormalForm Consistency Detect Console Types SpecTypes TypesUrl TypesCases TablesFiles SpecTables FilesCases SpecQuoted Simple SpecColumn ColumnFiles ColumnCases.
Open Scope N_scope.

(** ** C86 *)
Theorem C86_unquoted cat url known O o_set rows final e method skip s :
  (2 <= List.length (column_of rows final))%nat -> (forall r, In r rows -> snd r = e) ->
  (forall s, In s (column_of rows final) -> s <> [] /\ over word s) ->
  In method [MStr (s2l "normal"); MEnum NORMAL; MStr (s2l "auto"); MEnum AUTO] ->
  detector_detect cat url known O o_set (column_text rows final) None method skip s = (Ok (Some (dialect3 [] [] [])), mk_state (Some NORMAL) (st_limit s)).
Proof. exact (column_detected cat url known O o_set rows final e method skip s). Qed.
Print Assumptions C86_unquoted.
Example C86_unquoted_case : let rows := [(s2l "id_no", ECR); (s2l "R&D-2.5", ECR)] in let final := Some (s2l "-") in
  (2 <= List.length (column_of rows final))%nat /\ (forall r, In r rows -> snd r = ECR) /\ (forall s, In s (column_of rows final) -> s <> [] /\ over word s).
Proof. exact names_meet. Qed.
Theorem C86_quoted cat url known O o_set q rows final e method skip s :
  a_quote q -> (2 <= List.length (column_of rows final))%nat -> (forall r, In r rows -> snd r = e) ->
  (forall s, In s (column_of rows final) -> over (SPACE :: word) s) ->
  ~ escape_suspect cat common_delimiters (quoted_column q rows final) ->
  In method [MStr (s2l "normal"); MEnum NORMAL; MStr (s2l "auto"); MEnum AUTO] ->
  detector_detect cat url known O o_set (quoted_column q rows final) None method skip s = (Ok (Some (dialect3 [] [q] [])), mk_state (Some NORMAL) (st_limit s)).
Proof. exact (quoted_column_detected cat url known O o_set q rows final e method skip s). Qed.
Print Assumptions C86_quoted.
Example C86_quoted_case : let rows := [(s2l "two words", ECRLF); ([], ECRLF)] in
  a_quote 39 /\ (2 <= List.length (column_of rows None))%nat /\ (forall r, In r rows -> snd r = ECRLF) /\
  (forall s, In s (column_of rows None) -> over (SPACE :: word) s) /\ ~ escape_suspect ascii_cat common_delimiters (quoted_column 39 rows None).
Proof. exact words_meet. Qed.
Theorem C86_read_unquoted cat url known O o_set E method skip s f h p encoding cod b rows final e nc :
  In method [MStr (s2l "normal"); MEnum NORMAL; MStr (s2l "auto"); MEnum AUTO] ->
  (forall sample, e_detect E sample = fst (detector_detect cat url known O o_set sample None method skip s)) ->
  open_text E f p encoding = Ok (cod, b) -> cd_decode cod b = (column_text rows final, true) ->
  (2 <= List.length (column_of rows final))%nat -> (forall r, In r rows -> snd r = e) ->
  (forall s, In s (column_of rows final) -> s <> [] /\ over word s /\ (Z.of_nat (List.length s) <= e_limit E)%Z) ->
  head_chars nc (column_text rows final) = column_text rows final ->
  read_table E f h p None encoding nc = Ok (map (fun s => [CStr s]) (column_of rows final)).
Proof. intros H1 H2. exact (column_file cat url known O o_set E method skip s H1 H2 f h p encoding cod b rows final e nc). Qed.
Print Assumptions C86_read_unquoted.
Theorem C86_read_quoted cat url known O o_set E method skip s f h p encoding cod b q rows final e nc :
  In method [MStr (s2l "normal"); MEnum NORMAL; MStr (s2l "auto"); MEnum AUTO] ->
  (forall sample, e_detect E sample = fst (detector_detect cat url known O o_set sample None method skip s)) ->
  a_quote q -> open_text E f p encoding = Ok (cod, b) -> cd_decode cod b = (quoted_column q rows final, true) ->
  (2 <= List.length (column_of rows final))%nat -> (forall r, In r rows -> snd r = e) ->
  (forall s, In s (column_of rows final) -> over (SPACE :: word) s /\ (Z.of_nat (List.length s) + 2 <= e_limit E)%Z) ->
  ~ escape_suspect cat common_delimiters (quoted_column q rows final) ->
  head_chars nc (quoted_column q rows final) = quoted_column q rows final ->
  read_table E f h p None encoding nc = Ok (map (fun s => [CStr s]) (column_of rows final)).
Proof. intros H1 H2. exact (quoted_column_file cat url known O o_set E method skip s H1 H2 f h p encoding cod b q rows final e nc). Qed.
Print Assumptions C86_read_quoted.
Theorem C86_round_trip cat url known O o_set E method skip s f h h' (column : list value) p dialect encoding cod w e :
  In method [MStr (s2l "normal"); MEnum NORMAL; MStr (s2l "auto"); MEnum AUTO] ->
  (forall sample, e_detect E sample = fst (detector_detect cat url known O o_set sample None method skip s)) ->
  new_writer (e_registry E) h dialect [] = Ok w -> wd_skipspace w = false -> wd_term w = render_eol e ->
  (2 <= List.length column)%nat ->
  (forall v, In v column -> (Z.of_nat (List.length (value_str v)) + 2 <= e_limit E)%Z /\
     (forall x, In x (value_str v) -> wd_delim w <> x /\ wd_quote w <> Some x /\ wd_escape w <> Some x)) ->
  (forall v, In v column -> asks_quotes (wd_quoting w) v = false /\ value_str v <> [] /\ over word (value_str v)) \/
  (exists q, wd_quote w = Some q /\ a_quote q /\
    (forall v, In v column -> asks_quotes (wd_quoting w) v = true /\ over (SPACE :: word) (value_str v)) /\
    ~ escape_suspect cat common_delimiters (quoted_column q (map (fun v => (value_str v, e)) column) None)) ->
  e_codec E (Some encoding) = Ok cod -> lawful cod ->
  (forall s, Forall (fun x => In x (CR :: LF :: 39 :: 34 :: SPACE :: word)) s -> exists b, cd_encode cod s = Some b) ->
  let table := map (fun v => [v]) column in
  exists f', write_table E f h table p dialect false (Some encoding) = (f', None) /\ same_fs_but [p] f' f /\
    read_table E f' h' p None (Some encoding) None = Ok (as_read table).
Proof. intros H1 H2. exact (column_round_trip cat url known O o_set E method skip s H1 H2 f h h' column p dialect encoding cod w e). Qed.
Print Assumptions C86_round_trip.
Example C86_round_trip_case : let column := [VStr (s2l "size"); VNum (s2l "2.5")] in exists w,
  new_writer (e_registry shipped_env) [] (DName (s2l "excel")) [] = Ok w /\ wd_skipspace w = false /\ wd_term w = render_eol ECRLF /\
  (2 <= List.length column)%nat /\
  (forall v, In v column -> (Z.of_nat (List.length (value_str v)) + 2 <= e_limit shipped_env)%Z /\
     (forall x, In x (value_str v) -> wd_delim w <> x /\ wd_quote w <> Some x /\ wd_escape w <> Some x)) /\
  (forall v, In v column -> asks_quotes (wd_quoting w) v = false /\ value_str v <> [] /\ over word (value_str v)).
Proof. exact numbers_meet. Qed.
(** Without quotes a space in a cell is enough to lose the column: a b above c d. *)
Theorem C86_spaces_refuted : exists f',
  write_table shipped_env (one_file []) [] [[VStr (s2l "a b")]; [VStr (s2l "c d")]] 1 (DName (s2l "excel")) false None = (f', None) /\
  read_table shipped_env f' [] 1 None None None = Ok (map (map (fun s => CStr (s2l s))) [["a"; "b"]; ["c"; "d"]]%string).
Proof. exact spaced_lost. Qed.
Print Assumptions C86_spaces_refuted.
(** read_dataframe refuses all these files. *)
Theorem C86_dataframe {V} cat url known O o_set E method skip s imp vlt f p (args : list V) nc encoding kwargs cod b m rows final e :
  In method [MStr (s2l "normal"); MEnum NORMAL; MStr (s2l "auto"); MEnum AUTO] ->
  (forall sample, e_detect E sample = fst (detector_detect cat url known O o_set sample None method skip s)) ->
  import_optional_dependency imp vlt (s2l "pandas") true = Ok m ->
  open_text E f p (or_encoding encoding) = Ok (cod, b) -> cd_decode cod b = (column_text rows final, true) ->
  (2 <= List.length (column_of rows final))%nat -> (forall r, In r rows -> snd r = e) ->
  (forall s, In s (column_of rows final) -> s <> [] /\ over word s) -> head_chars nc (column_text rows final) = column_text rows final ->
  read_dataframe E imp vlt f p args nc encoding kwargs = Err CsvError.
Proof. intros H1 H2. exact (column_dataframe cat url known O o_set E method skip s H1 H2 imp vlt f p args nc encoding kwargs cod b m rows final e). Qed.
Print Assumptions C86_dataframe.
Theorem C86_quoted_dataframe {V} cat url known O o_set E method skip s imp vlt f p (args : list V) nc encoding kwargs cod b m q rows final e :
  In method [MStr (s2l "normal"); MEnum NORMAL; MStr (s2l "auto"); MEnum AUTO] ->
  (forall sample, e_detect E sample = fst (detector_detect cat url known O o_set sample None method skip s)) ->
  a_quote q -> import_optional_dependency imp vlt (s2l "pandas") true = Ok m ->
  open_text E f p (or_encoding encoding) = Ok (cod, b) -> cd_decode cod b = (quoted_column q rows final, true) ->
  (2 <= List.length (column_of rows final))%nat -> (forall r, In r rows -> snd r = e) ->
  (forall s, In s (column_of rows final) -> over (SPACE :: word) s) -> ~ escape_suspect cat common_delimiters (quoted_column q rows final) ->
  head_chars nc (quoted_column q rows final) = quoted_column q rows final ->
  read_dataframe E imp vlt f p args nc encoding kwargs = Err CsvError.
Proof. intros H1 H2. exact (quoted_column_dataframe cat url known O o_set E method skip s H1 H2 imp vlt f p args nc encoding kwargs cod b m q rows final e). Qed.
Print Assumptions C86_quoted_dataframe.
