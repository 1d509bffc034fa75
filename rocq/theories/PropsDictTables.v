(** * PropsDictTables: C83 and C84 *)
From Coq Require Import String.
From Verif Require Import Base Parser Dialect CsvLib Reader Writer Files Wrappers Dict SpecLayout SpecParse SpecWriter SpecFiles SpecDict SpecDictTables SpecPotential SpecTies SpecNormal MaskedFacts TableFacts
  NormalForm Consistency Detect Types SpecTypes TypesUrl TypesCases SpecTables FilesCases SpecQuoted Simple SimpleFiles SimpleCases DictTables DictSimple.
Open Scope N_scope.

(** ** C83 *)
(** Whatever becomes of the table becomes of the dictionaries, errors included. *)
Theorem C83_read E f h p dialect encoding nc rows e :
  stream_table E f h p dialect encoding nc = (rows, e) ->
  (forall header records, rows = header :: records -> NoDup (map cell_str header)) ->
  stream_dicts E f h p dialect encoding nc = (dicts_of rows, e).
Proof. exact (dicts_of_table E f h p dialect encoding nc rows e). Qed.
Print Assumptions C83_read.
Theorem C83_write E lower f h (items : list (odict value)) names p dialect encoding :
  lower (s2l "raise") = s2l "raise" -> writable_dicts names items ->
  write_dicts E lower f h items p dialect encoding = write_table E f h (dict_table names items) p dialect false encoding.
Proof. exact (dicts_as_table E lower f h items names p dialect encoding). Qed.
Print Assumptions C83_write.
(** So every round trip of tables is one of dictionaries. *)
Theorem C83_round_trips E lower f h h' (items : list (odict value)) names p dialect encoding dialect' nc f' :
  lower (s2l "raise") = s2l "raise" -> writable_dicts names items ->
  write_table E f h (dict_table names items) p dialect false encoding = (f', None) ->
  read_table E f' h' p dialect' encoding nc = Ok (as_read (dict_table names items)) ->
  write_dicts E lower f h items p dialect encoding = (f', None) /\
  exists ds, stream_dicts E f' h' p dialect' encoding nc = (ds, None) /\ Forall2 (reads_as names) items ds.
Proof. exact (dicts_survive E lower f h h' items names p dialect encoding dialect' nc f'). Qed.
Print Assumptions C83_round_trips.
Example C83_writable_case : writable_dicts some_names some_items.
Proof. exact some_writable. Qed.
Example C83_table_case : dict_table [s2l "id"; s2l ","] [[(Some (s2l "id"), VNum (s2l "1"))]; [(Some (s2l ","), VNone); (Some (s2l "id"), VStr (s2l "x"))]] =
  [[VStr (s2l "id"); VStr (s2l ",")]; [VNum (s2l "1"); VStr []]; [VStr (s2l "x"); VNone]].
Proof. reflexivity. Qed.
Example C83_dicts_case : dicts_of [[CStr (s2l "id"); CStr (s2l "n")]; []; [CStr (s2l "1")]; [CStr (s2l "2"); CStr (s2l "x"); CStr (s2l "y")]] =
  [[(Some (s2l "id"), DStr (s2l "1")); (Some (s2l "n"), DNone)];
   [(Some (s2l "id"), DStr (s2l "2")); (Some (s2l "n"), DStr (s2l "x")); (None, DList [s2l "y"])]].
Proof. reflexivity. Qed.

(** ** C84 *)
Theorem C84_round_trip cat url known O o_set E method skip s lower f h h' (items : list (odict value)) names p dialect encoding cod w e c q :
  In method [MStr (s2l "normal"); MEnum NORMAL; MStr (s2l "auto"); MEnum AUTO] ->
  (forall sample, e_detect E sample = fst (detector_detect cat url known O o_set sample None method skip s)) ->
  lower (s2l "raise") = s2l "raise" -> writable_dicts names items -> (2 <= List.length names)%nat ->
  let table := dict_table names items in
  new_writer (e_registry E) h dialect [] = Ok w -> wd_delim w = c -> wd_skipspace w = false -> wd_term w = render_eol e ->
  wd_quote w = Some q -> a_quote q -> In c common_delimiters ->
  (wd_quoting w = QUOTE_ALL /\ (forall r v, In r table -> In v r -> Forall (fun y => y <> q /\ y <> CR /\ y <> LF) (value_str v))) \/
  (wd_quoting w = QUOTE_MINIMAL /\ (forall r v, In r table -> In v r ->
     value_str v <> [] /\ (over elementary (value_str v) \/ In c (value_str v) /\ Forall (fun y => y <> q /\ y <> CR /\ y <> LF) (value_str v)))) ->
  (forall r v, In r table -> In v r -> ~ In NUL (value_str v) /\ (forall x, wd_escape w = Some x -> ~ In x (value_str v)) /\
     (Z.of_nat (List.length (value_str v)) + 2 <= e_limit E)%Z) ->
  wd_escape w <> Some c ->
  let text := written_text (wd_quoting w) c q e table in
  ~ escape_suspect cat common_delimiters text ->
  e_codec E (Some encoding) = Ok cod -> lawful cod -> (exists b, cd_encode cod text = Some b) ->
  exists f' ds, write_dicts E lower f h items p dialect (Some encoding) = (f', None) /\ same_fs_but [p] f' f /\
    stream_dicts E f' h' p None (Some encoding) None = (ds, None) /\ Forall2 (reads_as names) items ds.
Proof. exact (simple_dicts cat url known O o_set E method skip s lower f h h' items names p dialect encoding cod w e c q). Qed.
Print Assumptions C84_round_trip.
Example C84_case :
  let names := [s2l "id"; s2l "O'Brien; {1,2}"; s2l ","] in
  let items := [[(Some (s2l "id"), VNum (s2l "1")); (Some (s2l "O'Brien; {1,2}"), VStr (s2l "a,b")); (Some (s2l ","), VNone)];
                [(Some (s2l ","), VStr (s2l "$5 {~}"))]] in
  exists w,
  new_writer (e_registry shipped_env) [] (DName (s2l "unix")) [] = Ok w /\ wd_delim w = COMMA /\ wd_skipspace w = false /\ wd_term w = render_eol ELF /\
  wd_quote w = Some 34 /\ wd_quoting w = QUOTE_ALL /\ writable_dicts names items /\
  (forall r v, In r (dict_table names items) -> In v r -> Forall (fun y => y <> 34 /\ y <> CR /\ y <> LF) (value_str v)) /\
  (forall r v, In r (dict_table names items) -> In v r -> ~ In NUL (value_str v) /\ (forall x, wd_escape w = Some x -> ~ In x (value_str v)) /\
     (Z.of_nat (List.length (value_str v)) + 2 <= e_limit shipped_env)%Z) /\ wd_escape w <> Some COMMA /\
  ~ escape_suspect ascii_cat common_delimiters (written_text (wd_quoting w) COMMA 34 ELF (dict_table names items)).
Proof. exact some_meet. Qed.
