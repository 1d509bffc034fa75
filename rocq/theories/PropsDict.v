(** * PropsDict: dictionary readers and writers (C22-C24) *)
From Coq Require Import String.
From Verif Require Import Base Parser Dialect CsvLib Reader Writer Files Wrappers Dict
  SpecLayout SpecParse SpecWriter SpecFiles SpecDict TableFacts DictFacts DictWriteFacts.

(** ** C22 *)
(** The field names come from the first row. *)
Theorem C22_header_from_file reg h0 seq file dialect params r h1 limit h rk rv hdr rows e cs :
  new_reader reg h0 seq file dialect params = (Ok r, h1) ->
  let ns := map (fun x => Some (cell_str x)) hdr in
  NoDup ns -> ~ In rk ns ->
  reader_rows limit h r = (hdr :: rows, e) ->
  e = None \/ (count_next cs <= S (List.length (filter not_blank rows)))%nat ->
  run_dict limit h cs (new_dict_reader None rk rv r) =
  answers ns (expected_dict ns rk rv) (filter not_blank rows) (final e) cs.
Proof. exact (fun H => dict_header reg h0 seq file dialect params r h1 limit h H rk rv hdr rows e cs). Qed.
Print Assumptions C22_header_from_file.
(** The field names are given. *)
Theorem C22_header_given reg h0 seq file dialect params r h1 limit h ns rk rv rows e cs :
  new_reader reg h0 seq file dialect params = (Ok r, h1) ->
  NoDup ns -> ~ In rk ns ->
  reader_rows limit h r = (rows, e) ->
  e = None \/ (count_next cs <= S (List.length (filter not_blank rows)))%nat ->
  run_dict limit h cs (new_dict_reader (Some ns) rk rv r) =
  answers ns (expected_dict ns rk rv) (filter not_blank rows) (final e) cs.
Proof. exact (fun H => dict_given_names reg h0 seq file dialect params r h1 limit h H ns rk rv rows e cs). Qed.
Print Assumptions C22_header_given.
Theorem C22_no_rows reg h0 seq file dialect params r h1 limit h rk rv cs :
  new_reader reg h0 seq file dialect params = (Ok r, h1) ->
  reader_rows limit h r = ([], None) ->
  run_dict limit h cs (new_dict_reader None rk rv r) =
  map (fun c => match c with CNext => ANext DStop | CNames => ANames (Ok None) end) cs.
Proof. exact (fun H => dict_no_rows reg h0 seq file dialect params r h1 limit h H rk rv cs). Qed.
Print Assumptions C22_no_rows.
(** With repeated names the last cell wins. *)
Theorem C22_repeated_names names rk rv row :
  NoDup (map fst (row_dict names rk rv row)) /\
  forall k, od_get (row_dict names rk rv row) k = last_value k (assignments names rk rv row) /\
    (In k (map fst (row_dict names rk rv row)) <-> In k (map fst (assignments names rk rv row))).
Proof. exact (row_dict_general names rk rv row). Qed.
Print Assumptions C22_repeated_names.
Example C22_case :
  match new_reader std_registry [] false
    (map (fun t => ILine (t ++ [LF])) [s2l "a,b"; []; s2l "1,2,3"; []; s2l "4"]) (DName (s2l "excel")) [] with
  | (Ok r, h) =>
      run_dict 99 h [CNames; CNext; CNext; CNames; CNext; CNext] (new_dict_reader None None (Some (s2l "-")) r) =
      [ ANames (Ok (Some [Some (s2l "a"); Some (s2l "b")]));
        ANext (DRow [(Some (s2l "a"), DStr (s2l "1")); (Some (s2l "b"), DStr (s2l "2")); (None, DList [s2l "3"])]);
        ANext (DRow [(Some (s2l "a"), DStr (s2l "4")); (Some (s2l "b"), DStr (s2l "-"))]);
        ANames (Ok (Some [Some (s2l "a"); Some (s2l "b")]));
        ANext DStop; ANext DStop ]
  | _ => False
  end.
Proof. reflexivity. Qed.
Example C22_repeated_case :
  row_dict [Some (s2l "a"); Some (s2l "b"); Some (s2l "a")] None None [CStr (s2l "1"); CStr (s2l "2"); CStr (s2l "3")]
  = [(Some (s2l "a"), DStr (s2l "3")); (Some (s2l "b"), DStr (s2l "2"))].
Proof. reflexivity. Qed.

(** ** C23 *)
Theorem C23_dicts_roundtrip E lower f h items names p name cv D d q encoding c nc :
  lower (s2l "raise") = s2l "raise" ->
  writable_dicts names items ->
  (forall k, In k names -> fits_str (e_limit E) k) ->
  (forall it k v, In it items -> In (k, v) it -> fits_str (e_limit E) (value_str v)) ->
  e_registry E name = Some cv -> quoting_csv cv D d q -> wf_chars D = true ->
  e_codec E (Some encoding) = Ok c -> lawful c ->
  encodes c (added_chars D ++ List.concat names ++ List.concat (map (fun kv => value_str (snd kv)) (List.concat items))) ->
  (2 <= e_limit E)%Z ->
  exists f' ds, write_dicts E lower f h items p (DName name) (Some encoding) = (f', None) /\
    same_fs_but [p] f' f /\
    stream_dicts E f' h p (Some (DName name)) (Some encoding) nc = (ds, None) /\
    Forall2 (reads_as names) items ds.
Proof. exact (dicts_roundtrip E lower f h items names p name cv D d q encoding c nc). Qed.
Print Assumptions C23_dicts_roundtrip.
Example C23_case :
  let E := demo_env (fun _ => Ok None) in
  let items := [[(Some (s2l "x"), VStr (s2l "1,2")); (Some (s2l "y"), VStr [])];
                [(Some (s2l "y"), VStr (s2l "b"))]] in
  match write_dicts E (fun s => s) (fun _ => None) [] items 1%N (DName (s2l "excel")) (Some (s2l "l1")) with
  | (f', x) =>
      x = None /\
      stream_dicts E f' [] 1%N (Some (DName (s2l "excel"))) (Some (s2l "l1")) None =
      ([[(Some (s2l "x"), DStr (s2l "1,2")); (Some (s2l "y"), DStr [])];
        [(Some (s2l "x"), DStr []); (Some (s2l "y"), DStr (s2l "b"))]], None)
  end.
Proof. split; reflexivity. Qed.
Example C23_encodes_case :
  let items := [[(Some (s2l "x"), VStr (s2l "1,2")); (Some (s2l "y"), VStr [])]; [(Some (s2l "y"), VStr (s2l "b"))]] in
  encodes latin1 (added_chars (mk_chars (Some COMMA) (Some DQ) None) ++ List.concat (map s2l ["x"; "y"]%string) ++
                  List.concat (map (fun kv => value_str (snd kv)) (List.concat items))).
Proof. apply latin1_encodes. reflexivity. Qed.
(** Dictionaries without keys are lost (a blank header and blank rows). *)
Example C23_no_keys :
  let E := demo_env (fun _ => Ok None) in
  match write_dicts E (fun s => s) (fun _ => None) [] [[]; []] 1%N (DName (s2l "excel")) (Some (s2l "l1")) with
  | (f', x) =>
      x = None /\ f' 1%N = Some [CR; LF; CR; LF; CR; LF] /\
      stream_dicts E f' [] 1%N (Some (DName (s2l "excel"))) (Some (s2l "l1")) None = ([], None)
  end.
Proof. repeat split; reflexivity. Qed.

(** ** C24 *)
Theorem C24_unknown_keys_raise w d : dw_extras w = s2l "raise" ->
  (exists k, In k (map fst d) /\ ~ In k (dw_names w)) -> dw_writerow w d = Err ValueError.
Proof. exact (extras_raise w d). Qed.
Print Assumptions C24_unknown_keys_raise.
Theorem C24_row_written w d : NoDup (map fst d) ->
  dw_extras w <> s2l "raise" \/ incl (map fst d) (dw_names w) ->
  exists row, dw_writerow w d = writerow (dw_writer w) row /\ List.length row = List.length (dw_names w) /\
    forall i k, nth_error (dw_names w) i = Some k -> exists v, nth_error row i = Some v /\
      (In (k, v) d \/ ~ In k (map fst d) /\ v = dw_restval w).
Proof. exact (dict_row_written w d). Qed.
Print Assumptions C24_row_written.
Theorem C24_constructor lower reg h names restval action dialect params w :
  new_dict_writer lower reg h names restval action dialect params = Ok w ->
  (lower action = s2l "raise" \/ lower action = s2l "ignore") /\ dw_extras w = action /\
  dw_names w = names /\ dw_restval w = restval /\ new_writer reg h dialect params = Ok (dw_writer w).
Proof. exact (extras_action lower reg h names restval action dialect params w). Qed.
Print Assumptions C24_constructor.
Theorem C24_constructor_rejects lower reg h names restval action dialect params :
  lower action <> s2l "raise" -> lower action <> s2l "ignore" ->
  new_dict_writer lower reg h names restval action dialect params = Err ValueError.
Proof. exact (extras_invalid lower reg h names restval action dialect params). Qed.
Print Assumptions C24_constructor_rejects.
(** "RAISE" is accepted and then does not raise. *)
Theorem C24_uppercase_refuted lower : lower (s2l "RAISE") = s2l "raise" ->
  exists w, new_dict_writer lower std_registry [] [Some (s2l "a")] (VStr []) (s2l "RAISE")
      (DName (s2l "excel")) [] = Ok w /\
    dw_writerow w [(Some (s2l "a"), VStr (s2l "1")); (Some (s2l "b"), VStr (s2l "2"))]
    = Ok (s2l "1" ++ [CR; LF]).
Proof. exact (extras_uppercase lower). Qed.
Print Assumptions C24_uppercase_refuted.
Example C24_case :
  let w := mk_dict_writer [Some (s2l "a"); Some (s2l "b")] (VStr (s2l "?")) (s2l "raise")
             (mk_wdialect COMMA (Some DQ) None true false [CR; LF] QUOTE_MINIMAL) in
  dw_writerow w [(Some (s2l "b"), VStr (s2l "2"))] = Ok (s2l "?,2" ++ [CR; LF]) /\
  dw_writerow w [(Some (s2l "c"), VStr (s2l "2"))] = Err ValueError.
Proof. split; reflexivity. Qed.
