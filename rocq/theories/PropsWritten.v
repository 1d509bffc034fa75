(** * Properties: the text that is written, for every dialect (C98) *)
From Coq Require Import String.
From Verif Require Import Base Parser Dialect CsvLib Reader Writer Files Wrappers SpecFiles SpecLayout SpecParse SpecWriteErrors SpecWritten Written WrittenFiles TableFacts.

Theorem C98_writerow w row : ~ unwritable w row -> writerow w row = Ok (row_text w row).
Proof. exact (writerow_written w row). Qed.
Print Assumptions C98_writerow.
Theorem C98_writerows w rows : Forall (fun r => ~ unwritable w r) rows -> writerows w rows = (table_text w rows, None).
Proof. exact (writerows_written w rows). Qed.
Print Assumptions C98_writerows.
(** One dialect per quoting style.  Without doubled quotes a value is not quoted
    for the sake of its quotes. *)
Definition written_in (quoting : quoting) (double : bool) : str :=
  row_text (mk_wdialect COMMA (Some DQ) (Some BACKSLASH) double false [LF] quoting)
    [VStr (s2l "a""b"); VStr (s2l "c,d"); VNum (s2l "7"); VNone; VStr (s2l "e\")].
Example C98_case :
  written_in QUOTE_MINIMAL true = s2l """a""""b"",""c,d"",7,,e\\" ++ [LF] /\
  written_in QUOTE_MINIMAL false = s2l "a\""b,""c,d"",7,,e\\" ++ [LF] /\
  written_in QUOTE_ALL false = s2l """a\""b"",""c,d"",""7"","""",""e\\""" ++ [LF] /\
  written_in QUOTE_NONNUMERIC true = s2l """a""""b"",""c,d"",7,"""",""e\\""" ++ [LF] /\
  written_in QUOTE_NONE true = s2l "a\""b,c\,d,7,,e\\" ++ [LF] /\
  row_text (mk_wdialect COMMA (Some DQ) None true false [LF] QUOTE_MINIMAL) [VNone] = s2l """""" ++ [LF] /\
  ~ unwritable (mk_wdialect COMMA (Some DQ) (Some BACKSLASH) false false [LF] QUOTE_MINIMAL) [VStr (s2l "a""b"); VStr (s2l "c,d")].
Proof.
  repeat (split; [vm_compute; reflexivity|]). intros [([=] & _)|[([=] & _)|([=] & _)]].
Qed.

(** When QUOTE_MINIMAL quotes a value. *)
Theorem C98_minimal w v : wd_quoting w = QUOTE_MINIMAL ->
  in_quotes w v = true <->
  (exists c, In c (value_str v) /\ (wd_quote w = Some c /\ wd_doublequote w = true \/
     wd_quote w <> Some c /\ wd_escape w <> Some c /\ (c = wd_delim w \/ c = LF \/ c = CR \/ In c (wd_term w)))) \/
  (value_str v = [] /\ wd_delim w = SPACE /\ wd_skipspace w = true).
Proof. exact (in_quotes_minimal w v). Qed.
Print Assumptions C98_minimal.

Theorem C98_write_table E f h (table : list (list value)) p dialect (tr : bool) encoding cod w n b :
  table <> [] -> (forall r, In r table -> List.length r = n) -> e_codec E encoding = Ok cod -> lawful cod ->
  new_writer (e_registry E) h dialect [] = Ok w ->
  let rows := if tr then zip_star table else table in
  Forall (fun r => ~ unwritable w r) rows -> cd_encode cod (table_text w rows) = Some b ->
  exists f', write_table E f h table p dialect tr encoding = (f', None) /\ same_fs f' (upd f p (Some b)).
Proof. exact (written_table E f h table p dialect tr encoding cod w n b). Qed.
Print Assumptions C98_write_table.
Example C98_write_table_case :
  let D := simple (mk_chars (Some SEMI) (Some DQ) (Some BACKSLASH)) false in
  let table := [[VStr (s2l "a;b"); VStr (s2l "c")]; [VNum (s2l "1"); VStr (s2l "x\y")]] in
  match new_writer std_registry [D] (DSimple 0) [] with
  | Ok w => table_text w (zip_star table) = s2l """a;b"";1" ++ [LF] ++ s2l "c;x\\y" ++ [LF] /\
      fst (write_table (demo_env (fun _ => Ok None)) (fun _ => None) [D] table 1%N (DSimple 0) true None) 1%N = Some (table_text w (zip_star table)) /\
      Forall (fun r => ~ unwritable w r) (zip_star table)
  | Err _ => False
  end.
Proof.
  cbv zeta. let v := eval vm_compute in (new_writer std_registry [simple (mk_chars (Some SEMI) (Some DQ) (Some BACKSLASH)) false] (DSimple 0) []) in change (new_writer std_registry [simple (mk_chars (Some SEMI) (Some DQ) (Some BACKSLASH)) false] (DSimple 0) []) with v. split; [vm_compute; reflexivity|]. split; [vm_compute; reflexivity|].
  repeat constructor; (intros [([=] & _)|[([=] & _)|([=] & _)]]).
Qed.

(** Without a line terminator rows end with LF. *)
Theorem C98_line_terminator reg h a params :
  new_writer reg h a (params ++ [WLineterminator None]) = new_writer reg h a (params ++ [WLineterminator (Some [LF])]).
Proof. exact (terminator_none reg h a params). Qed.
Print Assumptions C98_line_terminator.
Example C98_line_terminator_case :
  exists w, new_writer (fun _ => None) [dialect3 (s2l ";") [] []] (DSimple 0%nat) [WLineterminator None] = Ok w /\
    writerow w [VStr (s2l "a"); VStr (s2l "b")] = Ok (s2l "a;b" ++ [LF]).
Proof. eexists. split; reflexivity. Qed.
