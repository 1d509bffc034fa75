(** * PropsReader: property theorems about the reader, the writer and dialect
      conversion (C13-C16, C47) *)
From Coq Require Import String.
From Verif Require Import Base Parser Dialect CsvLib Reader Writer SpecLayout SpecParse SpecHistory SpecWriter
  SpecParams ReaderFacts WriterFacts ParamFacts.

(** ** C13 *)
Theorem C13_line_num_counts_rows reg h seq file dialect params r h' cs :
  new_reader reg h seq file dialect params = (Ok r, h') ->
  r_line_num (snd (run_calls cs r)) = length (filter is_row (fst (run_calls cs r))).
Proof. exact (line_num_counts_rows reg h seq file dialect params r h' cs). Qed.
Print Assumptions C13_line_num_counts_rows.

(** [next] returns what one parser returns that was created at the first call;
    later changes of the limit or of the dialect objects have no effect. *)
Theorem C13_reader_follows_parser reg h seq file dialect params r h' limit h1 later cf :
  new_reader reg h seq file dialect params = (Ok r, h') ->
  (let sd := deref h1 (r_dialect r) in
   make_conf limit (sd_delimiter sd) (sd_quotechar sd) (sd_escapechar sd) (sd_strict sd) false) = Ok cf ->
  fst (run_calls (CallNext limit h1 :: map (fun c => CallNext (fst c) (snd c)) later) r) =
  map seen (nexts_results mem_ops (S (length later)) cf new_parser file).
Proof. exact (reader_follows_parser reg h seq file dialect params r h' limit h1 later cf). Qed.
Print Assumptions C13_reader_follows_parser.

Theorem C13_iterating_is_parse_data reg h seq file dialect params r h' limit h1 :
  new_reader reg h seq file dialect params = (Ok r, h') ->
  reader_rows limit h1 r =
  parse_data limit file (Some (deref h1 (r_dialect r))) None None None None false.
Proof. exact (reader_rows_parse_data reg h seq file dialect params r h' limit h1). Qed.
Print Assumptions C13_iterating_is_parse_data.
Example C13_case :
  let file := [ILine (s2l "a,b"); ILine [NUL]; ILine (s2l """c")] in
  match new_reader std_registry [] false file (DName (s2l "excel")) [] with
  | (Ok r, h) =>
      fst (run_calls (repeat (CallNext 100 h) 4) r) =
        [NRow [CStr (s2l "a"); CStr (s2l "b")]; NRaise (CleverError ENull);
         NRow [CStr (s2l "c")]; NStop] /\
      r_line_num (snd (run_calls (repeat (CallNext 100 h) 4) r)) = 2%nat
  | _ => False
  end.
Proof. vm_compute. auto. Qed.

(** ** C14 *)
(** A reader built with overrides changes what another reader does that was
    built from the same dialect object without overrides. *)
Theorem C14_dialect_object_untouched_refuted :
  exists (h : heap) (a : addr) (p : fmtparam) r1 r2 h1 h2,
    new_reader std_registry h false shared_file (DSimple a) [] = (Ok r1, h1) /\
    new_reader std_registry h1 false shared_file (DSimple a) [p] = (Ok r2, h2) /\
    deref h2 a <> deref h a /\
    reader_rows 100 h1 r1 = ([[CStr (s2l "a;b"); CStr (s2l "c")]], None) /\
    reader_rows 100 h2 r1 = ([[CStr (s2l "a"); CStr (s2l "b,c")]], None).
Proof. exact shared_object_changes. Qed.
Print Assumptions C14_dialect_object_untouched_refuted.
(** Exactly what happens to the caller's object, also when ValueError is raised. *)
Theorem C14_simple_argument_is_updated reg h a params res h' : (a < length h)%nat ->
  make_simple_dialect reg h (DSimple a) params = (res, h') ->
  deref h' a = fold_left set_param params (deref h a) /\
  (forall b, b <> a -> deref h' b = deref h b) /\
  res = (if validate (fold_left set_param params (deref h a)) then Ok a else Err ValueError).
Proof. exact (simple_argument_is_updated reg h a params res h'). Qed.
Print Assumptions C14_simple_argument_is_updated.
Theorem C14_no_params_no_change reg h a h' res :
  make_simple_dialect reg h (DSimple a) [] = (res, h') -> h' = h.
Proof. exact (no_params_no_change reg h a h' res). Qed.
Print Assumptions C14_no_params_no_change.
Theorem C14_other_arguments_leave_objects reg h dialect params res h' :
  (forall a, dialect <> DSimple a) ->
  make_simple_dialect reg h dialect params = (res, h') ->
  forall b, (b < length h)%nat -> deref h' b = deref h b.
Proof. exact (other_arguments_leave_objects reg h dialect params res h'). Qed.
Print Assumptions C14_other_arguments_leave_objects.
Theorem C14_instance_without_strict reg h d params : cv_strict d = None ->
  make_simple_dialect reg h (DInstance d) params = (Err AttributeError, h).
Proof. exact (instance_without_strict reg h d params). Qed.
Print Assumptions C14_instance_without_strict.
Example C14_case :   (* the invalid value stays in the object *)
  make_simple_dialect std_registry [dialect3 [COMMA] [DQ] []] (DSimple 0)
    [KQuotechar (Some (s2l "ab")); KOther]
  = (Err ValueError, [dialect3 [COMMA] (s2l "ab") []]).
Proof. reflexivity. Qed.

(** ** C15 *)
Theorem C15_simple_dialect_roundtrip reg h a D st d q rows limit :
  deref h a = simple D st -> cd D = Some d -> cq D = Some q -> wf_chars D = true ->
  readable limit rows ->
  exists w text, new_writer reg h (DSimple a) [] = Ok w /\ writerows w rows = (text, None) /\
    parse_string limit text (simple D false) false = (as_read rows, None).
Proof. exact (simple_roundtrip reg h a D st d q rows limit). Qed.
Print Assumptions C15_simple_dialect_roundtrip.
(** The same for the registered dialects ("excel", "excel-tab", "unix" and
    user-defined ones), reading with [reader]. *)
Theorem C15_named_dialect_roundtrip reg h name c D d q rows limit :
  reg name = Some c -> quoting_csv c D d q -> wf_chars D = true -> readable limit rows ->
  exists w text r h', new_writer reg h (DName name) [] = Ok w /\ writerows w rows = (text, None) /\
    new_reader reg h false (map ILine (univ_lines text)) (DName name) [] = (Ok r, h') /\
    reader_rows limit h' r = (as_read rows, None).
Proof. exact (named_roundtrip reg h name c D d q rows limit). Qed.
Print Assumptions C15_named_dialect_roundtrip.
Example C15_case :
  let D := mk_chars (Some SEMI) (Some SQ) (Some BACKSLASH) in
  wf_chars D = true /\
  match new_writer std_registry [simple D false] (DSimple 0) [] with
  | Ok w =>
      writerows w [[VStr (s2l "a;b"); VStr (s2l "c\d"); VStr (s2l "e'\")]; []; [VStr []]; [VStr []; VNone]]
      = (s2l "'a;b';c\\d;'e''\\'" ++ [LF; LF] ++ s2l "''" ++ [LF] ++ s2l ";" ++ [LF], None)
  | _ => False
  end.
Proof. split; vm_compute; reflexivity. Qed.
Example C15_named_case :
  quoting_csv excel_csv (mk_chars (Some COMMA) (Some DQ) None) COMMA DQ /\
  quoting_csv excel_tab_csv (mk_chars (Some TAB) (Some DQ) None) TAB DQ /\
  quoting_csv unix_csv (mk_chars (Some COMMA) (Some DQ) None) COMMA DQ /\
  readable 9 [[VStr (s2l "a""b"); VNum (s2l "1.5")]; []; [VNone]].
Proof. exact named_cases. Qed.

(** ** C16 *)
Theorem C16_unquoted_roundtrip reg h a D st d rows limit w text :
  deref h a = simple D st -> cd D = Some d -> cq D = None -> wf_chars D = true ->
  new_writer reg h (DSimple a) [] = Ok w -> writerows w rows = (text, None) ->
  (forall r v, In r rows -> In v r ->
     no_nul (value_str v) /\ (Z.of_nat (length (comes_back D (value_str v))) <= limit)%Z) ->
  parse_string limit text (simple D false) false =
    (map (map (fun v => CStr (comes_back D (value_str v)))) rows, None).
Proof. exact (plain_roundtrip reg h a D st d rows limit w text). Qed.
Print Assumptions C16_unquoted_roundtrip.
Theorem C16_same_without_escapechar D s : ce D = None -> comes_back D s = s.
Proof. exact (comes_back_noesc D s). Qed.
Print Assumptions C16_same_without_escapechar.
Theorem C16_same_without_double_quotes D s :
  (forall c, In c s -> (c =? DQ)%N && negb (special D c) = false) -> comes_back D s = s.
Proof. exact (comes_back_same D s). Qed.
Print Assumptions C16_same_without_double_quotes.
(** With an escape character everything but a row of one empty cell can be written. *)
Theorem C16_writable_with_escapechar reg h a D st d ec rows :
  deref h a = simple D st -> cd D = Some d -> cq D = None -> ce D = Some ec -> wf_chars D = true ->
  exists w, new_writer reg h (DSimple a) [] = Ok w /\
    ((forall r v, In r rows -> r = [v] -> value_str v <> []) -> exists text, writerows w rows = (text, None)).
Proof. exact (plain_writable_escape reg h a D st d ec rows). Qed.
Print Assumptions C16_writable_with_escapechar.
(** Without one, exactly the tables free of special characters. *)
Theorem C16_writable_without_escapechar reg h a D st d rows :
  deref h a = simple D st -> cd D = Some d -> cq D = None -> ce D = None -> wf_chars D = true ->
  exists w, new_writer reg h (DSimple a) [] = Ok w /\
    ((exists text, writerows w rows = (text, None)) <->
     (forall r v c, In r rows -> In v r -> In c (value_str v) -> c <> d /\ c <> DQ /\ c <> LF /\ c <> CR) /\
     (forall r v, In r rows -> r = [v] -> value_str v <> [])).
Proof. exact (plain_writable reg h a D st d rows). Qed.
Print Assumptions C16_writable_without_escapechar.
Theorem C16_no_delimiter_no_writer reg h a sd params :
  deref h a = sd -> sd_delimiter sd = Some [] -> new_writer reg h (DSimple a) params = Err CsvError.
Proof. exact (no_delimiter_no_writer reg h a sd params). Qed.
Print Assumptions C16_no_delimiter_no_writer.
Theorem C16_double_quote_survives_refuted :
  exists D w text cellv, wf_chars D = true /\ cq D = None /\
    new_writer std_registry [simple D false] (DSimple 0) [] = Ok w /\
    writerows w [[VStr cellv]] = (text, None) /\
    parse_string 100 text (simple D false) false = ([[CStr (s2l "say \""hi\""")]], None) /\
    cellv = s2l "say ""hi""".
Proof. exact double_quote_gains_escape. Qed.
Print Assumptions C16_double_quote_survives_refuted.
Example C16_case :
  let D := mk_chars (Some COMMA) None (Some BACKSLASH) in
  match new_writer std_registry [simple D false] (DSimple 0) [] with
  | Ok w => writerows w [[VStr (s2l "a,b" ++ [LF]); VStr []]] = (s2l "a\,b\" ++ [LF] ++ s2l "," ++ [LF], None)
            /\ snd (writerows w [[VStr []]]) = Some WriteError
  | _ => False
  end.
Proof. vm_compute. auto. Qed.

(** ** C47 *)
Theorem C47_conversion_roundtrip sd : validate sd = true -> sd_delimiter sd <> Some [] ->
  exists c, to_csv_dialect sd = Ok c /\ from_csv_dialect c = Err AttributeError /\
    forall b, from_csv_dialect (with_strict c b) =
      Ok (mk_dialect (sd_delimiter sd) (sd_quotechar sd) (sd_escapechar sd) b).
Proof. exact (conversion_roundtrip sd). Qed.
Print Assumptions C47_conversion_roundtrip.
Theorem C47_conversion_without_delimiter sd :
  sd_delimiter sd = Some [] -> to_csv_dialect sd = Err CsvError.
Proof. exact (conversion_without_delimiter sd). Qed.
Print Assumptions C47_conversion_without_delimiter.
Example C47_case :
  match to_csv_dialect (mk_dialect (Some [COMMA]) (Some []) (Some [BACKSLASH]) true) with
  | Ok c => cv_quotechar c = Some [DQ] /\ cv_quoting c = QUOTE_NONE
  | Err _ => False
  end.
Proof. split; reflexivity. Qed.

(** ** C53 *)
Theorem C53_writer_params reg h dialect ps w : new_writer reg h dialect ps = Ok w ->
  exists c, writer_base reg h dialect c /\
    Some [wd_delim w] = chosen wp_delimiter ps (cv_delimiter c) /\
    one_or_none (wd_quote w) = chosen wp_quotechar ps (cv_quotechar c) /\
    one_or_none (wd_escape w) = chosen wp_escapechar ps (cv_escapechar c) /\
    wd_doublequote w = chosen wp_doublequote ps (cv_doublequote c) /\
    wd_skipspace w = chosen wp_skip ps (cv_skipinitialspace c) /\
    wd_term w = or_else (chosen wp_lineterminator ps (cv_lineterminator c)) [LF] /\
    wd_quoting w = chosen wp_quoting ps (cv_quoting c).
Proof. exact (writer_params reg h dialect ps w). Qed.
Print Assumptions C53_writer_params.
Theorem C53_reader_params sd ps :
  fold_left set_param ps sd =
  mk_dialect (chosen rp_delimiter ps (sd_delimiter sd)) (chosen rp_quotechar ps (sd_quotechar sd))
    (chosen rp_escapechar ps (sd_escapechar sd)) (chosen rp_strict ps (sd_strict sd)).
Proof. exact (reader_params ps sd). Qed.
Print Assumptions C53_reader_params.
Theorem C53_parse_data_params limit input dialect d q e st rq :
  parse_data limit input dialect d q e st rq =
  (let base := match dialect with Some x => x | None => dialect3 [] [] [] end in
   parse_data limit input
     (Some (mk_dialect (match d with Some _ => d | None => sd_delimiter base end)
                       (match q with Some _ => q | None => sd_quotechar base end)
                       (match e with Some _ => e | None => sd_escapechar base end)
                       (match st with Some b => b | None => sd_strict base end)))
     None None None None rq).
Proof. exact (parse_data_params limit input dialect d q e st rq). Qed.
Print Assumptions C53_parse_data_params.
Theorem C53_any_writer_roundtrip reg h dialect ps w q rows limit :
  new_writer reg h dialect ps = Ok w ->
  let D := mk_chars (Some (wd_delim w)) (Some q) (wd_escape w) in
  wd_quote w = Some q -> wd_doublequote w = true -> wd_quoting w <> QUOTE_NONE ->
  In (wd_term w) [[LF]; [CR]; [CR; LF]] -> wf_chars D = true -> readable limit rows ->
  exists text, writerows w rows = (text, None) /\
    parse_string limit text (simple D false) false = (as_read rows, None).
Proof. exact (any_writer_roundtrip reg h dialect ps w q rows limit). Qed.
Print Assumptions C53_any_writer_roundtrip.
Example C53_case :
  new_writer std_registry [] (DName (s2l "excel"))
    [WDelimiter (Some [SEMI]); WOther; WLineterminator None; WQuoting QUOTE_ALL]
  = Ok (mk_wdialect SEMI (Some DQ) None true false [LF] QUOTE_ALL).
Proof. reflexivity. Qed.
