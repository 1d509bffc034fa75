(** * PropsConsole: C73 to C77 *)
From Coq Require Import String Permutation.
From Verif Require Import Base Parser Dialect CsvLib Reader Writer Files Wrappers SpecLayout SpecParse SpecFiles TableFacts
  Potential SpecPotential MaskedFacts Consistency Detect DetectCases DetectFacts Json SpecJson Codegen SpecCodegen
  SpecConsistency Console SpecConsole ConsoleFacts FilesCases ConsoleCases.

(** ** C73 *)
Theorem C73_exit E det printable space rt rt6 f p A c b t :
  is_detector det -> open_text E f p (or_encoding (da_encoding A)) = Ok (c, b) -> cd_decode c b = (t, true) -> ~ In NUL t -> scalar t ->
  let answer := detect_dialect_by E det f p (da_num_chars A) (da_encoding A)
    (MStr (if da_consistency A then s2l "consistency" else s2l "auto")) (negb (da_no_skip A)) in
  let out := detect_command E det printable space rt rt6 f p A in
  (forall x, answer = Err x <-> out = Raised x) /\
  (answer = Ok None <-> exists lines, out = Printed lines 1) /\
  (answer = Ok None -> out = Printed [] 1) /\
  ((exists D, answer = Ok (Some D)) <-> exists lines, out = Printed lines 0).
Proof. exact (command_exit E det printable space rt rt6 f p A c b t). Qed.
Print Assumptions C73_exit.
Theorem C73_json E det printable space rt rt6 f p A c b t md depth lines :
  is_detector det -> open_text E f p (or_encoding (da_encoding A)) = Ok (c, b) -> cd_decode c b = (t, true) -> ~ In NUL t -> scalar t ->
  float_text rt -> detect_command E det printable space rt rt6 f p A = Printed lines 0 -> da_plain A = false -> da_json A = true ->
  (1 <= depth)%nat ->
  exists d q e line v j, lines = [line] /\
    detect_dialect_by E det f p (da_num_chars A) (da_encoding A)
      (MStr (if da_consistency A then s2l "consistency" else s2l "auto")) (negb (da_no_skip A)) = Ok (Some (dialect3 d q e)) /\
    loads md depth line = Ok v /\ from_dict v = Ok j /\ same_dialect j (dialect3 d q e) /\
    (da_add_runtime A = true -> subscript v (s2l "runtime") = Ok (JNum rt)).
Proof. intros H1 H2 H3 H4 H5. exact (command_json E det printable space rt rt6 f p A c b t H1 H2 H3 H4 H5 md depth lines). Qed.
Print Assumptions C73_json.
Theorem C73_default E det printable space rt rt6 f p A c b t lines :
  is_detector det -> open_text E f p (or_encoding (da_encoding A)) = Ok (c, b) -> cd_decode c b = (t, true) -> ~ In NUL t -> scalar t ->
  detect_command E det printable space rt rt6 f p A = Printed lines 0 -> da_plain A = false -> da_json A = false ->
  exists d q e line more, lines = line :: more /\
    detect_dialect_by E det f p (da_num_chars A) (da_encoding A)
      (MStr (if da_consistency A then s2l "consistency" else s2l "auto")) (negb (da_no_skip A)) = Ok (Some (dialect3 d q e)) /\
    detected_fields line = Some (d, q, e) /\
    more = (if da_add_runtime A then [s2l "Runtime: " ++ rt6 ++ s2l " seconds"] else []).
Proof. intros H1 H2 H3 H4 H5. exact (command_default E det printable space rt rt6 f p A c b t H1 H2 H3 H4 H5 lines). Qed.
Print Assumptions C73_default.
Theorem C73_plain E det printable space rt rt6 f p A c b t lines :
  is_detector det -> open_text E f p (or_encoding (da_encoding A)) = Ok (c, b) -> cd_decode c b = (t, true) -> ~ In NUL t -> scalar t ->
  python_space space -> detect_command E det printable space rt rt6 f p A = Printed lines 0 -> da_plain A = true ->
  exists d q e,
    detect_dialect_by E det f p (da_num_chars A) (da_encoding A)
      (MStr (if da_consistency A then s2l "consistency" else s2l "auto")) (negb (da_no_skip A)) = Ok (Some (dialect3 d q e)) /\
    plain_fields lines = Some (visible space d, visible space q, visible space e) /\
    List.length lines = (if da_add_runtime A then 4%nat else 3%nat).
Proof. intros H1 H2 H3 H4 H5. exact (command_plain E det printable space rt rt6 f p A c b t H1 H2 H3 H4 H5 lines). Qed.
Print Assumptions C73_plain.
(** The plain output does not say which dialect it is. *)
Theorem C73_plain_refuted : exists det E printable space rt rt6 f g p A D1 D2,
  is_detector det /\ python_space space /\ da_plain A = true /\
  detect_dialect_by E det f p (da_num_chars A) (da_encoding A) (MStr (s2l "auto")) true = Ok (Some D1) /\
  detect_dialect_by E det g p (da_num_chars A) (da_encoding A) (MStr (s2l "auto")) true = Ok (Some D2) /\
  D1 <> D2 /\ da_consistency A = false /\ da_no_skip A = false /\
  detect_command E det printable space rt rt6 f p A = detect_command E det printable space rt rt6 g p A.
Proof. exact plain_lost. Qed.
Print Assumptions C73_plain_refuted.
Theorem C73_no_skip cat url kb O o_set s E printable space rt rt6 f p enc n cons plain json run c b t :
  let det := fun m skip sample => fst (detector_detect cat url (total_known kb) O o_set sample None m skip s) in
  any_orders O -> open_text E f p (or_encoding enc) = Ok (c, b) -> cd_decode c b = (t, true) -> ~ In NUL t ->
  (Z.of_nat (List.length t) < 2 ^ 50)%Z ->
  detect_command E det printable space rt rt6 f p (mk_detect_args enc n cons plain json true run) =
  detect_command E det printable space rt rt6 f p (mk_detect_args enc n cons plain json false run).
Proof. exact (no_skip_same cat url kb O o_set s E printable space rt rt6 f p enc n cons plain json run c b t). Qed.
Print Assumptions C73_no_skip.
Example C73_case : is_detector shipped_detector /\ python_space ascii_space /\ float_text (s2l "0.25") /\
  open_text shipped_env (one_file tab_text) 1%N (or_encoding None) = Ok (latin1, tab_text) /\ cd_decode latin1 tab_text = (tab_text, true) /\
  ~ In NUL tab_text /\ scalar tab_text /\
  detect_command shipped_env shipped_detector ascii_printable ascii_space (s2l "0.25") (s2l "0.250000") (one_file tab_text) 1%N (options false true true) =
    Printed [s2l "{""delimiter"": ""\t"", ""quotechar"": """", ""escapechar"": """", ""strict"": false, ""runtime"": 0.25}"] 0 /\
  detect_command shipped_env shipped_detector ascii_printable ascii_space (s2l "0.25") (s2l "0.250000") (one_file tab_text) 1%N (options false false true) =
    Printed [s2l "Detected: SimpleDialect('\t', '', '')"; s2l "Runtime: 0.250000 seconds"] 0.
Proof. exact (conj shipped_is_detector (conj ascii_space_ok (conj quarter console_case))). Qed.

(** ** C74 *)
Theorem C74_rows E imp vlt f h p enc n rows m : read_table E f h p None enc n = Ok rows ->
  import_optional_dependency imp vlt (s2l "tabview") true = Ok m ->
  view_command E imp vlt false f h p enc n false = Viewed (map (map Some) rows).
Proof. exact (view_plain E imp vlt f h p enc n rows m). Qed.
Print Assumptions C74_rows.
Theorem C74_transposed E imp vlt f h p enc n rows m : read_table E f h p None enc n = Ok rows -> rows <> [] ->
  import_optional_dependency imp vlt (s2l "tabview") true = Ok m ->
  exists shown, view_command E imp vlt false f h p enc n true = Viewed shown /\
    (forall i j x, cell_at rows i j = Some x <-> cell_at shown j i = Some (Some x)) /\
    (forall i j, cell_at shown j i = Some None <->
       (i < List.length rows)%nat /\ cell_at rows i j = None /\ exists r, In r rows /\ (j < List.length r)%nat).
Proof. exact (view_transposed E imp vlt f h p enc n rows m). Qed.
Print Assumptions C74_transposed.
Theorem C74_exit E imp vlt win32 f h p enc n tr :
  (view_command E imp vlt win32 f h p enc n tr = NotViewed 1 <-> read_table E f h p None enc n = Err NoDetectionResult) /\
  (read_table E f h p None enc n = Ok [] -> view_command E imp vlt win32 f h p enc n true = ViewRaised ValueError) /\
  (forall x, read_table E f h p None enc n = Err x -> x <> NoDetectionResult -> view_command E imp vlt win32 f h p enc n tr = ViewRaised x).
Proof. exact (view_exits E imp vlt win32 f h p enc n tr). Qed.
Print Assumptions C74_exit.
(** An empty file can be viewed, but not transposed. *)
Theorem C74_empty_refuted : exists E imp vlt f p,
  read_table E f [] p None None None = Ok [] /\
  view_command E imp vlt false f [] p None None false = Viewed [] /\
  view_command E imp vlt false f [] p None None true = ViewRaised ValueError.
Proof. exact empty_view. Qed.
Print Assumptions C74_empty_refuted.
Theorem C74_windows_refuted : exists E imp vlt f p rows,
  read_table E f [] p None None None = Ok rows /\ rows <> [] /\
  view_command E imp vlt true f [] p None None false = NotViewed 0.
Proof. exact windows_view. Qed.
Print Assumptions C74_windows_refuted.
Example C74_case :
  view_command comma_env (installed ["tabview"%string]) (fun _ _ => Ok false) false (one_file ragged_text) [] 1%N None None true =
  Viewed (map (map (fun x => match x with Some s => Some (CStr (s2l s)) | None => None end))
    [[Some "a"; Some "d"]; [Some "b"; Some "e"]; [Some "c"; None]]%string).
Proof. exact view_run. Qed.

(** ** C75 *)
Theorem C75_module imp vlt name raise m :
  import_optional_dependency imp vlt name raise = Ok (Some m) <->
  imp name = Ok m /\ exists v,
    In (name, v) [(s2l "tabview", s2l "1.4"); (s2l "pandas", s2l "0.24.1"); (s2l "cchardet", s2l "2.1.18"); (s2l "wilderness", s2l "0.1.5")] /\
    (mod_version m = None \/ exists w, mod_version m = Some w /\ vlt w v = Ok false).
Proof. exact (optional_module imp vlt name raise m). Qed.
Print Assumptions C75_module.
Theorem C75_none imp vlt name raise :
  import_optional_dependency imp vlt name raise = Ok None <-> imp name = Err ImportError /\ raise = false.
Proof. exact (optional_none imp vlt name raise). Qed.
Print Assumptions C75_none.
Theorem C75_encoding imp vlt chardet cchardet f p b : f p = Some b ->
  get_encoding_by imp vlt chardet cchardet f p false = Ok (chardet b) /\
  (imp (s2l "cchardet") = Err ImportError -> get_encoding_by imp vlt chardet cchardet f p true = Ok (chardet b)) /\
  (forall m, imp (s2l "cchardet") = Ok m -> mod_version m = None -> get_encoding_by imp vlt chardet cchardet f p true = Ok (cchardet b)) /\
  (forall m w, imp (s2l "cchardet") = Ok m -> mod_version m = Some w -> vlt w (s2l "2.1.18") = Ok false ->
     get_encoding_by imp vlt chardet cchardet f p true = Ok (cchardet b)) /\
  (forall m w, imp (s2l "cchardet") = Ok m -> mod_version m = Some w -> vlt w (s2l "2.1.18") = Ok true ->
     get_encoding_by imp vlt chardet cchardet f p true = Err ImportError).
Proof. exact (encoding_choice imp vlt chardet cchardet f p b). Qed.
Print Assumptions C75_encoding.
(** An old version raises although nothing should be raised and nothing is missing. *)
Theorem C75_never_raises_refuted : exists imp vlt chardet cchardet f p,
  imp (s2l "cchardet") <> Err ImportError /\ f p <> None /\
  import_optional_dependency imp vlt (s2l "cchardet") false = Err ImportError /\
  get_encoding_by imp vlt chardet cchardet f p true = Err ImportError /\
  get_encoding_by imp vlt chardet cchardet f p false = Ok (chardet one_column).
Proof. exact old_raises. Qed.
Print Assumptions C75_never_raises_refuted.
Example C75_case :
  import_optional_dependency (installed ["pandas"%string]) (fun _ _ => Ok false) (s2l "pandas") true = Ok (Some (mk_module None)) /\
  import_optional_dependency (installed ["pandas"%string]) (fun _ _ => Ok false) (s2l "tabview") false = Ok None /\
  import_optional_dependency (installed ["numpy"%string]) (fun _ _ => Ok false) (s2l "numpy") false = Err ImportError.
Proof. repeat split. Qed.

(** ** C76 *)
Theorem C76_call {V} E imp vlt f p b (args : list V) n encoding kwargs m :
  f p = Some b -> import_optional_dependency imp vlt (s2l "pandas") true = Ok m ->
  read_dataframe E imp vlt f p args n encoding kwargs =
  match detect_dialect E f p encoding n with
  | Err x => Err x
  | Ok None => Err NoDetectionResult
  | Ok (Some D) =>
      match to_csv_dialect D with
      | Err x => Err x
      | Ok cd =>
          if existsb (fun kv => str_eqb (fst kv) (s2l "dialect")) kwargs then Err TypeError
          else Ok (mk_csv_call p args cd (match or_encoding encoding with Some e => Some e | None => e_get_encoding E b end) kwargs)
      end
  end.
Proof. exact (dataframe_call E imp vlt f p b args n encoding kwargs m). Qed.
Print Assumptions C76_call.
Theorem C76_same {V} E imp vlt f p (args : list V) n encoding kwargs call :
  read_dataframe E imp vlt f p args n encoding kwargs = Ok call ->
  exists b D, f p = Some b /\ detect_dialect E f p encoding n = Ok (Some D) /\
    call_path call = p /\ call_args call = args /\ call_kwargs call = kwargs /\
    call_encoding call = match or_encoding encoding with Some e => Some e | None => e_get_encoding E b end /\
    to_csv_dialect D = Ok (call_dialect call) /\ sd_delimiter D <> Some [].
Proof. exact (dataframe_same E imp vlt f p args n encoding kwargs call). Qed.
Print Assumptions C76_same.
Theorem C76_missing {V} E imp vlt f p (args : list V) n encoding kwargs :
  (f p = None -> read_dataframe E imp vlt f p args n encoding kwargs = Err ValueError) /\
  (f p <> None -> imp (s2l "pandas") = Err ImportError -> read_dataframe E imp vlt f p args n encoding kwargs = Err ImportError).
Proof. exact (dataframe_missing E imp vlt f p args n encoding kwargs). Qed.
Print Assumptions C76_missing.
Theorem C76_one_column_refuted : exists E f p imp vlt,
  E = shipped_env /\ imp (s2l "pandas") <> Err ImportError /\
  detect_dialect E f p None None = Ok (Some (dialect3 [] [] [])) /\
  read_table E f [] p None None None = Ok [[CStr (s2l "a")]; [CStr (s2l "b")]] /\
  read_dataframe E imp vlt f p (@nil unit) None None [] = Err CsvError.
Proof. exact one_column_lost. Qed.
Print Assumptions C76_one_column_refuted.
Example C76_case :
  read_dataframe shipped_env (installed ["pandas"%string]) (fun _ _ => Ok false) (one_file tab_text) 1%N [7%N] None None [(s2l "nrows", 1%N)] =
  match to_csv_dialect (dialect3 [TAB] [] []) with
  | Ok cd => Ok (mk_csv_call 1%N [7%N] cd None [(s2l "nrows", 1%N)])
  | Err x => Err x
  end /\ (exists cd, to_csv_dialect (dialect3 [TAB] [] []) = Ok cd).
Proof. exact dataframe_run. Qed.

(** ** C77 *)
Theorem C77_runs {C} (push : C -> str -> C * bool) (console : C) E printable int_of locate f name encoding num_chars pandas :
  let code := code_command E printable int_of locate f name encoding num_chars pandas in
  let explore := explore_command push console E printable int_of locate f name encoding num_chars pandas in
  (forall x, code = Raised x <-> explore = ExploreRaised x) /\
  (code = Printed [] 1 <-> explore = NoDialect) /\
  (forall lines, code = Printed lines 0 ->
     exists before last, lines = before ++ [last] /\
       let before_last := fold_left (fun c l => fst (push c l)) before console in
       explore = if snd (push before_last last) then Listed lines
                 else Interacting (fst (push before_last last)) (if pandas then s2l "df" else s2l "rows")).
Proof. exact (explore_runs push console E printable int_of locate f name encoding num_chars pandas). Qed.
Print Assumptions C77_runs.
Theorem C77_errors_refuted : exists (push : list str -> str -> list str * bool) E printable int_of locate f name errors,
  explore_command push [] E printable int_of locate f name None None false = Interacting errors (s2l "rows") /\ errors <> [].
Proof. exact errors_unnoticed. Qed.
Print Assumptions C77_errors_refuted.
Example C77_case more : exists lines,
  code_command comma_env ascii_printable (fun _ => None) (fun _ => 1%N) (one_file ragged_text) (s2l "f.csv") None None false = Printed lines 0 /\
  nth_error lines 5 = Some (s2l "with open(""f.csv"", ""r"", newline="""", encoding=None) as fp:") /\
  explore_command (recorder more) [] comma_env ascii_printable (fun _ => None) (fun _ => 1%N) (one_file ragged_text) (s2l "f.csv") None None false =
    if more then Listed lines else Interacting lines (s2l "rows").
Proof. exact (explore_run more). Qed.
