(** * ConsoleCases: concrete runs of the commands *)
From Coq Require Import String Permutation.
From Verif Require Import Base Parser Dialect CsvLib Reader Writer Files Wrappers SpecLayout SpecParse SpecFiles TableFacts
  Potential SpecPotential MaskedFacts Consistency Detect DetectCases DetectFacts NormalForm Json SpecJson Types TypesUrl TypesCases Codegen SpecCodegen CodegenFacts
  Console SpecConsole ConsoleFacts FilesCases.

Definition shipped_detector : detector := fun m skip sample =>
  fst (detector_detect ascii_cat (shipped_url ascii_data) (is_known_type ascii_data) plain_orders (fun l => l) sample None m skip (mk_state None 131072)).
Lemma shipped_is_detector : is_detector shipped_detector.
Proof.
  exists ascii_cat, (shipped_url ascii_data), (is_known_type ascii_data), plain_orders, (fun l => l), (mk_state None 131072).
  split; [exact plain_orders_ok|]. split; [intros l; apply incl_refl|reflexivity].
Qed.
Definition ascii_space (c : N) : bool := ((9 <=? c) && (c <=? 13) || (28 <=? c) && (c <=? 32))%N.
Lemma ascii_space_ok : python_space ascii_space.
Proof. intros c _. reflexivity. Qed.
Definition ascii_printable (c : N) : bool := ((32 <=? c) && (c <? 127))%N.

Definition tab_text : str := s2l "a" ++ TAB :: s2l "b" ++ LF :: s2l "c" ++ TAB :: s2l "d" ++ [LF].
Definition one_column : str := s2l "a" ++ LF :: s2l "b" ++ [LF].
Definition options (plain json runtime : bool) : detect_args := mk_detect_args None None false plain json false runtime.
Notation shipped_run text A := (detect_command shipped_env shipped_detector ascii_printable ascii_space (s2l "0.25") (s2l "0.250000") (one_file text) 1%N A).

Lemma tab_detected skip : shipped_detector (MStr (s2l "auto")) skip tab_text = Ok (Some (dialect3 [TAB] [] [])).
Proof. vm_compute. reflexivity. Qed.
Lemma one_detected skip : shipped_detector (MStr (s2l "auto")) skip one_column = Ok (Some (dialect3 [] [] [])).
Proof. vm_compute. reflexivity. Qed.

Lemma tab_opens text : text = tab_text \/ text = one_column ->
  open_text shipped_env (one_file text) 1%N (or_encoding None) = Ok (latin1, text) /\ cd_decode latin1 text = (text, true) /\
  ~ In NUL text /\ scalar text.
Proof.
  intros [-> | ->]; (split; [reflexivity|]; split; [reflexivity|]; split; [cbn; intuition discriminate|]);
    intros c H; cbv in H; repeat (destruct H as [<-|H]; [discriminate|]); contradiction.
Qed.
Lemma plain_same : shipped_run tab_text (options true false false) = shipped_run one_column (options true false false) /\
  shipped_run tab_text (options true false false) = Printed [s2l "delimiter ="; s2l "quotechar ="; s2l "escapechar ="] 0.
Proof. split; vm_compute; reflexivity. Qed.
Lemma json_run : shipped_run tab_text (options false true true) =
  Printed [s2l "{""delimiter"": ""\t"", ""quotechar"": """", ""escapechar"": """", ""strict"": false, ""runtime"": 0.25}"] 0.
Proof. vm_compute. reflexivity. Qed.
Lemma default_run : shipped_run tab_text (options false false true) =
  Printed [s2l "Detected: SimpleDialect('\t', '', '')"; s2l "Runtime: 0.250000 seconds"] 0.
Proof. vm_compute. reflexivity. Qed.
Lemma quarter : float_text (s2l "0.25").
Proof.
  exists [], (s2l "0"), (s2l ".25"), []. split; [reflexivity|]. split; [now left|].
  split; [split; [discriminate|cbn; repeat (apply Forall_cons; [split; discriminate|]); apply Forall_nil]|]. split; [intros r [= <-]; reflexivity|].
  split; [|split; [now left|discriminate]]. right. exists (s2l "25"). split; [reflexivity|]. split; [discriminate|cbn; repeat (apply Forall_cons; [split; discriminate|]); apply Forall_nil].
Qed.

Lemma console_case :
  open_text shipped_env (one_file tab_text) 1%N (or_encoding None) = Ok (latin1, tab_text) /\ cd_decode latin1 tab_text = (tab_text, true) /\
  ~ In NUL tab_text /\ scalar tab_text /\
  shipped_run tab_text (options false true true) =
    Printed [s2l "{""delimiter"": ""\t"", ""quotechar"": """", ""escapechar"": """", ""strict"": false, ""runtime"": 0.25}"] 0 /\
  shipped_run tab_text (options false false true) =
    Printed [s2l "Detected: SimpleDialect('\t', '', '')"; s2l "Runtime: 0.250000 seconds"] 0.
Proof.
  destruct (tab_opens tab_text ltac:(now left)) as (H1 & H2 & H3 & H4).
  split; [exact H1|]. split; [exact H2|]. split; [exact H3|]. split; [exact H4|]. split; [exact json_run|exact default_run].
Qed.
Lemma plain_lost : exists det E printable space rt rt6 f g p A D1 D2,
  is_detector det /\ python_space space /\ da_plain A = true /\
  detect_dialect_by E det f p (da_num_chars A) (da_encoding A) (MStr (s2l "auto")) true = Ok (Some D1) /\
  detect_dialect_by E det g p (da_num_chars A) (da_encoding A) (MStr (s2l "auto")) true = Ok (Some D2) /\
  D1 <> D2 /\ da_consistency A = false /\ da_no_skip A = false /\
  detect_command E det printable space rt rt6 f p A = detect_command E det printable space rt rt6 g p A.
Proof.
  exists shipped_detector, shipped_env, ascii_printable, ascii_space, (s2l "0.25"), (s2l "0.250000"), (one_file tab_text), (one_file one_column), 1%N,
    (options true false false), (dialect3 [TAB] [] []), (dialect3 [] [] []).
  split; [exact shipped_is_detector|]. split; [exact ascii_space_ok|]. split; [reflexivity|].
  destruct (tab_opens tab_text ltac:(now left)) as (H1 & H2 & _). destruct (tab_opens one_column ltac:(now right)) as (H3 & H4 & _).
  split; [rewrite (detect_by_head _ _ _ _ _ _ _ _ _ _ _ H1 H2); apply tab_detected|].
  split; [rewrite (detect_by_head _ _ _ _ _ _ _ _ _ _ _ H3 H4); apply one_detected|].
  split; [discriminate|]. split; [reflexivity|]. split; [reflexivity|]. apply plain_same.
Qed.

(** ** The view command *)
Definition ragged_text : str := s2l "a,b,c" ++ LF :: s2l "d,e" ++ [LF].
Definition installed (names : list string) : importer := fun name =>
  if existsb (fun n => str_eqb name (s2l n)) names then Ok (mk_module None) else Err ImportError.
Definition comma_env : env := demo_env (fun _ => Ok (Some (dialect3 [COMMA] [] []))).
Lemma view_run :
  view_command comma_env (installed ["tabview"%string]) (fun _ _ => Ok false) false (one_file ragged_text) [] 1%N None None true =
  Viewed (map (map (fun x => match x with Some s => Some (CStr (s2l s)) | None => None end))
    [[Some "a"; Some "d"]; [Some "b"; Some "e"]; [Some "c"; None]]%string).
Proof. reflexivity. Qed.
Lemma empty_detected : shipped_detect (mk_state None 131072) [] = Ok (Some (dialect3 [] [] [])).
Proof.
  unfold shipped_detect, detector_detect.
  assert (E : detect_dialect_normal ascii_cat [] utf8 None = Ok None) by reflexivity.
  rewrite E. cbn -[detect]. rewrite small_detect_ok. vm_compute. reflexivity.
Qed.
Lemma empty_read : read_table shipped_env (one_file []) [] 1%N None None None = Ok [].
Proof.
  unfold read_table.
  rewrite (num_chars_detection shipped_env (one_file []) [] 1%N None latin1 [] [] None _ eq_refl eq_refl empty_detected eq_refl).
  vm_compute. reflexivity.
Qed.
Lemma empty_view : exists E imp vlt f p,
  read_table E f [] p None None None = Ok [] /\
  view_command E imp vlt false f [] p None None false = Viewed [] /\
  view_command E imp vlt false f [] p None None true = ViewRaised ValueError.
Proof.
  exists shipped_env, (installed ["tabview"%string]), (fun _ _ => Ok false), (one_file []), 1%N.
  pose proof empty_read as HR. split; [exact HR|]. split; [exact (view_plain _ (installed ["tabview"%string]) (fun _ _ => Ok false) _ _ _ _ _ _ (Some (mk_module None)) HR eq_refl)|].
  destruct (view_exits shipped_env (installed ["tabview"%string]) (fun _ _ => Ok false) false (one_file []) [] 1%N None None true) as (_ & H & _).
  exact (H HR).
Qed.
Lemma windows_view : exists E imp vlt f p rows,
  read_table E f [] p None None None = Ok rows /\ rows <> [] /\
  view_command E imp vlt true f [] p None None false = NotViewed 0.
Proof.
  exists comma_env, (installed ["tabview"%string]), (fun _ _ => Ok false), (one_file ragged_text), 1%N, (map (map (fun s => CStr (s2l s))) [["a"; "b"; "c"]; ["d"; "e"]]%string).
  split; [reflexivity|]. split; [discriminate|reflexivity].
Qed.

(** ** Optional dependencies *)
Definition old_cchardet : importer := fun name =>
  if str_eqb name (s2l "cchardet") then Ok (mk_module (Some (s2l "2.1.17"))) else Err ImportError.
Definition below_18 : version_order := fun a b => Ok (negb (str_eqb a b)).
Lemma old_raises : exists imp vlt chardet cchardet f p,
  imp (s2l "cchardet") <> Err ImportError /\ f p <> None /\
  import_optional_dependency imp vlt (s2l "cchardet") false = Err ImportError /\
  get_encoding_by imp vlt chardet cchardet f p true = Err ImportError /\
  get_encoding_by imp vlt chardet cchardet f p false = Ok (chardet one_column).
Proof.
  exists old_cchardet, below_18, (fun _ => Some (s2l "ascii")), (fun _ => None), (one_file one_column), 1%N.
  split; [discriminate|]. split; [discriminate|]. repeat split.
Qed.

(** ** read_dataframe *)
Lemma one_column_lost : exists E f p imp vlt,
  E = shipped_env /\ imp (s2l "pandas") <> Err ImportError /\
  detect_dialect E f p None None = Ok (Some (dialect3 [] [] [])) /\
  read_table E f [] p None None None = Ok [[CStr (s2l "a")]; [CStr (s2l "b")]] /\
  read_dataframe E imp vlt f p (@nil unit) None None [] = Err CsvError.
Proof.
  exists shipped_env, (one_file one_column), 1%N, (installed ["pandas"%string]), (fun _ _ => Ok false).
  split; [reflexivity|]. split; [discriminate|].
  split; [vm_compute; reflexivity|]. split; vm_compute; reflexivity.
Qed.
Lemma dataframe_run :
  read_dataframe shipped_env (installed ["pandas"%string]) (fun _ _ => Ok false) (one_file tab_text) 1%N [7%N] None None [(s2l "nrows", 1%N)] =
  match to_csv_dialect (dialect3 [TAB] [] []) with
  | Ok cd => Ok (mk_csv_call 1%N [7%N] cd None [(s2l "nrows", 1%N)])
  | Err x => Err x
  end /\ (exists cd, to_csv_dialect (dialect3 [TAB] [] []) = Ok cd).
Proof. split; [vm_compute; reflexivity|]. eexists. reflexivity. Qed.

(** ** The explore command *)
(** A console that collects lines and answers to the last one with [more]. *)
Definition recorder (more : bool) (c : list str) (l : str) : list str * bool := (c ++ [l], more).
Lemma explore_run more : exists lines,
  code_command comma_env ascii_printable (fun _ => None) (fun _ => 1%N) (one_file ragged_text) (s2l "f.csv") None None false = Printed lines 0 /\
  nth_error lines 5 = Some (s2l "with open(""f.csv"", ""r"", newline="""", encoding=None) as fp:") /\
  explore_command (recorder more) [] comma_env ascii_printable (fun _ => None) (fun _ => 1%N) (one_file ragged_text) (s2l "f.csv") None None false =
    if more then Listed lines else Interacting lines (s2l "rows").
Proof. eexists. split; [reflexivity|]. split; [reflexivity|]. now destruct more. Qed.
(** A console whose state is the list of errors so far, for which every line
    but the last one is an error. *)
Definition failing (c : list str) (l : str) : list str * bool := (match l with [] => c | _ => c ++ [l] end, false).
Lemma errors_unnoticed : exists (push : list str -> str -> list str * bool) E printable int_of locate f name errors,
  explore_command push [] E printable int_of locate f name None None false = Interacting errors (s2l "rows") /\ errors <> [].
Proof.
  exists failing, comma_env, ascii_printable, (fun _ => None), (fun _ => 1%N), (one_file ragged_text), (s2l "f.csv").
  eexists. split; [reflexivity|discriminate].
Qed.
