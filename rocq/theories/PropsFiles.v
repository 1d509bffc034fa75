(** * PropsFiles: the file-level properties (C17-C21, C50, C51, C54) *)
From Coq Require Import String.
From Verif Require Import Base Parser Dialect CsvLib Reader Writer Files Wrappers Standardize
  SpecLayout SpecParse SpecWriter SpecFiles FilesFacts StandardizeFacts TableFacts.

(** ** C17 *)
Theorem C17_standardize_preserves S f p dl enc cin b rows :
  e_registry (s_env S) (s2l "excel") = Some excel_csv ->
  validate dl = true -> f p = Some b -> e_codec (s_env S) enc = Ok cin ->
  file_rows (e_limit (s_env S)) cin b dl = (rows, None) ->
  exists t,
    to_stdout S f p dl enc false = (Code 0, t) /\
    (forall limit, fits limit rows -> parse_string limit t excel_simple false = (rows, None)) /\
    (forall o target cout b', o <> p -> e_codec (s_env S) target = Ok cout -> lawful cout ->
       cd_encode cout t = Some b' ->
       exists f', to_file S f p o dl enc target false = (Code 0, f') /\
         same_fs f' (upd f o (Some b')) /\
         (forall limit, fits limit rows -> file_rows limit cout b' excel_simple = (rows, None))).
Proof. exact (standardize_preserves S f p dl enc cin b rows). Qed.
Print Assumptions C17_standardize_preserves.
(** Without the slack in the limit it is false: the cell [a,b] fits a limit of 3,
    its quoted form does not. *)
Theorem C17_same_limit_refuted :
  exists S f dl t,
    validate dl = true /\
    file_rows (e_limit (s_env S)) latin1 (s2l "a,b;c") dl = ([[CStr (s2l "a,b"); CStr (s2l "c")]], None) /\
    f 1%N = Some (s2l "a,b;c") /\ to_stdout S f 1%N dl None false = (Code 0, t) /\
    parse_string (e_limit (s_env S)) t excel_simple false = ([], Some (CleverError EFieldLimit)).
Proof. exact same_limit_witness. Qed.
Print Assumptions C17_same_limit_refuted.
Example C17_case :
  to_stdout (demo_senv (fun _ => Ok None)) (one_file (s2l "a;'b,c'" ++ [LF] ++ s2l "1" ++ [LF])) 1%N
    (simple (mk_chars (Some SEMI) (Some 39%N) None) false) None false
  = (Code 0, s2l "a,""b,c""" ++ [CR; LF] ++ s2l "1" ++ [CR; LF]).
Proof. reflexivity. Qed.

(** ** C18 *)
Theorem C18_standardize_idempotent S f p dl enc cin b rows f2 p2 enc2 c2 b2 :
  e_registry (s_env S) (s2l "excel") = Some excel_csv ->
  validate dl = true -> f p = Some b -> e_codec (s_env S) enc = Ok cin ->
  file_rows (e_limit (s_env S)) cin b dl = (rows, None) -> fits (e_limit (s_env S)) rows ->
  forall t, to_stdout S f p dl enc false = (Code 0, t) ->
  f2 p2 = Some b2 -> e_codec (s_env S) enc2 = Ok c2 -> lawful c2 -> cd_encode c2 t = Some b2 ->
  f2 (s_mkstemp S f2) = None ->
  to_stdout S f2 p2 excel_simple enc2 false = (Code 0, t) /\
  exists f3, in_place S f2 p2 excel_simple enc2 enc2 false = (Code 0, f3) /\ same_fs f3 f2.
Proof. exact (standardize_idempotent S f p dl enc cin b rows f2 p2 enc2 c2 b2). Qed.
Print Assumptions C18_standardize_idempotent.
Example C18_case :
  let out := s2l "a,""b,c""" ++ [CR; LF] ++ s2l "1" ++ [CR; LF] in
  to_stdout (demo_senv (fun _ => Ok None)) (one_file out) 1%N excel_simple None false = (Code 0, out) /\
  fst (in_place (demo_senv (fun _ => Ok None)) (one_file out) 1%N excel_simple None None false) = Code 0.
Proof. split; reflexivity. Qed.

(** ** C19 *)
Theorem C19_in_place_effect S f p dl enc target tr ex f' :
  f (s_mkstemp S f) = None -> f p <> None ->
  in_place S f p dl enc target tr = (ex, f') ->
  match ex with
  | Code n =>
      (n = 0%nat /\ same_fs f' f \/
       n = 2%nat /\ f' p <> f p /\ same_fs_but [p] f' f) /\
      exists c t old, e_codec (s_env S) target = Ok c /\ f p = Some old /\
        write_to_stream S (upd f (s_mkstemp S f) (Some [])) p c dl enc tr = (t, None) /\
        (n = 2%nat -> f' p = Some (content c t)) /\
        (n = 0%nat <-> s_sha1 S old = s_sha1 S (content c t))
  | Uncaught _ => same_fs_but [s_mkstemp S f] f' f
  end.
Proof. exact (in_place_effect S f p dl enc target tr ex f'). Qed.
Print Assumptions C19_in_place_effect.
Theorem C19_exit_codes S A jobs f r f' t :
  handle_loop S A f 0 jobs = (Code r, f', t) ->
  exists before after ns, jobs = before ++ after /\ runs S A f before ns f' /\
    ( (after = [] /\ ~ In 1%nat ns /\ r = first_nonzero ns)
    \/ (exists ns0, ns = ns0 ++ [1%nat] /\ ~ In 1%nat ns0 /\ r = 1%nat) ).
Proof. exact (handle_loop_runs S A jobs f 0%nat r f' t). Qed.
Print Assumptions C19_exit_codes.
(** Wrong combinations of arguments give 1 and touch nothing. *)
Theorem C19_wrong_arguments S A f :
  (a_in_place A = true /\ a_outputs A <> []) \/
  (a_in_place A = false /\ a_outputs A <> [] /\ List.length (a_outputs A) <> List.length (a_paths A)) \/
  (exists e1 e2 es, a_encodings A = e1 :: e2 :: es /\ List.length (a_encodings A) <> List.length (a_paths A)) ->
  handle S A f = (Code 1, f, []).
Proof.
  exact (fun H => match H with
    | or_introl (conj H1 H2) => handle_in_place_output S A f H1 H2
    | or_intror (or_introl (conj H1 (conj H2 H3))) => handle_output_count S A f H1 H2 H3
    | or_intror (or_intror (ex_intro _ e1 (ex_intro _ e2 (ex_intro _ es (conj H1 H2))))) =>
        handle_encoding_count S A f e1 e2 es H1 H2
    end).
Qed.
Print Assumptions C19_wrong_arguments.
(** One encoding stands for all files. *)
Theorem C19_one_encoding S A f e : a_paths A <> [] ->
  handle S (with_encodings A [e]) f = handle S (with_encodings A (repeat e (List.length (a_paths A)))) f.
Proof. exact (handle_one_encoding S A f e). Qed.
Print Assumptions C19_one_encoding.
(** The temporary files are new while only the given files change. *)
Theorem C19_other_files S A : a_in_place A = true ->
  forall jobs f ns f', (forall g, same_fs_but (map fst jobs) g f -> g (s_mkstemp S g) = None) -> runs S A f jobs ns f' -> same_fs_but (map fst jobs) f' f.
Proof. exact (runs_in_place S A). Qed.
Print Assumptions C19_other_files.
Theorem C19_one_file S A f p o e n f' t : a_in_place A = true -> f (s_mkstemp S f) = None ->
  handle_path S A f p o e = (Code n, f', t) ->
  (n = 0%nat \/ n = 1%nat) /\ same_fs f' f \/ n = 2%nat /\ f' p <> f p /\ same_fs_but [p] f' f.
Proof. exact (handle_path_in_place S A f p o e n f' t). Qed.
Print Assumptions C19_one_file.
Example C19_case :
  let S := demo_senv (fun _ => Ok (Some (simple (mk_chars (Some SEMI) None None) false))) in
  let A := mk_sargs [1%N] [] None true None [] false in
  match handle S A (one_file (s2l "a;b" ++ [LF])) with
  | (c, f', _) => c = Code 2 /\ f' 1%N = Some (s2l "a,b" ++ [CR; LF]) /\ f' 99%N = None
  end.
Proof. repeat split. Qed.
Example C19_other_case :
  let S := demo_senv (fun _ => Ok (Some (simple (mk_chars (Some SEMI) None None) false))) in
  let A := mk_sargs [1%N; 2%N] [] None true None [] false in
  let f := upd (one_file (s2l "a;b" ++ [LF])) 2%N (Some (s2l "c,d" ++ [CR; LF])) in
  let jobs := [(1%N, (None, None)); (2%N, (None, None))] in
  (forall g, same_fs_but (map fst jobs) g f -> g (s_mkstemp S g) = None) /\
  exists f', runs S A f jobs [2%nat; 2%nat] f' /\ f' 1%N = Some (s2l "a,b" ++ [CR; LF]) /\ f' 2%N = Some (s2l """c,d""" ++ [CR; LF]).
Proof.
  cbv zeta. split; [intros g Hg; rewrite Hg; [reflexivity|intros [E|[E|[]]]; discriminate E]|].
  eexists. split; [eapply runs_cons; [reflexivity|]; eapply runs_cons; [reflexivity|]; apply runs_nil|]. split; reflexivity.
Qed.

(** ** C20 *)
Theorem C20_transpose_cell {A} (n : nat) (t : list (list A)) i j : t <> [] -> rectangular n t ->
  cell_at (zip_star t) j i = cell_at t i j.
Proof. exact (zip_star_cell n t i j). Qed.
Print Assumptions C20_transpose_cell.
Theorem C20_transpose_twice {A} (n : nat) (t : list (list A)) : t <> [] -> (0 < n)%nat ->
  rectangular n t -> zip_star (zip_star t) = t.
Proof. exact (zip_star_twice n t). Qed.
Print Assumptions C20_transpose_twice.
Theorem C20_ragged_loses {A} (t : list (list A)) r : In r t ->
  (List.length (zip_star t) <= List.length r)%nat /\
  rectangular (List.length t) (zip_star t).
Proof. exact (fun H => conj (zip_star_shortest t r H) (zip_star_rect t)). Qed.
Print Assumptions C20_ragged_loses.
(** write_table(transpose=True) of a ragged table succeeds and writes nothing. *)
Theorem C20_ragged_write_table_refuted E f h p c w encoding dialect :
  e_codec E encoding = Ok c -> cd_encode c [] = Some [] ->
  new_writer (e_registry E) h dialect [] = Ok w ->
  exists f', write_table E f h [[VStr (s2l "a"); VStr (s2l "b")]; []] p dialect true encoding = (f', None) /\
    f' p = Some [].
Proof. exact (ragged_transposed E f h p c w encoding dialect). Qed.
Print Assumptions C20_ragged_write_table_refuted.
Example C20_case : zip_star [[1; 2; 3]; [4; 5; 6]]%N = [[1; 4]; [2; 5]; [3; 6]]%N.
Proof. reflexivity. Qed.
Example C20_ragged_file :
  to_stdout (demo_senv (fun _ => Ok None)) (one_file (s2l "a,b" ++ [LF; LF] ++ s2l "c,d" ++ [LF])) 1%N
    excel_simple None true = (Code 0, []).
Proof. reflexivity. Qed.

(** ** C21 *)
Theorem C21_ragged_rejected E f h table p dialect encoding :
  (exists r s, In r table /\ In s table /\ List.length r <> List.length s) ->
  write_table E f h table p dialect false encoding = (f, Some ValueError).
Proof. exact (write_table_ragged E f h table p dialect encoding). Qed.
Print Assumptions C21_ragged_rejected.
Theorem C21_empty_untouched E f h p dialect tr encoding :
  write_table E f h [] p dialect tr encoding = (f, None).
Proof. exact (write_table_empty E f h p dialect tr encoding). Qed.
Print Assumptions C21_empty_untouched.
Theorem C21_otherwise_opened E f h (table : list (list value)) p dialect (tr : bool) encoding n f' x :
  table <> [] -> tr = true \/ rectangular n table ->
  write_table E f h table p dialect tr encoding = (f', x) -> f' p <> None /\ same_fs_but [p] f' f.
Proof. exact (write_table_opens E f h table p dialect tr encoding n f' x). Qed.
Print Assumptions C21_otherwise_opened.
Theorem C21_written E f h (table : list (list value)) p dialect (tr : bool) encoding c w n t b :
  table <> [] -> rectangular n table ->
  e_codec E encoding = Ok c -> lawful c -> new_writer (e_registry E) h dialect [] = Ok w ->
  writerows w (if tr then zip_star table else table) = (t, None) -> cd_encode c t = Some b ->
  exists f', write_table E f h table p dialect tr encoding = (f', None) /\
    same_fs f' (upd f p (Some b)).
Proof. exact (write_table_rect E f h table p dialect tr encoding c w n t b). Qed.
Print Assumptions C21_written.
Theorem C21_write_then_read E f h (table : list (list value)) p name cv D d q (tr : bool) encoding c n nc :
  table <> [] -> rectangular n table -> readable (e_limit E) table ->
  e_registry E name = Some cv -> quoting_csv cv D d q -> wf_chars D = true ->
  e_codec E (Some encoding) = Ok c -> lawful c -> encodes c (added_chars D ++ List.concat (map value_str (List.concat table))) ->
  exists f', write_table E f h table p (DName name) tr (Some encoding) = (f', None) /\
    same_fs_but [p] f' f /\
    read_table E f' h p (Some (DName name)) (Some encoding) nc
      = Ok (as_read (if tr then zip_star table else table)).
Proof. exact (write_then_read E f h table p name cv D d q tr encoding c n nc). Qed.
Print Assumptions C21_write_then_read.
Example C21_case :
  let E := demo_env (fun _ => Ok None) in
  (match write_table E (one_file []) [] [[VStr (s2l "a"); VStr (s2l "b")]; [VStr (s2l "c")]] 1%N excel false None with
   | (f', x) => f' 1%N = Some [] /\ x = Some ValueError
   end) /\
  (match write_table E (one_file []) [] [[VStr (s2l "a"); VStr (s2l "b")]; [VStr (s2l "c"); VNone]] 1%N excel true None with
   | (f', x) => f' 1%N = Some (s2l "a,c" ++ [CR; LF] ++ s2l "b," ++ [CR; LF]) /\ x = None
   end).
Proof. repeat split. Qed.

Example C21_encodes_case :
  encodes latin1 (added_chars (mk_chars (Some COMMA) (Some DQ) None) ++
                  List.concat (map value_str (List.concat [[VStr (s2l "a"); VStr [233%N; 44%N]]; [VNum (s2l "2.5"); VNone]]))) /\
  quoting_csv excel_csv (mk_chars (Some COMMA) (Some DQ) None) COMMA DQ.
Proof. split; [apply latin1_encodes; reflexivity|]. repeat split; try discriminate. exists [CR; LF]. split; [reflexivity|]. cbn. tauto. Qed.

(** Reporting success means that every row was written and encoded. *)
Theorem C21_success_is_complete E f h (table : list (list value)) p dialect (tr : bool) encoding f' :
  table <> [] -> write_table E f h table p dialect tr encoding = (f', None) ->
  exists c w t, e_codec E encoding = Ok c /\ new_writer (e_registry E) h dialect [] = Ok w /\
    writerows w (if tr then zip_star table else table) = (t, None) /\ f' p = Some (content c t).
Proof. exact (write_table_success E f h table p dialect tr encoding f'). Qed.
Print Assumptions C21_success_is_complete.

(** ** C50 *)
Theorem C50_sha1sum {H} (update : H -> bytes -> H) h0 digest file :
  (forall h a b, update (update h a) b = update h (a ++ b)) -> (forall h, update h [] = h) ->
  sha1sum update h0 digest file = Some (digest (update h0 file)).
Proof. exact (sha1sum_whole_file update h0 digest file). Qed.
Print Assumptions C50_sha1sum.
Theorem C50_get_encoding {D} (feed : D -> bytes -> D) done d0 result file :
  exists chunks later,
    get_encoding feed done d0 result file = result (fold_left feed chunks d0) /\
    file = concat chunks ++ later /\
    (later = [] \/ done (fold_left feed chunks d0) = true) /\
    (forall a b, chunks = a ++ b -> b <> [] -> done (fold_left feed a d0) = false).
Proof. exact (get_encoding_chunks feed done d0 result file). Qed.
Print Assumptions C50_get_encoding.
Example C50_case :
  sha1sum (fun h b => h ++ b) [] (fun h => h) [1; 2; 3]%N = Some [1; 2; 3]%N /\
  enc_loop (fun d c => d ++ [c]) (fun _ => false) 2 9 [] [1; 2; 3; 4]%N
  = Some [[1; 2]; [3; 4]; []]%N.
Proof. split; vm_compute; reflexivity. Qed.

(** ** C51 *)
Theorem C51_detection_on_prefix E f h p encoding c b t n sd :
  open_text E f p encoding = Ok (c, b) -> cd_decode c b = (t, true) ->
  e_detect E (head_chars n t) = Ok (Some sd) -> validate sd = true ->
  stream_table E f h p None encoding n = file_rows (e_limit E) c b sd.
Proof. exact (num_chars_detection E f h p encoding c b t n sd). Qed.
Print Assumptions C51_detection_on_prefix.
Theorem C51_no_result E f h p encoding c b t n :
  open_text E f p encoding = Ok (c, b) -> cd_decode c b = (t, true) ->
  e_detect E (head_chars n t) = Ok None ->
  stream_table E f h p None encoding n = ([], Some NoDetectionResult).
Proof. exact (no_result E f h p encoding c b t n). Qed.
Print Assumptions C51_no_result.
Theorem C51_dialect_given E detect f h p d encoding n m :
  let E' := mk_env (e_registry E) (e_codec E) (e_get_encoding E) detect (e_limit E) in
  stream_table E f h p (Some d) encoding n = stream_table E' f h p (Some d) encoding m.
Proof. exact (num_chars_unused E detect f h p d encoding n m). Qed.
Print Assumptions C51_dialect_given.
Example C51_case :
  let by_first t := Ok (match t with [_; d] => Some (simple (mk_chars (Some d) None None) false) | _ => None end) in
  let f := one_file (s2l "a;b,c" ++ [LF] ++ s2l "d;e" ++ [LF]) in
  stream_table (demo_env by_first) f [] 1%N None None (Some 2%Z)
    = ([[CStr (s2l "a"); CStr (s2l "b,c")]; [CStr (s2l "d"); CStr (s2l "e")]], None) /\
  stream_table (demo_env by_first) f [] 1%N None None (Some 0%Z) = ([], Some NoDetectionResult).
Proof. split; reflexivity. Qed.

(** A file that cannot be decoded to its end gives its complete lines, then the
    exception. *)
Theorem C51_decoding_error c b t : cd_decode c b = (t, false) -> exists ls r,
  text_items c b = map ILine ls ++ [IExc] /\ t = concat ls ++ r /\
  forallb ended ls = true /\ no_newline r = true.
Proof. exact (decode_error_items c b t). Qed.
Print Assumptions C51_decoding_error.

(** ** C54 *)
Theorem C54_output_onto_input S f p dl enc cin target cout tr :
  e_registry (s_env S) (s2l "excel") = Some excel_csv -> validate dl = true ->
  e_codec (s_env S) enc = Ok cin -> cd_decode cin [] = ([], true) ->
  e_codec (s_env S) target = Ok cout -> cd_encode cout [] = Some [] ->
  exists f', to_file S f p p dl enc target tr = (Code 0, f') /\ f' p = Some [] /\ same_fs_but [p] f' f.
Proof. exact (output_onto_input S f p dl enc cin target cout tr). Qed.
Print Assumptions C54_output_onto_input.
Theorem C54_other_output S f p o dl enc target tr ex f' : o <> p ->
  to_file S f p o dl enc target tr = (ex, f') -> f' p = f p.
Proof. exact (other_output S f p o dl enc target tr ex f'). Qed.
Print Assumptions C54_other_output.
Example C54_case :
  let S := demo_senv (fun _ => Ok (Some (simple (mk_chars (Some SEMI) None None) false))) in
  match handle S (mk_sargs [1%N] [] None false None [1%N] false) (one_file (s2l "a;b" ++ [LF])) with
  | (c, f', _) => c = Code 0 /\ f' 1%N = Some []
  end.
Proof. split; reflexivity. Qed.
