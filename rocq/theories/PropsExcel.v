(** * PropsExcel: C87 *)
From Coq Require Import String.
From Verif Require Import Base Parser Dialect CsvLib Reader Writer Files Wrappers Standardize SpecLayout SpecParse SpecFiles StandardizeFacts TableFacts SpecExcel ExcelText.
Open Scope N_scope.

(** ** C87 *)
Theorem C87_stdout S f p dl enc cin b rows x tr :
  e_registry (s_env S) (s2l "excel") = Some excel_csv -> validate dl = true -> f p = Some b -> e_codec (s_env S) enc = Ok cin ->
  file_rows (e_limit (s_env S)) cin b dl = (rows, x) ->
  to_stdout S f p dl enc tr =
  match x with
  | None => (Code 0, excel_table (map (map cell_str) (if tr then zip_star rows else rows)))
  | Some e => (Uncaught e, [])
  end.
Proof. intros H1 H2 H3 H4 H5. exact (stdout_text S f p dl enc cin b rows x H1 H2 H3 H4 H5 tr). Qed.
Print Assumptions C87_stdout.
(** An output file keeps the rows that were read before an error, unless they are transposed. *)
Theorem C87_file S f p dl enc cin b rows x (tr : bool) o target cout b' :
  e_registry (s_env S) (s2l "excel") = Some excel_csv -> validate dl = true -> f p = Some b -> e_codec (s_env S) enc = Ok cin ->
  file_rows (e_limit (s_env S)) cin b dl = (rows, x) ->
  o <> p -> e_codec (s_env S) target = Ok cout -> lawful cout ->
  let out := if tr then match x with None => zip_star rows | Some _ => [] end else rows in
  cd_encode cout (excel_table (map (map cell_str) out)) = Some b' ->
  exists f', to_file S f p o dl enc target tr = (match x with None => Code 0 | Some e => Uncaught e end, f') /\ same_fs f' (upd f o (Some b')).
Proof. intros H1 H2 H3 H4 H5. exact (file_text S f p dl enc cin b rows x H1 H2 H3 H4 H5 tr o target cout b'). Qed.
Print Assumptions C87_file.
Theorem C87_in_place S f p dl enc cin b rows (tr : bool) target cout b' :
  e_registry (s_env S) (s2l "excel") = Some excel_csv -> validate dl = true -> f p = Some b -> e_codec (s_env S) enc = Ok cin ->
  file_rows (e_limit (s_env S)) cin b dl = (rows, None) ->
  f (s_mkstemp S f) = None -> e_codec (s_env S) target = Ok cout -> lawful cout ->
  let text := excel_table (map (map cell_str) (if tr then zip_star rows else rows)) in cd_encode cout text = Some b' ->
  exists f', (s_sha1 S b <> s_sha1 S b' -> in_place S f p dl enc target tr = (Code 2, f') /\ same_fs f' (upd f p (Some b'))) /\
             (s_sha1 S b = s_sha1 S b' -> in_place S f p dl enc target tr = (Code 0, f') /\ same_fs f' f).
Proof. intros H1 H2 H3 H4 H5. exact (in_place_text S f p dl enc cin b rows None H1 H2 H3 H4 H5 tr target cout b' eq_refl). Qed.
Print Assumptions C87_in_place.
Theorem C87_write_table E f h (table : list (list value)) p (tr : bool) encoding cod n b :
  e_registry E (s2l "excel") = Some excel_csv -> table <> [] -> (forall r, In r table -> List.length r = n) ->
  e_codec E encoding = Ok cod -> lawful cod ->
  cd_encode cod (excel_table (map (map value_str) (if tr then zip_star table else table))) = Some b ->
  exists f', write_table E f h table p (DName (s2l "excel")) tr encoding = (f', None) /\ same_fs f' (upd f p (Some b)).
Proof. exact (write_table_text E f h table p tr encoding cod n b). Qed.
Print Assumptions C87_write_table.
Example C87_case :
  let semi := simple (mk_chars (Some SEMI) (Some 39) None) false in
  let file := s2l "a;'b,c'" ++ [LF] ++ s2l "say ""x"";" ++ [LF; LF] ++ s2l "''" in
  file_rows 131072 latin1 file semi =
    ([[CStr (s2l "a"); CStr (s2l "b,c")]; [CStr (s2l "say ""x"""); CStr []]; []; [CStr []]], None) /\
  to_stdout (demo_senv (fun _ => Ok None)) (one_file file) 1 semi None false =
    (Code 0, s2l "a,""b,c""" ++ [CR; LF] ++ s2l """say """"x"""""","  ++ [CR; LF; CR; LF] ++ s2l """""" ++ [CR; LF]).
Proof. split; vm_compute; reflexivity. Qed.
