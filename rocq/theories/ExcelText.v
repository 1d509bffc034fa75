(** * ExcelText: what standardize writes *)
From Coq Require Import String.
From Verif Require Import Base Parser Dialect CsvLib Reader Writer Files Wrappers Standardize SpecLayout SpecParse SpecWriter SpecFiles StandardizeFacts TableFacts SpecExcel.
Open Scope N_scope.
Local Notation len := List.length.

Lemma excel_special x : w_special excel_w x = mem_char x [COMMA; DQ; CR; LF].
Proof.
  unfold w_special. cbn [excel_w wd_delim wd_escape wd_quote wd_term opt_is mem_char existsb orb]. unfold mem_char. cbn [existsb].
  destruct (x =? COMMA), (x =? DQ), (x =? CR), (x =? LF); reflexivity.
Qed.
Lemma excel_field s : forall b, w_field excel_w b s = Ok (doubled s, b || needs_quotes s).
Proof.
  induction s as [|x s IH]; intros b; [cbn; now rewrite orb_false_r|]. cbn [w_field]. unfold w_char. rewrite excel_special. unfold needs_quotes, doubled. cbn [existsb flat_map].
  destruct (mem_char x [COMMA; DQ; CR; LF]) eqn:E.
  - cbn [excel_w wd_quoting wd_quote wd_escape wd_doublequote opt_is]. destruct (x =? DQ) eqn:EQ; cbn [bind app]; rewrite IH; cbn [bind app orb]; rewrite ?orb_true_r;
    [apply N.eqb_eq in EQ; rewrite EQ|]; reflexivity.
  - assert (EQ : (x =? DQ) = false).
    { unfold mem_char in E. cbn [existsb] in E. destruct (x =? DQ); [|reflexivity]. now rewrite orb_true_r in E. }
    rewrite EQ. cbn [bind]. rewrite IH. cbn [bind app orb]. reflexivity.
Qed.
Lemma doubled_plain s : needs_quotes s = false -> doubled s = s.
Proof.
  unfold needs_quotes, doubled. induction s as [|x s IH]; [reflexivity|]. cbn [existsb flat_map]. intros H. apply orb_false_iff in H as (H1 & H2). rewrite (IH H2).
  assert (EQ : (x =? DQ) = false) by (unfold mem_char in H1; cbn [existsb] in H1; destruct (x =? DQ); [now rewrite orb_true_r in H1|reflexivity]). now rewrite EQ.
Qed.
Lemma excel_append first v : w_append excel_w first (w_quoted excel_w v) (value_str v) = Ok ((if first then [] else [COMMA]) ++ excel_cell (value_str v)).
Proof.
  unfold w_append. assert (E : w_empty excel_w (w_quoted excel_w v) (value_str v) = Ok false) by (unfold w_empty; destruct (value_str v); reflexivity).
  rewrite E. cbn [bind]. rewrite excel_field. cbn [bind orb]. unfold excel_cell. destruct (needs_quotes (value_str v)) eqn:EN; [reflexivity|]. now rewrite (doubled_plain _ EN).
Qed.
Definition led (cells : list str) : str := flat_map (fun s => COMMA :: s) cells.
Lemma commas_led s cells : commas (s :: cells) = s ++ led cells.
Proof.
  revert s. induction cells as [|t cells IH]; intros s; [cbn; now rewrite app_nil_r|]. change (commas (s :: t :: cells)) with (s ++ COMMA :: commas (t :: cells)).
  now rewrite IH.
Qed.
Lemma excel_led row : w_fields excel_w false row = Ok (led (map excel_cell (map value_str row))).
Proof. induction row as [|v row IH]; [reflexivity|]. cbn [w_fields]. rewrite excel_append. cbn [bind]. rewrite IH. reflexivity. Qed.
Lemma excel_fields row : w_fields excel_w true row = Ok (commas (map excel_cell (map value_str row))).
Proof.
  destruct row as [|v row]; [reflexivity|]. cbn [w_fields map]. rewrite excel_append. cbn [bind]. rewrite excel_led. cbn [bind app]. now rewrite commas_led.
Qed.
Lemma excel_cell_nil s : excel_cell s = [] -> s = [].
Proof. unfold excel_cell. destruct (needs_quotes s); [discriminate|exact (fun H => H)]. Qed.
Lemma excel_written_row row : csv_writerow excel_w row = Ok (excel_row (map value_str row)).
Proof.
  unfold csv_writerow. rewrite excel_fields. cbn [bind]. unfold excel_row.
  assert (G : forall (z : str), z <> [] -> match z with [] => Ok (w_quote_str excel_w ++ w_quote_str excel_w ++ wd_term excel_w) | _ :: _ => Ok (z ++ wd_term excel_w) end = Ok (E := pyexc) (z ++ [CR; LF])).
  { intros [|x z] Hz; [congruence|reflexivity]. }
  destruct row as [|v [|v' row]]; [reflexivity| |].
  - cbn [map]. change (commas [excel_cell (value_str v)]) with (excel_cell (value_str v)). destruct (value_str v) as [|x s] eqn:EV; [reflexivity|].
    apply G. intros H. apply excel_cell_nil in H. discriminate.
  - cbn [map]. destruct (value_str v) as [|x s] eqn:EV.
    + cbn [map]. rewrite commas_led. cbn [led flat_map]. apply G. destruct (excel_cell []); discriminate.
    + apply G. rewrite commas_led. cbn [led flat_map]. intros H. apply app_eq_nil in H as (_ & H). discriminate.
Qed.
Lemma excel_texts rows : row_texts excel_w rows = (map (fun r => excel_row (map value_str r)) rows, None).
Proof. induction rows as [|r rows IH]; [reflexivity|]. cbn [row_texts map]. unfold writerow. rewrite excel_written_row, IH. reflexivity. Qed.
Lemma cell_values r : map value_str (map cell_value_of r) = map cell_str r.
Proof. rewrite map_map. apply map_ext. now intros [s|s b]. Qed.
Lemma excel_text_table rows : excel_text rows = excel_table (map (map cell_str) rows).
Proof.
  unfold excel_text. rewrite excel_texts. cbn [fst]. unfold excel_table. rewrite !map_map. f_equal. apply map_ext. intros r. now rewrite cell_values.
Qed.

Section Run.
Variables (S : senv) (f : fs) (p : path) (dl : SimpleDialect) (enc : option str) (cin : codec) (b : bytes) (rows : list (list cell)) (x : option pyexc).
Hypothesis Hreg : e_registry (s_env S) (s2l "excel") = Some excel_csv.
Hypothesis Hval : validate dl = true.
Hypothesis Hf : f p = Some b.
Hypothesis Hc : e_codec (s_env S) enc = Ok cin.
Hypothesis Hr : file_rows (e_limit (s_env S)) cin b dl = (rows, x).
(** The rows that are written: transposed only if reading ended well. *)
Definition written (tr : bool) : list (list cell) := if tr then match x with None => zip_star rows | Some _ => [] end else rows.
Lemma source_written g tr : g p = Some b -> source_rows S g p dl enc tr = (written tr, x).
Proof.
  intros Hg. destruct tr; [exact (source_transposed S g p dl Hval enc cin b rows x Hg Hc Hr)|exact (source_direct S g p dl Hval enc cin b rows x Hg Hc Hr)].
Qed.
Lemma stream_written g tr c b' : g p = Some b -> lawful c -> cd_encode c (excel_table (map (map cell_str) (written tr))) = Some b' ->
  write_to_stream S g p c dl enc tr = (excel_table (map (map cell_str) (written tr)), x).
Proof.
  intros Hg Hl He. unfold write_to_stream. rewrite (excel_writer _ [] Hreg), (source_written g tr Hg). unfold put_rows. rewrite excel_texts.
  rewrite <- excel_text_table in *. unfold excel_text in *. rewrite excel_texts in *. cbn [fst] in *. now rewrite (put_all c Hl _ [] b' He).
Qed.
Theorem stdout_text tr : to_stdout S f p dl enc tr =
  match x with None => (Code 0, excel_table (map (map cell_str) (if tr then zip_star rows else rows))) | Some e => (Uncaught e, []) end.
Proof.
  unfold to_stdout, write_to_stream. rewrite (excel_writer _ [] Hreg), (source_written f tr Hf). unfold put_rows. rewrite excel_texts, stringio_put.
  unfold written. destruct x as [e|]; [reflexivity|]. rewrite <- excel_text_table. unfold excel_text. rewrite excel_texts. reflexivity.
Qed.
Theorem file_text tr o target cout b' : o <> p -> e_codec (s_env S) target = Ok cout -> lawful cout ->
  let text := excel_table (map (map cell_str) (written tr)) in cd_encode cout text = Some b' ->
  exists f', to_file S f p o dl enc target tr = (match x with None => Code 0 | Some e => Uncaught e end, f') /\ same_fs f' (upd f o (Some b')).
Proof.
  intros Ho Hct Hl text He. unfold to_file, open_write. rewrite Hct.
  rewrite (stream_written (upd f o (Some [])) tr cout b'); [|now rewrite upd_other by congruence|exact Hl|exact He].
  eexists. split; [reflexivity|]. unfold content. fold text. rewrite He. intros q. unfold upd. now destruct (q =? o).
Qed.
Theorem in_place_text (tr : bool) target cout b' : x = None -> f (s_mkstemp S f) = None -> e_codec (s_env S) target = Ok cout -> lawful cout ->
  let text := excel_table (map (map cell_str) (if tr then zip_star rows else rows)) in cd_encode cout text = Some b' ->
  exists f', (s_sha1 S b <> s_sha1 S b' -> in_place S f p dl enc target tr = (Code 2, f') /\ same_fs f' (upd f p (Some b'))) /\
             (s_sha1 S b = s_sha1 S b' -> in_place S f p dl enc target tr = (Code 0, f') /\ same_fs f' f).
Proof.
  intros Hx Htmp Hct Hl text He. set (tmp := s_mkstemp S f) in *. assert (Hne : p <> tmp) by congruence.
  assert (EW : written tr = if tr then zip_star rows else rows) by (unfold written; now rewrite Hx).
  assert (EI : in_place S f p dl enc target tr =
    if str_eqb (s_sha1 S b) (s_sha1 S b') then (Code 0, upd (upd (upd f tmp (Some [])) tmp (Some b')) tmp None)
    else (Code 2, upd (upd (upd (upd f tmp (Some [])) tmp (Some b')) p (Some b')) tmp None)).
  { unfold in_place. fold tmp. rewrite Hct. rewrite (stream_written (upd f tmp (Some [])) tr cout b'); [|now rewrite upd_other|exact Hl|rewrite EW; exact He].
    rewrite EW, Hx. fold text. unfold content. rewrite He. rewrite upd_other, upd_other, Hf by exact Hne. reflexivity. }
  rewrite EI. destruct (str_eqb (s_sha1 S b) (s_sha1 S b')) eqn:EQ.
  - apply str_eqb_eq in EQ. eexists. split; [intros K; contradiction|]. intros _. split; [reflexivity|]. intros q. unfold upd. destruct (N.eqb_spec q tmp) as [->|]; [now rewrite Htmp|reflexivity].
  - apply str_eqb_neq in EQ. eexists. split; [|intros K; contradiction]. intros _. split; [reflexivity|]. intros q. unfold upd. destruct (N.eqb_spec q tmp) as [->|]; [|reflexivity].
    destruct (N.eqb_spec tmp p) as [K|]; [congruence|now rewrite Htmp].
Qed.
End Run.
(** write_table with the excel dialect *)
Theorem write_table_text E f h (table : list (list value)) p (tr : bool) encoding cod n b :
  e_registry E (s2l "excel") = Some excel_csv -> table <> [] -> (forall r, In r table -> len r = n) ->
  e_codec E encoding = Ok cod -> lawful cod ->
  cd_encode cod (excel_table (map (map value_str) (if tr then zip_star table else table))) = Some b ->
  exists f', write_table E f h table p (DName (s2l "excel")) tr encoding = (f', None) /\ same_fs f' (upd f p (Some b)).
Proof.
  intros Hreg Hn Hrect Hc Hl He.
  refine (write_table_rect E f h table p (DName (s2l "excel")) tr encoding cod excel_w n _ b Hn Hrect Hc Hl (excel_writer _ h Hreg) _ He).
  rewrite (row_texts_writerows _ _ _ _ (excel_texts _)). unfold excel_table. rewrite map_map. reflexivity.
Qed.
