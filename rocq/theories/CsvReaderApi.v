(** * CsvReaderApi: csv.reader on what CleverCSV writes *)
From Coq Require Import String.
From Verif Require Import Base Parser Dialect ParserFacts SpecLayout SpecParse LayoutFacts CsvLib Reader Writer SpecWriter RoundTrip WriterFacts Files Wrappers Standardize SpecFiles StandardizeFacts TableFacts SpecExcel ExcelText CsvReader SpecCsvReader CsvReaderMore.

(** The characters that [csv.reader] uses with a converted dialect. *)
Lemma converted_chars D st c w : to_csv_dialect (simple D st) = Ok c -> dialect_new c = Ok w -> csv_chars w D.
Proof.
  unfold to_csv_dialect, csv_Dialect_init. cbn [simple sd_delimiter]. destruct (dialect_new (csv_attrs _)) as [w'|] eqn:E; [|discriminate]. intros [= <-]. rewrite E. intros [= <-].
  destruct D as [[d|] [q|] [e|]]; cbn in E; try discriminate E; injection E as <-; constructor; (reflexivity || discriminate).
Qed.
Lemma converted_same reg h a D st d q c : deref h a = simple D st -> cd D = Some d -> cq D = Some q -> to_csv_dialect (simple D st) = Ok c -> new_writer reg h (DSimple a) [] = dialect_new c.
Proof.
  intros Ha Hd Hq. rewrite (new_writer_simple reg h a D st d q Ha Hd Hq). destruct D as [d0 q0 e0]. cbn in Hd, Hq. subst d0 q0. destruct e0; intros [= <-]; reflexivity.
Qed.
Lemma written_simple_csv reg h a D st d q rows limit strict : deref h a = simple D st -> cd D = Some d -> cq D = Some q -> wf_chars D = true -> csv_fits limit (map (map value_str) rows) ->
  exists c w text, to_csv_dialect (simple D st) = Ok c /\ dialect_new c = Ok w /\ new_writer reg h (DSimple a) [] = Ok w /\ writerows w rows = (text, None) /\
    csv_reader w strict limit text = (map (map value_str) rows, None).
Proof.
  intros Ha Hd Hq HD Hr. pose proof (new_writer_simple reg h a D st d q Ha Hd Hq) as HW. destruct D as [d0 q0 e0]. cbn in Hd, Hq. subst d0 q0. cbn [ce] in HW.
  assert (HC : exists c, to_csv_dialect (simple (mk_chars (Some d) (Some q) e0) st) = Ok c) by (destruct e0; eexists; reflexivity). destruct HC as [c HC].
  destruct (written_csv (mk_wdialect d (Some q) e0 true false [LF] QUOTE_MINIMAL) q ELF HD eq_refl eq_refl ltac:(discriminate) eq_refl ltac:(discriminate) eq_refl rows limit strict Hr) as (text & H1 & H2).
  exists c. eexists. exists text. split; [exact HC|]. split; [rewrite <- (converted_same reg h a _ st d q c Ha eq_refl eq_refl HC); exact HW|]. split; [exact HW|]. split; [|exact H2].
  unfold writerows. now rewrite H1.
Qed.
Lemma written_named_csv reg h name c D d q rows limit strict : reg name = Some c -> quoting_csv c D d q -> cv_skipinitialspace c = false -> cv_quoting c <> QUOTE_NONNUMERIC ->
  wf_chars D = true -> csv_fits limit (map (map value_str) rows) ->
  exists w text, dialect_new c = Ok w /\ new_writer reg h (DName name) [] = Ok w /\ writerows w rows = (text, None) /\ csv_reader w strict limit text = (map (map value_str) rows, None).
Proof.
  intros Hn (Hd & Hq & C1 & C2 & C3 & C4 & C5 & (t & C6 & C7) & C8) Hsp Hnn HD Hr. destruct D as [cd0 cq0 ce0]. cbn in *. subst cd0 cq0.
  set (w := mk_wdialect d (Some q) ce0 true (cv_skipinitialspace c) t (cv_quoting c)).
  assert (HN : dialect_new c = Ok w). { unfold dialect_new. rewrite C1, C2, C3, C4, C6. subst w. destruct ce0; cbn; destruct (cv_quoting c); congruence. }
  assert (HW : new_writer reg h (DName name) [] = Ok w).
  { unfold new_writer, make_python_dialect. rewrite Hn. cbn [bind fold_left]. rewrite C6. exact HN. }
  assert (Ht : exists e, term_eol t = Some e). { destruct C7 as [<-|[<-|[<-|[]]]]; eexists; reflexivity. } destruct Ht as [e Ht].
  destruct (written_csv w q e HD eq_refl eq_refl C5 Hsp Hnn Ht rows limit strict Hr) as (text & H1 & H2).
  exists w, text. split; [exact HN|]. split; [exact HW|]. split; [|exact H2]. unfold writerows. now rewrite H1.
Qed.
(** The excel text. *)
Lemma excel_new : dialect_new excel_csv = Ok excel_w.
Proof. reflexivity. Qed.
Lemma excel_csv_read rows limit strict : csv_fits limit rows ->
  csv_reader excel_w strict limit (excel_table rows) = (rows, None).
Proof.
  intros H. assert (HV : map (map value_str) (map (map VStr) rows) = rows).
  { rewrite map_map. rewrite <- (map_id rows) at 2. apply map_ext. intros r. rewrite map_map. now rewrite map_id. }
  destruct (written_csv excel_w DQ ECRLF eq_refl eq_refl eq_refl ltac:(discriminate) eq_refl ltac:(discriminate) eq_refl (map (map VStr) rows) limit strict) as (text & H1 & H2).
  { now rewrite HV. }
  assert (E : excel_table rows = text).
  { pose proof (row_texts_writerows excel_w (map (map VStr) rows) _ _ (excel_texts (map (map VStr) rows))) as K. unfold writerows in K. rewrite H1 in K. injection K as K. rewrite K.
    unfold excel_table. rewrite map_map. f_equal. apply map_ext. intros r. rewrite map_map. cbn [value_str]. now rewrite map_id. }
  rewrite E, H2. now rewrite HV.
Qed.
Lemma standardized_csv S f p dl enc cin b rows limit strict (tr : bool) :
  e_registry (s_env S) (s2l "excel") = Some excel_csv -> validate dl = true -> f p = Some b -> e_codec (s_env S) enc = Ok cin ->
  file_rows (e_limit (s_env S)) cin b dl = (rows, None) ->
  let out := map (map cell_str) (if tr then zip_star rows else rows) in
  csv_fits limit out ->
  exists text, to_stdout S f p dl enc tr = (Code 0, text) /\ csv_reader excel_w strict limit text = (out, None).
Proof.
  intros H1 H2 H3 H4 H5 out H6. exists (excel_table out). split; [exact (stdout_text S f p dl enc cin b rows None H1 H2 H3 H4 H5 tr)|]. now apply excel_csv_read.
Qed.
