(** * WrittenFiles: the files that write_table writes, for every dialect *)
From Verif Require Import Base Parser Dialect CsvLib Reader Writer Files Wrappers SpecFiles SpecLayout SpecWriteErrors SpecWritten Written TableFacts StandardizeFacts.

Lemma written_table E f h (table : list (list value)) p dialect (tr : bool) encoding cod w n b :
  table <> [] -> (forall r, In r table -> length r = n) -> e_codec E encoding = Ok cod -> lawful cod ->
  new_writer (e_registry E) h dialect [] = Ok w ->
  let rows := if tr then zip_star table else table in
  Forall (fun r => ~ unwritable w r) rows -> cd_encode cod (table_text w rows) = Some b ->
  exists f', write_table E f h table p dialect tr encoding = (f', None) /\ same_fs f' (upd f p (Some b)).
Proof.
  intros Hn Hrect Hc Hl Hw rows HF He.
  exact (write_table_rect E f h table p dialect tr encoding cod w n _ b Hn Hrect Hc Hl Hw (writerows_written w rows HF) He).
Qed.

(** ** The line terminator *)
Lemma terminator_none reg h a params : new_writer reg h a (params ++ [WLineterminator None]) = new_writer reg h a (params ++ [WLineterminator (Some [LF])]).
Proof.
  unfold new_writer, make_python_dialect. destruct (match a with DName s => _ | DCompiled d => _ | DSimple x => _ | DClass d => _ | _ => _ end) as [d|x]; [|reflexivity]. cbn [bind].
  rewrite !fold_left_app. cbn [fold_left]. destruct (fold_left set_wparam params d). reflexivity.
Qed.
