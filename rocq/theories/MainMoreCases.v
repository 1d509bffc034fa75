(** * MainMoreCases: concrete runs of view, code and explore from the command line *)
From Coq Require Import String Lia.
From Verif Require Import Base Parser Dialect CsvLib Files Wrappers Standardize SpecFiles Potential Consistency Detect DetectCases
  NormalForm MaskedFacts StandardizeFacts TableFacts Codegen SpecCodegen Console Types TypesUrl TypesCases SpecTables AutoCases FilesCases ConsoleCases SpecQuoted SpecColumn SpecExcel SpecDocument DocumentCases SpecBatch
  ArgParse SpecArgs ArgCommands ArgCases ArgMain ArgMainMore SpecMain MainFacts MainCases MainMore.
Open Scope N_scope.

(** view -t a.csv *)
Definition turn_items : list item := [Flags [s2l "transpose"]; Paths [s2l "a.csv"]].
Lemma turn_written : line digits view_sheet turn_items (words ["-t"; "a.csv"]%string).
Proof.
  apply (line_cons _ _ _ _ [s2l "-t"]); [|apply (line_cons _ _ _ _ [s2l "a.csv"]); [|constructor|]|apart].
  - apply (sp_letters _ _ (s2l "t")); [discriminate|]. constructor; [simpl; tauto|constructor].
  - apply sp_paths; [discriminate|]. constructor; [left; discriminate|constructor].
  - intros x y r [_ H]. discriminate H.
Qed.
Example view_case h : view_main first_letter (s_env lone_senv) (installed ["tabview"%string]) (fun _ _ => Ok false) false two_texts h digits decimal (words ["-t"; "a.csv"]%string) =
  Finished (Viewed (map (map (fun x => Some (CStr x))) (strs [["a b"; "c"]; ["1"; "50%"]]%string))).
Proof.
  rewrite (main_view ascii_cat _ _ _ _ (s_env lone_senv) _ _ _ method_auto (fun _ => eq_refl)
    digits decimal first_letter two_texts turn_items _ (s2l "a.csv") calm_text (two_tables 0)) with (m := Some (mk_module None)).
  - reflexivity.
  - reflexivity.
  - intros v [].
  - exact (two_held [] 0 (s2l "a.csv") eq_refl).
  - exact turn_written.
  - discriminate.
  - reflexivity.
Qed.

(** code a.csv *)
Definition code_items : list item := [Paths [s2l "a.csv"]].
Lemma code_written : line digits code_sheet code_items (words ["a.csv"]%string).
Proof.
  apply (line_cons _ _ _ _ [s2l "a.csv"] []); [|constructor|].
  - apply sp_paths; [discriminate|]. constructor; [left; discriminate|constructor].
  - intros x y r [_ H]. discriminate H.
Qed.
Example code_case printable : exists lines used d q, code_main first_letter (s_env lone_senv) printable two_texts digits decimal (words ["a.csv"]%string) = Finished (Printed lines 0) /\
  program_of lines = Some (ReadRows (s2l "a.csv") used d q []) /\
  run_rows (s_env lone_senv) first_letter two_texts [] (s2l "a.csv") used d q [] = (map (map CStr) (strs [["a b"; "1"]; ["c"; "50%"]]%string), None).
Proof.
  destruct (main_code ascii_cat _ _ _ _ (s_env lone_senv) _ _ _ method_auto (fun _ => eq_refl)
    digits decimal first_letter two_texts code_items (words ["a.csv"]%string) (s2l "a.csv") calm_text (two_tables 0)) with (printable := printable)
    as (lines & text & cod & d & q & E & _ & _ & _ & _ & K & _).
  - reflexivity.
  - intros v [].
  - exact (two_held [] 0 (s2l "a.csv") eq_refl).
  - exact code_written.
  - intros c Hc HI. repeat (destruct Hc as [<-|Hc]; [repeat (destruct HI as [HI|HI]; [discriminate HI|]); exact HI|]). exact Hc.
  - exact I.
  - reflexivity.
  - destruct (K eq_refl) as [K1 K2]. do 4 eexists. split; [exact E|]. split; [exact K1|exact (K2 [])].
Qed.
(** view, code and explore without a file *)
Example nothing_named : ~ ((exists p, files [] = [[p]]) /\ numbers decimal []) /\ line digits view_sheet [] [] /\ line digits code_sheet [] [].
Proof. split; [intros [[p H] _]; discriminate H|split; constructor]. Qed.
