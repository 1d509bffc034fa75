(** * MainCases: concrete runs from the command line *)
From Coq Require Import String Lia.
From Verif Require Import Base Parser Dialect CsvLib Files Wrappers Standardize SpecFiles StandardizeFacts TableFacts Potential MaskedFacts Consistency Detect DetectCases
  NormalForm Console Types TypesUrl TypesCases SpecTables AutoCases FilesCases ConsoleCases SpecQuoted SpecColumn SpecExcel SpecDocument DocumentCases SpecBatch ArgParse SpecArgs ArgCommands ArgCases ArgMain SpecMain MainFacts.
Open Scope N_scope.

(** A file is found by the first letter of its name. *)
Definition first_letter (s : str) : path := match s with c :: _ => c | [] => 0 end.
Definition calm_text : str := quoted_text SEMI 39 calm_rows None.
(** The files a.csv and b.csv. *)
Definition two_texts : fs := fun p => if p =? 97 then Some calm_text else if p =? 98 then Some lone_text else None.
Definition two_old (i : nat) : bytes := match i with O => calm_text | _ => lone_text end.
Definition two_tables (i : nat) : list (list str) := match i with O => strs [["a b"; "1"]; ["c"; "50%"]]%string | _ => strs [["a b"]; ["c d"]]%string end.
Definition two_new (i : nat) : bytes := match i with O => s2l "a b,1" ++ [CR; LF] ++ s2l "c,50%" ++ [CR; LF] | _ => s2l "a b" ++ [CR; LF] ++ s2l "c d" ++ [CR; LF] end.
Lemma two_held es i p : nth_error (words ["a.csv"; "b.csv"]%string) i = Some p ->
  holds ascii_cat (s_env lone_senv) two_texts (first_letter p) (encoding_for es i) None (two_old i) (two_tables i).
Proof.
  assert (H : forall enc x b text d q cells, document ascii_cat text d q cells -> two_texts x = Some b -> cd_decode latin1 b = (text, true) ->
    cells_fit 131072 cells -> holds ascii_cat (s_env lone_senv) two_texts x enc None b cells).
  { intros enc x b text d q cells H1 H2 H3 H4. exists latin1, text, d, q. split; [exact H1|]. split; [|split; [exact H3|split; [reflexivity|exact H4]]].
    unfold open_text. rewrite H2. reflexivity. }
  destruct i as [|[|i]].
  - intros [= <-]. apply (H _ _ _ _ _ _ _ (proj1 calm_document)); [reflexivity..|]. intros r s Hr Hs. destruct Hr as [<-|[<-|[]]]; (destruct Hs as [<-|[<-|[]]]); vm_compute; discriminate.
  - intros [= <-]. apply (H _ _ _ _ _ _ _ lone_document); [reflexivity..|]. intros r s Hr Hs. destruct Hr as [<-|[<-|[]]]; (destruct Hs as [<-|[]]); vm_compute; discriminate.
  - intros K. destruct i; discriminate K.
Qed.
Lemma two_stored es target i p : nth_error (words ["a.csv"; "b.csv"]%string) i = Some p ->
  encoded (s_env lone_senv) (encoding_for es i) target (two_old i) (standard false (two_tables i)) (two_new i).
Proof.
  intros Hi. exists latin1. split; [reflexivity|]. split; [exact latin1_lawful|].
  destruct i as [|[|i]]; [vm_compute; reflexivity..|]. destruct i; discriminate Hi.
Qed.
Lemma method_auto : In (MStr (s2l "auto")) [MStr (s2l "normal"); MEnum NORMAL; MStr (s2l "auto"); MEnum AUTO].
Proof. simpl. tauto. Qed.

(** standardize a.csv b.csv -o x -oy --target-encoding utf-8 *)
Example outputs_case : exists f', standardize_main first_letter lone_senv two_texts digits decimal standardize_words = Finished (Code 0, f', []) /\
  f' 120 = Some (two_new 0) /\ f' 121 = Some (two_new 1) /\ f' 97 = Some calm_text.
Proof.
  destruct (main_outputs ascii_cat _ _ _ _ lone_senv _ _ _ method_auto (fun _ => eq_refl) eq_refl
    digits decimal first_letter two_texts standardize_items standardize_words (words ["a.csv"; "b.csv"]%string) standardize_written eq_refl) with (old := two_old) (new := two_new) (tables := two_tables)
    as (f' & E & V & U).
  - intros v [].
  - left. simpl. lia.
  - reflexivity.
  - reflexivity.
  - constructor; [intros [H|[]]; discriminate H|constructor; [intros []|constructor]].
  - intros o [<-|[<-|[]]] [H|[H|[]]]; discriminate H.
  - intros i p Hp. split; [exact (two_held _ i p Hp)|exact (two_stored _ _ i p Hp)].
  - exists f'. split; [exact E|]. split; [exact (V 0%nat (s2l "x") eq_refl)|]. split; [exact (V 1%nat (s2l "y") eq_refl)|].
    rewrite (U 97); [reflexivity|]. intros [H|[H|[]]]; discriminate H.
Qed.

(** standardize -i a.csv b.csv *)
Definition place_items : list item := [Flags [s2l "in-place"]; Paths (words ["a.csv"; "b.csv"]%string)].
Lemma place_written : line digits standardize_sheet place_items (words ["-i"; "a.csv"; "b.csv"]%string).
Proof.
  apply (line_cons _ _ _ _ [s2l "-i"]); [|apply (line_cons _ _ _ _ (words ["a.csv"; "b.csv"]%string)); [|constructor|]|apart].
  - apply (sp_letters _ _ (s2l "i")); [discriminate|]. constructor; [simpl; tauto|constructor].
  - apply sp_paths; [discriminate|]. constructor; [left; discriminate|]. constructor; [left; discriminate|constructor].
  - intros x y r [_ H]. discriminate H.
Qed.
Example in_place_case : exists f', standardize_main first_letter lone_senv two_texts digits decimal (words ["-i"; "a.csv"; "b.csv"]%string) = Finished (Code 2, f', []) /\
  f' 97 = Some (two_new 0) /\ f' 98 = Some (two_new 1).
Proof.
  destruct (main_in_place ascii_cat _ _ _ _ lone_senv _ _ _ method_auto (fun _ => eq_refl) eq_refl
    digits decimal first_letter two_texts place_items _ (words ["a.csv"; "b.csv"]%string) place_written eq_refl) with (old := two_old) (new := two_new) (tables := two_tables)
    as (f' & r & E & V & U & R & R0).
  - intros v [].
  - left. simpl. lia.
  - reflexivity.
  - reflexivity.
  - constructor; [intros [H|[]]; discriminate H|constructor; [intros []|constructor]].
  - intros g Hg. change (s_mkstemp lone_senv g) with 99. rewrite Hg; [reflexivity|]. intros [H|[H|[]]]; discriminate H.
  - intros i p Hp. split; [exact (two_held _ i p Hp)|exact (two_stored _ _ i p Hp)].
  - exists f'.
    assert (D : forall i, (i < 2)%nat -> s_sha1 lone_senv (two_old i) <> s_sha1 lone_senv (two_new i)).
    { intros [|[|i]] Hi; [vm_compute; discriminate..|lia]. }
    assert (R2 : r = 2%nat).
    { destruct R as [->|R]; [|exact R]. exfalso. apply (D 0%nat); [lia|]. apply R0; [reflexivity|simpl; lia]. }
    subst r. split; [exact E|]. split.
    + apply (V 0%nat (s2l "a.csv") eq_refl). apply D. lia.
    + apply (V 1%nat (s2l "b.csv") eq_refl). apply D. lia.
Qed.
(** standardize a.csv b.csv *)
Definition print_items : list item := [Paths (words ["a.csv"; "b.csv"]%string)].
Lemma print_written : line digits standardize_sheet print_items (words ["a.csv"; "b.csv"]%string).
Proof.
  apply (line_cons _ _ _ _ (words ["a.csv"; "b.csv"]%string) []); [|constructor|].
  - apply sp_paths; [discriminate|]. constructor; [left; discriminate|]. constructor; [left; discriminate|constructor].
  - intros x y r [_ H]. discriminate H.
Qed.
Example stdout_case : standardize_main first_letter lone_senv two_texts digits decimal (words ["a.csv"; "b.csv"]%string) = Finished (Code 0, two_texts, two_new 0 ++ two_new 1).
Proof.
  rewrite (main_stdout ascii_cat _ _ _ _ lone_senv _ _ _ method_auto (fun _ => eq_refl) eq_refl
    digits decimal first_letter two_texts print_items _ (words ["a.csv"; "b.csv"]%string) print_written eq_refl) with (old := two_old) (tables := two_tables).
  - vm_compute. reflexivity.
  - intros v [].
  - left. simpl. lia.
  - reflexivity.
  - reflexivity.
  - intros i p Hp. exact (two_held _ i p Hp).
Qed.
(** detect --plain a.csv *)
Definition plain_items : list item := [Flags [s2l "plain"]; Paths [s2l "a.csv"]].
Lemma plain_written : line digits detect_sheet plain_items (words ["--plain"; "a.csv"]%string).
Proof.
  apply (line_cons _ _ _ _ [s2l "--plain"]); [|apply (line_cons _ _ _ _ [s2l "a.csv"]); [|constructor|]|apart].
  - apply (sp_flag _ _ (letter_of "p") (s2l "plain") (s2l "plain")); [simpl; tauto|]. apply (short_for _ []); [reflexivity|discriminate|reflexivity].
  - apply sp_paths; [discriminate|]. constructor; [left; discriminate|constructor].
  - intros x y r [_ H]. discriminate H.
Qed.
Example plain_case : files plain_items = [[s2l "a.csv"]] /\ given plain_items "consistency" = false /\
  holds ascii_cat (s_env lone_senv) two_texts (first_letter (s2l "a.csv")) (latest (values plain_items "encoding")) (number decimal plain_items) calm_text (two_tables 0).
Proof. split; [reflexivity|]. split; [reflexivity|]. exact (two_held [] 0 (s2l "a.csv") eq_refl). Qed.
