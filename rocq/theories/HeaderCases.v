(** * HeaderCases: concrete tables with and without a header *)
From Coq Require Import String.
From Verif Require Import Base Parser Dialect CsvLib Reader SpecLayout SpecPotential SpecTies MaskedFacts NormalForm SpecNormal NormalCases DetectCases Consistency Detect SpecDetect SpecHeader HeaderFacts HeaderTables
  DetectorCases SpecTables SpecQuoted SimpleCases.
Open Scope N_scope.

(** A header above numbers, and rows alike. *)
Definition aged_rows : list (list str * eol) := [([s2l "x (cm)"; s2l "age"], ECRLF)].
Definition aged_final : option (list str) := Some [s2l "12"; s2l "7"].
Lemma aged_meet : In COMMA common_delimiters /\
  Forall (fun r => List.length r = 2%nat /\ Forall (over elementary) r) (table_of aged_rows aged_final) /\
  (forall r, In r aged_rows -> snd r = ECRLF) /\ ~ escape_suspect ascii_cat common_delimiters (table_text COMMA aged_rows aged_final) /\
  table_of aged_rows aged_final = [s2l "x (cm)"; s2l "age"] :: [[s2l "12"; s2l "7"]] /\
  numbers_below digit_types [s2l "x (cm)"; s2l "age"] [[s2l "12"; s2l "7"]].
Proof.
  split; [cbn; tauto|]. split; [|split; [|split; [|split]]].
  - cbn [table_of aged_rows aged_final map fst app]. items; (split; [reflexivity|]); items; apply over_elementary; vm_compute; reflexivity.
  - intros r [<-|[]]. reflexivity.
  - apply unsuspicious. vm_compute. reflexivity.
  - reflexivity.
  - split; [discriminate|]. intros [|[|i]] Hi; [exists TInt|exists TInt|cbn in Hi; lia]; (split; [intros r [<-|[]]|]; vm_compute; reflexivity).
Qed.
Definition dated_rows : list (list qcell * eol) := [([(true, s2l "a; b"); (false, s2l "15")], ELF); ([(false, s2l "c/d "); (true, s2l "7")], ELF)].
Lemma dated_meet : a_quote 34 /\ In COMMA common_delimiters /\ simple_grid 2 34 (table_of dated_rows None) /\ simple_quotes (table_of dated_rows None) /\
  (forall r, In r dated_rows -> snd r = ELF) /\ ~ escape_suspect ascii_cat common_delimiters (quoted_text COMMA 34 dated_rows None) /\
  map (map snd) (table_of dated_rows None) = [s2l "a; b"; s2l "15"] :: [[s2l "c/d "; s2l "7"]] /\
  all_alike digit_types [s2l "a; b"; s2l "15"] [[s2l "c/d "; s2l "7"]].
Proof.
  split; [now left|]. split; [cbn; tauto|]. split; [|split; [|split; [|split; [|split]]]].
  - split; [discriminate|]. split; [lia|]. cbn [table_of dated_rows map fst app]. items; (split; [reflexivity|]); items; simple.
  - right. split; [cbn; lia|]. cbn [table_of dated_rows map fst app]. split; [unfold all_cells; items; items; discriminate|].
    eexists _, _. split; [now left|]. now left.
  - intros r [<-|[<-|[]]]; reflexivity.
  - apply unsuspicious. vm_compute. reflexivity.
  - reflexivity.
  - split; [discriminate|]. intros [|[|i]] Hi; [exists (TLen 4)|exists (TType TInt)|cbn in Hi; lia]; (intros r [<-|[<-|[]]]; vm_compute; reflexivity).
Qed.
(** Both rows are taken for the header of the other one. *)
Definition bob : list str := [s2l "bob"; s2l "rome"].
Definition anna : list str := [s2l "anna"; s2l "paris"].
Lemma both_headers : exists r1 r2 : list str, r1 <> r2 /\
  fst (ascii_header std_registry (table_text COMMA [(r1, ELF)] (Some r2)) 20 state0) = Ok true /\
  fst (ascii_header std_registry (table_text COMMA [(r2, ELF)] (Some r1)) 20 state0) = Ok true.
Proof. exists bob, anna. split; [discriminate|]. split; vm_compute; reflexivity. Qed.
(** Names above words of several lengths are not seen. *)
Lemma words_header : exists header r1 r2 : list str,
  header = [s2l "name"; s2l "city"] /\ r1 = [s2l "bob"; s2l "rome"] /\ r2 = [s2l "anna"; s2l "paris"] /\
  fst (ascii_header std_registry (table_text COMMA [(header, ELF); (r1, ELF)] (Some r2)) 20 state0) = Ok false.
Proof. exists [s2l "name"; s2l "city"], bob, anna. split; [reflexivity|]. split; [reflexivity|]. split; [reflexivity|]. vm_compute. reflexivity. Qed.
