(** * DictSimple: dictionaries are read back without a given dialect *)
From Coq Require Import String.
From Verif Require Import Base Parser Dialect CsvLib Reader Writer Files Wrappers Dict SpecLayout SpecWriter SpecFiles SpecDict SpecDictTables SpecPotential SpecTies SpecNormal MaskedFacts TableFacts
  StandardizeFacts NormalForm Consistency Detect Types SpecTypes TypesUrl TypesCases SpecTables FilesCases SpecQuoted Simple SimpleFiles SimpleCases DictTables.
Open Scope N_scope.
Local Notation len := List.length.

Theorem simple_dicts cat url known O o_set E method skip s lower f h h' (items : list (odict value)) names p dialect encoding cod w e c q :
  In method [MStr (s2l "normal"); MEnum NORMAL; MStr (s2l "auto"); MEnum AUTO] ->
  (forall sample, e_detect E sample = fst (detector_detect cat url known O o_set sample None method skip s)) ->
  lower (s2l "raise") = s2l "raise" -> writable_dicts names items -> (2 <= len names)%nat ->
  let table := dict_table names items in
  new_writer (e_registry E) h dialect [] = Ok w -> wd_delim w = c -> wd_skipspace w = false -> wd_term w = render_eol e ->
  wd_quote w = Some q -> a_quote q -> In c common_delimiters ->
  (wd_quoting w = QUOTE_ALL /\ (forall r v, In r table -> In v r -> Forall (fun y => y <> q /\ y <> CR /\ y <> LF) (value_str v))) \/
  (wd_quoting w = QUOTE_MINIMAL /\ (forall r v, In r table -> In v r ->
     value_str v <> [] /\ (over elementary (value_str v) \/ In c (value_str v) /\ Forall (fun y => y <> q /\ y <> CR /\ y <> LF) (value_str v)))) ->
  (forall r v, In r table -> In v r -> ~ In NUL (value_str v) /\ (forall x, wd_escape w = Some x -> ~ In x (value_str v)) /\
     (Z.of_nat (len (value_str v)) + 2 <= e_limit E)%Z) ->
  wd_escape w <> Some c ->
  let text := written_text (wd_quoting w) c q e table in
  ~ escape_suspect cat common_delimiters text ->
  e_codec E (Some encoding) = Ok cod -> lawful cod -> (exists b, cd_encode cod text = Some b) ->
  exists f' ds, write_dicts E lower f h items p dialect (Some encoding) = (f', None) /\ same_fs_but [p] f' f /\
    stream_dicts E f' h' p None (Some encoding) None = (ds, None) /\ Forall2 (reads_as names) items ds.
Proof.
  intros HM HE Hlow HW Hk table Hw Hc Hsk Ht Hqq Hq Hd HS HV Hec text Hx Hcod Hl Henc.
  assert (HL : forall r, In r table -> len r = len names).
  { intros r [<-|Hr]; [apply map_length|]. apply in_map_iff in Hr as (it & <- & _). apply map_length. }
  assert (H2 : (2 <= len table)%nat).
  { destruct HW as (_ & _ & (first & rest & -> & _) & _). cbn. lia. }
  destruct (simple_styles cat url known O o_set E method skip s HM HE f h h' table p dialect encoding cod w e c q (len names)
    Hw Hc Hsk Ht Hqq Hq Hd) as (f' & K1 & K2 & _ & K3); auto.
  { discriminate. }
  { destruct HS as [HS|(HS1 & HS2)]; [left; exact HS|right; split; [exact HS1|split; [exact H2|exact HS2]]]. }
  destruct (dicts_survive E lower f h h' items names p dialect (Some encoding) None None f' Hlow HW K1 K3) as (K4 & ds & K5 & K6).
  exists f', ds. split; [exact K4|]. split; [exact K2|]. split; [exact K5|exact K6].
Qed.

(** ** A case *)
Definition some_names : list str := [s2l "id"; s2l "O'Brien; {1,2}"; s2l ","].
Definition some_items : list (odict value) :=
  [[(Some (s2l "id"), VNum (s2l "1")); (Some (s2l "O'Brien; {1,2}"), VStr (s2l "a,b")); (Some (s2l ","), VNone)];
   [(Some (s2l ","), VStr (s2l "$5 {~}"))]].
Lemma some_writable : writable_dicts some_names some_items.
Proof.
  split; [discriminate|]. split.
  { unfold some_names. repeat (apply NoDup_cons; [cbn [In]; intros H; repeat (destruct H as [H|H]; [discriminate H|]); destruct H|]). apply NoDup_nil. }
  split; [eexists _, _; split; reflexivity|]. intros d Hd. unfold some_items in Hd. cbn [In] in Hd. repeat (destruct Hd as [<-|Hd]); try solve [destruct Hd].
  - split; [|apply incl_refl]. cbn [map fst]. repeat (apply NoDup_cons; [cbn [In]; intros H; repeat (destruct H as [H|H]; [discriminate H|]); destruct H|]). apply NoDup_nil.
  - cbn [map fst]. split; [apply NoDup_cons; [intros []|apply NoDup_nil]|]. intros x [<-|[]]. cbn. tauto.
Qed.
Ltac dict_cases := intros r v Hr Hv; unfold dict_table, some_names, some_items in Hr; cbn [map In] in Hr; cases Hr; cbn [In] in Hv; cases Hv.
Lemma some_meet : exists w,
  new_writer (e_registry shipped_env) [] (DName (s2l "unix")) [] = Ok w /\ wd_delim w = COMMA /\ wd_skipspace w = false /\ wd_term w = render_eol ELF /\
  wd_quote w = Some 34 /\ wd_quoting w = QUOTE_ALL /\ writable_dicts some_names some_items /\
  (forall r v, In r (dict_table some_names some_items) -> In v r -> Forall (fun y => y <> 34 /\ y <> CR /\ y <> LF) (value_str v)) /\
  (forall r v, In r (dict_table some_names some_items) -> In v r -> ~ In NUL (value_str v) /\ (forall x, wd_escape w = Some x -> ~ In x (value_str v)) /\
     (Z.of_nat (len (value_str v)) + 2 <= e_limit shipped_env)%Z) /\ wd_escape w <> Some COMMA /\
  ~ escape_suspect ascii_cat common_delimiters (written_text (wd_quoting w) COMMA 34 ELF (dict_table some_names some_items)).
Proof.
  eexists. split; [reflexivity|]. split; [reflexivity|]. split; [reflexivity|]. split; [reflexivity|]. split; [reflexivity|]. split; [reflexivity|].
  split; [exact some_writable|]. split; [|split; [|split; [discriminate|]]].
  - dict_cases; cbn; items; repeat split; discriminate.
  - dict_cases; (split; [intros H; cbn in H; intuition discriminate|split; [intros x [=]|vm_compute; discriminate]]).
  - apply unsuspicious. vm_compute. reflexivity.
Qed.
