(** * DocumentCases: concrete files in simple form *)
From Coq Require Import String Permutation.
From Verif Require Import Base Parser Dialect CsvLib Reader Writer Files Wrappers Standardize SpecLayout SpecParse SpecWriter SpecFiles TableFacts StandardizeFacts
  Potential SpecPotential MaskedFacts Consistency DetectCases Detect NormalForm SpecNormal Types SpecTypes TypesUrl TypesCases SpecTables TablesFacts TablesCases AutoCases FilesCases
  SpecQuoted SimpleCases SpecColumn ColumnCases SpecExcel SpecDocument Documents.
Open Scope N_scope.

(** One file of each kind. *)
Definition strs (rows : list (list string)) : list (list str) := map (map s2l) rows.
Lemma signs_document : document ascii_cat (table_text 124 signs_rows signs_final) [124] [] (strs [["(x y)"; "50%"; ""]; ["a@b+c"; "-"; "a/b"]]%string).
Proof. destruct signs_meet as (H1 & H2 & H3 & H4 & H5 & H6). exact (bare_table ascii_cat 124 3 signs_rows signs_final ECR H1 H2 H3 H4 H5 H6). Qed.
Lemma mixed_document : document ascii_cat (quoted_text COMMA 34 mixed_rows mixed_final) [COMMA] [34] (strs [["O'Brien; {1,2}"; "2.5 (%)"]; ["x"; "~#\x"]]%string).
Proof.
  destruct mixed_meets as (H1 & H2 & H3 & H4 & H5 & H6). refine (quoted_table ascii_cat COMMA 34 2 mixed_rows mixed_final ELF H1 H2 H3 H4 _ H5 H6).
  cbn [table_of mixed_rows mixed_final map fst app]. unfold all_cells. items; items; cbn; intuition discriminate.
Qed.
Lemma names_document : document ascii_cat (column_text names_rows names_final) [] [] (strs [["id_no"]; ["R&D-2.5"]; ["-"]]%string).
Proof. destruct names_meet as (H1 & H2 & H3). exact (bare_lines ascii_cat names_rows names_final ECR H1 H2 H3). Qed.
Lemma words_document : document ascii_cat (quoted_column 39 words_rows None) [] [39] (strs [["two words"]; [""]]%string).
Proof. destruct words_meet as (H1 & H2 & H3 & H4 & H5). exact (quoted_lines ascii_cat 39 words_rows None ECRLF H1 H2 H3 H4 H5). Qed.

(** A quoted table that can be standardized twice. *)
Definition calm_rows : list (list qcell * eol) := [([(true, s2l "a b"); (false, s2l "1")], ELF); ([(false, s2l "c"); (true, s2l "50%")], ELF)].
Lemma calm_document : document ascii_cat (quoted_text SEMI 39 calm_rows None) [SEMI] [39] (strs [["a b"; "1"]; ["c"; "50%"]]%string) /\
  settled [SEMI] (strs [["a b"; "1"]; ["c"; "50%"]]%string).
Proof.
  split.
  - refine (quoted_table ascii_cat SEMI 39 2 calm_rows None ELF _ _ _ _ _ _ _).
    + now right.
    + cbn. tauto.
    + split; [discriminate|]. split; [lia|]. cbn [table_of calm_rows map fst app]. items; (split; [reflexivity|]); items; simple.
    + right. split; [cbn; lia|]. cbn [table_of calm_rows map fst app]. split; [unfold all_cells; items; items; discriminate|]. eexists _, _. split; [now left|]. now left.
    + cbn [table_of calm_rows map fst app]. unfold all_cells. items; items; cbn; intuition discriminate.
    + intros r [<-|[<-|[]]]; reflexivity.
    + apply unsuspicious. vm_compute. reflexivity.
  - intros r s Hr Hs. apply over_elementary. unfold strs in Hr. cbn [map] in Hr. destruct Hr as [<-|[<-|[]]]; (destruct Hs as [<-|[<-|[]]]); vm_compute; reflexivity.
Qed.

(** A quoted column with spaces loses its quotes, and the second run cuts its cells. *)
Definition lone_rows : list (str * eol) := [(s2l "a b", ELF); (s2l "c d", ELF)].
Definition lone_text : str := quoted_column 34 lone_rows None.
Lemma lone_document : document ascii_cat lone_text [] [34] (strs [["a b"]; ["c d"]]%string).
Proof.
  refine (quoted_lines ascii_cat 34 lone_rows None ELF _ _ _ _ _).
  - now left.
  - cbn. lia.
  - intros r [<-|[<-|[]]]; reflexivity.
  - intros s [<-|[<-|[]]]; apply over_any; vm_compute; reflexivity.
  - apply unsuspicious. vm_compute. reflexivity.
Qed.
Definition lone_args : sargs := mk_sargs [1] [] None true None [] false.
Definition lone_senv : senv := demo_senv (shipped_detect (mk_state None 131072)).
Lemma handled_by S A f p encoding cod b text dl : f p = Some b -> a_num_chars A = None -> e_codec (s_env S) (Some encoding) = Ok cod -> encoding <> [] -> cd_decode cod b = (text, true) -> a_in_place A = true -> a_target A = None ->
  e_detect (s_env S) text = Ok (Some dl) ->
  handle_path S A f p None (Some encoding) = let '(c, f') := in_place S f p dl (Some encoding) (Some encoding) (a_transpose A) in (c, f', []).
Proof.
  intros Hf Hn Hc He Hb Hi Ht Hd. assert (Hor : or_encoding (Some encoding) = Some encoding) by (destruct encoding; [congruence|reflexivity]).
  assert (ED : detect_dialect (s_env S) f p (Some encoding) (a_num_chars A) = Ok (Some dl)).
  { unfold detect_dialect, open_text. rewrite Hf, Hor. cbv zeta iota. rewrite Hc. cbn [bind]. rewrite (read_chars_head cod b text _ Hb). rewrite Hn. exact Hd. }
  unfold handle_path. rewrite Hf, Ht, Hor. cbn [or_encoding]. rewrite ED, Hi. reflexivity.
Qed.
Lemma lone_detected : shipped_detect (mk_state None 131072) lone_text = Ok (Some (dialect3 [] [34] [])).
Proof.
  unfold shipped_detect, detector_detect.
  assert (E : detect_dialect_normal ascii_cat lone_text utf8 None = Ok (Some (dialect3 [] [34] []))) by (vm_compute; reflexivity).
  rewrite E. reflexivity.
Qed.
Lemma lone_first : exists f1, in_place lone_senv (one_file lone_text) 1 (dialect3 [] [34] []) (Some (s2l "latin1")) (Some (s2l "latin1")) false = (Code 2, f1) /\ f1 1 = Some spaced_text.
Proof. eexists. split; vm_compute; reflexivity. Qed.
Lemma lone_second f : f 1 = Some spaced_text -> exists f2, in_place lone_senv f 1 (dialect3 [32] [] []) (Some (s2l "latin1")) (Some (s2l "latin1")) false = (Code 2, f2) /\
  f2 1 = Some (s2l "a,b" ++ [CR; LF] ++ s2l "c,d" ++ [CR; LF]).
Proof.
  intros Hf. unfold in_place. change (s_mkstemp lone_senv f) with 99. change (e_codec (s_env lone_senv) (Some (s2l "latin1"))) with (@Ok pyexc codec latin1). cbv beta zeta iota.
  assert (E : write_to_stream lone_senv (upd f 99 (Some [])) 1 latin1 (dialect3 [32] [] []) (Some (s2l "latin1")) false = (s2l "a,b" ++ [CR; LF] ++ s2l "c,d" ++ [CR; LF], None)).
  { unfold write_to_stream, source_rows, open_reader. cbn. unfold open_text, upd. cbn. rewrite Hf. vm_compute. reflexivity. }
  rewrite E. cbv iota beta. unfold upd at 1 2. cbn [N.eqb Pos.eqb]. rewrite Hf. eexists. split; [reflexivity|]. reflexivity.
Qed.
Lemma lone_twice : exists f1 f2,
  handle_path lone_senv lone_args (one_file lone_text) 1 None (Some (s2l "latin1")) = (Code 2, f1, []) /\ f1 1 = Some spaced_text /\
  handle_path lone_senv lone_args f1 1 None (Some (s2l "latin1")) = (Code 2, f2, []) /\ f2 1 = Some (s2l "a,b" ++ [CR; LF] ++ s2l "c,d" ++ [CR; LF]).
Proof.
  destruct lone_first as (f1 & E1 & K1). destruct (lone_second f1 K1) as (f2 & E2 & K2). exists f1, f2. split; [|split; [exact K1|split; [|exact K2]]].
  - rewrite (handled_by lone_senv lone_args _ 1 (s2l "latin1") latin1 lone_text lone_text (dialect3 [] [34] []) eq_refl eq_refl eq_refl ltac:(discriminate) eq_refl eq_refl eq_refl lone_detected).
    cbn [lone_args a_transpose]. rewrite E1. reflexivity.
  - rewrite (handled_by lone_senv lone_args _ 1 (s2l "latin1") latin1 spaced_text spaced_text (dialect3 [32] [] []) K1 eq_refl eq_refl ltac:(discriminate) eq_refl eq_refl eq_refl spaced_detected).
    cbn [lone_args a_transpose]. rewrite E2. reflexivity.
Qed.
