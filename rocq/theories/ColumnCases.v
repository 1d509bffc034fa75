(** * ColumnCases: concrete files of one column *)
From Coq Require Import String.
From Verif Require Import Base Parser Dialect CsvLib Reader Writer Files Wrappers SpecLayout SpecWriter SpecFiles TableFacts StandardizeFacts
  Potential SpecPotential MaskedFacts Consistency DetectCases Detect NormalForm SpecNormal Types SpecTypes TypesUrl TypesCases SpecTables TablesFacts TablesCases AutoCases FilesCases
  SpecQuoted SimpleCases SpecColumn.
Open Scope N_scope.

Lemma over_any A s : forallb (fun y => mem_char y A) s = true -> over A s.
Proof. intros H. apply Forall_forall. intros y Hy. rewrite forallb_forall in H. now apply mem_char_In, H. Qed.
Definition names_rows : list (str * eol) := [(s2l "id_no", ECR); (s2l "R&D-2.5", ECR)].
Definition names_final : option str := Some (s2l "-").
Lemma names_meet : (2 <= List.length (column_of names_rows names_final))%nat /\ (forall r, In r names_rows -> snd r = ECR) /\
  (forall s, In s (column_of names_rows names_final) -> s <> [] /\ over word s).
Proof.
  split; [cbn; lia|]. split; [intros r [<-|[<-|[]]]; reflexivity|].
  intros s [<-|[<-|[<-|[]]]]; (split; [discriminate|]); apply over_any; vm_compute; reflexivity.
Qed.
Definition words_rows : list (str * eol) := [(s2l "two words", ECRLF); ([], ECRLF)].
Lemma words_meet : a_quote 39 /\ (2 <= List.length (column_of words_rows None))%nat /\ (forall r, In r words_rows -> snd r = ECRLF) /\
  (forall s, In s (column_of words_rows None) -> over (SPACE :: word) s) /\
  ~ escape_suspect ascii_cat common_delimiters (quoted_column 39 words_rows None).
Proof.
  split; [now right|]. split; [cbn; lia|]. split; [intros r [<-|[<-|[]]]; reflexivity|]. split.
  - intros s [<-|[<-|[]]]; apply over_any; vm_compute; reflexivity.
  - apply unsuspicious. vm_compute. reflexivity.
Qed.
Definition numbers : list value := [VStr (s2l "size"); VNum (s2l "2.5")].
Lemma numbers_meet : exists w, new_writer (e_registry shipped_env) [] (DName (s2l "excel")) [] = Ok w /\ wd_skipspace w = false /\ wd_term w = render_eol ECRLF /\
  (2 <= List.length numbers)%nat /\
  (forall v, In v numbers -> (Z.of_nat (List.length (value_str v)) + 2 <= e_limit shipped_env)%Z /\
     (forall x, In x (value_str v) -> wd_delim w <> x /\ wd_quote w <> Some x /\ wd_escape w <> Some x)) /\
  (forall v, In v numbers -> asks_quotes (wd_quoting w) v = false /\ value_str v <> [] /\ over word (value_str v)).
Proof.
  eexists. split; [reflexivity|]. split; [reflexivity|]. split; [reflexivity|]. split; [cbn; lia|]. split.
  - intros v [<-|[<-|[]]]; (split; [vm_compute; discriminate|]); intros x Hx; cbn in Hx; repeat (destruct Hx as [<-|Hx]); try solve [destruct Hx]; repeat split; discriminate.
  - intros v [<-|[<-|[]]]; (split; [reflexivity|]); (split; [discriminate|]); apply over_any; vm_compute; reflexivity.
Qed.

(** Unquoted cells with spaces are cut into columns. *)
Definition spaced : list value := [VStr (s2l "a b"); VStr (s2l "c d")].
Definition spaced_text : str := s2l "a b" ++ [CR; LF] ++ s2l "c d" ++ [CR; LF].
Lemma spaced_detected : shipped_detect (mk_state None 131072) spaced_text = Ok (Some (dialect3 [32] [] [])).
Proof.
  unfold shipped_detect, detector_detect.
  assert (E : detect_dialect_normal ascii_cat spaced_text utf8 None = Ok None) by (vm_compute; reflexivity).
  rewrite E. cbn -[detect spaced_text]. rewrite small_detect_ok. vm_compute. reflexivity.
Qed.
Definition spaced_files : fs := upd (upd (one_file []) 1 (Some [])) 1 (Some spaced_text).
Lemma spaced_lost : exists f',
  write_table shipped_env (one_file []) [] [[VStr (s2l "a b")]; [VStr (s2l "c d")]] 1 (DName (s2l "excel")) false None = (f', None) /\
  read_table shipped_env f' [] 1 None None None = Ok (map (map (fun s => CStr (s2l s))) [["a"; "b"]; ["c"; "d"]]%string).
Proof.
  exists spaced_files. split; [reflexivity|]. unfold read_table.
  rewrite (num_chars_detection shipped_env spaced_files [] 1 None latin1 spaced_text spaced_text None _ eq_refl eq_refl spaced_detected eq_refl).
  vm_compute. reflexivity.
Qed.
