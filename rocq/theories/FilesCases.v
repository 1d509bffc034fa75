(** * FilesCases: a table that is not read back by detection *)
From Coq Require Import String Permutation.
From Verif Require Import Base Parser Dialect CsvLib Reader Writer Files Wrappers SpecLayout SpecWriter SpecFiles TableFacts StandardizeFacts
  Potential SpecPotential MaskedFacts Consistency DetectCases Detect NormalForm Types SpecTypes TypesUrl TypesCases SpecTables TablesFacts TablesCases AutoCases.
Open Scope N_scope.

Definition shipped_detect (s : dstate) (sample : str) : res pyexc (option SimpleDialect) :=
  fst (detector_detect ascii_cat (shipped_url ascii_data) (is_known_type ascii_data) plain_orders (fun l => l) sample None (MStr (s2l "auto")) true s).
Definition shipped_env : env := demo_env (shipped_detect (mk_state None 131072)).

Lemma files_meet : exists w,
  new_writer (e_registry shipped_env) [] (DName (s2l "excel")) [] = Ok w /\ wd_delim w = COMMA /\ wd_skipspace w = false /\
  wd_term w = render_eol ECRLF /\ wd_quoting w = QUOTE_MINIMAL /\
  (forall x, wd_quote w = Some x \/ wd_escape w = Some x -> ~ plain_char ascii_cat x) /\
  plain_delimiter ascii_cat COMMA /\ ~ escape_like ascii_cat COMMA /\
  grid 2 (plain_char ascii_cat) (map (map value_str) [[VStr (s2l "a"); VNum (s2l "1.5")]; [VStr (s2l "B2"); VNone]]).
Proof.
  eexists. split; [reflexivity|]. split; [reflexivity|]. split; [reflexivity|]. split; [reflexivity|]. split; [reflexivity|].
  split; [|split; [|split]].
  - intros x [[= <-]|H]; [|discriminate H]. intros [(t & Ht)|[(t & Ht)|H]]; [discriminate Ht|discriminate Ht|]. cbn in H. intuition discriminate.
  - split; [right; split; cbn; intuition discriminate|]. split; [unfold quote_like; cbn; intuition discriminate|].
    split; [cbn; intuition discriminate|]. split; [discriminate|reflexivity].
  - intros (_ & H). apply H. cbn. tauto.
  - split; [discriminate|]. split; [lia|]. cbn [map value_str]. each; (split; [reflexivity|]); each;
      first [now left; eexists; reflexivity | now right; left; eexists; reflexivity | right; right; cbn; tauto].
Qed.

Definition dollars : list (list value) := [[VStr (s2l "$1 2 3 4"); VStr (s2l "5")]].
Definition dollars_text : str := s2l "$1 2 3 4,5" ++ [CR; LF].
Lemma dollars_detected : shipped_detect (mk_state None 131072) dollars_text = Ok (Some (dialect3 [32] [] [])).
Proof.
  unfold shipped_detect, detector_detect.
  assert (E : detect_dialect_normal ascii_cat dollars_text utf8 None = Ok None) by (vm_compute; reflexivity).
  rewrite E. cbn -[detect dollars_text]. rewrite small_detect_ok. vm_compute. reflexivity.
Qed.
Definition dollars_files : fs := upd (upd (one_file []) 1 (Some [])) 1 (Some dollars_text).
Lemma dollars_lost : exists f',
  write_table shipped_env (one_file []) [] dollars 1 (DName (s2l "excel")) false None = (f', None) /\
  read_table shipped_env f' [] 1 None None None = Ok [map (fun s => CStr (s2l s)) ["$1"; "2"; "3"; "4,5"]%string].
Proof.
  exists dollars_files. split; [reflexivity|]. unfold read_table.
  rewrite (num_chars_detection shipped_env dollars_files [] 1 None latin1 dollars_text dollars_text None _ eq_refl eq_refl dollars_detected eq_refl).
  vm_compute. reflexivity.
Qed.
Lemma not_read_back : exists f f' table,
  write_table shipped_env f [] table 1 (DName (s2l "excel")) false None = (f', None) /\
  read_table shipped_env f' [] 1 None None None <> Ok (as_read table) /\
  exists rows, read_table shipped_env f' [] 1 None None None = Ok rows.
Proof.
  destruct dollars_lost as (f' & H1 & H2). exists (one_file []), f', dollars. split; [exact H1|]. rewrite H2. split; [discriminate|eauto].
Qed.
