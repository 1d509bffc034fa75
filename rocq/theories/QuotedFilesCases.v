(** * QuotedFilesCases: concrete files with quoted cells *)
From Coq Require Import String Permutation.
From Verif Require Import Base Parser Dialect CsvLib Reader Writer Files Wrappers SpecLayout SpecWriter SpecFiles TableFacts StandardizeFacts
  Potential SpecPotential MaskedFacts Consistency DetectCases Detect NormalForm Types SpecTypes TypesUrl TypesCases SpecTables TablesFacts TablesCases AutoCases FilesCases
  SpecQuoted QuotedCases.
Open Scope N_scope.

(** Two rows a,"b,c,d,e,f": the normal forms find the quotes, the scores do not. *)
Definition twice_text : str := quoted_text COMMA 34 [(commas_row, ELF)] (Some commas_row).
Lemma twice_lost : detect ascii_cat (shipped_url ascii_data) (is_known_type ascii_data) plain_orders (fun l => l) 100000 true twice_text None 131072 =
  (Ok (Some (dialect3 [COMMA] [] [])), 131072%Z).
Proof. rewrite small_detect_ok. vm_compute. reflexivity. Qed.
Lemma twice_found known O o_set skip s : detector_detect ascii_cat (shipped_url ascii_data) known O o_set twice_text None (MStr (s2l "auto")) skip s =
  (Ok (Some (dialect3 [COMMA] [34] [])), mk_state (Some NORMAL) (st_limit s)).
Proof.
  unfold detector_detect.
  assert (E : detect_dialect_normal ascii_cat twice_text utf8 None = Ok (Some (dialect3 [COMMA] [34] []))) by (vm_compute; reflexivity).
  rewrite E. reflexivity.
Qed.
Lemma quoted_disagree : exists rows final O o_set,
  quoted_grid 2 (qcell_ok COMMA) (table_of rows final) /\ any_orders O /\ (forall l, Permutation (o_set l) l) /\
  detect ascii_cat (shipped_url ascii_data) (is_known_type ascii_data) O o_set 100000 true (quoted_text COMMA 34 rows final) None 131072 =
    (Ok (Some (dialect3 [COMMA] [] [])), 131072%Z) /\
  detector_detect ascii_cat (shipped_url ascii_data) (is_known_type ascii_data) O o_set (quoted_text COMMA 34 rows final) None
    (MStr (s2l "auto")) true (mk_state None 131072) = (Ok (Some (dialect3 [COMMA] [34] [])), mk_state (Some NORMAL) 131072).
Proof.
  exists [(commas_row, ELF)], (Some commas_row), plain_orders, (fun l => l). split; [|split; [exact plain_orders_any|split; [intros l; apply Permutation_refl|]]].
  - split; [lia|]. split.
    + cbn [table_of commas_row map fst app]. each; (split; [reflexivity|]); each; unfold qcell_ok; cbn [fst snd]; each; first [qchar|split; [discriminate|qchar]].
    + eexists _, _. split; [now left|]. right. now left.
  - split; [exact twice_lost|]. exact (twice_found _ _ _ _ _).
Qed.
(** A table that excel writes with quotes. *)
Definition quoted_values : list (list value) := [[VStr (s2l "a,b"); VNum (s2l "1.5")]; [VStr (s2l "c"); VNone]].
Lemma quoted_values_meet : exists w,
  new_writer (e_registry shipped_env) [] (DName (s2l "excel")) [] = Ok w /\ wd_delim w = COMMA /\ wd_skipspace w = false /\
  wd_term w = render_eol ECRLF /\ wd_quoting w <> QUOTE_NONE /\ wd_quote w = Some 34 /\ a_quote 34 /\ quote_kept ascii_data 34 /\
  (forall x, wd_escape w = Some x -> x <> COMMA /\ ~ plain_char ascii_cat x) /\ plain_delimiter ascii_cat COMMA /\ ~ escape_like ascii_cat COMMA /\
  (forall r v, In r quoted_values -> In v r -> words_in ascii_cat COMMA (value_str v) /\ (Z.of_nat (List.length (value_str v)) + 2 <= e_limit shipped_env)%Z) /\
  uneven 2 (per_row COMMA (map (map value_str) quoted_values)) /\
  written_text (wd_quoting w) COMMA 34 ECRLF quoted_values = s2l """a,b"",1.5" ++ CR :: LF :: s2l "c," ++ [CR; LF].
Proof.
  eexists. split; [reflexivity|]. split; [reflexivity|]. split; [reflexivity|]. split; [reflexivity|]. split; [discriminate|]. split; [reflexivity|]. split; [now left|].
  split; [apply ascii_quotes; now left|]. split; [intros x [=]|]. split; [exact comma_plain|]. split; [intros (_ & H); apply H; cbn; tauto|]. split; [|split; [|reflexivity]].
  - intros r v Hr Hv. unfold words_in, plain_char. cbn [quoted_values In] in Hr. destruct Hr as [<-|[<-|[]]]; cbn [In] in Hv; destruct Hv as [<-|[<-|[]]]; (split; [|vm_compute; discriminate]); cbn [value_str];
      each; solve [left; left; exists (s2l "l"); reflexivity|left; right; left; exists (s2l "d"); reflexivity|left; right; right; cbn; tauto|right; split; [reflexivity|cbn; tauto]].
  - exists 1%nat, 0%nat. cbn. split; [tauto|]. split; [tauto|]. split; [discriminate|]. right. split; [lia|]. each; lia.
Qed.
Definition commas_values : list (list value) := [[VStr (s2l "a"); VStr (s2l "b,c,d,e,f")]].
Definition commas_text : str := s2l "a,""b,c,d,e,f""" ++ [CR; LF].
Lemma commas_detected : shipped_detect (mk_state None 131072) commas_text = Ok (Some (dialect3 [COMMA] [] [])).
Proof.
  unfold shipped_detect, detector_detect.
  assert (E : detect_dialect_normal ascii_cat commas_text utf8 None = Ok None) by (vm_compute; reflexivity).
  rewrite E. cbn -[detect commas_text]. rewrite small_detect_ok. vm_compute. reflexivity.
Qed.
Definition commas_files : fs := upd (upd (one_file []) 1 (Some [])) 1 (Some commas_text).
Lemma commas_lost : exists f',
  write_table shipped_env (one_file []) [] commas_values 1 (DName (s2l "excel")) false None = (f', None) /\
  read_table shipped_env f' [] 1 None None None = Ok [map (fun s => CStr (s2l s)) ["a"; """b"; "c"; "d"; "e"; "f"""]%string].
Proof.
  exists commas_files. split; [reflexivity|]. unfold read_table.
  rewrite (num_chars_detection shipped_env commas_files [] 1 None latin1 commas_text commas_text None _ eq_refl eq_refl commas_detected eq_refl).
  vm_compute. reflexivity.
Qed.
