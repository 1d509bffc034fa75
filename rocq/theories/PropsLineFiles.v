(** * PropsLineFiles: files with other line ends are read alike (C90)

    [line_variants cat t1 t2] (SpecLines.v): the same balanced lines, with one
    kind of line end in each text.  The two runs may have different iteration
    orders, file systems, encodings and environments; the detector is the same. *)
From Coq Require Import String Permutation.
From Verif Require Import Base Parser Dialect CsvLib Reader Writer Files Wrappers Standardize Dict SpecDict SpecLayout SpecParse SpecFiles SpecDictTables TableFacts StandardizeFacts Potential SpecPotential MaskedFacts NormalForm Consistency Detect SpecDetect
  Json Codegen Console Types SpecTypes TypesUrl TypesCases SpecColumn SpecLines LineFiles LineCases FilesCases LineFilesCases.

(** ** C90 *)
Theorem C90_table cat url known o_set method skip s O1 O2 E1 E2 t1 t2 f1 f2 h1 h2 p1 p2 enc1 enc2 cod1 cod2 b1 b2 nc1 nc2 :
  line_matcher url -> control_ends cat -> (forall l, Permutation (o_set l) l) -> any_orders O1 -> any_orders O2 ->
  (forall sample, e_detect E1 sample = fst (detector_detect cat url known O1 o_set sample None method skip s)) ->
  (forall sample, e_detect E2 sample = fst (detector_detect cat url known O2 o_set sample None method skip s)) ->
  line_variants cat t1 t2 ->
  open_text E1 f1 p1 enc1 = Ok (cod1, b1) -> cd_decode cod1 b1 = (t1, true) -> head_chars nc1 t1 = t1 -> (Z.of_nat (length t1) < e_limit E1)%Z ->
  open_text E2 f2 p2 enc2 = Ok (cod2, b2) -> cd_decode cod2 b2 = (t2, true) -> head_chars nc2 t2 = t2 -> (Z.of_nat (length t2) < e_limit E2)%Z ->
  stream_table E1 f1 h1 p1 None enc1 nc1 = stream_table E2 f2 h2 p2 None enc2 nc2.
Proof.
  exact (fun HU HK Ho H1 H2 D1 D2 HV => variants_stream cat url known HU HK o_set Ho method skip s O1 O2 E1 E2 t1 t2 H1 H2 D1 D2 HV f1 f2 h1 h2 p1 p2 enc1 enc2 cod1 cod2 b1 b2 nc1 nc2).
Qed.
Print Assumptions C90_table.
Theorem C90_dicts cat url known o_set method skip s O1 O2 E1 E2 t1 t2 f1 f2 h1 h2 p1 p2 enc1 enc2 cod1 cod2 b1 b2 nc1 nc2 :
  line_matcher url -> control_ends cat -> (forall l, Permutation (o_set l) l) -> any_orders O1 -> any_orders O2 ->
  (forall sample, e_detect E1 sample = fst (detector_detect cat url known O1 o_set sample None method skip s)) ->
  (forall sample, e_detect E2 sample = fst (detector_detect cat url known O2 o_set sample None method skip s)) ->
  line_variants cat t1 t2 ->
  open_text E1 f1 p1 enc1 = Ok (cod1, b1) -> cd_decode cod1 b1 = (t1, true) -> head_chars nc1 t1 = t1 -> (Z.of_nat (length t1) < e_limit E1)%Z ->
  open_text E2 f2 p2 enc2 = Ok (cod2, b2) -> cd_decode cod2 b2 = (t2, true) -> head_chars nc2 t2 = t2 -> (Z.of_nat (length t2) < e_limit E2)%Z ->
  (forall header records e, stream_table E1 f1 h1 p1 None enc1 nc1 = (header :: records, e) -> NoDup (map cell_str header)) ->
  stream_dicts E1 f1 h1 p1 None enc1 nc1 = stream_dicts E2 f2 h2 p2 None enc2 nc2.
Proof.
  exact (fun HU HK Ho H1 H2 D1 D2 HV T1 B1 N1 L1 T2 B2 N2 L2 => variants_dicts cat url known HU HK o_set Ho O1 O2 t1 t2 H1 H2 HV E1 E2 method skip s D1 D2
    f1 f2 p1 p2 enc1 enc2 cod1 cod2 b1 b2 nc1 nc2 B1 B2 N1 N2 h1 h2 T1 T2 L1 L2).
Qed.
Print Assumptions C90_dicts.
(** The call of [pandas.read_csv] has the same dialect. *)
Theorem C90_dataframe {V} cat url known o_set method skip s O1 O2 E1 E2 t1 t2 f1 f2 p1 p2 enc1 enc2 cod1 cod2 b1 b2 nc1 nc2 imp vlt (args : list V) kwargs :
  line_matcher url -> control_ends cat -> (forall l, Permutation (o_set l) l) -> any_orders O1 -> any_orders O2 ->
  (forall sample, e_detect E1 sample = fst (detector_detect cat url known O1 o_set sample None method skip s)) ->
  (forall sample, e_detect E2 sample = fst (detector_detect cat url known O2 o_set sample None method skip s)) ->
  line_variants cat t1 t2 ->
  open_text E1 f1 p1 (or_encoding enc1) = Ok (cod1, b1) -> cd_decode cod1 b1 = (t1, true) -> head_chars nc1 t1 = t1 ->
  open_text E2 f2 p2 (or_encoding enc2) = Ok (cod2, b2) -> cd_decode cod2 b2 = (t2, true) -> head_chars nc2 t2 = t2 ->
  match read_dataframe E1 imp vlt f1 p1 args nc1 enc1 kwargs, read_dataframe E2 imp vlt f2 p2 args nc2 enc2 kwargs with
  | Ok c1, Ok c2 => call_dialect c1 = call_dialect c2 /\ call_args c1 = call_args c2 /\ call_kwargs c1 = call_kwargs c2
  | Err x, Err y => x = y
  | _, _ => False
  end.
Proof.
  exact (fun HU HK Ho H1 H2 D1 D2 HV T1 B1 N1 T2 B2 N2 => variants_frame cat url known HU HK o_set Ho O1 O2 t1 t2 H1 H2 HV E1 E2 method skip s D1 D2
    f1 f2 p1 p2 enc1 enc2 cod1 cod2 b1 b2 nc1 nc2 B1 B2 N1 N2 imp vlt args kwargs T1 T2).
Qed.
Print Assumptions C90_dataframe.
(** The commands detect, view and standardize print the same. *)
Theorem C90_detect cat url known o_set s O1 O2 E1 E2 t1 t2 f1 f2 p1 p2 A1 A2 cod1 cod2 b1 b2 printable space rt rt6 :
  line_matcher url -> control_ends cat -> (forall l, Permutation (o_set l) l) -> any_orders O1 -> any_orders O2 -> line_variants cat t1 t2 ->
  open_text E1 f1 p1 (or_encoding (da_encoding A1)) = Ok (cod1, b1) -> cd_decode cod1 b1 = (t1, true) -> head_chars (da_num_chars A1) t1 = t1 ->
  open_text E2 f2 p2 (or_encoding (da_encoding A2)) = Ok (cod2, b2) -> cd_decode cod2 b2 = (t2, true) -> head_chars (da_num_chars A2) t2 = t2 ->
  da_consistency A1 = da_consistency A2 -> da_plain A1 = da_plain A2 -> da_json A1 = da_json A2 -> da_no_skip A1 = da_no_skip A2 -> da_add_runtime A1 = da_add_runtime A2 ->
  detect_command E1 (fun m skip sample => fst (detector_detect cat url known O1 o_set sample None m skip s)) printable space rt rt6 f1 p1 A1 =
  detect_command E2 (fun m skip sample => fst (detector_detect cat url known O2 o_set sample None m skip s)) printable space rt rt6 f2 p2 A2.
Proof.
  exact (fun HU HK Ho H1 H2 HV => variants_command cat url known HU HK o_set Ho O1 O2 t1 t2 H1 H2 HV E1 E2 printable space rt rt6 f1 f2 p1 p2 A1 A2 cod1 cod2 b1 b2 s).
Qed.
Print Assumptions C90_detect.
Theorem C90_view cat url known o_set method skip s O1 O2 E1 E2 t1 t2 f1 f2 h1 h2 p1 p2 enc1 enc2 cod1 cod2 b1 b2 nc1 nc2 imp vlt win32 transpose :
  line_matcher url -> control_ends cat -> (forall l, Permutation (o_set l) l) -> any_orders O1 -> any_orders O2 ->
  (forall sample, e_detect E1 sample = fst (detector_detect cat url known O1 o_set sample None method skip s)) ->
  (forall sample, e_detect E2 sample = fst (detector_detect cat url known O2 o_set sample None method skip s)) ->
  line_variants cat t1 t2 ->
  open_text E1 f1 p1 enc1 = Ok (cod1, b1) -> cd_decode cod1 b1 = (t1, true) -> head_chars nc1 t1 = t1 -> (Z.of_nat (length t1) < e_limit E1)%Z ->
  open_text E2 f2 p2 enc2 = Ok (cod2, b2) -> cd_decode cod2 b2 = (t2, true) -> head_chars nc2 t2 = t2 -> (Z.of_nat (length t2) < e_limit E2)%Z ->
  view_command E1 imp vlt win32 f1 h1 p1 enc1 nc1 transpose = view_command E2 imp vlt win32 f2 h2 p2 enc2 nc2 transpose.
Proof.
  exact (fun HU HK Ho H1 H2 D1 D2 HV T1 B1 N1 L1 T2 B2 N2 L2 => variants_view cat url known HU HK o_set Ho O1 O2 t1 t2 H1 H2 HV E1 E2 method skip s D1 D2
    f1 f2 p1 p2 enc1 enc2 cod1 cod2 b1 b2 nc1 nc2 B1 B2 N1 N2 imp vlt win32 transpose h1 h2 T1 T2 L1 L2).
Qed.
Print Assumptions C90_view.
Theorem C90_standardize cat url known o_set method skip s O1 O2 S1 S2 t1 t2 f1 f2 p1 p2 enc1 enc2 cod1 cod2 b1 b2 A1 A2 :
  line_matcher url -> control_ends cat -> (forall l, Permutation (o_set l) l) -> any_orders O1 -> any_orders O2 ->
  (forall sample, e_detect (s_env S1) sample = fst (detector_detect cat url known O1 o_set sample None method skip s)) ->
  (forall sample, e_detect (s_env S2) sample = fst (detector_detect cat url known O2 o_set sample None method skip s)) ->
  e_registry (s_env S1) (s2l "excel") = e_registry (s_env S2) (s2l "excel") -> line_variants cat t1 t2 ->
  open_text (s_env S1) f1 p1 (or_encoding enc1) = Ok (cod1, b1) -> cd_decode cod1 b1 = (t1, true) -> head_chars (a_num_chars A1) t1 = t1 -> (Z.of_nat (length t1) < e_limit (s_env S1))%Z ->
  open_text (s_env S2) f2 p2 (or_encoding enc2) = Ok (cod2, b2) -> cd_decode cod2 b2 = (t2, true) -> head_chars (a_num_chars A2) t2 = t2 -> (Z.of_nat (length t2) < e_limit (s_env S2))%Z ->
  a_in_place A1 = false -> a_in_place A2 = false -> a_transpose A1 = a_transpose A2 ->
  exists code text, handle_path S1 A1 f1 p1 None enc1 = (code, f1, text) /\ handle_path S2 A2 f2 p2 None enc2 = (code, f2, text).
Proof.
  exact (fun HU HK Ho H1 H2 D1 D2 HR HV => variants_stdout cat url known HU HK o_set Ho O1 O2 t1 t2 H1 H2 HV S1 S2 method skip s D1 D2 HR A1 A2 f1 f2 p1 p2 enc1 enc2 cod1 cod2 b1 b2).
Qed.
Print Assumptions C90_standardize.
(** The answer of has_header is the same unless CR alone ends lines. *)
Theorem C90_header cat url known o_set O1 O2 accepts reg max s t1 t2 :
  line_matcher url -> control_ends cat -> (forall l, Permutation (o_set l) l) -> any_orders O1 -> any_orders O2 ->
  line_variants cat t1 t2 -> no_bare_cr t1 -> no_bare_cr t2 -> (Z.of_nat (length t1) < st_limit s)%Z -> (Z.of_nat (length t2) < st_limit s)%Z ->
  fst (has_header cat url known O1 o_set (cast_of accepts) reg t1 max s) = fst (has_header cat url known O2 o_set (cast_of accepts) reg t2 max s).
Proof. exact (variants_header cat url known o_set O1 O2 accepts reg max s t1 t2). Qed.
Print Assumptions C90_header.
Theorem C90_header_cr_refuted : exists t1 t2, line_variants ascii_cat t1 t2 /\
  fst (has_header ascii_cat (shipped_url ascii_data) (is_known_type ascii_data) plain_orders (fun l => l) (cast_of (fun _ _ => false)) std_registry t1 20 (mk_state None 131072)) <>
  fst (has_header ascii_cat (shipped_url ascii_data) (is_known_type ascii_data) plain_orders (fun l => l) (cast_of (fun _ _ => false)) std_registry t2 20 (mk_state None 131072)).
Proof. exact header_ends. Qed.
Print Assumptions C90_header_cr_refuted.
Example C90_variants_case : line_variants ascii_cat (column_text sample_lf None) (column_text crlf_rows (Some (List.last sample_lines []))).
Proof. exact sample_variants. Qed.
Example C90_read_case : (forall e1 e2, line_variants ascii_cat (with_end e1) (with_end e2)) /\
  forall e, read_table shipped_env (one_file (with_end e)) [] 1%N None None None =
    Ok [map (fun s => CStr (s2l s)) ["name"; "n"]; map (fun s => CStr (s2l s)) ["x"; "1"]; map (fun s => CStr (s2l s)) ["y"; "2"]]%string.
Proof. exact (conj short_variants short_read). Qed.
