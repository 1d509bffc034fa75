(** * LineFilesCases: the same lines in files with other line ends *)
From Coq Require Import String Permutation.
From Verif Require Import Base Parser Dialect CsvLib Reader Files Wrappers SpecLayout SpecFiles TableFacts StandardizeFacts Potential SpecPotential PotentialFacts MaskedFacts NormalForm Consistency Detect SpecDetect
  Types SpecTypes TypesUrl TypesCases SpecColumn SpecLines UrlLines LineLayout LineFiles LineCases FilesCases SimpleCases DetectorCases.
Open Scope N_scope.
Local Notation len := List.length.

Definition crlf_rows : list (str * eol) := map (fun l => (l, ECRLF)) (removelast sample_lines).
Lemma sample_variants : line_variants ascii_cat (column_text sample_lf None) (column_text crlf_rows (Some (List.last sample_lines []))).
Proof.
  exists (removelast sample_lines), (List.last sample_lines []), ELF, ECRLF, sample_lf, None, crlf_rows, (Some (List.last sample_lines [])).
  split; [reflexivity|]. split; [reflexivity|]. split; [reflexivity|]. split; [reflexivity|]. split; [vm_compute; discriminate|].
  split; [intros r Hr; now apply in_map_iff in Hr as (l & <- & _)|]. split; [intros r Hr; now apply in_map_iff in Hr as (l & <- & _)|].
  exact (proj1 (proj2 (proj2 (proj2 sample_case)))).
Qed.

Definition short_lines : list str := [s2l "name,n"; s2l "x,1"; s2l "y,2"].
Definition with_end (e : eol) : str := column_text (map (fun l => (l, e)) short_lines) None.
Lemma short_variants e1 e2 : line_variants ascii_cat (with_end e1) (with_end e2).
Proof.
  exists [s2l "name,n"; s2l "x,1"], (s2l "y,2"), e1, e2, (map (fun l => (l, e1)) short_lines), None, (map (fun l => (l, e2)) short_lines), None.
  split; [reflexivity|]. split; [reflexivity|]. split; [reflexivity|]. split; [reflexivity|]. split; [discriminate|].
  split; [intros r Hr; now apply in_map_iff in Hr as (l & <- & _)|]. split; [intros r Hr; now apply in_map_iff in Hr as (l & <- & _)|].
  assert (K : forallb (balanced_test ascii_cat) short_lines = true) by (vm_compute; reflexivity).
  intros l Hl. apply balanced_ok. rewrite forallb_forall in K. now apply K.
Qed.
Lemma short_read e : read_table shipped_env (one_file (with_end e)) [] 1 None None None =
  Ok [map (fun s => CStr (s2l s)) ["name"; "n"]; map (fun s => CStr (s2l s)) ["x"; "1"]; map (fun s => CStr (s2l s)) ["y"; "2"]]%string.
Proof. destruct e; vm_compute; reflexivity. Qed.
(** For has_header, CR is no line end. *)
Lemma header_ends : exists t1 t2, line_variants ascii_cat t1 t2 /\
  fst (has_header ascii_cat (shipped_url ascii_data) (is_known_type ascii_data) plain_orders (fun l => l) (cast_of (fun _ _ => false)) std_registry t1 20 (mk_state None 131072)) <>
  fst (has_header ascii_cat (shipped_url ascii_data) (is_known_type ascii_data) plain_orders (fun l => l) (cast_of (fun _ _ => false)) std_registry t2 20 (mk_state None 131072)).
Proof.
  exists (with_end ELF), (with_end ECR). split; [apply short_variants|]. vm_compute. discriminate.
Qed.
