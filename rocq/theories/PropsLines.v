(** * PropsLines: detection does not depend on the line ends (C89)

    [column_text rows final] is the text of the lines [column_of rows final],
    each with its own line end and [final], if given, without one.  [detect] is
    the consistency measure; the result compared is its dialect or exception. *)
From Coq Require Import String Permutation.
From Verif Require Import Base Parser Dialect SpecLayout Potential SpecPotential MaskedFacts NormalForm Consistency Detect Types SpecTypes TypesUrl
  SpecColumn SpecLines UrlLines LineDetect LineNormal LineCases.
Local Notation len := List.length.

(** ** C89 *)
Theorem C89_consistency cat url known user o_set rows1 final1 rows2 final2 O1 O2 capacity skip old :
  line_matcher url -> control_ends cat -> usual_delimiters user -> (forall l, Permutation (o_set l) l) ->
  column_of rows1 final1 = column_of rows2 final2 -> (forall l, In l (column_of rows1 final1) -> balanced_line cat user l) ->
  clear_ends rows1 final1 -> clear_ends rows2 final2 -> any_orders O1 -> any_orders O2 ->
  fst (detect cat url known O1 o_set capacity skip (column_text rows1 final1) user old) =
  fst (detect cat url known O2 o_set capacity skip (column_text rows2 final2) user old).
Proof.
  exact (fun HU HK HS Ho EC HB C1 C2 => detect_lines cat url known user HU HK HS o_set Ho rows1 rows2 final1 final2 EC HB C1 C2 O1 O2 capacity skip old).
Qed.
Print Assumptions C89_consistency.
(** The pattern for URLs that is shipped stays on its line. *)
Theorem C89_url_in_line U : control_ends (u_cat U) -> line_matcher (shipped_url U).
Proof. exact (shipped_line U). Qed.
Print Assumptions C89_url_in_line.
(** The normal forms, for one kind of line end and a last line that is not blank. *)
Theorem C89_normal cat user e1 e2 rows1 final1 rows2 final2 ls l : control_ends cat ->
  column_of rows1 final1 = ls ++ [l] -> column_of rows2 final2 = ls ++ [l] -> l <> [] ->
  (forall r, In r rows1 -> snd r = e1) -> (forall r, In r rows2 -> snd r = e2) ->
  (forall s, In s (ls ++ [l]) -> ~ In CR s /\ ~ In LF s) ->
  (forall ds c, user = Some ds -> In c [CR; LF] -> ~ In [c] ds) ->
  detect_dialect_normal cat (column_text rows1 final1) utf8 user = detect_dialect_normal cat (column_text rows2 final2) utf8 user.
Proof. exact (fun HK => normal_lines cat HK user e1 e2 rows1 final1 rows2 final2 ls l). Qed.
Print Assumptions C89_normal.
(** The detector with any method, as shipped. *)
Theorem C89_detector U user o_set O1 O2 method skip s e1 e2 rows1 final1 rows2 final2 ls l :
  control_ends (u_cat U) -> usual_delimiters user -> (forall l, Permutation (o_set l) l) -> any_orders O1 -> any_orders O2 ->
  column_of rows1 final1 = ls ++ [l] -> column_of rows2 final2 = ls ++ [l] -> l <> [] ->
  (forall r, In r rows1 -> snd r = e1) -> (forall r, In r rows2 -> snd r = e2) ->
  (forall s, In s (ls ++ [l]) -> balanced_line (u_cat U) user s) ->
  fst (detector_detect (u_cat U) (shipped_url U) (is_known_type U) O1 o_set (column_text rows1 final1) user method skip s) =
  fst (detector_detect (u_cat U) (shipped_url U) (is_known_type U) O2 o_set (column_text rows2 final2) user method skip s).
Proof.
  exact (fun HK HS Ho H1 H2 => detector_lines (u_cat U) (shipped_url U) (is_known_type U) user (shipped_line U HK) HK HS o_set Ho
    O1 O2 method skip s e1 e2 rows1 final1 rows2 final2 ls l H1 H2).
Qed.
Print Assumptions C89_detector.
Example C89_case :
  control_ends ascii_cat /\ usual_delimiters None /\
  column_of sample_lf None = column_of sample_mixed (Some (List.last sample_lines [])) /\
  (forall l, In l (column_of sample_lf None) -> balanced_line ascii_cat None l) /\
  clear_ends sample_lf None /\ clear_ends sample_mixed (Some (List.last sample_lines [])) /\
  column_text sample_lf None <> column_text sample_mixed (Some (List.last sample_lines [])).
Proof. exact sample_case. Qed.
(** Blank lines at the end, and mixed line ends, can change the normal form. *)
Theorem C89_blank_end_refuted : exists ls,
  detect_dialect_normal ascii_cat (column_text (map (fun l => (l, ELF)) ls) None) utf8 None <>
  detect_dialect_normal ascii_cat (column_text (map (fun l => (l, ECRLF)) ls) None) utf8 None.
Proof.
  exact (ex_intro _ [s2l "a,b"; s2l "c,d"; []] (fun E => match eq_trans (eq_sym (proj1 blank_end)) (eq_trans E (proj2 blank_end)) in _ = y
    return match y with Ok None => False | _ => True end with eq_refl => I end)).
Qed.
Print Assumptions C89_blank_end_refuted.
Theorem C89_mixed_ends_refuted : exists rows1 rows2, map fst rows1 = map fst rows2 /\ Forall (fun l => ~ In CR l /\ ~ In LF l /\ l <> []) (map fst rows1) /\
  detect_dialect_normal ascii_cat (column_text rows1 None) utf8 None <> detect_dialect_normal ascii_cat (column_text rows2 None) utf8 None.
Proof. exact mixed_refuted. Qed.
Print Assumptions C89_mixed_ends_refuted.
