(** * PropsNormal: detection with normal forms (C40-C42) *)
From Coq Require Import String.
From Verif Require Import Base Parser Dialect SpecLayout SpecParse Potential SpecPotential PotentialFacts MaskedFacts SpecTies NormalForm SpecNormal
  NormalFacts NormalForms NormalParse NormalParse2 NormalCases.

(** ** C40 *)
Theorem C40_first_fitting_form cat E data ds :
  enc_plain E = true \/ (forall c, In c data -> enc_trip E c = Ok [c]) ->
  Forall (fun d => ~ In d [39; 34]%N) ds ->
  exists r, detect_dialect_normal cat data E (Some (map (fun c => [c]) ds)) = Ok r /\
    (escape_suspect cat ds data -> r = None) /\
    (~ escape_suspect cat ds data -> first_fit (attempts ds) (split_file data) r).
Proof. exact (detect_normal cat E data ds). Qed.
Print Assumptions C40_first_fitting_form.
Theorem C40_default_delimiters cat E data :
  detect_dialect_normal cat data E None =
  detect_dialect_normal cat data E (Some (map (fun c => [c]) [COMMA; SEMI; 124%N; TAB])).
Proof. exact (detect_normal_default cat E data). Qed.
Print Assumptions C40_default_delimiters.
(** What the lines are. *)
Theorem C40_lines data : file_lines data (split_file data).
Proof. exact (split_file_lines data). Qed.
Print Assumptions C40_lines.
Theorem C40_shape cat data E user D :
  detect_dialect_normal cat data E user = Ok (Some D) ->
  exists d q, D = dialect3 d q [] /\ In q [[]; [39%N]; [34%N]] /\
    (d = [] \/ In d (match user with None => [[COMMA]; [SEMI]; [124%N]; [TAB]] | Some l => l end)).
Proof. exact (detect_shape cat data E user D). Qed.
Print Assumptions C40_shape.
(** A user's delimiter of two characters leads to an invalid dialect. *)
Theorem C40_valid_dialect_refuted cat : exists data user D,
  detect_dialect_normal cat data utf8 (Some user) = Ok (Some D) /\ validate D = false.
Proof. exact (ex_intro _ _ (ex_intro _ _ (detect_two_chars cat))). Qed.
Print Assumptions C40_valid_dialect_refuted.
Example C40_case :
  detect_dialect_normal ascii_cat (s2l "a;'b;c'" ++ [LF] ++ s2l "'d';e") utf8 None = Ok (Some (dialect3 [SEMI] [39%N] [])) /\
  detect_dialect_normal ascii_cat (s2l "a\,b" ++ [LF] ++ s2l "c,d") utf8 None = Ok None /\
  detect_dialect_normal ascii_cat (s2l "'a'" ++ [LF] ++ s2l "'b c'") utf8 None = Ok (Some (dialect3 [] [39%N] [])) /\
  detect_dialect_normal ascii_cat (s2l "a" ++ [LF] ++ s2l "b") utf8 None = Ok (Some (dialect3 [] [] [])) /\
  detect_dialect_normal ascii_cat (s2l "a b") utf8 None = Ok None.
Proof. exact mixed_case. Qed.

(** ** C41 *)
Theorem C41_unquoted_form d data lines limit rq :
  char_ok (Some d) = true -> file_lines data lines -> form2 d lines ->
  (Z.of_nat (List.length data) < limit)%Z ->
  exists n table k, 2 <= n /\ lines = map (join [d]) table /\ Forall (fun r => List.length r = n) table /\
    parse_string limit data (dialect3 [d] [] []) rq =
    (mk_rows rq (map (map (fun s => (s, false))) table ++ repeat [] k), None).
Proof. exact (parse_form2 d data lines limit rq). Qed.
Print Assumptions C41_unquoted_form.
Theorem C41_single_column data lines limit rq :
  file_lines data lines -> form4_plain lines -> (Z.of_nat (List.length data) < limit)%Z ->
  exists k, parse_string limit data (dialect3 [] [] []) rq =
    (mk_rows rq (map (fun l => match l with [] => [] | _ => [(l, false)] end) lines ++ repeat [] k), None).
Proof. exact (parse_form4_plain data lines limit rq). Qed.
Print Assumptions C41_single_column.
Example C41_case :
  char_ok (Some COMMA) = true /\ file_lines plain_file (split_file plain_file) /\
  detect_dialect_normal ascii_cat plain_file utf8 None = Ok (Some (dialect3 [COMMA] [] [])) /\
  split_file plain_file = [s2l "a,b c"; s2l ",1/2"] /\
  parse_string 1000 plain_file (dialect3 [COMMA] [] []) false =
    ([[CStr (s2l "a"); CStr (s2l "b c")]; [CStr []; CStr (s2l "1/2")]; []], None).
Proof. exact (conj eq_refl (conj (split_file_lines plain_file) plain_file_case)). Qed.

(** ** C42 *)
(** All cells quoted: a line with a superfluous delimiter has one cell more. *)
Theorem C42_quoted_form d q data lines limit rq :
  char_ok (Some d) = true -> char_ok (Some q) = true -> d <> q -> ~ In NUL data ->
  file_lines data lines -> form1 d q lines -> (Z.of_nat (List.length data) < limit)%Z ->
  exists n table k, 2 <= n /\
    lines = map (fun r : list str * bool => join [d] (map (quoted q) (fst r)) ++ (if snd r then [d] else [])) table /\
    Forall (fun r => List.length (fst r) = n) table /\
    parse_string limit data (dialect3 [d] [q] []) rq =
    (mk_rows rq (map (fun r : list str * bool => map (fun v => (v, true)) (fst r) ++ (if snd r then [([], false)] else [])) table
                 ++ repeat [] k), None).
Proof. exact (parse_form1 d q data lines limit rq). Qed.
Print Assumptions C42_quoted_form.
(** Some cells quoted. *)
Theorem C42_mixed_form d q data lines limit rq :
  char_ok (Some d) = true -> char_ok (Some q) = true -> d <> q -> In q [39; 34]%N -> ~ In NUL data ->
  file_lines data lines -> form3 d q lines -> Forall (tidy_line q) lines ->
  (Z.of_nat (List.length data) < limit)%Z ->
  exists rows k, Forall2 (line_reads d q) lines rows /\ Forall (fun row => 2 <= List.length row) rows /\
    parse_string limit data (dialect3 [d] [q] []) rq = (mk_rows rq (rows ++ repeat [] k), None).
Proof. exact (parse_form3 d q data lines limit rq). Qed.
Print Assumptions C42_mixed_form.
Theorem C42_quoted_column q data lines limit rq : char_ok (Some q) = true -> In q [39; 34]%N ->
  file_lines data lines -> form4 q lines -> (Z.of_nat (List.length data) < limit)%Z ->
  exists ls k, lines = map (quoted q) ls /\
    parse_string limit data (dialect3 [] [q] []) rq =
    (mk_rows rq (map (fun l => [(l, true)]) ls ++ repeat [] k), None).
Proof. exact (parse_form4 q data lines limit rq). Qed.
Print Assumptions C42_quoted_column.
(** Quoted lines: the file is read as a single column. *)
Theorem C42_quoted_lines d q data lines limit rq :
  char_ok (Some d) = true -> char_ok (Some q) = true -> d <> q -> In q [39; 34]%N ->
  file_lines data lines -> form5 d q lines -> (Z.of_nat (List.length data) < limit)%Z ->
  exists ls k, lines = map (quoted q) ls /\
    parse_string limit data (dialect3 [d] [q] []) rq =
    (mk_rows rq (map (fun l => [(l, true)]) ls ++ repeat [] k), None).
Proof. exact (parse_form5 d q data lines limit rq). Qed.
Print Assumptions C42_quoted_lines.
Example C42_case :
  detect_dialect_normal ascii_cat quoted_lines utf8 None = Ok (Some (dialect3 [COMMA] [34%N] [])) /\
  parse_string 1000 quoted_lines (dialect3 [COMMA] [34%N] []) false = ([[CStr (s2l "a,b")]; [CStr (s2l "c,d")]], None).
Proof. exact quoted_lines_case. Qed.
Example C42_hypotheses :
  (form3 COMMA 39 mixed_lines /\ Forall (tidy_line 39) mixed_lines /\
   file_lines (s2l "a,'b,''c'" ++ [LF] ++ s2l "'d',e") mixed_lines) /\
  form1 COMMA 39 (split_file ragged) /\ form2 COMMA (split_file plain_file) /\
  form5 COMMA 34 (split_file quoted_lines) /\ form4 39 [s2l "'a'"; s2l "'b c'"] /\ form4_plain [s2l "a"; []; s2l "b"].
Proof. exact (conj mixed_lines_ok other_forms_ok). Qed.
(** The rows of an accepted file need not have the same length. *)
Theorem C42_rectangular_refuted : exists data D row1 row2,
  detect_dialect_normal ascii_cat data utf8 None = Ok (Some D) /\
  parse_string 1000 data D false = ([row1; row2], None) /\ List.length row1 = 2 /\ List.length row2 = 3.
Proof.
  exact (ex_intro _ ragged (ex_intro _ _ (ex_intro _ _ (ex_intro _ _
    (conj (proj1 ragged_case) (conj (proj2 ragged_case) (conj eq_refl eq_refl))))))).
Qed.
Print Assumptions C42_rectangular_refuted.
(** A quote inside the last cell of a line joins it with the next line. *)
Theorem C42_line_per_row_refuted : exists data D,
  detect_dialect_normal ascii_cat data utf8 None = Ok (Some D) /\
  split_file data = [s2l "a,'b'"; s2l "c,'d'e'"; s2l "f,g"] /\
  List.length (fst (parse_string 1000 data D false)) = 2.
Proof. exact (ex_intro _ nested (ex_intro _ _ nested_case)). Qed.
Print Assumptions C42_line_per_row_refuted.
Theorem C42_rectangular_mixed_refuted : exists data D row1 row2, form3 COMMA 39 (split_file data) /\
  detect_dialect_normal ascii_cat data utf8 None = Ok (Some D) /\
  parse_string 1000 data D false = ([row1; row2], None) /\ List.length row1 = 2 /\ List.length row2 = 3.
Proof.
  exact (ex_intro _ ragged3 (ex_intro _ _ (ex_intro _ _ (ex_intro _ _
    (conj (proj1 ragged3_case) (conj (proj1 (proj2 ragged3_case)) (conj (proj2 (proj2 ragged3_case)) (conj eq_refl eq_refl)))))))).
Qed.
Print Assumptions C42_rectangular_mixed_refuted.
