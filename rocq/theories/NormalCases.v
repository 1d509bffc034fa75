(** * NormalCases: the shape of the answer and concrete files (C40-C42) *)
From Coq Require Import String.
From Verif Require Import Base Parser Dialect SpecLayout SpecParse Potential SpecPotential PotentialFacts MaskedFacts SpecTies TieRules
  SpecText NormalForm SpecNormal NormalFacts NormalRows NormalForms NormalParse NormalParse2.

Lemma detect_shape cat data E user D :
  detect_dialect_normal cat data E user = Ok (Some D) ->
  exists d q, D = dialect3 d q [] /\ In q [[]; [39%N]; [34%N]] /\
    (d = [] \/ In d (match user with None => [[COMMA]; [SEMI]; [124%N]; [TAB]] | Some l => l end)).
Proof.
  unfold detect_dialect_normal. set (delims := match user with None => DELIMS | Some l => l end).
  change (match user with None => [[COMMA]; [SEMI]; [124%N]; [TAB]] | Some l => l end) with delims.
  destruct (any_escapechar cat data E (list_prod delims QUOTECHARS)) as [[|]|]; cbn [bind]; try discriminate.
  destruct (find (form_test (split_file data)) (forms delims)) as [[[k d] q]|] eqn:F; [|discriminate].
  intros H. injection H as <-. exists d, q. split; [reflexivity|]. apply find_some in F as [F _]. unfold forms in F.
  apply in_app_iff in F as [F|F]; [|apply in_app_iff in F as [F|F]; [|apply in_app_iff in F as [F|F]]].
  - apply in_map_iff in F as (d' & E' & H'). injection E' as _ -> ->. split; [now left|now right].
  - apply in_flat_map in F as ([d' q'] & H1 & H2). apply in_prod_iff in H1 as [H1 H1'].
    assert (K : d = d' /\ q = q') by (destruct H2 as [H2|[H2|[H2|[]]]]; injection H2 as _ -> ->; auto).
    destruct K as [-> ->]. split; [|now right]. destruct H1' as [<-|[<-|[]]]; cbn; auto.
  - destruct F as [F|[F|[]]]; injection F as _ <- <-; cbn; auto.
  - destruct F as [F|[]]; injection F as _ <- <-; cbn; auto.
Qed.
(** A delimiter of two characters. *)
Lemma detect_two_chars cat : exists D, detect_dialect_normal cat (s2l "a::b" ++ [LF] ++ s2l "c::d") utf8 (Some [s2l "::"]) = Ok (Some D) /\
  validate D = false.
Proof. exists (dialect3 (s2l "::") [] []). split; reflexivity. Qed.

(** Overlooked delimiters at the end of a line. *)
Definition ragged : str := s2l "'a','b'" ++ [LF] ++ s2l "'c','d',".
Lemma ragged_case : detect_dialect_normal ascii_cat ragged utf8 None = Ok (Some (dialect3 [COMMA] [39%N] [])) /\
  parse_string 1000 ragged (dialect3 [COMMA] [39%N] []) false =
    ([[CStr (s2l "a"); CStr (s2l "b")]; [CStr (s2l "c"); CStr (s2l "d"); CStr []]], None).
Proof. split; reflexivity. Qed.
(** A quote inside a quoted cell at the end of a line. *)
Definition nested : str := s2l "a,'b'" ++ [LF] ++ s2l "c,'d'e'" ++ [LF] ++ s2l "f,g".
Lemma nested_case : detect_dialect_normal ascii_cat nested utf8 None = Ok (Some (dialect3 [COMMA] [39%N] [])) /\
  split_file nested = [s2l "a,'b'"; s2l "c,'d'e'"; s2l "f,g"] /\
  List.length (fst (parse_string 1000 nested (dialect3 [COMMA] [39%N] []) false)) = 2.
Proof. repeat split; reflexivity. Qed.
(** Quoted lines. *)
Definition quoted_lines : str := s2l """a,b""" ++ [LF] ++ s2l """c,d""".
Lemma quoted_lines_case : detect_dialect_normal ascii_cat quoted_lines utf8 None = Ok (Some (dialect3 [COMMA] [34%N] [])) /\
  parse_string 1000 quoted_lines (dialect3 [COMMA] [34%N] []) false = ([[CStr (s2l "a,b")]; [CStr (s2l "c,d")]], None).
Proof. split; reflexivity. Qed.
Definition plain_file : str := s2l "a,b c" ++ [CR; LF] ++ s2l ",1/2" ++ [CR; LF; LF].
Lemma plain_file_case : detect_dialect_normal ascii_cat plain_file utf8 None = Ok (Some (dialect3 [COMMA] [] [])) /\
  split_file plain_file = [s2l "a,b c"; s2l ",1/2"] /\
  parse_string 1000 plain_file (dialect3 [COMMA] [] []) false =
    ([[CStr (s2l "a"); CStr (s2l "b c")]; [CStr []; CStr (s2l "1/2")]; []], None).
Proof. repeat split; reflexivity. Qed.
Lemma mixed_case :
  detect_dialect_normal ascii_cat (s2l "a;'b;c'" ++ [LF] ++ s2l "'d';e") utf8 None = Ok (Some (dialect3 [SEMI] [39%N] [])) /\
  detect_dialect_normal ascii_cat (s2l "a\,b" ++ [LF] ++ s2l "c,d") utf8 None = Ok None /\
  detect_dialect_normal ascii_cat (s2l "'a'" ++ [LF] ++ s2l "'b c'") utf8 None = Ok (Some (dialect3 [] [39%N] [])) /\
  detect_dialect_normal ascii_cat (s2l "a" ++ [LF] ++ s2l "b") utf8 None = Ok (Some (dialect3 [] [] [])) /\
  detect_dialect_normal ascii_cat (s2l "a b") utf8 None = Ok None.
Proof. repeat split; reflexivity. Qed.
(** Files that meet the hypotheses. *)
Definition mixed_lines : list str := [s2l "a,'b,''c'"; s2l "'d',e"].
Lemma mixed_lines_ok : form3 COMMA 39 mixed_lines /\ Forall (tidy_line 39) mixed_lines /\
  file_lines (s2l "a,'b,''c'" ++ [LF] ++ s2l "'d',e") mixed_lines.
Proof.
  split; [apply form3_spec; [cbn; auto|discriminate|reflexivity]|]. split; [|exact (split_file_lines (s2l "a,'b,''c'" ++ [LF] ++ s2l "'d',e"))].
  repeat constructor; try (apply ins_inside; [discriminate|reflexivity]).
Qed.
Lemma other_forms_ok :
  form1 COMMA 39 (split_file ragged) /\ form2 COMMA (split_file plain_file) /\ form5 COMMA 34 (split_file quoted_lines) /\
  form4 39 [s2l "'a'"; s2l "'b c'"] /\ form4_plain [s2l "a"; []; s2l "b"].
Proof.
  split; [apply form1_spec; [discriminate|reflexivity]|]. split; [apply (form2_spec COMMA []); [now left|reflexivity]|].
  split; [apply form5_spec; [cbn; auto|discriminate|reflexivity]|]. split; [apply form4_spec; reflexivity|apply form4_plain_spec; reflexivity].
Qed.
Definition ragged3 : str := s2l "a,'b'" ++ [LF] ++ s2l "'c',d,".
Lemma ragged3_case : form3 COMMA 39 (split_file ragged3) /\
  detect_dialect_normal ascii_cat ragged3 utf8 None = Ok (Some (dialect3 [COMMA] [39%N] [])) /\
  parse_string 1000 ragged3 (dialect3 [COMMA] [39%N] []) false =
    ([[CStr (s2l "a"); CStr (s2l "b")]; [CStr (s2l "c"); CStr (s2l "d"); CStr []]], None).
Proof. split; [apply form3_spec; [cbn; auto|discriminate|reflexivity]|split; reflexivity]. Qed.
