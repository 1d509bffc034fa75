(** * PropsTies: the rules for breaking a tie between two dialects (C59, C60) *)
From Coq Require Import String Permutation.
From Verif Require Import Base Parser Dialect SpecParse Ties TieFacts SpecConsistency SpecTies TieRules TieMore TieCases.

(** ** C59: dialects that differ only in the quote character *)
Theorem C59_quote_rule limit data d e q X Y : q <> [] ->
  parse_string limit data (dialect3 d [] e) false = (X, None) ->
  parse_string limit data (dialect3 d q e) false = (Y, None) ->
  exists r, break_ties_two limit data (dialect3 d [] e) (dialect3 d q e) = Ok (Some r) /\
    (X = Y -> r = dialect3 d [] e) /\ (X <> Y -> r = dialect3 d q e).
Proof. exact (rule_quote limit data d e q X Y). Qed.
Print Assumptions C59_quote_rule.
Example C59_quote_case_same :
  break_ties_two 100 (s2l "a,b~c") (dialect3 [COMMA] [] []) (dialect3 [COMMA] [126%N] []) = Ok (Some (dialect3 [COMMA] [] [])).
Proof. exact quote_case_same. Qed.
Example C59_quote_case_differ :
  break_ties_two 100 (s2l "a,~b~") (dialect3 [COMMA] [] []) (dialect3 [COMMA] [126%N] []) = Ok (Some (dialect3 [COMMA] [126%N] [])).
Proof. exact quote_case_differ. Qed.
Theorem C59_two_quotes limit data d e q q' : q <> q' -> q <> [] -> q' <> [] ->
  break_ties_two limit data (dialect3 d q e) (dialect3 d q' e) = Ok None.
Proof. exact (rule_two_quotes limit data d e q q'). Qed.
Print Assumptions C59_two_quotes.

(** ** C59: dialects that differ only in the delimiter *)
Theorem C59_comma_over_space limit data q e :
  break_ties_two limit data (dialect3 [COMMA] q e) (dialect3 [SPACE] q e) = Ok (Some (dialect3 [COMMA] q e)).
Proof. exact (rule_comma_space limit data q e). Qed.
Print Assumptions C59_comma_over_space.
Theorem C59_hyphen_loses limit data q e d : d <> [45%N] ->
  break_ties_two limit data (dialect3 d q e) (dialect3 [45%N] q e) = Ok (Some (dialect3 d q e)).
Proof. exact (rule_hyphen limit data q e d). Qed.
Print Assumptions C59_hyphen_loses.
Theorem C59_other_delimiters limit data q e d d' : d <> d' -> d <> [45%N] -> d' <> [45%N] ->
  ~ (d = [COMMA] /\ d' = [SPACE]) -> ~ (d = [SPACE] /\ d' = [COMMA]) ->
  break_ties_two limit data (dialect3 d q e) (dialect3 d' q e) = Ok None.
Proof. exact (rule_other_delims limit data q e d d'). Qed.
Print Assumptions C59_other_delimiters.

(** ** C59: dialects that differ only in the escape character *)
Theorem C59_escape_no_effect limit data d q c X : c <> [] ->
  parse_string limit data (dialect3 d q []) false = (X, None) ->
  parse_string limit data (dialect3 d q c) false = (X, None) ->
  break_ties_two limit data (dialect3 d q []) (dialect3 d q c) = Ok None.
Proof. exact (rule_escape_equal limit data d q c X). Qed.
Print Assumptions C59_escape_no_effect.
Theorem C59_escape_shape limit data d q c X Y : c <> [] ->
  parse_string limit data (dialect3 d q []) false = (X, None) ->
  parse_string limit data (dialect3 d q c) false = (Y, None) -> shape_of X <> shape_of Y ->
  break_ties_two limit data (dialect3 d q []) (dialect3 d q c) = Ok None.
Proof. exact (rule_escape_shape limit data d q c X Y). Qed.
Print Assumptions C59_escape_shape.
(** The first cell that differs decides. *)
Theorem C59_escape_rule limit data d q c X Y t v :
  parse_string limit data (dialect3 d [q] []) false = (X, None) ->
  parse_string limit data (dialect3 d [q] [c]) false = (Y, None) -> shape_of X = shape_of Y ->
  first_difference X Y (CStr t) v ->
  break_ties_two limit data (dialect3 d [q] []) (dialect3 d [q] [c]) =
  Ok (Some (if Nat.ltb 0 (adjacent c q t) && Nat.even (adjacent c q t)
            then dialect3 d [q] [c] else dialect3 d [q] [])).
Proof. exact (rule_escape limit data d q c X Y t v). Qed.
Print Assumptions C59_escape_rule.
(** Two tables of the same shape are equal or have a first difference. *)
Theorem C59_escape_exhaustive X Y : shape_of X = shape_of Y -> X <> Y -> exists u v, first_difference X Y u v.
Proof. exact (first_difference_exists X Y). Qed.
Print Assumptions C59_escape_exhaustive.
(** The comment in the code asks for an even count "within each offending
    cell": here the second offending cell has one escaped quote (and the shapes
    agree all the same), and the dialect with the escape character wins. *)
Theorem C59_each_cell_refuted : exists limit data d q c X Y,
  parse_string limit data (dialect3 d [q] []) false = (X, None) /\
  parse_string limit data (dialect3 d [q] [c]) false = (Y, None) /\ shape_of X = shape_of Y /\
  (exists k t v, nth_error (List.concat X) k = Some (CStr t) /\ nth_error (List.concat Y) k = Some v /\ CStr t <> v /\
     adjacent c q t = 1%nat) /\
  break_ties_two limit data (dialect3 d [q] []) (dialect3 d [q] [c]) = Ok (Some (dialect3 d [q] [c])).
Proof. exact each_cell_refuted. Qed.
Print Assumptions C59_each_cell_refuted.
(** Swapping two columns changes the answer. *)
Theorem C59_column_order_refuted : exists limit a b d q c,
  break_ties_two limit (a ++ d ++ b) (dialect3 d [q] []) (dialect3 d [q] [c]) = Ok (Some (dialect3 d [q] [c])) /\
  break_ties_two limit (b ++ d ++ a) (dialect3 d [q] []) (dialect3 d [q] [c]) = Ok (Some (dialect3 d [q] [])).
Proof. exact column_order_refuted. Qed.
Print Assumptions C59_column_order_refuted.

(** ** C59: dialects that differ in quote and escape character *)
Theorem C59_both_rule limit data d q e X Y : q <> [] -> e <> [] ->
  parse_string limit data (dialect3 d [] []) false = (X, None) ->
  parse_string limit data (dialect3 d q e) false = (Y, None) ->
  exists r, break_ties_two limit data (dialect3 d [] []) (dialect3 d q e) = Ok r /\
    (shape_of X = shape_of Y /\ differences_contain (e ++ q) X Y -> r = Some (dialect3 d q e)) /\
    (~ (shape_of X = shape_of Y /\ differences_contain (e ++ q) X Y) -> r = None).
Proof. exact (rule_both limit data d q e X Y). Qed.
Print Assumptions C59_both_rule.
Example C59_both_case_yes :
  break_ties_two 100 (s2l "Jill\'s,2") (dialect3 [COMMA] [] []) (dialect3 [COMMA] [39%N] [92%N]) =
  Ok (Some (dialect3 [COMMA] [39%N] [92%N])).
Proof. exact both_case_yes. Qed.
Example C59_both_case_no :
  break_ties_two 100 (s2l "'a',b\'c") (dialect3 [COMMA] [] []) (dialect3 [COMMA] [39%N] [92%N]) = Ok None.
Proof. exact both_case_no. Qed.
(** Dialects that differ in the delimiter and in something else are never separated. *)
Theorem C59_otherwise limit data d q e d' q' e' : d <> d' -> (q, e) <> (q', e') ->
  break_ties_two limit data (dialect3 d q e) (dialect3 d' q' e') = Ok None.
Proof. exact (rule_otherwise limit data d q e d' q' e'). Qed.
Print Assumptions C59_otherwise.
Theorem C59_otherwise_same_delimiter limit data d q e q' e' : q <> q' -> e <> e' ->
  (q, e) <> ([], []) -> (q', e') <> ([], []) ->
  break_ties_two limit data (dialect3 d q e) (dialect3 d q' e') = Ok None.
Proof. exact (rule_otherwise_same limit data d q e q' e'). Qed.
Print Assumptions C59_otherwise_same_delimiter.

(** ** C60 *)
Theorem C60_number limit data o_set ds : (List.length ds < 2 \/ 4 < List.length ds)%nat ->
  tie_breaker limit data o_set ds = Ok None.
Proof. exact (five_or_more limit data o_set ds). Qed.
Print Assumptions C60_number.
Theorem C60_three_delimiters limit data o_set a b c :
  ~ (sd_delimiter a = sd_delimiter b /\ sd_delimiter a = sd_delimiter c) ->
  tie_breaker limit data o_set [a; b; c] = Ok None.
Proof. exact (three_delims limit data o_set a b c). Qed.
Print Assumptions C60_three_delimiters.
(** Three dialects with different escape characters: if exactly two of them
    have a quote character, the tie between these two is broken. *)
Theorem C60_three_escapes limit data o_set d q1 e1 q2 e2 q3 e3 : ~ (e1 = e2 /\ e2 = e3) ->
  let with_quote := filter (fun x => negb (str_eqb (fst x) [])) [(q1, e1); (q2, e2); (q3, e3)] in
  tie_breaker limit data o_set [dialect3 d q1 e1; dialect3 d q2 e2; dialect3 d q3 e3] =
  match with_quote with
  | [(q, e); (q', e')] => break_ties_two limit data (dialect3 d q e) (dialect3 d q' e')
  | _ => Ok None
  end.
Proof. exact (three_escapes limit data o_set d q1 e1 q2 e2 q3 e3). Qed.
Print Assumptions C60_three_escapes.
Example C60_three_case :
  tie_breaker 100 (s2l "a\'b\'c,x") (fun l => l)
    [dialect3 [COMMA] [39%N] []; dialect3 [COMMA] [39%N] [92%N]; dialect3 [COMMA] [] []] =
  Ok (Some (dialect3 [COMMA] [39%N] [92%N])).
Proof. exact three_escapes_case. Qed.
Theorem C60_four_delimiters limit data o_set a b c d :
  ~ (sd_delimiter a = sd_delimiter b /\ sd_delimiter a = sd_delimiter c /\ sd_delimiter a = sd_delimiter d) ->
  tie_breaker limit data o_set [a; b; c; d] = Ok None.
Proof. exact (four_delims limit data o_set a b c d). Qed.
Print Assumptions C60_four_delimiters.
(** Four dialects with one delimiter: [R] has the winners between neighbours
    with equal parses and the dialects without such a neighbour. *)
Theorem C60_four limit data o_set d T : (forall l, Permutation (o_set l) l) -> List.length T = 4%nat ->
  let ds := map (fun '(q, e) => dialect3 d q e) T in
  (forall x, In x ds -> exists X, parse_string limit data x false = (X, None)) ->
  exists R, NoDup R /\
    (forall x, In x R <->
      (exists a b, twins limit data ds a b /\ break_ties_two limit data a b = Ok (Some x)) \/
      (In x ds /\ forall a b, twins limit data ds a b -> x <> a /\ x <> b)) /\
    tie_breaker limit data o_set ds =
    match R with
    | [x] => Ok (Some x)
    | [x; y] => break_ties_two limit data x y
    | [x; y; z] => break_ties_three limit data o_set x y z
    | _ => Ok None
    end.
Proof. exact (fun Hp => four_rule limit data o_set Hp d T). Qed.
Print Assumptions C60_four.
Example C60_four_case :
  tie_breaker 100 (s2l "a,b") (fun l => l)
    [dialect3 [COMMA] [39%N] []; dialect3 [COMMA] [] []; dialect3 [COMMA] [DQ] []; dialect3 [COMMA] [126%N] []] =
  Ok (Some (dialect3 [COMMA] [] [])).
Proof. exact four_case. Qed.
