(** * PropsConsistency: the consistency measure (C30, C32-C36, C44, C45, C55-C58) *)
From Coq Require Import String SpecFloat Permutation.
From Verif Require Import Base Parser Dialect SpecLayout SpecParse Potential SpecPotential MaskedFacts SpecAbstraction
  Floats Ties Consistency SpecConsistency ScoreFacts TypeFacts TieFacts DetectFacts TieMember DetectCases.

(** ** C30 *)
Theorem C30_positive data d P : pattern_score data d = Ok P -> (Z.of_nat (List.length data) < 2 ^ 53)%Z ->
  positive P /\ fleb P (float_of_Z (Z.of_nat (List.length data) + 1)) = true.
Proof. exact (pattern_score_positive data d P). Qed.
Print Assumptions C30_positive.
Theorem C30_never_raises data D strict : exists P, pattern_score data (simple D strict) = Ok P.
Proof. exact (pattern_score_ok data D strict). Qed.
Print Assumptions C30_never_raises.
(** The score is a function of the row lengths of the parsed table. *)
Theorem C30_score_of_table D d strict :
  wf_chars D = true -> wf_doc D d = true -> closed d = true -> esc_ok d = true ->
  pattern_score (render D d) (simple D strict) = Ok (table_score (row_kinds (denote D d))).
Proof. exact (pattern_score_table D d strict). Qed.
Print Assumptions C30_score_of_table.
Theorem C30_uniform_table D d strict k :
  wf_chars D = true -> wf_doc D d = true -> closed d = true -> esc_ok d = true ->
  denote D d <> [] -> k <> 0%nat -> Forall (fun r => List.length r = k) (denote D d) ->
  (Z.of_nat (List.length (denote D d)) <= 2 ^ 53)%Z -> (Z.of_nat k <= 2 ^ 53)%Z ->
  pattern_score (render D d) (simple D strict) = Ok (kind_score (List.length (denote D d)) k).
Proof. exact (pattern_score_uniform D d strict k). Qed.
Print Assumptions C30_uniform_table.
Example C30_case :
  let d := two_rows [] [] in
  wf_chars comma_only = true /\ wf_doc comma_only d = true /\ closed d = true /\ esc_ok d = true /\
  denote comma_only d <> [] /\ Forall (fun r => List.length r = 2) (denote comma_only d) /\
  kind_score 2 2 = float_of_Z 1.
Proof. vm_compute. repeat (split; [first [reflexivity|discriminate|repeat constructor]|]). reflexivity. Qed.

(** ** C32 *)
Theorem C32_scores_any_order cat url known O1 O2 limit capacity skip data user masked c :
  any_orders O1 -> any_orders O2 ->
  bind (get_dialects cat url O1 utf8 data user masked)
    (fun L => compute_consistency_scores known limit capacity skip data L c) =
  bind (get_dialects cat url O2 utf8 data user masked)
    (fun L => compute_consistency_scores known limit capacity skip data L c).
Proof. exact (scores_order cat url known O1 O2 limit capacity skip data user masked c). Qed.
Print Assumptions C32_scores_any_order.
Theorem C32_detect_any_order cat url known O1 O2 o_set capacity skip data user old :
  any_orders O1 -> any_orders O2 ->
  detect cat url known O1 o_set capacity skip data user old =
  detect cat url known O2 o_set capacity skip data user old.
Proof. exact (detect_order cat url known O1 O2 o_set capacity skip data user old). Qed.
Print Assumptions C32_detect_any_order.
Example C32_case : any_orders plain_orders /\ any_orders back_orders /\
  get_dialects ascii_cat no_urls plain_orders utf8 (s2l "a,b;c") None false <>
  get_dialects ascii_cat no_urls back_orders utf8 (s2l "a,b;c") None false.
Proof. exact (conj plain_orders_ok (conj back_orders_ok orders_differ)). Qed.

(** ** C33 *)
Theorem C33_skip_changes_nothing kb limit capacity data dialects :
  ~ In NUL data -> (Z.of_nat (List.length data) < 2 ^ 50)%Z -> (Z.of_nat (List.length data) <= limit)%Z ->
  Forall (fun d => validate d = true /\ sd_strict d = false) dialects ->
  exists m m',
    compute_consistency_scores (total_known kb) limit capacity true data dialects [] = Ok m /\
    compute_consistency_scores (total_known kb) limit capacity false data dialects [] = Ok m' /\
    get_best_dialects m = get_best_dialects m'.
Proof. exact (skip_harmless kb limit capacity data dialects). Qed.
Print Assumptions C33_skip_changes_nothing.
Theorem C33_detect cat url kb O o_set capacity data user old :
  any_orders O -> ~ In NUL data -> (Z.of_nat (List.length data) < 2 ^ 50)%Z ->
  detect cat url (total_known kb) O o_set capacity true data user old =
  detect cat url (total_known kb) O o_set capacity false data user old.
Proof. exact (detect_skip cat url kb O o_set capacity data user old). Qed.
Print Assumptions C33_detect.
(** Here a dialect is skipped and the scores differ. *)
Example C33_case :
  let ds := [dialect3 [COMMA] [] []; dialect3 [SEMI] [] []] in
  Forall (fun d => validate d = true /\ sd_strict d = false) ds /\
  compute_consistency_scores (total_known digits) 100 9 true (s2l "1,2") ds [] <>
  compute_consistency_scores (total_known digits) 100 9 false (s2l "1,2") ds [].
Proof. exact skip_case. Qed.

(** ** C34 *)
Theorem C34_answer cat url kb O o_set capacity skip data user old :
  any_orders O -> (forall x, In x (filter_urls url data) -> surrogate x = false) ->
  (forall l, Permutation (o_set l) l) ->
  ~ In NUL data -> (Z.of_nat (List.length data) < 2 ^ 50)%Z ->
  exists L r, get_dialects cat url O utf8 data user false = Ok L /\
    detect cat url (total_known kb) O o_set capacity skip data user old = (Ok r, old) /\
    match r with Some d => In d L | None => True end.
Proof. exact (detect_answer cat url kb O o_set capacity skip data user old). Qed.
Print Assumptions C34_answer.
Theorem C34_tie_breaker limit data o_set ds :
  (forall l, Permutation (o_set l) l) ->
  Forall (fun d => validate d = true /\ sd_strict d = false) ds ->
  (Z.of_nat (List.length data) <= limit)%Z -> ~ In NUL data ->
  exists r, tie_breaker limit data o_set ds = Ok r /\ match r with Some d => In d ds | None => True end.
Proof. exact (tie_breaker_member limit data o_set ds). Qed.
Print Assumptions C34_tie_breaker.
(** Whatever the type detector does. *)
Theorem C34_answer_is_candidate cat url known O o_set capacity skip data user old d new :
  (forall l, incl (o_set l) l) ->
  detect cat url known O o_set capacity skip data user old = (Ok (Some d), new) ->
  exists L, get_dialects cat url O utf8 data user false = Ok L /\ In d L.
Proof. exact (detect_candidate cat url known O o_set capacity skip data user old d new). Qed.
Print Assumptions C34_answer_is_candidate.
Example C34_case :
  detect ascii_cat no_urls (total_known digits) plain_orders (fun l => l) 9 true tied_text None 131072 =
  (Ok (Some esc_backslash), 131072%Z).
Proof. exact tied_case1. Qed.

(** ** C35 *)
Theorem C35_limit_restored cat url known O o_set capacity skip data user old r new :
  detect cat url known O o_set capacity skip data user old = (Ok r, new) -> new = old.
Proof. exact (detect_limit cat url known O o_set capacity skip data user old (Ok r) new). Qed.
Print Assumptions C35_limit_restored.
Theorem C35_limit_never_hit cat url kb O o_set capacity skip data user old :
  any_orders O -> (forall x, In x (filter_urls url data) -> surrogate x = false) ->
  (forall l, Permutation (o_set l) l) ->
  ~ In NUL data -> (Z.of_nat (List.length data) < 2 ^ 50)%Z ->
  exists r, detect cat url (total_known kb) O o_set capacity skip data user old = (Ok r, old).
Proof. exact (detect_returns cat url kb O o_set capacity skip data user old). Qed.
Print Assumptions C35_limit_never_hit.
(** A NUL character: the exception leaves the limit changed. *)
Theorem C35_limit_leaks cat url kb O o_set capacity skip data user old :
  any_orders O -> (forall x, In x (filter_urls url data) -> surrogate x = false) -> In NUL data ->
  detect cat url (total_known kb) O o_set capacity skip data user old =
  (Err (CleverError ENull), (Z.of_nat (List.length data) + 1)%Z).
Proof. exact (detect_null cat url kb O o_set capacity skip data user old). Qed.
Print Assumptions C35_limit_leaks.
Theorem C35_surrogate cat url known O o_set capacity skip data user old : any_orders O ->
  (exists x, In x (filter_urls url data) /\ 0xD800 <= x /\ x <= 0xDFFF)%N ->
  detect cat url known O o_set capacity skip data user old = (Err UnicodeEncodeError, old).
Proof. exact (detect_lone cat url known O o_set capacity skip data user old). Qed.
Print Assumptions C35_surrogate.
Example C35_case :
  detect ascii_cat no_urls (total_known digits) plain_orders (fun l => l) 9 true [49%N; COMMA; NUL] None 131072 =
  (Err (CleverError ENull), 4%Z).
Proof. exact null_case. Qed.

(** ** C36 *)
Theorem C36_symmetric limit data A B : sd_strict A = sd_strict B -> one_escape A B ->
  break_ties_two limit data A B = break_ties_two limit data B A.
Proof. exact (two_sym limit data A B). Qed.
Print Assumptions C36_symmetric.
Theorem C36_two_escapes_refuted : exists limit data A B,
  break_ties_two limit data A B = Ok (Some B) /\ break_ties_two limit data B A = Ok (Some A) /\ A <> B.
Proof. exact two_escapes_differ. Qed.
Print Assumptions C36_two_escapes_refuted.
Example C36_case :
  break_ties_two 100 escape_text (dialect3 [COMMA] [SQ] []) (dialect3 [COMMA] [] []) =
    Ok (Some (dialect3 [COMMA] [] [])) /\
  break_ties_two 100 escape_text (dialect3 [COMMA] [] []) (dialect3 [COMMA] [SQ] []) =
    Ok (Some (dialect3 [COMMA] [] [])) /\
  one_escape (dialect3 [COMMA] [SQ] []) (dialect3 [COMMA] [] []).
Proof. exact two_order_same. Qed.

(** ** C44 *)
Theorem C44_cache_transparent known capacity c limit data d : reached known capacity c ->
  strip_cache (compute_type_score known limit capacity data d c) = type_score known limit data d.
Proof. exact (cache_transparent known capacity c limit data d). Qed.
Print Assumptions C44_cache_transparent.
Theorem C44_cache_bounded known capacity c : reached known capacity c ->
  (Z.of_nat (List.length c) <= Z.max 0 capacity)%Z.
Proof. exact (reached_length known capacity c). Qed.
Print Assumptions C44_cache_bounded.
Theorem C44_detect_any_capacity cat url known O o_set cap cap' skip data user old :
  detect cat url known O o_set cap skip data user old = detect cat url known O o_set cap' skip data user old.
Proof. exact (detect_capacity cat url known O o_set cap cap' skip data user old). Qed.
Print Assumptions C44_detect_any_capacity.
Example C44_case : exists c, reached (total_known digits) 2 c /\ List.length c = 2.
Proof. exact cache_case. Qed.

(** ** C45 *)
Theorem C45_share kb limit data d : validate d = true -> sd_strict d = false ->
  (Z.of_nat (List.length data) <= limit)%Z -> ~ In NUL data ->
  exists rows, parse_string limit data d true = (mk_rows true rows, None) /\
    type_score (total_known kb) limit data d = Ok (type_share kb (List.concat rows)).
Proof. exact (type_score_share kb limit data d). Qed.
Print Assumptions C45_share.
Theorem C45_bounds kb cells : (Z.of_nat (List.length cells) <= 2 ^ 53)%Z ->
  fleb eps_type (type_share kb cells) = true /\ fleb (type_share kb cells) fone = true /\
  (type_share kb cells = fone <-> cells <> [] /\ forall s q, In (s, q) cells -> kb s q = true).
Proof. exact (share_bounds kb cells). Qed.
Print Assumptions C45_bounds.
Theorem C45_layout kb limit D dc :
  wf_chars D = true -> wf_doc D dc = true ->
  Forall (fun s => Z.of_nat (List.length s) <= limit)%Z (raw_cells D dc) ->
  type_score (total_known kb) limit (render D dc) (simple D false) = Ok (type_share kb (List.concat (denote D dc))).
Proof. exact (type_score_layout kb limit D dc). Qed.
Print Assumptions C45_layout.
Example C45_case :
  type_score (total_known digits) 100 (s2l "1,2,a,4") (dialect3 [COMMA] [] []) =
  Ok (fdiv (float_of_Z 3) (float_of_Z 4)).
Proof. exact share_case. Qed.

(** ** C55 *)
Theorem C55_three_quotes limit data o_set d e qa qb qc pA pB pC :
  (forall l, Permutation (o_set l) l) -> qa <> qb -> qb <> qc -> qa <> qc ->
  parse_string limit data (dialect3 d qa e) false = (pA, None) ->
  parse_string limit data (dialect3 d qb e) false = (pB, None) ->
  parse_string limit data (dialect3 d qc e) false = (pC, None) ->
  exists r, break_ties_three limit data o_set (dialect3 d qa e) (dialect3 d qb e) (dialect3 d qc e) = Ok r /\
    (r <> None <-> pA = pB /\ pB = pC /\ In [] [qa; qb; qc]) /\
    (r <> None -> r = Some (dialect3 d [] e)).
Proof. exact (three_quotes limit data o_set d e qa qb qc pA pB pC). Qed.
Print Assumptions C55_three_quotes.
(** The documented rule: break the tie between the dialect without quotes and
    another one with the same parsing result. *)
Theorem C55_documented_rule_refuted : exists limit data A B C,
  sd_quotechar A = Some [] /\
  parse_string limit data A false = parse_string limit data B false /\
  break_ties_two limit data A B = Ok (Some A) /\
  break_ties_three limit data (fun l => l) A B C = Ok None /\
  sd_delimiter A = sd_delimiter B /\ sd_delimiter B = sd_delimiter C /\
  sd_escapechar A = sd_escapechar B /\ sd_escapechar B = sd_escapechar C.
Proof. exact three_rule_refuted. Qed.
Print Assumptions C55_documented_rule_refuted.
Example C55_case :
  break_ties_three 100 (s2l "a,b") (fun l => l) (dialect3 [COMMA] [] []) (dialect3 [COMMA] [SQ] []) (dialect3 [COMMA] [DQ] []) =
  Ok (Some (dialect3 [COMMA] [] [])).
Proof. exact three_case. Qed.

(** ** C56 *)
Theorem C56_blank_lines D d1 d2 strict : wf_chars D = true ->
  wf_doc D d1 = true -> closed d1 = true -> esc_ok d1 = true ->
  wf_doc D d2 = true -> closed d2 = true -> esc_ok d2 = true ->
  full_lengths (denote D d1) = full_lengths (denote D d2) ->
  leading_blank (denote D d1) = leading_blank (denote D d2) ->
  pattern_score (render D d1) (simple D strict) = pattern_score (render D d2) (simple D strict).
Proof. exact (blank_lines D d1 d2 strict). Qed.
Print Assumptions C56_blank_lines.
Theorem C56_leading_blank_line_refuted : exists data d,
  pattern_score (LF :: data) d <> pattern_score data d /\ pattern_score (data ++ [LF]) d = pattern_score data d.
Proof. exact leading_matters. Qed.
Print Assumptions C56_leading_blank_line_refuted.
Example C56_case :
  let d1 := two_rows [] [] in let d2 := two_rows [] [([], ELF); ([], ECR)] in
  wf_chars comma_only = true /\ wf_doc comma_only d1 = true /\ closed d1 = true /\ esc_ok d1 = true /\
  wf_doc comma_only d2 = true /\ closed d2 = true /\ esc_ok d2 = true /\
  full_lengths (denote comma_only d1) = full_lengths (denote comma_only d2) /\
  leading_blank (denote comma_only d1) = leading_blank (denote comma_only d2).
Proof. exact blank_case. Qed.

(** ** C57 *)
Theorem C57_one_escape_any_order cat url kb O1 O2 o1 o2 capacity skip data user old :
  any_orders O1 -> any_orders O2 ->
  (forall l, Permutation (o1 l) l) -> (forall l, Permutation (o2 l) l) ->
  ~ In NUL data -> (Z.of_nat (List.length data) < 2 ^ 50)%Z ->
  (forall L d e, get_dialects cat url O1 utf8 data user false = Ok L -> In d L -> In e L -> one_escape d e) ->
  detect cat url (total_known kb) O1 o1 capacity skip data user old =
  detect cat url (total_known kb) O2 o2 capacity skip data user old.
Proof. exact (detect_any_order cat url kb O1 O2 o1 o2 capacity skip data user old). Qed.
Print Assumptions C57_one_escape_any_order.
Theorem C57_hash_order_refuted :
  exists cat url kb O o1 o2 data d1 d2,
    any_orders O /\ (forall l, Permutation (o1 l) l) /\ (forall l, Permutation (o2 l) l) /\ d1 <> d2 /\
    detect_dialect_consistency cat url (total_known kb) O o1 data None true 131072 = (Ok (Some d1), 131072%Z) /\
    detect_dialect_consistency cat url (total_known kb) O o2 data None true 131072 = (Ok (Some d2), 131072%Z).
Proof. exact hash_order_matters. Qed.
Print Assumptions C57_hash_order_refuted.
Example C57_case : exists L,
  get_dialects ascii_cat no_urls plain_orders utf8 (s2l "a,'b\'c'") None false = Ok L /\ List.length L = 9 /\
  forall d e, In d L -> In e L -> one_escape d e.
Proof. exact one_escape_case. Qed.

(** ** C58 *)
Theorem C58_highest_score cat url kb O o_set capacity skip data user old :
  any_orders O -> (forall x, In x (filter_urls url data) -> surrogate x = false) ->
  (forall l, Permutation (o_set l) l) ->
  ~ In NUL data -> (Z.of_nat (List.length data) < 2 ^ 50)%Z ->
  let limit := (Z.of_nat (List.length data) + 1)%Z in
  exists L Q best r, get_dialects cat url O utf8 data user false = Ok L /\
    (forall k, In k L -> has_score (total_known kb) limit data k (Q k)) /\
    NoDup best /\ best <> [] /\
    (forall k, In k best <-> In k L /\ forall k', In k' L -> fleb (Q k') (Q k) = true) /\
    detect cat url (total_known kb) O o_set capacity skip data user old = (Ok r, old) /\
    match best with [d] => r = Some d | _ => tie_breaker limit data o_set best = Ok r end /\
    match r with Some d => In d best | None => True end.
Proof. exact (detect_best cat url kb O o_set capacity skip data user old). Qed.
Print Assumptions C58_highest_score.
Example C58_case :
  detect ascii_cat no_urls (total_known digits) plain_orders (fun l => l) 9 true (s2l "1;2;3") None 131072 =
  (Ok (Some (dialect3 [SEMI] [] [])), 131072%Z).
Proof. exact semicolon_case. Qed.
