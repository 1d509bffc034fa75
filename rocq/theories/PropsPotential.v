(** * PropsPotential: candidate dialects and their order (C31, C37-C39) *)
From Coq Require Import String Permutation Sorted.
From Verif Require Import Base Parser Dialect Potential SpecPotential PotentialFacts MaskedFacts.

(** ** C31 *)
Theorem C31_trichotomy a b : defined a -> defined b ->
  (dlt a b /\ a <> b /\ dialect_ltb b a = Ok false) \/
  (dialect_ltb a b = Ok false /\ a = b /\ dialect_ltb b a = Ok false) \/
  (dialect_ltb a b = Ok false /\ a <> b /\ dlt b a).
Proof. exact (dialect_trichotomy a b). Qed.
Print Assumptions C31_trichotomy.
Theorem C31_transitive a b c : defined a -> defined b -> defined c -> dlt a b -> dlt b c -> dlt a c.
Proof. exact (dialect_trans a b c). Qed.
Print Assumptions C31_transitive.
Theorem C31_equality a b : dialect_eqb a b = true <-> a = b.
Proof. exact (eqb_eq a b). Qed.
Print Assumptions C31_equality.
Theorem C31_comma_first a b :
  sd_delimiter a = Some [COMMA] -> sd_delimiter b <> Some [COMMA] -> dlt a b.
Proof. exact (comma_first a b). Qed.
Print Assumptions C31_comma_first.
Theorem C31_semicolon_second a b : sd_delimiter a = Some [SEMI] ->
  sd_delimiter b <> Some [COMMA] -> sd_delimiter b <> Some [SEMI] -> dlt a b.
Proof. exact (semicolon_second a b). Qed.
Print Assumptions C31_semicolon_second.
Theorem C31_derived_comparisons a b : defined a -> defined b ->
  dialect_leb a b = Ok (match dialect_ltb b a with Ok x => negb x | Err _ => false end) /\
  dialect_gtb a b = dialect_ltb b a /\ dialect_geb a b = dialect_leb b a.
Proof. exact (derived_orders a b). Qed.
Print Assumptions C31_derived_comparisons.
(** Sorting: the result is the only ordered arrangement, whatever the order of
    the input. *)
Theorem C31_sorted l r : Forall defined l ->
  py_sorted l = Ok r <-> Permutation r l /\ StronglySorted (fun a b => ~ dlt b a) r.
Proof. exact (sorted_characterised l r). Qed.
Print Assumptions C31_sorted.
Theorem C31_sorted_any_arrangement l l' : Forall defined l -> Permutation l' l ->
  py_sorted l' = py_sorted l.
Proof. exact (sorted_perm l l'). Qed.
Print Assumptions C31_sorted_any_arrangement.
Example C31_case :
  py_sorted [dialect3 [TAB] [] []; dialect3 [SEMI] [DQ] []; dialect3 [] [] []; dialect3 [COMMA] [SQ] [];
             dialect3 [COMMA] [DQ] [BACKSLASH]; dialect3 [COMMA] [DQ] []] =
  Ok [dialect3 [COMMA] [DQ] []; dialect3 [COMMA] [DQ] [BACKSLASH]; dialect3 [COMMA] [SQ] [];
      dialect3 [SEMI] [DQ] []; dialect3 [] [] []; dialect3 [TAB] [] []].
Proof. reflexivity. Qed.
(** With an undefined attribute the comparison can fail. *)
Theorem C31_undefined_refuted : exists a b, dialect_ltb a b = Err TypeError.
Proof. exact (ex_intro _ _ (ex_intro _ _ none_incomparable)). Qed.
Print Assumptions C31_undefined_refuted.

(** ** C37 *)
Theorem C37_candidates cat url O data user masked : any_orders O ->
  (forall x, In x (filter_urls url data) -> surrogate x = false) ->
  exists L, get_dialects cat url O utf8 data user masked = Ok L /\ NoDup L /\
    forall D, In D L <-> exists d q e, D = dialect3 d q e /\
      candidate cat user (filter_urls url data) data d q e /\
      (masked && masked_by_quotechar data q e d = false).
Proof. exact (get_dialects_utf8 cat url O data user masked). Qed.
Print Assumptions C37_candidates.
(** The same for every encoding that can represent the text. *)
Theorem C37_candidates_encoding cat url O E data user masked : any_orders O ->
  (forall x, In x (filter_urls url data) -> enc_trip E x = Ok [x]) ->
  (enc_plain E = true \/ forall x, In x data -> enc_trip E x = Ok [x]) ->
  exists L, get_dialects cat url O E data user masked = Ok L /\ NoDup L /\
    forall D, In D L <-> exists d q e, D = dialect3 d q e /\
      candidate cat user (filter_urls url data) data d q e /\
      (masked && masked_by_quotechar data q e d = false).
Proof. exact (get_dialects_ok cat url O E data user masked). Qed.
Print Assumptions C37_candidates_encoding.
Theorem C37_empty_triple cat user text data : candidate cat user text data [] [] [].
Proof. exact (empty_candidate cat user text data). Qed.
Print Assumptions C37_empty_triple.
(** A lone surrogate in the text makes the function raise. *)
Theorem C37_lone_surrogate cat url O data user masked : any_orders O ->
  (exists x, In x (filter_urls url data) /\ 0xD800 <= x /\ x <= 0xDFFF)%N ->
  get_dialects cat url O utf8 data user masked = Err UnicodeEncodeError.
Proof. exact (get_dialects_lone cat url O data user masked). Qed.
Print Assumptions C37_lone_surrogate.
Example C37_case : any_orders plain_orders /\ any_orders back_orders /\
  get_dialects ascii_cat no_urls plain_orders utf8 (s2l "a,'b\'c',1") None false =
  Ok [dialect3 [BACKSLASH] [SQ] []; dialect3 [BACKSLASH] [SQ] [BACKSLASH]; dialect3 [BACKSLASH] [] [];
      dialect3 [COMMA] [SQ] []; dialect3 [COMMA] [SQ] [BACKSLASH]; dialect3 [COMMA] [] [];
      dialect3 [] [SQ] []; dialect3 [] [SQ] [BACKSLASH]; dialect3 [] [] []].
Proof. exact (conj plain_orders_ok (conj back_orders_ok get_dialects_case)). Qed.

(** ** C38 *)
Theorem C38_url_filter url data : url_sub data (filter_urls url data).
Proof. exact (filter_urls_sub url data). Qed.
Print Assumptions C38_url_filter.
Theorem C38_candidates_occur cat url user data d q e :
  candidate cat user (filter_urls url data) data d q e -> cat 85%N = s2l "Lu" ->
  (forall c, q = [c] -> In c data) /\ (forall c, e = [c] -> In c data) /\
  (forall c, d = [c] -> In c data \/ (c = 85%N /\ exists l, user = Some l /\ In [85%N] l)).
Proof. exact (candidate_occurs cat url user data d q e). Qed.
Print Assumptions C38_candidates_occur.
(** Whatever the URL pattern is, if it matches "a.io". *)
Theorem C38_placeholder_refuted cat url O : any_orders O -> url [] (s2l "a.io") = Some 4 ->
  exists L, get_dialects cat url O utf8 (s2l "a.io") (Some [s2l "U"]) false = Ok L /\
    In (dialect3 (s2l "U") [] []) L.
Proof. exact (url_placeholder cat url O). Qed.
Print Assumptions C38_placeholder_refuted.
Example C38_case :
  candidate ascii_cat None (filter_urls no_urls (s2l "a;b")) (s2l "a;b") [SEMI] [] [] /\
  ascii_cat 85%N = s2l "Lu".
Proof.
  exact (conj (conj (or_intror (ex_intro _ SEMI (conj eq_refl (conj (or_intror (or_introl eq_refl))
    (proj1 (delimiter_ok_spec ascii_cat None SEMI) eq_refl)))))
    (conj (or_introl eq_refl) (or_introl eq_refl))) eq_refl).
Qed.

(** ** C39 *)
Theorem C39_exact_without_escape data q e t : t <> q -> (forall c, e = [c] -> ~ In c data \/ c = q) ->
  masked_by_quotechar data [q] e [t] = true <-> always_inside q t data.
Proof. exact (masked_exact data q e t). Qed.
Print Assumptions C39_exact_without_escape.
Theorem C39_no_quote_character data e t : masked_by_quotechar data [] e [t] = true <-> ~ In t data.
Proof. exact (masked_no_quote data e t). Qed.
Print Assumptions C39_no_quote_character.
Theorem C39_empty_delimiter data q e : masked_by_quotechar data q e [] = false.
Proof. exact eq_refl. Qed.
Print Assumptions C39_empty_delimiter.
(** From the first escape character on, the quotes are ignored. *)
Theorem C39_after_escape pre post q e t : t <> q -> e <> q -> e <> t -> ~ In e pre ->
  masked_by_quotechar (pre ++ e :: post) [q] [e] [t] = true <->
  always_inside q t pre /\ (Nat.odd (occurrences q pre) = true \/ ~ In t post).
Proof. exact (masked_after_escape pre post q e t). Qed.
Print Assumptions C39_after_escape.
Theorem C39_wrong_after_escape_refuted : exists data q e t k,
  masked_by_quotechar data [q] [e] [t] = true /\ nth_error data k = Some t /\ ~ inside q data k /\
  parse_string 1000 data (dialect3 [t] [q] [e]) false = ([[CStr (s2l "a\nb"); CStr (s2l "c")]], None).
Proof. exact (ex_intro _ _ (ex_intro _ _ (ex_intro _ _ (ex_intro _ _ (ex_intro _ _ masked_wrong))))). Qed.
Print Assumptions C39_wrong_after_escape_refuted.
Example C39_case :
  masked_by_quotechar (s2l "a'b,''c',d") [SQ] [] [COMMA] = false /\
  masked_by_quotechar (s2l "a'b,''c,'d") [SQ] [BACKSLASH] [COMMA] = true.
Proof. split; reflexivity. Qed.
