(** * PropsAbstraction: row patterns (C25, C27-C29) *)
From Coq Require Import String.
From Verif Require Import Base Parser Dialect SpecLayout SpecParse Abstraction SpecAbstraction
  LayoutFacts LayoutTotal ParserProps ParserLift AbstractionFacts FillFacts ShapeFacts.

(** ** C25 *)
(** No access outside an allocation and no read of uninitialised memory, for
    every text, every character and every initial size of the stack. *)
Theorem C25_base_abstraction_memory_safe size delimiter quotechar escapechar s :
  (1 <= size)%nat ->
  exists a, base_abstraction_sized size delimiter quotechar escapechar s = Ok a /\ Forall letter a.
Proof.
  exact (fun H => ex_intro _ _ (conj (base_sized_ok size delimiter quotechar escapechar s H)
                                     (bfun_letters delimiter quotechar escapechar s None false))).
Qed.
Print Assumptions C25_base_abstraction_memory_safe.
Theorem C25_merge_memory_safe s : exists a, c_merge_with_quotechar s = Ok a.
Proof. exact (ex_intro _ _ (merge_ok s)). Qed.
Print Assumptions C25_merge_memory_safe.
(** The initial size of the stack does not matter. *)
Theorem C25_size_irrelevant s1 s2 d q e t : (1 <= s1)%nat -> (1 <= s2)%nat ->
  base_abstraction_sized s1 d q e t = base_abstraction_sized s2 d q e t.
Proof. exact (fun H1 H2 => eq_trans (base_sized_ok s1 d q e t H1) (eq_sym (base_sized_ok s2 d q e t H2))). Qed.
Print Assumptions C25_size_irrelevant.
Example C25_case :
  base_abstraction_sized 1 COMMA DQ BACKSLASH (s2l "a,""b,c"",\,d" ++ [CR; LF]) = Ok (s2l "CDQCDCQDCR") /\
  c_merge_with_quotechar (s2l "QCQDQCQDQCQDQCQDQCQDQQ") = Ok (s2l "CCCDCCCDCCCDCCCDCCCDCC").
Proof. split; reflexivity. Qed.

(** ** C27 *)
Theorem C27_abstraction_is_table_shape D d strict :
  wf_chars D = true -> wf_doc D d = true -> closed d = true -> esc_ok d = true ->
  make_abstraction (render D d) (simple D strict) = Ok (table_shape (denote D d)).
Proof. exact (abstraction_layout D d strict). Qed.
Print Assumptions C27_abstraction_is_table_shape.
(** In terms of the rows the parser returns for the same text. *)
Theorem C27_abstraction_of_parse D d limit rq :
  wf_chars D = true -> wf_doc D d = true -> closed d = true -> esc_ok d = true ->
  Forall (fun s => Z.of_nat (List.length s) <= limit)%Z (raw_cells D d) ->
  make_abstraction (render D d) (simple D false) =
  Ok (table_shape (fst (parse_string limit (render D d) (simple D false) rq))).
Proof.
  exact (fun Hwf Hd Hc He Hl =>
    eq_trans (abstraction_layout D d false Hwf Hd Hc He)
      (f_equal Ok (eq_trans (eq_sym (mk_rows_shape rq (denote D d)))
        (f_equal (fun x => table_shape (fst x)) (eq_sym (parse_string_layout D d limit rq Hwf Hd Hl)))))).
Qed.
Print Assumptions C27_abstraction_of_parse.
Definition ex_doc27 := mk_doc
  [ ([[PChar 97%N]; [PQuoted [QChar 98%N; QQuote; QChar LF; QChar COMMA]]; []], ECRLF);
    ([], ELF);
    ([[PEsc COMMA; PChar 99%N]], ECR) ]
  (TRow [[]; [PChar 101%N]]).
Definition ex_D27 := mk_chars (Some COMMA) (Some DQ) (Some BACKSLASH).
Example C27_case :
  wf_chars ex_D27 = true /\ wf_doc ex_D27 ex_doc27 = true /\ closed ex_doc27 = true /\ esc_ok ex_doc27 = true /\
  table_shape (denote ex_D27 ex_doc27) = s2l "CDCDCRCRCDC".
Proof. repeat split; reflexivity. Qed.
(** The condition on escaped line terminators is needed: the parser keeps such
    a terminator in the cell, the abstraction starts a new row. *)
Theorem C27_escaped_newline_refuted :
  exists D d, wf_chars D = true /\ wf_doc D d = true /\ closed d = true /\
    make_abstraction (render D d) (simple D false) <> Ok (table_shape (denote D d)).
Proof.
  exact escaped_newline_mismatch.
Qed.
Print Assumptions C27_escaped_newline_refuted.

(** ** C28 *)
Theorem C28_fill_empties_canonical s :
  exists a, fill_empties s = Some a /\
    contains [chD; chD] a = false /\ contains [chD; chR] a = false /\ contains [chR; chD] a = false /\
    contains [chC; chC] a = false /\ starts_with [chD] a = false /\ ends_with [chD] a = false /\
    filter (fun c => negb (c =? chC)%N) a = filter (fun c => negb (c =? chC)%N) s /\
    fill_empties a = Some a.
Proof. exact (fill_properties s). Qed.
Print Assumptions C28_fill_empties_canonical.
(** The result in full. *)
Theorem C28_fill_empties_exact s : fill_empties s = Some (canonical s).
Proof. exact (fill_canonical s). Qed.
Print Assumptions C28_fill_empties_exact.
Example C28_case : fill_empties (s2l "DDDRDCCCRRCDR") = Some (s2l "CDCDCDCRCDCRRCDCR").
Proof. reflexivity. Qed.

(** ** C29 *)
Theorem C29_alphabet t D strict :
  exists a, make_abstraction t (simple D strict) = Ok a /\ Forall (fun c => letter c \/ c = NUL) a.
Proof. exact (abstraction_letters t D strict). Qed.
Print Assumptions C29_alphabet.
Theorem C29_closed_quotes D d strict :
  wf_chars D = true -> wf_doc D d = true -> closed d = true -> esc_ok d = true ->
  exists a, make_abstraction (render D d) (simple D strict) = Ok a /\
    Forall (fun c => c = chC \/ c = chD \/ c = chR) a.
Proof.
  exact (fun H1 H2 H3 H4 => ex_intro _ _ (conj (abstraction_layout D d strict H1 H2 H3 H4)
                                               (table_shape_letters (denote D d)))).
Qed.
Print Assumptions C29_closed_quotes.
(** A NUL appears exactly when a quoted segment containing a doubled quote is
    never closed. *)
Theorem C29_nul_exactly D d strict a :
  wf_chars D = true -> wf_doc D d = true -> esc_ok d = true ->
  make_abstraction (render D d) (simple D strict) = Ok a ->
  (In NUL a <->
   match last d with TOpen _ _ l | TOpenEsc _ _ l => In QQuote l | _ => False end).
Proof. exact (abstraction_nul D d strict a). Qed.
Print Assumptions C29_nul_exactly.
Example C29_case :
  make_abstraction (s2l "a,""b""""c") (simple (mk_chars (Some COMMA) (Some DQ) None) false)
  = Ok (s2l "CDQCQ" ++ [NUL] ++ s2l "C") /\
  wf_doc ex_D27 (mk_doc [] (TOpen [[PChar 97%N]] [] [QChar 98%N; QQuote; QChar 99%N])) = true.
Proof. split; [rewrite make_abstraction_simple|]; reflexivity. Qed.
