(** * PropsTables: C69 and C70 *)
From Coq Require Import String Permutation.
From Verif Require Import Base Dialect SpecLayout Potential SpecPotential MaskedFacts Consistency Json Types SpecTypes TypesUrl TypesCases SpecTables TablesFacts TablesCases.
Open Scope N_scope.

(** ** C69 *)
Theorem C69_regular U c k rows final O o_set capacity skip old :
  unicode_like (u_cat U) -> (forall x, digit (u_cat U) x -> u_isdigit U x = true) ->
  plain_delimiter (u_cat U) c -> grid k (cell_char c) (table_of rows final) ->
  (forall r s, In r (table_of rows final) -> In s r -> exists name P, In (name, P) (cell_types (u_cat U) (strip U) (u_ws U) (u_lower U)
     (fun s => exists v, loads (u_maxdigits U) (u_depth U) s = Ok v) false) /\ P (strip U s)) ->
  let text := table_text c rows final in
  no_escapes (u_cat U) text ->
  (forall d, d <> c -> In d text -> default_delimiter (u_cat U) d -> outdone k (per_row d (table_of rows final))) ->
  (Z.of_nat (List.length text) < 2 ^ 50)%Z -> any_orders O -> (forall l, Permutation (o_set l) l) ->
  detect (u_cat U) (shipped_url U) (is_known_type U) O o_set capacity skip text None old = (Ok (Some (dialect3 [c] [] [])), old).
Proof. intros H1 H2 H3 H4 H5 text H6 H7 H8. exact (regular_detected U H1 H2 c k rows final H3 H4 H5 H6 H7 H8 O o_set capacity skip old). Qed.
Print Assumptions C69_regular.
Example C69_case :
  plain_delimiter ascii_cat SEMI /\ grid 3 (cell_char SEMI) (table_of case_rows case_final) /\
  (forall r s, In r (table_of case_rows case_final) -> In s r ->
     exists name P, In (name, P) (cell_types ascii_cat (strip ascii_data) (u_ws ascii_data) (u_lower ascii_data)
       (fun s => exists v, loads (u_maxdigits ascii_data) (u_depth ascii_data) s = Ok v) false) /\ P (strip ascii_data s)) /\
  no_escapes ascii_cat (table_text SEMI case_rows case_final) /\
  (forall d, d <> SEMI -> In d (table_text SEMI case_rows case_final) -> default_delimiter ascii_cat d ->
     outdone 3 (per_row d (table_of case_rows case_final))).
Proof. exact case_meets. Qed.
(** Three regular spaces beat one regular bar. *)
Theorem C69_every_regular_refuted : exists U O o_set capacity skip c rows final d old,
  unicode_like (u_cat U) /\ (forall x, digit (u_cat U) x -> u_isdigit U x = true) /\
  plain_delimiter (u_cat U) c /\ grid 2 (cell_char c) (table_of rows final) /\ no_escapes (u_cat U) (table_text c rows final) /\
  (forall r s, In r (table_of rows final) -> In s r -> exists name P, In (name, P) (cell_types (u_cat U) (strip U) (u_ws U) (u_lower U)
     (fun s => exists v, loads (u_maxdigits U) (u_depth U) s = Ok v) false) /\ P (strip U s)) /\
  any_orders O /\ (forall l, Permutation (o_set l) l) /\ d <> c /\
  detect (u_cat U) (shipped_url U) (is_known_type U) O o_set capacity skip (table_text c rows final) None old =
    (Ok (Some (dialect3 [d] [] [])), old).
Proof. exact regular_lost. Qed.
Print Assumptions C69_every_regular_refuted.

(** ** C70 *)
Theorem C70_words U c k rows final O o_set capacity skip old :
  unicode_like (u_cat U) -> (forall x, digit (u_cat U) x -> u_isdigit U x = true) ->
  plain_delimiter (u_cat U) c -> ~ escape_like (u_cat U) c -> grid k (plain_char (u_cat U)) (table_of rows final) ->
  let text := table_text c rows final in
  (Z.of_nat (List.length text) < 2 ^ 50)%Z -> any_orders O -> (forall l, Permutation (o_set l) l) ->
  detect (u_cat U) (shipped_url U) (is_known_type U) O o_set capacity skip text None old = (Ok (Some (dialect3 [c] [] [])), old).
Proof. intros H1 H2. exact (plain_detected U H1 H2 c k rows final O o_set capacity skip old). Qed.
Print Assumptions C70_words.
Example C70_case :
  let rows := [([s2l "a"; s2l "x1"], ECRLF); ([s2l "b.c"; []], ELF)] in
  unicode_like ascii_cat /\ plain_delimiter ascii_cat COMMA /\ ~ escape_like ascii_cat COMMA /\ grid 2 (plain_char ascii_cat) (table_of rows None) /\
  table_text COMMA rows None = s2l "a,x1" ++ CR :: LF :: s2l "b.c," ++ [LF].
Proof. exact words_meet. Qed.
