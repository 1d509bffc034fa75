(** * SpecTables: plain tables and their texts *)
From Coq Require Import String.
From Verif Require Import Base SpecLayout Potential SpecPotential SpecTypes.
Open Scope N_scope.

(** ** What is needed of the Unicode data *)
Definition unicode_like (cat : N -> str) : Prop :=
  sane_categories cat /\
  (forall c, a_letter cat c -> In (cat c) (map s2l ["Lu"; "Ll"; "Lt"; "Lm"; "Lo"]%string)) /\
  (forall c, a_numeral cat c -> In (cat c) (map s2l ["Nd"; "Nl"; "No"]%string)) /\
  (forall c, c < 32 -> cat c = s2l "Cc") /\ (forall c, surrogate c = true -> ~ a_letter cat c /\ ~ a_numeral cat c) /\
  cat 34 = s2l "Po" /\ cat 39 = s2l "Po" /\ cat 40 = s2l "Ps" /\ cat 41 = s2l "Pe" /\ cat 46 = s2l "Po" /\
  cat 85 = s2l "Lu" /\ cat 96 = s2l "Sk" /\ cat 123 = s2l "Ps" /\ cat 126 = s2l "Sm".

(** The delimiters that are tried first, and the ASCII characters among the
    letters and the possible delimiters. *)
Definition common_delimiters : list N := [COMMA; SEMI; 124; TAB].
Definition ascii_like (cat : N -> str) : Prop :=
  (forall x, upper_case x -> a_letter cat x) /\ Forall (default_delimiter cat) common_delimiters.

(** ** Tables without quotes *)
(** rows of [k] cells, which may be empty *)
Definition grid (k : nat) (P : N -> Prop) (table : list (list str)) : Prop :=
  table <> [] /\ (2 <= k)%nat /\ Forall (fun r => List.length r = k /\ Forall (Forall P) r) table.
Definition cell_char (c x : N) : Prop := x <> c /\ ~ In x [NUL; CR; LF; 123] /\ ~ quote_like x /\ surrogate x = false.
(** Delimiters that are proposed for every text in which they occur. *)
Definition plain_delimiter (cat : N -> str) (c : N) : Prop :=
  default_delimiter cat c /\ ~ quote_like c /\ ~ In c (s2l "_~?=&%-#:") /\ c <> NUL /\ surrogate c = false.
(** No possible escape character stands before a possible delimiter. *)
Definition no_escapes (cat : N -> str) (text : str) : Prop :=
  forall u v, before u v text -> escape_like cat u -> ~ default_delimiter cat v.
(** How often [d] occurs in the cells of each row. *)
Definition per_row (d : N) (table : list (list str)) : list nat := map (fun r => list_sum (map (occurrences d) r)) table.
(** Characters that are not found equally often in every row (and, if there are
    only two columns, not in some row at all), or found less often than the
    delimiter, in a table that is not too wide. *)
Definition outdone (k : nat) (counts : list nat) : Prop :=
  (exists a b, In a counts /\ In b counts /\ a <> b /\ ((3 <= k)%nat \/ In 0%nat counts)) \/
  (exists m, (m + 1 < k)%nat /\ (Z.of_nat k <= 2 ^ 20)%Z /\ Forall (eq m) counts).

(** Words and decimal numbers. *)
Definition plain_char (cat : N -> str) (c : N) : Prop := a_letter cat c \/ a_numeral cat c \/ In c (s2l ".()").

(** ** Their texts: every row with its line end, perhaps a last one without *)
Definition table_of {A} (rows : list (list A * eol)) (final : option (list A)) : list (list A) :=
  map fst rows ++ match final with Some r => [r] | None => [] end.
Definition table_text (c : N) (rows : list (list str * eol)) (final : option (list str)) : str :=
  List.concat (map (fun r => join [c] (fst r) ++ render_eol (snd r)) rows) ++
  match final with Some r => join [c] r | None => [] end.
