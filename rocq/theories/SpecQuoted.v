(** * SpecQuoted: tables with quoted cells and their texts *)
From Coq Require Import String.
From Verif Require Import Base CsvLib SpecLayout Potential SpecPotential SpecTypes Types SpecTies SpecNormal SpecTables.
Open Scope N_scope.

(** A cell: is it quoted, and what does it contain? *)
Definition qcell : Type := (bool * str)%type.
Definition cell_text (q : N) (x : qcell) : str := if fst x then q :: snd x ++ [q] else snd x.
Definition quoted_text (c q : N) (rows : list (list qcell * eol)) (final : option (list qcell)) : str :=
  table_text c (map (fun r => (map (cell_text q) (fst r), snd r)) rows) (option_map (map (cell_text q)) final).

(** The double and the single quote. *)
Definition a_quote (q : N) : Prop := q = 34 \/ q = 39.
(** Quoted cells may contain the delimiter. *)
Definition inner_char (x : N) : Prop := ~ In x [NUL; CR; LF; 123] /\ ~ quote_like x /\ surrogate x = false.
Definition qcell_ok (c : N) (x : qcell) : Prop := Forall (if fst x then inner_char else cell_char c) (snd x).
(** rows of [k] cells, at least one of them quoted *)
Definition quoted_grid (k : nat) (P : qcell -> Prop) (table : list (list qcell)) : Prop :=
  (2 <= k)%nat /\ Forall (fun r => List.length r = k /\ Forall P r) table /\
  exists r s, In r table /\ In (true, s) r.

(** White space and lower case leave the quote alone. *)
Definition quote_kept (U : unidata) (q : N) : Prop :=
  u_space U q = false /\ forall s, In q s -> In q (u_lower U s).
(** No possible escape character stands before a possible delimiter or a quote. *)
Definition no_quoted_escapes (cat : N -> str) (q : N) (text : str) : Prop :=
  forall u v, before u v text -> escape_like cat u -> ~ default_delimiter cat v /\ v <> q.

(** How often [d] occurs in the cells of each row, and how often outside quotes. *)
Definition per_row_all (d : N) (table : list (list qcell)) : list nat := per_row d (map (map snd) table).
Definition per_row_bare (d : N) (table : list (list qcell)) : list nat :=
  per_row d (map (map (fun x : qcell => if fst x then [] else snd x)) table).
(** Not equally often in every row; two columns need a bound on the sizes. *)
Definition uneven (k : nat) (counts : list nat) : Prop :=
  exists a b, In a counts /\ In b counts /\ a <> b /\
    ((3 <= k)%nat \/ (Z.of_nat (List.length counts) < 2 ^ 30)%Z /\ Forall (fun m => Z.of_nat (k + m) <= 2 ^ 20)%Z counts).
Definition unquoted_delimiter (c : N) (table : list (list qcell)) : Prop :=
  forall r s, In r table -> In (true, s) r -> ~ In c s.
(** Words and decimal numbers; quoted ones may contain the delimiter if it is a comma. *)
Definition qword (cat : N -> str) (c : N) (x : qcell) : Prop :=
  Forall (fun y => plain_char cat y \/ (fst x = true /\ y = c /\ In c text_commas)) (snd x).

(** ** What a writer quotes *)
Definition has_char (c : N) (s : str) : bool := existsb (N.eqb c) s.
(** A cell is quoted if the style asks for it or if it contains the delimiter. *)
Definition asks_quotes (style : quoting) (v : value) : bool :=
  match style, v with
  | QUOTE_ALL, _ => true
  | QUOTE_NONNUMERIC, VNum _ => false
  | QUOTE_NONNUMERIC, _ => true
  | _, _ => false
  end.
Definition as_written (style : quoting) (c : N) (v : value) : qcell :=
  (asks_quotes style v || has_char c (value_str v), value_str v).
Definition written_text (style : quoting) (c q : N) (e : eol) (table : list (list value)) : str :=
  quoted_text c q (map (fun r => (map (as_written style c) r, e)) table) None.
(** Words, decimal numbers and commas, if that is the delimiter. *)
Definition words_in (cat : N -> str) (c : N) (s : str) : Prop :=
  Forall (fun y => plain_char cat y \/ (y = c /\ In c text_commas)) s.

(** ** Simple form *)
(** Quoted cells contain neither their quote nor line ends; others consist of
    letters, digits and some signs. *)
Definition simple_cell (q : N) (x : qcell) : Prop :=
  Forall (fun y => if fst x then y <> q /\ y <> CR /\ y <> LF else In y elementary) (snd x).
(** rows of [k] cells *)
Definition simple_grid (k : nat) (q : N) (table : list (list qcell)) : Prop :=
  table <> [] /\ (2 <= k)%nat /\ Forall (fun r => List.length r = k /\ Forall (simple_cell q) r) table.
(** All cells quoted, or at least two rows and no empty cell. *)
Definition all_cells (P : qcell -> Prop) (table : list (list qcell)) : Prop := Forall (Forall P) table.
Definition simple_quotes (table : list (list qcell)) : Prop :=
  all_cells (fun x => fst x = true) table \/
  ((2 <= List.length table)%nat /\ all_cells (fun x => snd x <> []) table /\ exists r s, In r table /\ In (true, s) r).
