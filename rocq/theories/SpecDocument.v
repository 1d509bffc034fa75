(** * SpecDocument: files in simple form *)
From Coq Require Import String.
From Verif Require Import Base SpecLayout Potential SpecPotential SpecNormal SpecTables SpecQuoted SpecColumn.
Open Scope N_scope.

(** A text, its delimiter and quote character (perhaps none) and its cells. *)
Inductive document (cat : N -> str) : str -> str -> str -> list (list str) -> Prop :=
| bare_table c k rows final e :
    In c common_delimiters -> table_of rows final <> [] -> (2 <= k)%nat ->
    Forall (fun r => List.length r = k /\ Forall (over elementary) r) (table_of rows final) ->
    (forall r, In r rows -> snd r = e) -> ~ escape_suspect cat common_delimiters (table_text c rows final) ->
    document cat (table_text c rows final) [c] [] (table_of rows final)
| quoted_table c q k rows final e :
    a_quote q -> In c common_delimiters -> simple_grid k q (table_of rows final) -> simple_quotes (table_of rows final) ->
    all_cells (fun x => ~ In NUL (snd x)) (table_of rows final) ->
    (forall r, In r rows -> snd r = e) -> ~ escape_suspect cat common_delimiters (quoted_text c q rows final) ->
    document cat (quoted_text c q rows final) [c] [q] (map (map snd) (table_of rows final))
| bare_lines rows final e :
    (2 <= List.length (column_of rows final))%nat -> (forall r, In r rows -> snd r = e) ->
    (forall s, In s (column_of rows final) -> s <> [] /\ over word s) ->
    document cat (column_text rows final) [] [] (map (fun s => [s]) (column_of rows final))
| quoted_lines q rows final e :
    a_quote q -> (2 <= List.length (column_of rows final))%nat -> (forall r, In r rows -> snd r = e) ->
    (forall s, In s (column_of rows final) -> over (SPACE :: word) s) ->
    ~ escape_suspect cat common_delimiters (quoted_column q rows final) ->
    document cat (quoted_column q rows final) [] [q] (map (fun s => [s]) (column_of rows final)).

(** Every cell, with two quotes added, fits the limit. *)
Definition cells_fit (limit : Z) (cells : list (list str)) : Prop :=
  forall r s, In r cells -> In s r -> (Z.of_nat (List.length s) + 2 <= limit)%Z.
(** Cells that need no quotes: letters, digits and some signs; in a column nothing
    empty and no spaces. *)
Definition settled (d : str) (cells : list (list str)) : Prop :=
  forall r s, In r cells -> In s r -> match d with [] => s <> [] /\ over word s | _ => over elementary s end.
