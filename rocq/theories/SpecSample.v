(** * SpecSample: samples of a file in simple form *)
From Coq Require Import String.
From Verif Require Import Base SpecLayout SpecTables SpecDocument.

(** The first rows of a table; the line end of the last one may be missing. *)
Definition first_rows {A} (rows : list (A * eol)) (rows1 : list (A * eol)) (final1 : option A) : Prop :=
  exists rows2, rows = rows1 ++ rows2 /\
    (final1 = None \/ exists r e rows3, rows2 = (r, e) :: rows3 /\ final1 = Some r).
(** The sample of so many characters. *)
Definition chars_of (sample : str) : option Z := Some (Z.of_nat (List.length sample)).
(** A sample in simple form; it may end between the two characters of a line end. *)
Inductive simple_sample (cat : N -> str) : str -> str -> str -> Prop :=
| whole_sample s d q cells : document cat s d q cells -> simple_sample cat s d q
| cut_line_end s y d q cells : document cat (s ++ [y]) d q cells -> y <> CR -> y <> LF -> simple_sample cat ((s ++ [y]) ++ [CR]) d q.
