(** * SpecOrder: the lines of a text in another order *)
From Verif Require Import Base Parser Dialect SpecConsistency.

(** The number of cells of a line that is read on its own. *)
Definition line_cells (d : SimpleDialect) (l : str) : nat :=
  match parse_string (Z.of_nat (length l) + 1) l d false with
  | ([row], None) => length row
  | _ => 0
  end.

(** Two orders of the same lines show the row lengths for the first time in the
    same order, or there are two different row lengths at most. *)
Definition shapes_agree (d : SimpleDialect) (ls1 ls2 : list str) : Prop :=
  firsts (map (line_cells d) ls1) = firsts (map (line_cells d) ls2) \/
  length (firsts (map (line_cells d) ls1)) <= 2.
