(** * SpecExcel: the text of a table in the excel dialect *)
From Verif Require Import Base SpecLayout.
Open Scope N_scope.

(** Cells with a comma, a double quote or a line end are quoted, and quotes are doubled. *)
Definition needs_quotes (s : str) : bool := existsb (fun x => mem_char x [COMMA; DQ; CR; LF]) s.
Definition doubled (s : str) : str := flat_map (fun x => if x =? DQ then [DQ; DQ] else [x]) s.
Definition excel_cell (s : str) : str := if needs_quotes s then DQ :: doubled s ++ [DQ] else s.
Fixpoint commas (cells : list str) : str :=
  match cells with
  | [] => []
  | [s] => s
  | s :: cells' => s ++ COMMA :: commas cells'
  end.
(** A row with a single empty cell is not an empty line. *)
Definition excel_row (row : list str) : str :=
  match row with [[]] => [DQ; DQ] | _ => commas (map excel_cell row) end ++ [CR; LF].
Definition excel_table (rows : list (list str)) : str := List.concat (map excel_row rows).
