(** * SpecText: specifications in terms of plain texts *)
From Verif Require Import Base SpecLayout.

(** The physical lines of a text, without their LF, CR or CRLF terminators; an
    unterminated last line counts if it is not empty. *)
Fixpoint phys_lines_aux (cur t : str) : list str :=
  match t with
  | [] => match cur with [] => [] | _ => [cur] end
  | c :: t' =>
      if (c =? LF)%N then cur :: phys_lines_aux [] t'
      else if (c =? CR)%N then
        match t' with
        | d :: t'' =>
            if (d =? LF)%N then cur :: phys_lines_aux [] t''
            else cur :: phys_lines_aux [] t'
        | [] => [cur]
        end
      else phys_lines_aux (cur ++ [c]) t'
  end.
Definition phys_lines (t : str) : list str := phys_lines_aux [] t.

(** Splitting at every occurrence of one character. *)
Fixpoint split_at (d : N) (cur s : str) : list str :=
  match s with
  | [] => [cur]
  | c :: s' => if (c =? d)%N then cur :: split_at d [] s' else split_at d (cur ++ [c]) s'
  end.

(** Rows without quoting or escaping. *)
Definition split_row_plain (d : option N) (line : str) : list str :=
  match line with
  | [] => []
  | _ => match d with Some d => split_at d [] line | None => [line] end
  end.
Definition split_table (d : option N) (t : str) : list (list str) :=
  map (split_row_plain d) (phys_lines t).

(** [a] is obtained from [b] by deleting characters. *)
Inductive subseq : str -> str -> Prop :=
| sub_nil b : subseq [] b
| sub_keep c a b : subseq a b -> subseq (c :: a) (c :: b)
| sub_drop c a b : subseq a b -> subseq a (c :: b).

(** Characters with no syntactic role. *)
Definition ordinary (D : chars) (c : N) : bool := negb (special D c) && negb (is_nl c).

(** The text of a table, all cells in order. *)
Definition table_text (rows : list (list (str * bool))) : str := concat (map fst (concat rows)).

(** The literal content of a cell of plain and escaped characters. *)
Definition literal (D : chars) (ps : list piece) : str :=
  concat (map (fun p => match p with
    | PChar c => [c]
    | PEsc c => if special D c || is_nl c then [c] else opt_str (ce D) ++ [c]
    | PQuoted _ => []
    end) ps).
Definition no_quoted (ps : list piece) : bool :=
  forallb (fun p => match p with PQuoted _ => false | _ => true end) ps.

(** A closed quoted segment somewhere in a layout. *)
Definition has_quoted_cell (ps : list piece) : bool := negb (no_quoted ps).
Definition has_quoted (d : doc) : bool :=
  existsb (fun r => existsb has_quoted_cell (fst r)) (records d) ||
  match last d with
  | TEnd => false
  | TRow cells => existsb has_quoted_cell cells
  | TEsc cells ps | TOpen cells ps _ | TOpenEsc cells ps _ =>
      existsb has_quoted_cell (cells ++ [ps])
  end.
