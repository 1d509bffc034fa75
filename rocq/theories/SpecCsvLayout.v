(** * SpecCsvLayout: what csv.reader makes of a layout

    [SpecLayout] says which rows a layout stands for; the standard library's
    reader sees it differently.  An escape character always disappears.  Quotes
    count only at the very start of a cell; behind the closing quote, and in a
    cell that starts with something else, they are ordinary text. *)
From Verif Require Import Base SpecLayout.

Section Value.
Variable D : chars.
(** In quotes at the start of a cell. *)
Definition csv_inside (i : qitem) : str :=
  match i with QChar c => [c] | QQuote => opt_str (cq D) | QEsc c => [c] end.
(** Anywhere else. *)
Definition csv_item (i : qitem) : str :=
  match i with QChar c => [c] | QQuote => opt_str (cq D) ++ opt_str (cq D) | QEsc c => [c] end.
Definition csv_items (l : list qitem) : str := concat (map csv_item l).
Definition csv_piece (p : piece) : str :=
  match p with
  | PChar c => [c]
  | PEsc c => [c]
  | PQuoted l => opt_str (cq D) ++ csv_items l ++ opt_str (cq D)
  end.
Definition csv_cell (ps : list piece) : str :=
  match ps with
  | PQuoted l :: ps' => concat (map csv_inside l) ++ concat (map csv_piece ps')
  | _ => concat (map csv_piece ps)
  end.
Definition csv_tail (t : tail) : list (list str) :=
  match t with
  | TEnd => []
  | TRow cells => [map csv_cell cells]
  | TEsc cells ps => [map csv_cell cells ++ [csv_cell ps ++ [LF]]]
  | TOpen cells [] l => [map csv_cell cells ++ [concat (map csv_inside l)]]
  | TOpen cells ps l => [map csv_cell cells ++ [csv_cell ps ++ opt_str (cq D) ++ csv_items l]]
  | TOpenEsc cells [] l => [map csv_cell cells ++ [concat (map csv_inside l) ++ [LF]]]
  | TOpenEsc cells ps l => [map csv_cell cells ++ [csv_cell ps ++ opt_str (cq D) ++ csv_items l ++ [LF]]]
  end.
Definition csv_rows (d : doc) : list (list str) :=
  map (fun r => map csv_cell (fst r)) (records d) ++ csv_tail (last d).

(** Layouts whose cells [csv.reader] does not cut: quotes that are ordinary text
    contain no delimiter and no line end, and the character behind a closing
    quote is no escape character. *)
Definition uncut_item (i : qitem) : bool :=
  match i with QChar c => negb (is_opt (cd D) c) && negb (is_nl c) | _ => true end.
Definition uncut_piece (p : piece) : bool :=
  match p with PQuoted l => forallb uncut_item l | _ => true end.
Definition uncut_cell (ps : list piece) : bool :=
  match ps with
  | PQuoted _ :: PEsc _ :: _ => false
  | PQuoted _ :: ps' => forallb uncut_piece ps'
  | _ => forallb uncut_piece ps
  end.
Definition uncut_tail (t : tail) : bool :=
  match t with
  | TEnd => true
  | TRow cells => forallb uncut_cell cells
  | TEsc cells ps => forallb uncut_cell cells && uncut_cell ps && match ps with [PQuoted _] => false | _ => true end
  | TOpen cells ps l | TOpenEsc cells ps l =>
      forallb uncut_cell cells && uncut_cell ps && match ps with [] => true | _ => forallb uncut_item l end
  end.
Definition uncut (d : doc) : bool := forallb (fun r => forallb uncut_cell (fst r)) (records d) && uncut_tail (last d).
End Value.

(** ** When both readers see the same, if there is no escape character

    Cells in quotes as a whole are read alike.  Text before, between or behind
    quotes is read alike only if the cell starts with text and what stands in
    quotes is neither a quote, nor a delimiter, nor a line end. *)
Definition agreeing_item (D : chars) (i : qitem) : bool :=
  match i with QChar c => negb (is_opt (cd D) c) && negb (is_nl c) | _ => false end.
Definition agreeing_piece (D : chars) (p : piece) : bool :=
  match p with PQuoted l => forallb (agreeing_item D) l | _ => true end.
Definition agreeing_cell (D : chars) (ps : list piece) : bool :=
  match ps with
  | [PQuoted _] => true
  | PQuoted _ :: _ => false
  | _ => forallb (agreeing_piece D) ps
  end.
(** A cell whose last quotes are still open at the end of the text: the opening
    quote may be the only text of the cell if the text does not end with a
    doubled quote. *)
Definition ends_doubled (l : list qitem) : bool := match rev l with QQuote :: _ => true | _ => false end.
Definition agreeing_open (D : chars) (ps : list piece) (l : list qitem) : bool :=
  match ps with
  | [] => negb (ends_doubled l)
  | PQuoted _ :: _ => false
  | _ => forallb (agreeing_piece D) ps && forallb (agreeing_item D) l
  end.
Definition agreeing_tail (D : chars) (t : tail) : bool :=
  match t with
  | TRow cells => forallb (agreeing_cell D) cells
  | TOpen cells ps l => forallb (agreeing_cell D) cells && agreeing_open D ps l
  | _ => true
  end.
Definition agreeing (D : chars) (d : doc) : bool :=
  forallb (fun r => forallb (agreeing_cell D) (fst r)) (records d) && agreeing_tail D (last d).
