(** * SpecAbstraction: shapes of tables and canonical patterns *)
From Verif Require Import Base SpecLayout Abstraction.

(** [canonical s]: the empty cells of [s] filled in and runs of C shortened,
    by one pass over the letters.  [needs c n]: is there an empty cell between
    the letter [c] and its successor [n] ([None]: the end)? *)
Definition is_letter (x : N) (o : option N) : bool :=
  match o with Some y => (y =? x)%N | None => false end.
Definition needs (c : N) (n : option N) : bool :=
  ((c =? chD)%N && (is_letter chD n || is_letter chR n || match n with None => true | _ => false end))
  || ((c =? chR)%N && is_letter chD n).
Fixpoint canon_from (s : str) : str :=
  match s with
  | [] => []
  | c :: s' =>
      if (c =? chC)%N && is_letter chC (hd_error s') then canon_from s'
      else c :: (if needs c (hd_error s') then [chC] else []) ++ canon_from s'
  end.
Definition canonical (s : str) : str :=
  (if is_letter chD (hd_error s) then [chC] else []) ++ canon_from s.

(** One C per cell, joined by D; records joined by R. *)
Definition shape (n : nat) : str := join [chD] (repeat [chC] n).
Definition not_empty {A} (r : list A) : bool := match r with [] => false | _ => true end.
(** Blank lines leave no trace, except in front of the first record. *)
Definition table_shape {A} (rows : list (list A)) : str :=
  match filter not_empty rows with
  | [] => []
  | full => (match rows with [] :: _ => [chR] | _ => [] end) ++
            join [chR] (map (fun r => shape (length r)) full)
  end.

(** No escape character stands in front of a line terminator. *)
Definition esc_ok_piece (p : piece) : bool :=
  match p with
  | PChar _ => true
  | PEsc c => negb (is_nl c)
  | PQuoted l => forallb (fun i => match i with QEsc c => negb (is_nl c) | _ => true end) l
  end.
Definition esc_ok_cell (ps : list piece) : bool := forallb esc_ok_piece ps.
Definition esc_ok_items (l : list qitem) : bool :=
  forallb (fun i => match i with QEsc c => negb (is_nl c) | _ => true end) l.
Definition esc_ok (d : doc) : bool :=
  forallb (fun r => forallb esc_ok_cell (fst r)) (records d) &&
  match last d with
  | TEnd => true
  | TRow cells => forallb esc_ok_cell cells
  | TEsc cells ps => forallb esc_ok_cell (ps :: cells)
  | TOpen cells ps l | TOpenEsc cells ps l =>
      forallb esc_ok_cell (ps :: cells) && esc_ok_items l
  end.
(** Every quoted segment is closed and no escape character ends the text. *)
Definition closed (d : doc) : bool :=
  match last d with TEnd | TRow _ => true | _ => false end.
