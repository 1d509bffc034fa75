(** * SpecPieces: the strings that an input iterator yields *)
From Verif Require Import Base Parser SpecLayout SpecPotential.

(** A text without its line ends. *)
Definition unlined (s : str) : str := filter (fun c => negb ((c =? CR)%N || (c =? LF)%N)) s.
Definition unlined_cell (c : cell) : cell :=
  match c with CStr s => CStr (unlined s) | CTuple s q => CTuple (unlined s) q end.

(** No escape character; the quote character, if there is one, is neither the
    delimiter nor a line end. *)
Definition plain_conf (cf : pconf) : Prop :=
  escapechar cf = 0%N /\ quotechar cf <> CR /\ quotechar cf <> LF /\ (quotechar cf = 0%N \/ quotechar cf <> delimiter cf).

(** A quoted cell is open at the end of the text. *)
Definition leaves_open (cf : pconf) (s : str) : Prop := quotechar cf <> 0%N /\ Nat.odd (occurrences (quotechar cf) s) = true.

(** A line end, or none. *)
Definition line_end (e : str) : Prop := e = [] \/ exists x, e = render_eol x.
