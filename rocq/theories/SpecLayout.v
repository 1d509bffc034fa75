(** * SpecLayout: what a CSV text means, independently of the parser

    A [doc] is a CSV text as data: records made of cells, cells made of pieces
    (plain characters, escaped characters, quoted segments), records closed by
    a line terminator, and possibly an unterminated last record.  [render]
    writes such a document down as text, [denote] says which rows of cells it
    stands for.  Nothing in this file refers to the parser's state machine. *)
From Verif Require Import Base.

(** The special characters of a dialect; [None] is an unset character. *)
Record chars := mk_chars { cd : option N; cq : option N; ce : option N }.

Definition is_opt (o : option N) (c : N) : bool :=
  match o with Some x => (c =? x)%N | None => false end.
Definition opt_str (o : option N) : str :=
  match o with Some x => [x] | None => [] end.
Definition is_set (o : option N) : bool :=
  match o with Some _ => true | None => false end.

(** Distinct characters, none of them NUL or a line terminator. *)
Definition char_ok (o : option N) : bool :=
  match o with Some c => negb (c =? NUL)%N && negb (is_nl c) | None => true end.
Definition distinct_opt (a b : option N) : bool :=
  match a, b with Some x, Some y => negb (x =? y)%N | _, _ => true end.
Definition wf_chars (D : chars) : bool :=
  char_ok (cd D) && char_ok (cq D) && char_ok (ce D) &&
  distinct_opt (cd D) (cq D) && distinct_opt (cd D) (ce D) &&
  distinct_opt (cq D) (ce D).

(** ** Layouts *)
Inductive qitem :=              (* inside a quoted segment *)
| QChar (c : N)                 (* an ordinary character, newlines included *)
| QQuote                        (* a doubled quote character *)
| QEsc (c : N).                 (* escape character, then [c] *)

Inductive piece :=
| PChar (c : N)
| PEsc (c : N)
| PQuoted (l : list qitem).     (* opening quote, items, closing quote *)

Inductive eol := ELF | ECR | ECRLF.

(** How the text ends after its last complete record. *)
Inductive tail :=
| TEnd                                            (* nothing follows *)
| TRow (cells : list (list piece))                (* a row without terminator *)
| TEsc (cells : list (list piece)) (ps : list piece)
    (* ... then the pieces [ps] and a lone escape character *)
| TOpen (cells : list (list piece)) (ps : list piece) (l : list qitem)
    (* ... then [ps] and a quoted segment that is never closed *)
| TOpenEsc (cells : list (list piece)) (ps : list piece) (l : list qitem).
    (* ... whose last character is a lone escape character *)

(** A record is a list of cells ([] is a blank line) and its terminator. *)
Record doc := mk_doc { records : list (list (list piece) * eol); last : tail }.

(** ** The text of a layout *)
Definition render_qitem (D : chars) (i : qitem) : str :=
  match i with
  | QChar c => [c]
  | QQuote => opt_str (cq D) ++ opt_str (cq D)
  | QEsc c => opt_str (ce D) ++ [c]
  end.
Definition render_qitems (D : chars) (l : list qitem) : str :=
  concat (map (render_qitem D) l).
Definition render_piece (D : chars) (p : piece) : str :=
  match p with
  | PChar c => [c]
  | PEsc c => opt_str (ce D) ++ [c]
  | PQuoted l => opt_str (cq D) ++ render_qitems D l ++ opt_str (cq D)
  end.
Definition render_cell (D : chars) (ps : list piece) : str :=
  concat (map (render_piece D) ps).
Definition render_row (D : chars) (cells : list (list piece)) : str :=
  join (opt_str (cd D)) (map (render_cell D) cells).
Definition render_eol (e : eol) : str :=
  match e with ELF => [LF] | ECR => [CR] | ECRLF => [CR; LF] end.
Definition render_record (D : chars) (r : list (list piece) * eol) : str :=
  render_row D (fst r) ++ render_eol (snd r).
(** Complete cells of an unfinished record, each followed by the delimiter. *)
Definition render_cells_open (D : chars) (cells : list (list piece)) : str :=
  concat (map (fun c => render_cell D c ++ opt_str (cd D)) cells).
Definition render_tail (D : chars) (t : tail) : str :=
  match t with
  | TEnd => []
  | TRow cells => render_row D cells
  | TEsc cells ps => render_cells_open D cells ++ render_cell D ps ++ opt_str (ce D)
  | TOpen cells ps l =>
      render_cells_open D cells ++ render_cell D ps ++ opt_str (cq D) ++ render_qitems D l
  | TOpenEsc cells ps l =>
      render_cells_open D cells ++ render_cell D ps ++ opt_str (cq D) ++
      render_qitems D l ++ opt_str (ce D)
  end.
Definition render (D : chars) (d : doc) : str :=
  concat (map (render_record D) (records d)) ++ render_tail D (last d).

(** ** Well-formed layouts (layouts that are read back as written) *)
Definition special (D : chars) (c : N) : bool :=
  is_opt (cd D) c || is_opt (cq D) c || is_opt (ce D) c.
Definition wf_qitem (D : chars) (i : qitem) : bool :=
  match i with
  | QChar c => negb (c =? NUL)%N && negb (is_opt (cq D) c) && negb (is_opt (ce D) c)
  | QQuote => true
  | QEsc c => is_set (ce D) && negb (c =? NUL)%N
  end.
Definition wf_piece (D : chars) (p : piece) : bool :=
  match p with
  | PChar c => negb (c =? NUL)%N && negb (is_nl c) && negb (special D c)
  | PEsc c => is_set (ce D) && negb (c =? NUL)%N
  | PQuoted l => is_set (cq D) && forallb (wf_qitem D) l
  end.
(** Two quoted segments never touch: that would be a doubled quote. *)
Fixpoint no_adjacent (ps : list piece) : bool :=
  match ps with
  | PQuoted _ :: ((PQuoted _ :: _) as ps') => false
  | _ :: ps' => no_adjacent ps'
  | [] => true
  end.
Definition wf_cell (D : chars) (ps : list piece) : bool :=
  forallb (wf_piece D) ps && no_adjacent ps.
(** A row of one empty cell cannot be written: its text is a blank line. *)
Definition wf_row (D : chars) (cells : list (list piece)) : bool :=
  forallb (wf_cell D) cells &&
  match cells with
  | [[]] => false
  | _ :: _ :: _ => is_set (cd D)
  | _ => true
  end.
(** CR followed by the LF of a blank line would be one CRLF. *)
Fixpoint wf_records (D : chars) (rs : list (list (list piece) * eol)) : bool :=
  match rs with
  | [] => true
  | (cells, e) :: rs' =>
      wf_row D cells &&
      match e, rs' with ECR, ([], ELF) :: _ => false | _, _ => true end &&
      wf_records D rs'
  end.
Definition ends_quoted (ps : list piece) : bool :=
  match rev ps with PQuoted _ :: _ => true | _ => false end.
Definition wf_open (D : chars) (cells : list (list piece)) (ps : list piece) : bool :=
  forallb (wf_cell D) cells && wf_cell D ps &&
  match cells with [] => true | _ => is_set (cd D) end.
Definition wf_tail (D : chars) (t : tail) : bool :=
  match t with
  | TEnd => true
  | TRow cells => wf_row D cells && match cells with [] => false | _ => true end
  | TEsc cells ps => wf_open D cells ps && is_set (ce D)
  | TOpen cells ps l =>
      wf_open D cells ps && is_set (cq D) && negb (ends_quoted ps) &&
      forallb (wf_qitem D) l
  | TOpenEsc cells ps l =>
      wf_open D cells ps && is_set (cq D) && negb (ends_quoted ps) &&
      forallb (wf_qitem D) l && is_set (ce D)
  end.
Definition wf_doc (D : chars) (d : doc) : bool :=
  wf_records D (records d) && wf_tail D (last d).

(** ** The meaning of a layout *)

(** An escape character disappears only in front of a special character (and,
    outside quotes, in front of a newline). *)
Definition qitem_value (D : chars) (i : qitem) : str :=
  match i with
  | QChar c => [c]
  | QQuote => opt_str (cq D)
  | QEsc c => if special D c then [c] else opt_str (ce D) ++ [c]
  end.
Definition qitems_value (D : chars) (l : list qitem) : str :=
  concat (map (qitem_value D) l).
(** Quotes of a quoted segment are kept at this level... *)
Definition piece_value (D : chars) (p : piece) : str :=
  match p with
  | PChar c => [c]
  | PEsc c => if special D c || is_nl c then [c] else opt_str (ce D) ++ [c]
  | PQuoted l => opt_str (cq D) ++ qitems_value D l ++ opt_str (cq D)
  end.
Definition raw_cell (D : chars) (ps : list piece) : str :=
  concat (map (piece_value D) ps).
(** ... and removed when they enclose the whole cell, which is then quoted. *)
Definition enclosed (D : chars) (s : str) : bool :=
  match s with
  | c :: (_ :: _) as s' => is_opt (cq D) c && is_opt (cq D) (List.last s' 0%N)
  | _ => false
  end.
Definition unquote (D : chars) (s : str) : str * bool :=
  if enclosed D s then (removelast (tl s), true) else (s, false).
Definition cell_value (D : chars) (ps : list piece) : str * bool :=
  unquote D (raw_cell D ps).
(** A cell cut off by the end of the text also loses one (more) leading quote. *)
Definition unquote_at_end (D : chars) (s : str) : str * bool :=
  let '(s', q) := unquote D s in
  match s' with
  | c :: r => if is_opt (cq D) c then (r, true) else (s', q)
  | [] => (s', q)
  end.

Definition row_value (D : chars) (cells : list (list piece)) : list (str * bool) :=
  map (cell_value D) cells.

(** The cell is still "after an escaped newline" when the text ends: an escaped
    newline followed by plain characters only. *)
Fixpoint after_esc_nl (b : bool) (ps : list piece) : bool :=
  match ps with
  | [] => b
  | PChar _ :: ps' => after_esc_nl b ps'
  | PEsc c :: ps' => after_esc_nl (is_nl c) ps'
  | PQuoted _ :: ps' => after_esc_nl false ps'
  end.

Definition tail_value (D : chars) (t : tail) : list (list (str * bool)) :=
  match t with
  | TEnd => []
  | TRow cells =>
      let ps := List.last cells [] in
      [ map (cell_value D) (removelast cells) ++
        [ if after_esc_nl false ps then unquote_at_end D (raw_cell D ps)
          else cell_value D ps ] ]
  | TEsc cells ps =>
      (* a lone escape character is dropped; the whole record is dropped when
         nothing precedes it in its cell *)
      match raw_cell D ps with
      | [] => []
      | s => [ map (cell_value D) cells ++ [ unquote_at_end D s ] ]
      end
  | TOpen cells ps l =>
      [ map (cell_value D) cells ++
        [ unquote_at_end D (raw_cell D ps ++ opt_str (cq D) ++ qitems_value D l) ] ]
  | TOpenEsc cells ps l =>
      [ map (cell_value D) cells ++
        [ unquote_at_end D (raw_cell D ps ++ opt_str (cq D) ++ qitems_value D l ++ [LF]) ] ]
  end.

Definition denote (D : chars) (d : doc) : list (list (str * bool)) :=
  map (fun r => row_value D (fst r)) (records d) ++ tail_value D (last d).

(** The raw cell contents, for the field size limit: the limit applies to the
    cell with its quotes but with escapes and doubled quotes resolved. *)
Definition raw_cells (D : chars) (d : doc) : list str :=
  concat (map (fun r => map (raw_cell D) (fst r)) (records d)) ++
  match last d with
  | TEnd => []
  | TRow cells => map (raw_cell D) cells
  | TEsc cells ps => map (raw_cell D) (cells ++ [ps])
  | TOpen cells ps l =>
      map (raw_cell D) cells ++ [ raw_cell D ps ++ opt_str (cq D) ++ qitems_value D l ]
  | TOpenEsc cells ps l =>
      map (raw_cell D) cells ++
      [ raw_cell D ps ++ opt_str (cq D) ++ qitems_value D l ++ [LF] ]
  end.
