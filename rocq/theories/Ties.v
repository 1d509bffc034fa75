(** * Ties: clevercsv/break_ties.py *)
From Verif Require Import Base Parser Dialect Potential.

Definition cell_eqb (a b : cell) : bool :=
  match a, b with
  | CStr s, CStr t => str_eqb s t
  | CTuple s p, CTuple t q => str_eqb s t && Bool.eqb p q
  | _, _ => false
  end.
Definition table := list (list cell).
Definition table_eqb : table -> table -> bool := list_eqb (list_eqb cell_eqb).
Definition cell_text (c : cell) : str := match c with CStr s => s | CTuple s _ => s end.

Section Ties.
(** The field size limit in force, the text, and the order in which a set of
    dialects is listed. *)
Variable limit : Z.
Variable data : str.
Variable o_set : list SimpleDialect -> list SimpleDialect.

(** [list(parse_string(data, d))] *)
Definition plist (d : SimpleDialect) : res pyexc table :=
  match parse_string limit data d false with
  | (rows, None) => Ok rows
  | (_, Some x) => Err x
  end.

(** clevercsv/break_ties.py:100-106 [_dialects_only_differ_in_field] *)
Inductive field := FDelimiter | FQuotechar | FEscapechar.
Definition same_delim (A B : SimpleDialect) := opt_str_eqb (sd_delimiter A) (sd_delimiter B).
Definition same_quote (A B : SimpleDialect) := opt_str_eqb (sd_quotechar A) (sd_quotechar B).
Definition same_escape (A B : SimpleDialect) := opt_str_eqb (sd_escapechar A) (sd_escapechar B).
Definition only_differ_in (A B : SimpleDialect) (f : field) : bool :=
  match f with
  | FDelimiter => same_quote A B && same_escape A B
  | FQuotechar => same_delim A B && same_escape A B
  | FEscapechar => same_delim A B && same_quote A B
  end.

Definition is_str (o : option str) (s : str) : bool := opt_str_eqb o (Some s).

(** Lines 185-189 and 231-235: the same number of rows, and of cells per row. *)
Definition same_shape (X Y : table) : bool :=
  Nat.eqb (length X) (length Y) &&
  forallb (fun '(x, y) => Nat.eqb (length x) (length y)) (zip X Y).

(** Lines 208-213: how often the escapechar directly precedes the quotechar. *)
Definition count_escapes (e q : option str) (u : str) : nat :=
  length (filter (fun '(a, b) => is_str e [a] && is_str q [b]) (pairwise u)).

(** Lines 191-197: the cells of [X] that differ from those of [Y]. *)
Definition different (X Y : table) : list (str * str) :=
  flat_map (fun '(x, y) => flat_map (fun '(u, v) =>
    if cell_eqb u v then [] else [(cell_text u, cell_text v)]) (zip x y)) (zip X Y).

(** clevercsv/break_ties.py:109-254 [break_ties_two] *)
Definition break_ties_two (A B : SimpleDialect) : res pyexc (option SimpleDialect) :=
  if only_differ_in A B FQuotechar then
    if is_str (sd_quotechar A) [] || is_str (sd_quotechar B) [] then
      let d_no := if is_str (sd_quotechar A) [] then A else B in
      let d_yes := if dialect_eqb d_no A then B else A in
      bind (plist d_no) (fun X => bind (plist d_yes) (fun Y =>
      Ok (Some (if table_eqb X Y then d_no else d_yes))))
    else Ok None
  else if only_differ_in A B FDelimiter then
    (* set([A.delimiter, B.delimiter]) == set([",", " "]) *)
    if (is_str (sd_delimiter A) [COMMA] && is_str (sd_delimiter B) [SPACE]) ||
       (is_str (sd_delimiter A) [SPACE] && is_str (sd_delimiter B) [COMMA]) then
      Ok (Some (if is_str (sd_delimiter A) [COMMA] then A else B))
    else if is_str (sd_delimiter A) [45%N] || is_str (sd_delimiter B) [45%N] then
      Ok (Some (if is_str (sd_delimiter A) [45%N] then B else A))
    else Ok None
  else if only_differ_in A B FEscapechar then
    let '(Dnone, Descape) := if is_str (sd_escapechar A) [] then (A, B) else (B, A) in
    bind (plist Dnone) (fun X => bind (plist Descape) (fun Y =>
    if negb (same_shape X Y) then Ok None
    else match different X Y with
         | [] => Ok None
         | (u, _) :: _ =>     (* both branches of the loop body return *)
             let count := count_escapes (sd_escapechar Descape) (sd_quotechar Descape) u in
             Ok (Some (if Nat.ltb 0 count && Nat.even count then Descape else Dnone))
         end))
  else if same_delim A B then
    let blank D := is_str (sd_quotechar D) [] && is_str (sd_escapechar D) [] in
    if blank A || blank B then
      let d_no := if blank A then A else B in
      let d_yes := if dialect_eqb d_no A then B else A in
      bind (plist d_no) (fun X => bind (plist d_yes) (fun Y =>
      if negb (same_shape X Y) then Ok None
      else match sd_escapechar d_yes, sd_quotechar d_yes with
           | Some e, Some q =>
               if forallb (fun '(x, _) => contains (e ++ q) x) (different X Y)
               then Ok (Some d_yes) else Ok None
           | _, _ => Err AssertionError
           end))
    else Ok None
  else Ok None.

(** clevercsv/break_ties.py:50-97 [reduce_pairwise] *)
Definition mem_dialect (d : SimpleDialect) (l : list SimpleDialect) : bool :=
  existsb (dialect_eqb d) l.
Definition dset_add (d : SimpleDialect) (l : list SimpleDialect) : list SimpleDialect :=
  if mem_dialect d l then l else l ++ [d].

(** [len(set([d.delimiter for d in dialects])) == 1] *)
Definition equal_delim (l : list SimpleDialect) : bool :=
  match l with
  | [] => false
  | d :: l' => forallb (same_delim d) l'
  end.

(** Lines 75-80 *)
Fixpoint equal_pairs (ps : list (SimpleDialect * SimpleDialect))
  : res pyexc (list (SimpleDialect * SimpleDialect)) :=
  match ps with
  | [] => Ok []
  | (a, b) :: ps' =>
      bind (plist a) (fun X => bind (plist b) (fun Y =>
      bind (equal_pairs ps') (fun r => Ok (if table_eqb X Y then (a, b) :: r else r))))
  end.
(** Lines 83-90 *)
Fixpoint break_pairs (ps : list (SimpleDialect * SimpleDialect))
    (new visited : list SimpleDialect)
  : res pyexc (list SimpleDialect * list SimpleDialect) :=
  match ps with
  | [] => Ok (new, visited)
  | (A, B) :: ps' =>
      bind (break_ties_two A B) (fun ans =>
      break_pairs ps' (match ans with Some d => dset_add d new | None => new end)
        (dset_add B (dset_add A visited)))
  end.
Definition reduce_pairwise (dialects : list SimpleDialect)
  : res pyexc (option (list SimpleDialect)) :=
  if negb (equal_delim dialects) then Ok None
  else bind (equal_pairs (pairwise dialects)) (fun eq =>
       bind (break_pairs eq [] []) (fun '(new, visited) =>
       Ok (Some (o_set (fold_left (fun new d => if mem_dialect d visited then new else dset_add d new)
                                  dialects new))))).

(** clevercsv/break_ties.py:257-363 [break_ties_three] *)
Definition break_ties_three (A B C : SimpleDialect) : res pyexc (option SimpleDialect) :=
  let equal_delim := same_delim A B && same_delim B C in
  let equal_escape := same_escape A B && same_escape B C in
  let dialects := [A; B; C] in
  if equal_delim && equal_escape then
    bind (plist A) (fun pA => bind (plist B) (fun pB => bind (plist C) (fun pC =>
    if negb (Nat.eqb (length pA) (length pB)) || negb (Nat.eqb (length pA) (length pC)) ||
       negb (Nat.eqb (length pB) (length pC)) then Ok None
    else
      let pd := zip [pA; pB; pC] dialects in
      match find (fun '(p, d) => is_str (sd_quotechar d) []) pd with
      | None => Ok None
      | Some (p_none, d_none) =>
          let rem := filter (fun '(p, d) => negb (table_eqb p p_none)) pd in
          match rem with
          | [] | [_] =>
              bind (reduce_pairwise dialects) (fun new =>
              match new with
              | Some [d] => Ok (Some d)
              | _ => Ok None
              end)
          | (p0, d0) :: (p1, d1) :: _ =>
              if table_eqb p_none p0 then break_ties_two d_none d0
              else if table_eqb p_none p1 then break_ties_two d_none d1
              else Ok None
          end
      end)))
  else if equal_delim then
    match filter (fun d => negb (is_str (sd_quotechar d) [])) dialects with
    | [d0; d1] => break_ties_two d0 d1
    | _ => Ok None
    end
  else Ok None.

(** clevercsv/break_ties.py:366-417 [break_ties_four] *)
Definition break_ties_four (dialects : list SimpleDialect) : res pyexc (option SimpleDialect) :=
  if negb (equal_delim dialects) then Ok None
  else bind (reduce_pairwise dialects) (fun reduced =>
       match reduced with
       | Some [d] => Ok (Some d)
       | Some [d0; d1] => break_ties_two d0 d1
       | Some [d0; d1; d2] => break_ties_three d0 d1 d2
       | _ => Ok None
       end).

(** clevercsv/break_ties.py:18-47 [tie_breaker] *)
Definition tie_breaker (dialects : list SimpleDialect) : res pyexc (option SimpleDialect) :=
  match dialects with
  | [a; b] => break_ties_two a b
  | [a; b; c] => break_ties_three a b c
  | [_; _; _; _] => break_ties_four dialects
  | _ => Ok None
  end.
End Ties.
