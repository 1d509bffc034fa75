(** * SpecLines: texts as lines with line ends of any kind

    The text of some lines is [column_text] (SpecColumn.v): every line with its
    own line end, the last one possibly without. *)
From Coq Require Import String.
From Verif Require Import Base SpecLayout SpecColumn SpecPotential.

(** No line end can be misread: the blank line of LF after a CR would make one
    CRLF, and a line without line end is not empty. *)
Definition clear_ends (rows : list (str * eol)) (final : option str) : Prop :=
  (forall a s b, rows <> a ++ (s, ECR) :: ([], ELF) :: b) /\ final <> Some [].

(** A line on which the double quotes and the apostrophes are balanced, the two
    rarer quote characters do not occur, and a possible escape character never
    comes in front of a quote or at the end, nor twice in a row if it is also a
    possible delimiter. *)
Definition balanced_line (cat : N -> str) (user : option (list str)) (l : str) : Prop :=
  (forall c, In c [NUL; CR; LF; 126; 96]%N -> ~ In c l) /\
  (forall q, In q [34; 39]%N -> Nat.even (occurrences q l) = true) /\
  (forall a u b, l = a ++ u :: b -> escape_like cat u ->
     exists v b', b = v :: b' /\ (wanted_delimiter cat user u -> v <> u) /\ ~ In v [34; 39]%N).

(** CR and LF are control characters in the Unicode data. *)
Definition control_ends (cat : N -> str) : Prop := cat CR = s2l "Cc" /\ cat LF = s2l "Cc".

(** Delimiters the user may ask for: neither quotes nor line ends. *)
Definition usual_delimiters (user : option (list str)) : Prop :=
  forall l, user = Some l -> forall c, In c [34; 39; CR; LF]%N -> ~ In [c] l.

(** The URL matcher never looks across the end of a line: what it finds at a
    place is decided by the rest of the line. *)
Definition line_matcher (url : str -> str -> option nat) : Prop :=
  forall before l rest, (forall c s, rest = c :: s -> c = CR \/ c = LF) ->
    url before (l ++ rest) = url [] l /\ forall n, url [] l = Some n -> (n <= List.length l)%nat.

(** Two texts of the same balanced lines, each with one kind of line end and
    with or without the last one; the last line is not blank. *)
Definition line_variants (cat : N -> str) (t1 t2 : str) : Prop :=
  exists ls l e1 e2 rows1 final1 rows2 final2,
    t1 = column_text rows1 final1 /\ t2 = column_text rows2 final2 /\
    column_of rows1 final1 = ls ++ [l] /\ column_of rows2 final2 = ls ++ [l] /\ l <> [] /\
    (forall r, In r rows1 -> snd r = e1) /\ (forall r, In r rows2 -> snd r = e2) /\
    (forall s, In s (ls ++ [l]) -> balanced_line cat None s).
