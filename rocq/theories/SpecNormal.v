(** * SpecNormal: normal forms of CSV files *)
From Coq Require Import String.
From Verif Require Import Base Dialect SpecPotential SpecTies.

(** ** Lines *)

(** [s] does not end with the character [c]. *)
Definition no_end (c : N) (s : str) : Prop := forall p, s <> p ++ [c].

(** The lines of a file: trailing LFs, then trailing CRs are ignored; what is
    left is cut at CRLF if there is one, else at LF, else at CR. *)
Definition file_lines (data : str) (lines : list str) : Prop :=
  exists s a b eol, data = s ++ repeat CR a ++ repeat LF b /\
    no_end CR s /\ (a = 0 -> no_end LF s) /\
    lines <> [] /\ s = join eol lines /\ Forall (fun l => ~ substring eol l) lines /\
    ((eol = [CR; LF] /\ substring [CR; LF] s) \/
     (eol = [LF] /\ ~ substring [CR; LF] s /\ In LF s) \/
     (eol = [CR] /\ ~ In LF s)).

(** ** Characters *)
Definition word : str :=
  s2l "abcdefghijklmnopqrstuvwxyzABCDEFGHIJKLMNOPQRSTUVWXYZ0123456789._&-".
Definition elementary : str := word ++ s2l "@+%() /".
Definition over (A s : str) : Prop := Forall (fun c => In c A) s.
Definition quoted (q : N) (s : str) : str := q :: s ++ [q].

(** ** Forms, for a delimiter [d] and a quote character [q] *)

(** Every line consists of the same number of cells, two or more. *)
Definition rectangular (lines : list str) (cells_of : str -> list str -> Prop) : Prop :=
  lines <> [] /\ exists n, 2 <= n /\
    Forall (fun l => exists cells, length cells = n /\ cells_of l cells) lines.

(** Form 1: quoted cells without quotes inside; a delimiter at the end of a
    line is overlooked. *)
Definition form1 (d q : N) (lines : list str) : Prop :=
  rectangular lines (fun l cells => exists vs (extra : bool), cells = map (quoted q) vs /\
    Forall (fun v => ~ In q v) vs /\ l = join [d] cells ++ (if extra then [d] else [])).
(** Form 2: unquoted elementary cells. *)
Definition form2 (d : N) (lines : list str) : Prop :=
  rectangular lines (fun l cells => l = join [d] cells /\
    Forall (fun c => over elementary c /\ ~ In d c) cells).
(** Form 3: non-empty cells, enclosed in quotes or elementary. *)
Definition even_quotes (q : N) (s : str) : Prop := Nat.even (occurrences q s) = true.
Definition cells_at (d q : N) (l : str) (cells : list str) : Prop :=
  Forall (always_inside q d) cells /\ Forall (even_quotes q) (removelast cells) /\
  (l = join [d] cells \/
   (In q l /\ even_quotes q (List.last cells []) /\ l = join [d] cells ++ [d])).
Definition form3 (d q : N) (lines : list str) : Prop :=
  2 <= length lines /\
  rectangular lines (fun l cells => cells_at d q l cells /\
    Forall (fun c => c <> [] /\ (over elementary c \/ exists s, s <> [] /\ c = quoted q s)) cells).
(** Form 4: a single column, quoted or unquoted. *)
Definition form4 (q : N) (lines : list str) : Prop :=
  2 <= length lines /\ Forall (fun l => exists s, l = quoted q s /\ over (SPACE :: word) s) lines.
Definition form4_plain (lines : list str) : Prop :=
  2 <= length lines /\ Forall (over word) lines.
(** Form 5: form 2 with quotes around each line. *)
Definition form5 (d q : N) (lines : list str) : Prop :=
  2 <= length lines /\ exists ls, lines = map (quoted q) ls /\ form2 d ls.

(** ** The order of the attempts *)
Definition attempts (ds : list N) : list (SimpleDialect * (list str -> Prop)) :=
  map (fun d => (dialect3 [d] [] [], form2 d)) ds ++
  flat_map (fun d => flat_map (fun q =>
    [(dialect3 [d] [q] [], form1 d q); (dialect3 [d] [q] [], form3 d q);
     (dialect3 [d] [q] [], form5 d q)]) [39%N; 34%N]) ds ++
  [(dialect3 [] [39%N] [], form4 39%N); (dialect3 [] [34%N] [], form4 34%N);
   (dialect3 [] [] [], form4_plain)].
(** The first dialect whose form fits. *)
Fixpoint first_fit (l : list (SimpleDialect * (list str -> Prop))) (lines : list str)
    (r : option SimpleDialect) : Prop :=
  match l with
  | [] => r = None
  | (D, P) :: l' => (P lines /\ r = Some D) \/ (~ P lines /\ first_fit l' lines r)
  end.
(** A character that might be an escape character stands before a delimiter or
    a quote. *)
Definition escape_suspect (cat : N -> str) (ds : list N) (data : str) : Prop :=
  exists u v, before u v data /\ escape_like cat u /\ ds <> [] /\ In v (39%N :: 34%N :: ds).

(** ** Reading the cells of form 3 *)

(** An elementary cell is its own value; an enclosed cell is quoted, and its
    value is its inside if that has no quotes. *)
Definition reads (q : N) (c : str) (v : str * bool) : Prop :=
  (over elementary c /\ v = (c, false)) \/
  (exists s, c = quoted q s /\ snd v = true /\ (~ In q s -> fst v = s)).
(** Quotes are closed on the line and newlines stand inside quotes only. *)
Definition tidy_line (q : N) (l : str) : Prop :=
  even_quotes q l /\ always_inside q CR l /\ always_inside q LF l.
(** The line is read as the cells, and one empty cell more if it ends with a
    superfluous delimiter. *)
Definition line_reads (d q : N) (l : str) (row : list (str * bool)) : Prop :=
  exists cells vs, Forall2 (reads q) cells vs /\
    ((l = join [d] cells /\ row = vs) \/ (l = join [d] cells ++ [d] /\ row = vs ++ [([], false)])).
