(** * SpecArgs: command lines as a user writes them, without reference to the model *)
From Coq Require Import String.
From Verif Require Import Base.
Open Scope N_scope.

(** The documented options of a command: the letter of the short name (if there
    is one), the long name, and whether the option takes a value. *)
Definition sheet := list (option N * str * bool).
Definition letter_of (s : string) : option N := match s2l s with [c] => Some c | _ => None end.
Definition row (short long : string) (valued : bool) : option N * str * bool := (letter_of short, s2l long, valued).
Definition detect_sheet : sheet :=
  [ row "c" "consistency" false; row "e" "encoding" true; row "n" "num-chars" true; row "p" "plain" false;
    row "j" "json" false; row "" "no-skip" false; row "" "add-runtime" false ].
Definition view_sheet : sheet := [ row "e" "encoding" true; row "n" "num-chars" true; row "t" "transpose" false ].
Definition standardize_sheet : sheet :=
  [ row "e" "encoding" true; row "E" "target-encoding" true; row "i" "in-place" false; row "n" "num-chars" true;
    row "o" "output" true; row "t" "transpose" false ].
Definition code_sheet : sheet := [ row "e" "encoding" true; row "n" "num-chars" true; row "p" "pandas" false ].

(** The parts of a command line: a run of file names, flags that are given
    together, an option with its value.  Options are called by their long names. *)
Inductive item := Paths (ws : list str) | Flags (ls : list str) | Value (l v : str).

Definition long_names (S : sheet) : list str := s2l "help" :: map (fun x => snd (fst x)) S.
Definition letters (S : sheet) : list (option N) := letter_of "h" :: map (fun x => fst (fst x)) S.
(** A word that begins with a dash but names no option: a long option that is not
    the beginning of a long name, or a letter that is not one of the letters. *)
Inductive nameless (S : sheet) : str -> Prop :=
| no_long q rest : ~ In 61 q -> (rest = [] \/ exists v, rest = 61 :: v) ->
    (forall l r, In l (long_names S) -> l <> q ++ r) -> nameless S (s2l "--" ++ q ++ rest)
| no_letter c rest : c <> 45 -> ~ In (Some c) (letters S) -> nameless S (45 :: c :: rest).
(** A negative number: digits, or digits, a dot and at least one digit; a line
    feed may follow. *)
Inductive negative (digit : N -> bool) : str -> Prop :=
| negative_whole ds e : ds <> [] -> forallb digit ds = true -> In e [[]; [10]] -> negative digit (45 :: ds ++ e)
| negative_dot ds es e : forallb digit ds = true -> es <> [] -> forallb digit es = true -> In e [[]; [10]] ->
    negative digit (45 :: ds ++ 46 :: es ++ e).
(** Such words count as file names if they have a space or are negative numbers. *)
Definition dashed_name (digit : N -> bool) (S : sheet) (w : str) : Prop := nameless S w /\ (In 32 w \/ negative digit w).
Definition unknown (digit : N -> bool) (S : sheet) (w : str) : Prop := nameless S w /\ ~ In 32 w /\ ~ negative digit w.
(** Dashes, dots and line feeds are no digits. *)
Definition sensible (digit : N -> bool) : Prop := digit 45 = false /\ digit 46 = false /\ digit 10 = false.
(** A word that is no option: one that does not begin with a dash, a single dash,
    or one of the words above. *)
Definition ordinary (digit : N -> bool) (S : sheet) (w : str) : Prop :=
  match w with c :: _ => c <> 45 | [] => True end \/ w = [45] \/ (sensible digit /\ dashed_name digit S w).
(** [q] can be written for the long name [l]: it is [l], or the beginning of [l]
    and of no other long name. *)
Definition abbreviates (S : sheet) (q l : str) : Prop :=
  q <> [] /\ (exists r, l = q ++ r) /\
  (q = l \/ forall l' r, In l' (long_names S) -> l' = q ++ r -> l' = l).

(** How a part is written in words. *)
Inductive spelled (digit : N -> bool) (S : sheet) : item -> list str -> Prop :=
| sp_paths ws : ws <> [] -> Forall (ordinary digit S) ws -> spelled digit S (Paths ws) ws
| sp_flag c l q : In (c, l, false) S -> abbreviates S q l -> spelled digit S (Flags [l]) [45 :: 45 :: q]
| sp_letters cs ls : cs <> [] -> Forall2 (fun c l => In (Some c, l, false) S) cs ls -> spelled digit S (Flags ls) [45 :: cs]
| sp_long c l q v : In (c, l, true) S -> abbreviates S q l -> ordinary digit S v -> spelled digit S (Value l v) [45 :: 45 :: q; v]
| sp_equals c l q v : In (c, l, true) S -> abbreviates S q l -> spelled digit S (Value l v) [45 :: 45 :: q ++ 61 :: v]
| sp_letter c l v : In (Some c, l, true) S -> ordinary digit S v -> spelled digit S (Value l v) [[45; c]; v]
| sp_glued c l d v : In (Some c, l, true) S -> d <> 61 -> spelled digit S (Value l (d :: v)) [45 :: c :: d :: v].

(** A command line; file names that follow each other are one part. *)
Inductive line (digit : N -> bool) (S : sheet) : list item -> list str -> Prop :=
| line_nil : line digit S [] []
| line_cons i items ws ws' : spelled digit S i ws -> line digit S items ws' ->
    (forall a b rest, ~ (i = Paths a /\ items = Paths b :: rest)) -> line digit S (i :: items) (ws ++ ws').

(** What it says. *)
Definition files (items : list item) : list (list str) :=
  flat_map (fun i => match i with Paths ws => [ws] | _ => [] end) items.
Definition given (items : list item) (l : string) : bool :=
  existsb (fun i => match i with Flags ls => existsb (str_eqb (s2l l)) ls | _ => false end) items.
Definition values (items : list item) (l : string) : list str :=
  flat_map (fun i => match i with Value l' v => if str_eqb (s2l l) l' then [v] else [] | _ => [] end) items.
Definition latest (vs : list str) : option str := match rev vs with v :: _ => Some v | [] => None end.
(** All the numbers that are given are numbers. *)
Definition numbers (int_of : str -> option Z) (items : list item) : Prop :=
  forall v, In v (values items "num-chars") -> int_of v <> None.
Definition number (int_of : str -> option Z) (items : list item) : option Z :=
  match latest (values items "num-chars") with Some v => int_of v | None => None end.

(** A long option that is the beginning of two long names, but not one itself. *)
Inductive ambiguous (S : sheet) : str -> Prop :=
| two_names q rest l l' r r' : q <> [] -> ~ In 61 q -> (rest = [] \/ exists v, rest = 61 :: v) -> ~ In q (long_names S) ->
    In l (long_names S) -> In l' (long_names S) -> l <> l' -> l = q ++ r -> l' = q ++ r' -> ambiguous S (s2l "--" ++ q ++ rest).
