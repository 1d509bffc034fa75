(** * SpecPotential: which dialects are candidates, and dialect order *)
From Coq Require Import String Permutation Sorted.
From Verif Require Import Base Dialect Potential.

(** Sets may be iterated in any order. *)
Definition any_orders (O : orders) : Prop :=
  (forall l, Permutation (o_chars O l) l) /\ (forall l, Permutation (o_delims O l) l) /\
  (forall l, Permutation (o_quotes O l) l) /\ (forall d q l, Permutation (o_escapes O d q l) l).

(** [u] stands directly before [v] somewhere in [s]. *)
Definition before (u v : N) (s : str) : Prop := exists a b, s = a ++ u :: v :: b.

(** ** Admissible characters, for a table [cat] of Unicode categories *)

(** Without a list from the user: everything but letters, numbers, brackets,
    private use characters, full stop, slash, quotes and newlines; the tab is fine. *)
Definition default_delimiter (cat : N -> str) (c : N) : Prop :=
  c = TAB \/
  (~ In c [46; 47; 34; 39; 10; 13]%N /\
   ~ In (cat c) (map s2l ["Lu"; "Ll"; "Lt"; "Lm"; "Lo"; "Nd"; "Nl"; "No"; "Ps"; "Pe"; "Co"]%string)).
Definition wanted_delimiter (cat : N -> str) (user : option (list str)) (c : N) : Prop :=
  match user with None => default_delimiter cat c | Some l => In [c] l end.

Definition quote_like (c : N) : Prop := In c [39; 34; 126; 96]%N.

(** Punctuation (other), except the common signs that never escape. *)
Definition escape_like (cat : N -> str) (c : N) : Prop :=
  cat c = s2l "Po" /\ ~ In c (s2l "!?""'.,;:%*&#").

(** The triple is a candidate for [data], whose URL-free version is [text]. *)
Definition candidate (cat : N -> str) (user : option (list str)) (text data : str)
    (d q e : str) : Prop :=
  (d = [] \/ exists c, d = [c] /\ In c text /\ wanted_delimiter cat user c) /\
  (q = [] \/ exists c, q = [c] /\ In c text /\ quote_like c) /\
  (e = [] \/ exists u v, e = [u] /\ before u v data /\ escape_like cat u /\ (d = [v] \/ q = [v])).

(** [new] is [old] with some substrings replaced by the letter U. *)
Inductive url_sub : str -> str -> Prop :=
| us_nil : url_sub [] []
| us_keep c s t : url_sub s t -> url_sub (c :: s) (c :: t)
| us_url u s t : u <> [] -> url_sub s t -> url_sub (u ++ s) (85%N :: t).

(** ** Quoted segments *)

(** How often [c] occurs. *)
Definition occurrences (c : N) (s : str) : nat := count_occ N.eq_dec s c.

(** Position [k] lies inside a quoted segment if an odd number of quotes
    precedes it. *)
Definition inside (q : N) (s : str) (k : nat) : Prop :=
  Nat.odd (occurrences q (firstn k s)) = true.

(** Every [t] of the text is inside a quoted segment. *)
Definition always_inside (q t : N) (s : str) : Prop :=
  forall k, nth_error s k = Some t -> inside q s k.

(** ** Order *)

(** Dialects whose attributes are strings. *)
Definition defined (d : SimpleDialect) : Prop :=
  sd_delimiter d <> None /\ sd_quotechar d <> None /\ sd_escapechar d <> None.

(** [a < b] evaluates to True. *)
Definition dlt (a b : SimpleDialect) : Prop := dialect_ltb a b = Ok true.
