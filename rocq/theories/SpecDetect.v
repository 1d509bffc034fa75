(** * SpecDetect: when the first row of a table counts as a header *)
From Verif Require Import Base Dialect Detect.

(** Every CR is followed by LF or ends the text. *)
Definition no_bare_cr (t : str) : Prop := forall a c b, t = a ++ CR :: c :: b -> c = LF.

Section Votes.
Variable accepts : pytype -> str -> bool.     (* int(s), float(s), complex(s) return *)

(** The first of the types int, float, complex that accepts the cell, else its length. *)
Definition kind (s : str) : coltype :=
  if accepts TInt s then TType TInt
  else if accepts TFloat s then TType TFloat
  else if accepts TComplex s then TType TComplex
  else TLen (length s).
(** The cell could stand in a column of this kind. *)
Definition fits (k : coltype) (s : str) : Prop :=
  match k with TType t => accepts t s = true | TLen n => length s = n end.

(** The vote of column [i] when the rows [rows] are compared with the first row. *)
Definition vote (header : list str) (rows : list (list str)) (i : nat) (v : Z) : Prop :=
  (rows = [] /\ v = 1%Z) \/
  (exists k, rows <> [] /\ (forall r, In r rows -> kind (nth i r []) = k) /\
     ((fits k (nth i header []) /\ v = (-1)%Z) \/ (~ fits k (nth i header []) /\ v = 1%Z))) \/
  (exists r1 r2, In r1 rows /\ In r2 rows /\ kind (nth i r1 []) <> kind (nth i r2 []) /\ v = 0%Z).

(** The first row is a header if the votes of the columns add up to more than 0.
    Rows with another number of columns are ignored. *)
Definition header_vote (header : list str) (rows : list (list str)) (b : bool) : Prop :=
  exists vs, Forall2 (vote header (filter (fun r => Nat.eqb (length r) (length header)) rows))
                     (seq 0 (length header)) vs /\
    (b = true <-> (0 < fold_right Z.add 0 vs)%Z).
End Votes.

(** int, float and complex raise nothing but ValueError when applied to a string. *)
Definition cast_of (accepts : pytype -> str -> bool) (t : pytype) (s : str) : option pyexc :=
  if accepts t s then None else Some ValueError.
