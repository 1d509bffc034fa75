(** * SpecHeader: tables with and without a header *)
From Verif Require Import Base Dialect Detect SpecDetect.

(** Every column holds numbers of one type, and the name above it is not one. *)
Definition numbers_below (accepts : pytype -> str -> bool) (header : list str) (rows : list (list str)) : Prop :=
  header <> [] /\ forall i, (i < length header)%nat -> exists t,
    (forall r, In r rows -> kind accepts (nth i r []) = TType t) /\ accepts t (nth i header []) = false.
(** The cells of a column, with that of the first row, are numbers of one type
    or have the same length. *)
Definition all_alike (accepts : pytype -> str -> bool) (header : list str) (rows : list (list str)) : Prop :=
  rows <> [] /\ forall i, (i < length header)%nat -> exists k, forall r, In r (header :: rows) -> kind accepts (nth i r []) = k.
(** The votes on the rows decide; unanimous ones are known. *)
Definition header_answer (accepts : pytype -> str -> bool) (header : list str) (rows : list (list str)) (max : Z) (b : bool) : Prop :=
  header_vote accepts header (firstn (Z.to_nat (max + 1)) rows) b /\
  (numbers_below accepts header rows -> b = true) /\ ((0 <= max)%Z -> all_alike accepts header rows -> b = false).
