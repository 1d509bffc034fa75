(** * SpecLimit: what a history of calls does to the limit *)
From Verif Require Import Base Dialect Limit.

(** Python's int() of an integer argument. *)
Definition int_of (a : larg) : option Z :=
  match a with LInt z => Some z | LBool true => Some 1%Z | LBool false => Some 0%Z | LOther => None end.

Definition arguments (c : list larg * list (str * larg)) : list larg := fst c ++ map snd (snd c).
(** The call has a single argument, the integer [z]. *)
Definition sets (c : list larg * list (str * larg)) (z : Z) : Prop :=
  exists a, arguments c = [a] /\ int_of a = Some z.
Definition bad (c : list larg * list (str * larg)) : Prop :=
  arguments c <> [] /\ forall z, ~ sets c z.

(** [limit] is in force after the calls [calls]: set by the last of them that
    set anything, or never changed. *)
Definition in_force (initial : Z) (calls : list (list larg * list (str * larg))) (limit : Z) : Prop :=
  (exists before c after, calls = before ++ c :: after /\ sets c limit /\ forall c' z, In c' after -> ~ sets c' z) \/
  (limit = initial /\ forall c z, In c calls -> ~ sets c z).
