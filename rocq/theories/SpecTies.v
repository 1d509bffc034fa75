(** * SpecTies: when and how a tie between two dialects is broken *)
From Verif Require Import Base Parser Dialect.

(** The shape of a table: the number of cells of each row. *)
Definition shape_of (X : list (list cell)) : list nat := map (@length cell) X.

(** The first pair of different cells, row by row. *)
Definition first_difference (X Y : list (list cell)) (u v : cell) : Prop :=
  exists k, nth_error (concat X) k = Some u /\ nth_error (concat Y) k = Some v /\ u <> v /\
    firstn k (concat X) = firstn k (concat Y).

(** How often [a] stands directly before [b]. *)
Fixpoint adjacent (a b : N) (s : str) : nat :=
  match s with
  | x :: ((y :: _) as s') => (if ((x =? a) && (y =? b))%N then 1 else 0) + adjacent a b s'
  | _ => 0
  end.

(** [t] contains [s]. *)
Definition substring (s t : str) : Prop := exists p r, t = p ++ s ++ r.

(** Every cell of the first table that differs from its counterpart contains [s]. *)
Definition differences_contain (s : str) (X Y : list (list cell)) : Prop :=
  forall k t v, nth_error (concat X) k = Some (CStr t) -> nth_error (concat Y) k = Some v ->
    CStr t <> v -> substring s t.

(** [a] stands directly before [b] in the list. *)
Definition neighbours {A} (ds : list A) (a b : A) : Prop := exists l r, ds = l ++ a :: b :: r.
(** Neighbours for which the text parses to the same table. *)
Definition twins (limit : Z) (data : str) (ds : list SimpleDialect) (a b : SimpleDialect) : Prop :=
  neighbours ds a b /\ exists X,
    parse_string limit data a false = (X, None) /\ parse_string limit data b false = (X, None).
