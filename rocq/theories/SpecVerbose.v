(** * SpecVerbose: the messages of verbose mode *)
From Coq Require Import String.
From Verif Require Import Base Parser Dialect Potential Floats Console.
Open Scope N_scope.

(** It takes the lines [a] and raises [x] for the next one. *)
Definition refused (stdout : str -> option pyexc) (lines a : list str) (x : pyexc) : Prop :=
  exists l b, lines = a ++ l :: b /\ (forall y, In y a -> stdout y = None) /\ stdout l = Some x.

Definition running_normal : str := s2l "Running normal form detection ...".
Definition running_consistency : str := s2l "Running data consistency measure ...".

(** The line about one dialect, given its scores: [f6] is the number with six
    decimals, right-aligned in 15 columns.  Columns are separated by tabs. *)
Definition columns (fields : list str) : str :=
  match fields with
  | [] => []
  | x :: l => x ++ List.concat (map (fun y => 9 :: y) l)
  end.
Definition dialect_line (printable : N -> bool) (f6 : float -> str) (d : SimpleDialect) (P : float) (rest : option (float * float)) : str :=
  columns ((dialect_repr printable d ++ s2l ":") :: (s2l "P = " ++ f6 P) ::
    match rest with
    | None => [s2l "skip."]
    | Some (T, Q) => [s2l "T = " ++ f6 T; s2l "Q = " ++ f6 Q]
    end).

(** The message about the normal form, and the dialect it stands for. *)
Inductive normal_message (delims : list str) : str -> option SimpleDialect -> Prop :=
| nm_escape : normal_message delims (s2l "Not normal, has potential escapechar.") None
| nm_none : normal_message delims (s2l "Didn't match any normal forms.") None
| nm_2 d : In d delims -> normal_message delims (s2l "Matched normal form 2.") (Some (dialect3 d [] []))
| nm_135 n d q : In n ["1"; "3"; "5"]%string -> In d delims -> In q [[34]; [39]] ->
    normal_message delims (s2l ("Matched normal form " ++ n ++ ".")%string) (Some (dialect3 d q []))
| nm_4 q : In q [[]; [34]; [39]] -> normal_message delims (s2l "Matched normal form 4.") (Some (dialect3 [] q [])).
