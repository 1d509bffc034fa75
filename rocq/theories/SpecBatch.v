(** * SpecBatch: the files of one command line *)
From Verif Require Import Base Files Standardize SpecFiles.

(** What the command line says about the [i]-th path alone. *)
Definition given_encoding (A : sargs) (i : nat) : list str :=
  match a_encodings A with
  | [] => []
  | [e] => [e]
  | es => match nth_error es i with Some e => [e] | None => [] end
  end.
Definition given_output (A : sargs) (i : nat) : list path :=
  match nth_error (a_outputs A) i with Some o => [o] | None => [] end.
Definition alone (A : sargs) (i : nat) (p : path) : sargs :=
  mk_sargs [p] (given_encoding A i) (a_target A) (a_in_place A) (a_num_chars A) (given_output A i) (a_transpose A).

(** Temporary files are new as long as only the named files differ. *)
Definition new_names (S : senv) (ps : list path) (f : fs) : Prop :=
  forall g, same_fs_but ps g f -> g (s_mkstemp S g) = None.

(** Command lines that the command refuses. *)
Definition refused (A : sargs) : Prop :=
  (a_in_place A = true /\ a_outputs A <> []) \/
  (a_in_place A = false /\ a_outputs A <> [] /\ List.length (a_outputs A) <> List.length (a_paths A)) \/
  ((2 <= List.length (a_encodings A))%nat /\ List.length (a_encodings A) <> List.length (a_paths A)).
