(** * JsonCells: the type test for JSON objects *)
From Verif Require Import Base Parser Dialect Json SpecJson SpecJsonText JsonText JsonValues Types SpecTypes TypesAll.

Lemma json_cell_iff U s : is_json_obj U s = Ok true <-> in_braces s /\ exists v, j_text (u_maxdigits U) (u_depth U) v s.
Proof.
  rewrite is_json_true. unfold reads_json. split; intros [H [v Hv]]; (split; [exact H|]); exists v; now apply loads_iff.
Qed.
