(** * PropsJson: dialects as JSON (C46) *)
From Coq Require Import String.
From Verif Require Import Base Parser Dialect Json SpecJson JsonFacts.

(** ** C46 *)
Theorem C46_roundtrip maxdigits depth D s : (1 <= depth)%nat -> dialect_points D -> serialize D = Ok s ->
  exists j, deserialize maxdigits depth s = Ok j /\ same_dialect j D.
Proof. exact (roundtrip_same maxdigits depth D s). Qed.
Print Assumptions C46_roundtrip.
Theorem C46_serialize_iff_valid D : (exists s, serialize D = Ok s) <-> validate D = true.
Proof. exact (serialize_valid D). Qed.
Print Assumptions C46_serialize_iff_valid.
Theorem C46_invalid D : validate D = false -> serialize D = Err ValueError.
Proof. exact (serialize_error D). Qed.
Print Assumptions C46_invalid.
Theorem C46_injective D D' s : dialect_points D -> dialect_points D' -> serialize D = Ok s -> serialize D' = Ok s -> D = D'.
Proof. exact (serialize_injective D D' s). Qed.
Print Assumptions C46_injective.
Theorem C46_printable_ascii D s : dialect_points D -> serialize D = Ok s -> Forall (fun c => 32 <= c <= 126)%N s.
Proof. exact (serialize_printable D s). Qed.
Print Assumptions C46_printable_ascii.
(** Longer strings come back with surrogate pairs joined: one reason to reject
    fields of two characters. *)
Theorem C46_strings maxdigits depth s : code_points s -> loads maxdigits depth (dumps_str s) = Ok (JStr (pair_up s)).
Proof. exact (loads_string maxdigits depth s). Qed.
Print Assumptions C46_strings.
Theorem C46_long_strings_refuted : exists s, code_points s /\ pair_up s <> s.
Proof. exact pairs_case. Qed.
Print Assumptions C46_long_strings_refuted.
(** deserialize does not validate: the attributes can be any JSON values. *)
Theorem C46_deserialize_validates_refuted : exists text j,
  deserialize 4300 900 text = Ok j /\ forall D, ~ same_dialect j D.
Proof. exact deserialize_unchecked. Qed.
Print Assumptions C46_deserialize_validates_refuted.
Example C46_case : serialize (dialect3 [DQ] [BACKSLASH] [128512%N]) =
  Ok (s2l "{""delimiter"": ""\"""", ""quotechar"": ""\\"", ""escapechar"": ""\ud83d\ude00"", ""strict"": false}").
Proof. exact serialize_case. Qed.
Example C46_errors :
  deserialize 4300 900 (s2l "{""delimiter"": "","", ""quotechar"": """"}") = Err KeyError /\
  deserialize 4300 900 (s2l "[1]") = Err TypeError /\
  deserialize 4300 900 (s2l "{""delimiter"": "",""") = Err JSONDecodeError.
Proof. exact deserialize_missing. Qed.
