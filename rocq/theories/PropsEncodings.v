(** * PropsEncodings: theorems for C91 *)
From Coq Require Import String Permutation.
From Verif Require Import Base Parser Dialect Potential SpecPotential PotentialFacts MaskedFacts NormalForm SpecEncoding Encodings.

(** ** C91: what the encoding argument does *)
(** An encoding that keeps the characters of the text gives what UTF-8 gives. *)
Theorem C91_kept cat url O E data user masked : any_orders O ->
  (forall x, In x (filter_urls url data) -> keeps E x /\ surrogate x = false) ->
  (enc_plain E = true \/ forall x, In x data -> keeps E x) ->
  get_dialects cat url O E data user masked = get_dialects cat url O utf8 data user masked.
Proof. exact (encoding_kept cat url O E data user masked). Qed.
Print Assumptions C91_kept.
Theorem C91_normal_kept cat E data user : (enc_plain E = true \/ forall x, In x data -> keeps E x) ->
  detect_dialect_normal cat data E user = detect_dialect_normal cat data utf8 user.
Proof. exact (normal_kept cat E data user). Qed.
Print Assumptions C91_normal_kept.
(** The function raises if, and only if, a character is lost; also when the
    delimiters are given. *)
Theorem C91_fails cat url O E data user masked e : any_orders O ->
  encoding_error E (filter_urls url data) data e ->
  exists e', get_dialects cat url O E data user masked = Err e' /\ encoding_error E (filter_urls url data) data e'.
Proof. exact (encoding_fails cat url O E data user masked e). Qed.
Print Assumptions C91_fails.
Theorem C91_sources cat url O E data user masked e : any_orders O ->
  get_dialects cat url O E data user masked = Err e -> encoding_error E (filter_urls url data) data e.
Proof. exact (encoding_sources cat url O E data user masked e). Qed.
Print Assumptions C91_sources.
Example C91_kept_case : filter_urls no_urls accented = accented /\
  forall x, In x accented -> keeps latin1_encoding x /\ surrogate x = false.
Proof. exact (conj accented_filtered latin1_keeps). Qed.
Example C91_latin1_case : encoding_error latin1_encoding (s2l "a," ++ [8364]%N) (s2l "a," ++ [8364]%N) UnicodeEncodeError /\
  get_dialects ascii_cat no_urls plain_orders latin1_encoding (s2l "a," ++ [8364]%N) None false = Err UnicodeEncodeError.
Proof. exact latin1_fails. Qed.
Example C91_split_case : encoding_error split_encoding [97; 223]%N [97; 223]%N TypeError /\
  get_dialects ascii_cat no_urls plain_orders split_encoding [97; 223]%N (Some [s2l ","]) false = Err TypeError.
Proof. exact split_fails. Qed.
(** With an encoding other than UTF-8 and ASCII the character that is tested is
    the one that encoding and decoding gives; more than one is no escape character. *)
Theorem C91_escape_character cat E c : enc_plain E = false ->
  (is_potential_escapechar cat c E = Ok true <-> exists u, enc_trip E c = Ok [u] /\ escape_like cat u) /\
  (forall e, is_potential_escapechar cat c E = Err e <-> enc_trip E c = Err e).
Proof. exact (escape_any cat E c). Qed.
Print Assumptions C91_escape_character.
Example C91_escape_case : enc_plain split_encoding = false /\ enc_trip split_encoding 223 = Ok [115; 115]%N /\
  is_potential_escapechar ascii_cat 223 split_encoding = Ok false /\ is_potential_escapechar ascii_cat 92 split_encoding = Ok true.
Proof. exact split_escape. Qed.
