(** * SpecEncoding: characters an encoding keeps *)
From Verif Require Import Base Dialect Potential SpecPotential.

(** Encoding and decoding gives the character back. *)
Definition keeps (E : encoding) (x : N) : Prop := enc_trip E x = Ok [x].
(** It fails, or gives something that is not one character. *)
Definition lost (E : encoding) (x : N) (e : pyexc) : Prop :=
  enc_trip E x = Err e \/ exists s, enc_trip E x = Ok s /\ length s <> 1%nat /\ e = TypeError.
(** What can go wrong in [get_dialects]: a character outside of URLs is lost, or
    one that has a successor cannot be encoded or decoded. *)
Definition encoding_error (E : encoding) (no_url data : str) (e : pyexc) : Prop :=
  (exists x, In x no_url /\ lost E x e) \/
  (enc_plain E = false /\ exists u v, before u v data /\ enc_trip E u = Err e).
