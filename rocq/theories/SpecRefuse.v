(** * SpecRefuse: options that can only refuse *)
From Verif Require Import Base Parser.

(** [cf'] is [cf] with strict mode switched off or a larger field size limit, or both. *)
Definition laxer (cf cf' : pconf) : Prop :=
  delimiter cf' = delimiter cf /\ quotechar cf' = quotechar cf /\ escapechar cf' = escapechar cf /\ return_quoted cf' = return_quoted cf /\
  (strict cf' = true -> strict cf = true) /\ (field_limit cf <= field_limit cf')%Z.

(** The errors of strict mode and of the limit. *)
Definition refusal (e : perr) : Prop := e = EFieldLimit \/ e = EQuoteExpected \/ e = EUnexpectedEnd.

(** One table is the beginning of another. *)
Definition begins {A} (l l' : list A) : Prop := exists more, l' = l ++ more.
