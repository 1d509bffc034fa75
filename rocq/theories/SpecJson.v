(** * SpecJson: code points and dialects for the serialisation theorems *)
From Verif Require Import Base Dialect Json.

(** Python strings contain code points up to U+10FFFF, surrogates included. *)
Definition code_points (s : str) : Prop := Forall (fun c => c < 1114112)%N s.

Definition dialect_points (D : SimpleDialect) : Prop :=
  forall s, In (Some s) [sd_delimiter D; sd_quotechar D; sd_escapechar D] -> code_points s.

(** Strings as JSON readers see them: a high and a low surrogate in a row are
    one character. *)
Fixpoint pair_up (s : str) : str :=
  match s with
  | h :: ((l :: r) as s') =>
      if ((55296 <=? h) && (h <=? 56319) && (56320 <=? l) && (l <=? 57343))%N
      then (65536 + (h - 55296) * 1024 + (l - 56320))%N :: pair_up r
      else h :: pair_up s'
  | _ => s
  end.

(** The deserialised dialect has the attributes of [d]. *)
Definition same_dialect (j : jdialect) (d : SimpleDialect) : Prop :=
  Some (jd_delimiter j) = option_map JStr (sd_delimiter d) /\
  Some (jd_quotechar j) = option_map JStr (sd_quotechar d) /\
  Some (jd_escapechar j) = option_map JStr (sd_escapechar d) /\
  jd_strict j = JBool (sd_strict d).
