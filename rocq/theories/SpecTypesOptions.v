(** * SpecTypesOptions: white space and partial dictionaries *)
From Coq Require Import String.
From Verif Require Import Base SpecTypes Types.
Open Scope N_scope.

(** The characters for which [str.isspace] holds. *)
Definition py_spaces : list N :=
  [9; 10; 11; 12; 13; 28; 29; 30; 31; 32; 133; 160; 5760; 8192; 8193; 8194; 8195; 8196; 8197; 8198; 8199; 8200; 8201; 8202;
   8232; 8233; 8239; 8287; 12288].
(** None of them is a letter, a number or a currency sign, and no word of white
    space characters becomes [n/a], [na] or [nan] in lower case. *)
Definition sane_spaces (U : unidata) : Prop :=
  (forall c, u_space U c = true -> In c py_spaces) /\
  (forall c, In c py_spaces -> ~ a_letter (u_cat U) c /\ ~ a_numeral (u_cat U) c /\ ~ a_currency (u_cat U) c) /\
  (forall s, missing (u_lower U) s -> Forall (fun c => ~ In c py_spaces) s).

(** The same data, if nothing counts as white space at the ends of a cell. *)
Definition unstripped (U : unidata) : unidata :=
  mk_unidata (u_cat U) (fun _ => false) (u_ws U) (u_isdigit U) (u_lower U) (u_maxdigits U) (u_depth U).

(** Types with parts that are stripped on their own. *)
Definition composed : list string := ["percentage"; "currency"; "datetime"]%string.
