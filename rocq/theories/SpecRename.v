(** * SpecRename: exchanging characters for others *)
From Verif Require Import Base Parser Dialect CsvLib.

(** A one-to-one map of characters that keeps NUL and the line ends. *)
Record renaming (f : N -> N) : Prop := mk_renaming {
  rn_inj : forall x y, f x = f y -> x = y;
  rn_nul : f NUL = NUL;
  rn_cr : f CR = CR;
  rn_lf : f LF = LF
}.
Section Rename.
Variable f : N -> N.
Definition ren : str -> str := map f.
Definition ren_dialect (d : SimpleDialect) : SimpleDialect :=
  mk_dialect (option_map ren (sd_delimiter d)) (option_map ren (sd_quotechar d)) (option_map ren (sd_escapechar d)) (sd_strict d).
Definition ren_cell (c : cell) : cell :=
  match c with CStr s => CStr (ren s) | CTuple s q => CTuple (ren s) q end.
Definition ren_rows (r : list (list cell) * option pyexc) : list (list cell) * option pyexc :=
  (map (map ren_cell) (fst r), snd r).
Definition ren_item (i : item) : item := match i with ILine s => ILine (ren s) | i => i end.
Definition ren_csv (w : wdialect) : wdialect :=
  mk_wdialect (f (wd_delim w)) (option_map f (wd_quote w)) (option_map f (wd_escape w)) (wd_doublequote w) (wd_skipspace w) (ren (wd_term w)) (wd_quoting w).
Definition ren_value (v : value) : value :=
  match v with VStr s => VStr (ren s) | VNone => VNone | VNum s => VNum (ren s) end.
End Rename.
(** For the examples: two characters exchanged. *)
Definition swapped (a b x : N) : N := if (x =? a)%N then b else if (x =? b)%N then a else x.
