(** * SpecColumn: files of one column *)
From Verif Require Import Base SpecLayout SpecNormal.

(** The text of a column and its cells; [final] has no line end. *)
Definition column_text (rows : list (str * eol)) (final : option str) : str :=
  List.concat (map (fun r => fst r ++ render_eol (snd r)) rows) ++ match final with Some s => s | None => [] end.
Definition column_of (rows : list (str * eol)) (final : option str) : list str :=
  map fst rows ++ match final with Some s => [s] | None => [] end.
(** The same with quotes around each cell. *)
Definition quoted_column (q : N) (rows : list (str * eol)) (final : option str) : str :=
  column_text (map (fun r => (quoted q (fst r), snd r)) rows) (option_map (quoted q) final).
