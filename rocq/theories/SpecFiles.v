(** * SpecFiles: vocabulary of the file-level properties *)
From Coq Require Import String.
From Verif Require Import Base Parser Dialect CsvLib Reader Writer Files Wrappers Standardize
  SpecLayout SpecParse.

(** A well-behaved encoding: what was written is read back, and every initial
    part of an encodable text is encodable. *)
Definition lawful (c : codec) : Prop :=
  (forall t b, cd_encode c t = Some b -> cd_decode c b = (t, true)) /\
  (forall t u b, cd_encode c (t ++ u) = Some b -> exists b', cd_encode c t = Some b') /\
  cd_encode c [] = Some [].

(** Every text of these characters can be encoded. *)
Definition encodes (c : codec) (alphabet : list N) : Prop :=
  forall t, incl t alphabet -> exists b, cd_encode c t = Some b.
(** The characters a writer can add to the cells. *)
Definition added_chars (D : chars) : list N := opt_str (cd D) ++ opt_str (cq D) ++ opt_str (ce D) ++ [CR; LF].

(** An example: latin-1. *)
Definition latin1 : codec :=
  mk_codec (fun b => (b, true)) (fun t => if forallb (fun c => (c <? 256)%N) t then Some t else None).

(** The excel dialect as a SimpleDialect. *)
Definition excel_simple : SimpleDialect := simple (mk_chars (Some COMMA) (Some DQ) None) false.

(** The same files. *)
Definition same_fs (f g : fs) : Prop := forall p, f p = g p.
(** The same files except for some. *)
Definition same_fs_but (ps : list path) (f g : fs) : Prop := forall p, ~ In p ps -> f p = g p.

(** Every cell, with two quotes added, fits the limit. *)
Definition fits (limit : Z) (rows : list (list cell)) : Prop :=
  forall r x, In r rows -> In x r -> (Z.of_nat (List.length (cell_str x)) + 2 <= limit)%Z.

(** The part of a text that is used for detection. *)
Definition head_chars (n : option Z) (t : str) : str :=
  match n with
  | Some z => if (0 <? z)%Z then firstn (Z.to_nat z) t else t
  | None => t
  end.

(** Reading a whole file: the lines of its text, parsed with a dialect. *)
Definition file_rows (limit : Z) (c : codec) (b : bytes) (dl : SimpleDialect)
  : list (list cell) * option pyexc :=
  parse_data limit (text_items c b) (Some dl) None None None None false.

(** A sequence of files handled one after the other: their exit codes and the
    files afterwards. *)
Inductive runs (S : senv) (A : sargs) : fs -> list (path * (option path * option str)) ->
    list nat -> fs -> Prop :=
| runs_nil f : runs S A f [] [] f
| runs_cons f p o e n f1 t jobs ns f2 :
    handle_path S A f p o e = (Code n, f1, t) -> runs S A f1 jobs ns f2 ->
    runs S A f ((p, (o, e)) :: jobs) (n :: ns) f2.

(** The first code that is not zero (zero if there is none). *)
Fixpoint first_nonzero (ns : list nat) : nat :=
  match ns with [] => 0 | O :: ns' => first_nonzero ns' | n :: _ => n end.

(** A table whose rows all have [n] cells. *)
Definition rectangular {A} (n : nat) (t : list (list A)) : Prop := forall r, In r t -> List.length r = n.
(** The cell in row [i] and column [j]. *)
Definition cell_at {A} (t : list (list A)) (i j : nat) : option A :=
  match nth_error t i with Some r => nth_error r j | None => None end.
