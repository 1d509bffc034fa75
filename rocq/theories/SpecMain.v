(** * SpecMain: files with simple tables and what standardizing them writes *)
From Verif Require Import Base Dialect Files Wrappers Standardize SpecFiles SpecTables SpecExcel SpecDocument.

(** The encoding for the [i]-th file: none, the same for all, or one for each. *)
Definition encoding_for (es : list str) (i : nat) : option str :=
  match es with [] => None | [e] => Some e | _ => nth_error es i end.
Definition enough (es : list str) (n : nat) : Prop := (List.length es <= 1)%nat \/ List.length es = n.

(** File [p] has the content [b], a table in simple form, and [n] characters are
    enough to see all of it. *)
Definition holds (cat : N -> str) (E : env) (f : fs) (p : path) (encoding : option str) (n : option Z) (b : bytes) (cells : list (list str)) : Prop :=
  exists cod text d q, document cat text d q cells /\ open_text E f p (or_encoding encoding) = Ok (cod, b) /\
    cd_decode cod b = (text, true) /\ head_chars n text = text /\ cells_fit (e_limit E) cells.
(** The standard form of the table, possibly transposed. *)
Definition standard (transpose : bool) (cells : list (list str)) : str := excel_table (if transpose then zip_star cells else cells).
(** [b'] is the text in the target encoding; without one the encoding is kept. *)
Definition encoded (E : env) (encoding target : option str) (b : bytes) (text : str) (b' : bytes) : Prop :=
  exists cod, e_codec E (match or_encoding target with
                         | Some e => Some e
                         | None => match or_encoding encoding with Some e => Some e | None => e_get_encoding E b end
                         end) = Ok cod /\ lawful cod /\ cd_encode cod text = Some b'.
(** A file that is named by a word or by the end of a word (-oNAME,
    --output=NAME). *)
Definition named (locate : str -> path) (ws : list str) (x : path) : Prop := exists a s, In (a ++ s) ws /\ x = locate s.
