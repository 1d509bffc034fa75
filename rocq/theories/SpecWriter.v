(** * SpecWriter: vocabulary of the writer properties *)
From Verif Require Import Base Parser Dialect CsvLib SpecLayout SpecParse.

(** A table whose cells can be read back within a limit. *)
Definition readable (limit : Z) (rows : list (list value)) : Prop :=
  forall r v, In r rows -> In v r ->
    no_nul (value_str v) /\ (Z.of_nat (length (value_str v)) + 2 <= limit)%Z.

Definition as_read (rows : list (list value)) : list (list cell) :=
  map (map (fun v => CStr (value_str v))) rows.

(** A csv dialect that quotes, with one of the usual line terminators. *)
Definition quoting_csv (c : csvdialect) (D : chars) (d q : N) : Prop :=
  cd D = Some d /\ cq D = Some q /\
  cv_delimiter c = Some [d] /\ cv_quotechar c = Some [q] /\
  cv_escapechar c = option_map (fun x => [x]) (ce D) /\
  cv_doublequote c = true /\ cv_quoting c <> QUOTE_NONE /\
  (exists t, cv_lineterminator c = Some t /\ In t [[LF]; [CR]; [CR; LF]]) /\
  cv_strict c = Some false.

(** The value a cell comes back with: an unused double quote gets an escape. *)
Definition comes_back (D : chars) (s : str) : str :=
  concat (map (fun c => if (c =? DQ)%N && negb (special D c) then opt_str (ce D) ++ [c] else [c]) s).

(** A csv dialect given a [strict] attribute. *)
Definition with_strict (c : csvdialect) (b : bool) : csvdialect :=
  mk_csvdialect (cv_delimiter c) (cv_quotechar c) (cv_escapechar c) (cv_doublequote c)
    (cv_skipinitialspace c) (cv_lineterminator c) (cv_quoting c) (Some b).
