(** * SpecConsistency: what the consistency measure should be *)
From Coq Require Import SpecFloat.
From Verif Require Import Base Dialect SpecLayout Floats Consistency.

(** A finite number greater than zero. *)
Definition positive (x : float) : Prop := exists m e, x = S754_finite false m e.

(** ** The pattern score of a table *)

(** The kinds of rows: the number of cells of each record.  Blank lines do not
    count, except that blank lines in front of the first record make one row
    of kind 0; a table without records is one such row. *)
Definition row_kinds {A} (rows : list (list A)) : list nat :=
  match filter (fun n => negb (Nat.eqb n 0)) (map (@length A) rows) with
  | [] => [0]
  | full => match rows with [] :: _ => 0 :: full | _ => full end
  end.
(** The elements of a list without repetitions, by first occurrence. *)
Fixpoint firsts (l : list nat) : list nat :=
  match l with
  | [] => []
  | x :: l' => x :: filter (fun y => negb (Nat.eqb y x)) (firsts l')
  end.
(** [N * (max(eps, L-1) / L)] for [N] rows of [L] cells; a row of kind 0 counts as
    one cell. *)
Definition kind_score (N kind : nat) : float :=
  let L := Nat.max 1 kind in
  fmul (float_of_Z (Z.of_nat N))
       (fdiv (fmax eps_pat (float_of_Z (Z.of_nat L - 1))) (float_of_Z (Z.of_nat L))).
(** The average over the different kinds. *)
Definition table_score (kinds : list nat) : float :=
  fdiv (fold_left fadd (map (fun k => kind_score (count_occ Nat.eq_dec kinds k) k) (firsts kinds)) fzero)
       (float_of_Z (Z.of_nat (length (firsts kinds)))).

(** ** The type score of a list of cells *)
Definition count_known (known : str -> bool -> bool) (cells : list (str * bool)) : nat :=
  length (filter (fun p => known (fst p) (snd p)) cells).
Definition type_share (known : str -> bool -> bool) (cells : list (str * bool)) : float :=
  match cells with
  | [] => eps_type
  | _ => fmax eps_type (fdiv (float_of_Z (Z.of_nat (count_known known cells)))
                             (float_of_Z (Z.of_nat (length cells))))
  end.

(** The caches that can arise from an empty one by looking cells up. *)
Inductive reached (known : str -> bool -> res pyexc bool) (capacity : Z) : cache -> Prop :=
| reached_empty : reached known capacity []
| reached_call s q b c c' : reached known capacity c ->
    cached_call known capacity s q c = Ok (b, c') -> reached known capacity c'.

(** A type detector that answers for every cell. *)
Definition total_known (kb : str -> bool -> bool) : str -> bool -> res pyexc bool := fun s q => Ok (kb s q).

(** ** The score of a dialect *)
Definition has_score (known : str -> bool -> res pyexc bool) (limit : Z) (data : str) (d : SimpleDialect) (q : float) : Prop :=
  exists P T, pattern_score data d = Ok P /\ type_score known limit data d = Ok T /\ q = fmul P T.

(** ** Ties *)
(** No two different escape characters. *)
Definition one_escape (A B : SimpleDialect) : Prop :=
  sd_escapechar A = Some [] \/ sd_escapechar B = Some [] \/ sd_escapechar A = sd_escapechar B.
