(** * SpecDict: vocabulary of the dictionary properties *)
From Verif Require Import Base Parser Dialect CsvLib Reader Dict SpecLayout SpecParse.

(** A call on a DictReader: [next(d)] or reading [d.fieldnames]. *)
Inductive dcall := CNext | CNames.
Inductive danswer :=
| ANext (x : dict_result)
| ANames (x : res pyexc (option (list key))).
Fixpoint run_dict (limit : Z) (h : heap) (cs : list dcall) (o : dict_reader) : list danswer :=
  match cs with
  | [] => []
  | CNext :: cs' => let '(x, o') := dr_next limit h o in ANext x :: run_dict limit h cs' o'
  | CNames :: cs' => let '(x, o') := dr_fieldnames limit h o in ANames x :: run_dict limit h cs' o'
  end.
Definition count_next (cs : list dcall) : nat :=
  length (filter (fun c => match c with CNext => true | CNames => false end) cs).

(** What the dictionary of a record should be. *)
Definition expected_dict (names : list key) (restkey : key) (restval : option str) (row : list cell)
  : odict dval :=
  let cells := map cell_str row in
  zip names (map DStr cells ++ repeat (rest_dval restval) (length names - length cells))
  ++ match skipn (length names) cells with
     | [] => []
     | surplus => [(restkey, DList surplus)]
     end.

Definition not_blank (row : list cell) : bool := match row with [] => false | _ => true end.

(** The answers for a header and the records below it: each [next] takes the
    next record, and [fin] is what happens at the end. *)
Fixpoint answers (names : list key) (dict : list cell -> odict dval) (records : list (list cell))
    (fin : dict_result) (cs : list dcall) : list danswer :=
  match cs with
  | [] => []
  | CNames :: cs' => ANames (Ok (Some names)) :: answers names dict records fin cs'
  | CNext :: cs' =>
      match records with
      | [] => ANext fin :: answers names dict [] fin cs'
      | r :: rs => ANext (DRow (dict r)) :: answers names dict rs fin cs'
      end
  end.
Definition final (x : option pyexc) : dict_result := match x with None => DStop | Some x => DRaise x end.

(** All assignments made for a record, in order. *)
Definition assignments (names : list key) (restkey : key) (restval : option str) (row : list cell)
  : list (key * dval) := expected_dict names restkey restval row.
(** The value of the last assignment to a key. *)
Definition last_value {A} (k : key) (ps : list (key * A)) : option A :=
  match filter (fun p => key_eqb (fst p) k) (rev ps) with
  | [] => None
  | p :: _ => Some (snd p)
  end.

(** Dictionaries to be written: the first one has the keys [names], and the
    others have no further keys. *)
Definition writable_dicts {V} (names : list str) (items : list (odict V)) : Prop :=
  names <> [] /\ NoDup names /\
  (exists first rest, items = first :: rest /\ map fst first = map Some names) /\
  forall d, In d items -> NoDup (map fst d) /\ incl (map fst d) (map Some names).

(** What such a dictionary is read as: missing values become the empty string. *)
Definition reads_as (names : list str) (d : odict value) (d' : odict dval) : Prop :=
  map fst d' = map Some names /\
  forall k, In k names -> od_get d' (Some k) =
    Some (DStr (match od_get d (Some k) with Some v => value_str v | None => [] end)).

(** Strings that can be read back within a limit. *)
Definition fits_str (limit : Z) (s : str) : Prop :=
  no_nul s /\ (Z.of_nat (length s) + 2 <= limit)%Z.
