(** * Detect: clevercsv/detect.py *)
From Coq Require Import String.
From Verif Require Import Base Parser Dialect CsvLib Reader Potential NormalForm Consistency.

(** clevercsv/detect.py:25-38 [DetectionMethod] *)
Inductive dmethod := AUTO | NORMAL | CONSISTENCY.
Definition dmethod_eqb (a b : dmethod) : bool :=
  match a, b with AUTO, AUTO | NORMAL, NORMAL | CONSISTENCY, CONSISTENCY => true | _, _ => false end.
Definition dmethod_value (m : dmethod) : str :=
  match m with AUTO => s2l "auto" | NORMAL => s2l "normal" | CONSISTENCY => s2l "consistency" end.
(** The call [DetectionMethod(s)]: lookup by value. *)
Definition dmethod_of_str (s : str) : res pyexc dmethod :=
  match find (fun m => str_eqb (dmethod_value m) s) [AUTO; NORMAL; CONSISTENCY] with
  | Some m => Ok m
  | None => Err ValueError
  end.

(** What can be passed as [method]: a string, a member of the enumeration
    (these are strings too), or anything else, e.g. None. *)
Inductive method_arg :=
| MStr (s : str)
| MEnum (m : dmethod)
| MOther.

(** The [method_] attribute of the detector ([None]: not yet set) and the
    global field size limit. *)
Record dstate := mk_state { st_method : option dmethod; st_limit : Z }.

Section Detector.
Variable cat : N -> str.
Variable url : str -> str -> option nat.
Variable known : str -> bool -> res pyexc bool.
Variable O : orders.
Variable o_set : list SimpleDialect -> list SimpleDialect.

(** clevercsv/detect.py:64-127 [Detector.detect].  [delimiters] is the list of
    the strings the iterable yields; printing is not modelled. *)
Definition detector_detect (sample : str) (delimiters : option (list str)) (method : method_arg)
    (skip : bool) (s : dstate) : res pyexc (option SimpleDialect) * dstate :=
  match
    match method with
    | MStr v => bind (dmethod_of_str v) (fun m => Ok (Some m))
    | MEnum m => bind (dmethod_of_str (dmethod_value m)) (fun m => Ok (Some m))
    | MOther => Ok None
    end with
  | Err x => (Err x, s)
  | Ok m =>
      let is k := match m with Some m => dmethod_eqb m k | None => false end in
      match (if is NORMAL || is AUTO then detect_dialect_normal cat sample utf8 delimiters else Ok None) with
      | Err x => (Err x, s)
      | Ok (Some d) => (Ok (Some d), mk_state (Some NORMAL) (st_limit s))
      | Ok None =>
          let '(r, limit) := detect cat url known O o_set 100000 skip sample delimiters (st_limit s) in
          (r, mk_state (Some CONSISTENCY) limit)
      end
  end.

(** clevercsv/detect.py:55-62 [Detector.sniff] *)
Definition sniff (sample : str) (delimiters : option (list str)) (s : dstate)
  : res pyexc (option SimpleDialect) * dstate :=
  detector_detect sample delimiters (MEnum AUTO) true s.

(** ** has_header *)

(** The values of [columnTypes] other than None: one of the three types or a length. *)
Inductive pytype := TInt | TFloat | TComplex.
Inductive coltype := TType (t : pytype) | TLen (n : nat).
Definition pytype_eqb (a b : pytype) : bool :=
  match a, b with TInt, TInt | TFloat, TFloat | TComplex, TComplex => true | _, _ => false end.
Definition coltype_eqb (a b : coltype) : bool :=
  match a, b with
  | TType a, TType b => pytype_eqb a b
  | TLen a, TLen b => Nat.eqb a b
  | _, _ => false
  end.

(** The calls [int(s)], [float(s)] and [complex(s)]: [None] is success. *)
Variable cast : pytype -> str -> option pyexc.

(** clevercsv/detect.py:171-179: the loop over the types, with its else branch. *)
Fixpoint this_type (types : list pytype) (s : str) : res pyexc coltype :=
  match types with
  | [] => Ok (TLen (List.length s))
  | t :: ts =>
      match cast t s with
      | None => Ok (TType t)
      | Some ValueError | Some OverflowError => this_type ts s
      | Some x => Err x
      end
  end.

(** The dictionary [columnTypes], in insertion order. *)
Definition coltypes := list (nat * option coltype).

Definition cell_text (c : cell) : str := match c with CStr s => s | CTuple s _ => s end.

(** clevercsv/detect.py:170-187: one row.  Each column is visited once, so the
    dictionary is rebuilt from left to right. *)
Fixpoint check_row (row : list cell) (m : coltypes) : res pyexc coltypes :=
  match m with
  | [] => Ok []
  | (col, ty) :: m' =>
      match nth_error row col with
      | None => Err IndexError
      | Some c =>
          bind (this_type [TInt; TFloat; TComplex] (cell_text c)) (fun t =>
          bind (check_row row m') (fun m' =>
          match ty with
          | None => Ok ((col, Some t) :: m')
          | Some ty0 => if coltype_eqb t ty0 then Ok ((col, ty) :: m') else Ok m'
          end))
      end
  end.

(** clevercsv/detect.py:161-187: the loop over the rows.  [fuel] bounds the
    number of rows. *)
Fixpoint check_rows (fuel : nat) (limit : Z) (h : heap) (r : reader) (max checked : Z) (columns : nat)
    (m : coltypes) : res pyexc coltypes :=
  match fuel with
  | 0%nat => Err Diverged
  | S f =>
      match reader_next limit h r with
      | (NStop, _) => Ok m
      | (NRaise x, _) => Err x
      | (NRow row, r') =>
          if (max <? checked)%Z then Ok m
          else if negb (Nat.eqb (List.length row) columns)
          then check_rows f limit h r' max (checked + 1) columns m
          else bind (check_row row m) (check_rows f limit h r' max (checked + 1) columns)
      end
  end.

(** clevercsv/detect.py:191-208: the votes. *)
Fixpoint count_votes (header : list cell) (m : coltypes) (votes : Z) : res pyexc Z :=
  match m with
  | [] => Ok votes
  | (col, ty) :: m' =>
      match nth_error header col with
      | None => Err IndexError
      | Some c =>
          match ty with
          | Some (TLen n) =>
              count_votes header m' (if Nat.eqb (List.length (cell_text c)) n then votes - 1 else votes + 1)%Z
          | None => count_votes header m' (votes + 1)%Z
          | Some (TType t) =>
              match cast t (cell_text c) with
              | Some ValueError | Some TypeError => count_votes header m' (votes + 1)%Z
              | Some x => Err x
              | None => count_votes header m' (votes - 1)%Z
              end
          end
      end
  end.

(** clevercsv/detect.py:129-210 [Detector.has_header].  [reg] is the registry of
    csv dialects, which is not consulted for a SimpleDialect.  The for loop
    calls [iter(rdr)] again: a new parser continues with the unread lines. *)
Definition has_header (reg : registry) (sample : str) (max_rows_to_check : Z) (s : dstate)
  : res pyexc bool * dstate :=
  let '(r, s') := sniff sample None s in
  match r with
  | Err x => (Err x, s')
  | Ok None => (Err NoDetectionResult, s')
  | Ok (Some dialect) =>
      let lines := map ILine (lf_lines sample) in
      let limit := st_limit s' in
      let '(r, h) := new_reader reg [dialect] false lines (DSimple 0) [] in
      (match r with
       | Err x => Err x
       | Ok rdr =>
           match reader_next limit h rdr with
           | (NStop, _) => Err StopIteration
           | (NRaise x, _) => Err x
           | (NRow header, rdr) =>
               bind (reader_iter limit h rdr) (fun rdr =>
               bind (check_rows (S (List.length lines)) limit h rdr max_rows_to_check 0 (List.length header)
                       (map (fun i => (i, None)) (seq 0 (List.length header)))) (fun m =>
               bind (count_votes header m 0) (fun votes => Ok (0 <? votes)%Z)))
           end
       end, s')
  end.
End Detector.
