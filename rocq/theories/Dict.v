(** * Dict: clevercsv/dict_read_write.py and the dictionary wrappers

    Keys are strings or None ([restkey] can be None).  [warnings.warn] is taken
    to print a warning and not to raise. *)
From Coq Require Import String.
From Verif Require Import Base Parser Dialect CsvLib Reader Writer Files Wrappers.

Definition key := option str.
Definition key_eqb (a b : key) : bool :=
  match a, b with
  | Some s, Some t => str_eqb s t
  | None, None => true
  | _, _ => false
  end.

(** An [OrderedDict]/[dict]: assignment keeps the position of an existing key. *)
Definition odict (A : Type) := list (key * A).
Fixpoint od_set {A} (d : odict A) (k : key) (v : A) : odict A :=
  match d with
  | [] => [(k, v)]
  | (k', v') :: d' => if key_eqb k' k then (k', v) :: d' else (k', v') :: od_set d' k v
  end.
Definition od_update {A} (d : odict A) (ps : list (key * A)) : odict A :=
  fold_left (fun d p => od_set d (fst p) (snd p)) ps d.
Fixpoint od_get {A} (d : odict A) (k : key) : option A :=
  match d with
  | [] => None
  | (k', v) :: d' => if key_eqb k' k then Some v else od_get d' k
  end.

(** The values in a row dictionary. *)
Inductive dval :=
| DStr (s : str)
| DNone
| DList (l : list str).
Definition rest_dval (v : option str) : dval := match v with Some s => DStr s | None => DNone end.

Definition cell_text (x : cell) : str := match x with CStr s => s | CTuple s _ => s end.

(** ** DictReader *)

(** clevercsv/dict_read_write.py:47-62 *)
Record dict_reader := mk_dict_reader {
  dr_names : option (list key);      (* self._fieldnames *)
  dr_restkey : key;
  dr_restval : option str;
  dr_reader : reader;
  dr_line_num : nat
}.
Definition new_dict_reader (names : option (list key)) (restkey : key) (restval : option str)
    (r : reader) : dict_reader :=
  mk_dict_reader names restkey restval r 0.

(** clevercsv/dict_read_write.py:67-91, the property [fieldnames]. *)
Definition dr_fieldnames (limit : Z) (h : heap) (o : dict_reader)
  : res pyexc (option (list key)) * dict_reader :=
  let with_reader r := mk_dict_reader (dr_names o) (dr_restkey o) (dr_restval o) r (dr_line_num o) in
  let done ns r := (Ok (Some ns), mk_dict_reader (Some ns) (dr_restkey o) (dr_restval o) r (r_line_num r)) in
  match dr_names o with
  | Some ns => done ns (dr_reader o)
  | None =>
      match reader_next limit h (dr_reader o) with
      | (NRow row, r) => done (map (fun x => Some (cell_text x)) row) r
      | (NStop, r) => (Ok None, with_reader r)
      | (NRaise x, r) => (Err x, with_reader r)
      end
  end.

Inductive dict_result :=
| DRow (d : odict dval)
| DStop
| DRaise (x : pyexc).

(** clevercsv/dict_read_write.py:103-104: [while row == []: row = next(reader)]. *)
Fixpoint skip_blank (fuel : nat) (limit : Z) (h : heap) (row : list cell) (r : reader)
  : next_result * reader :=
  match row with
  | [] =>
      match fuel with
      | O => (NRaise Diverged, r)
      | S f =>
          match reader_next limit h r with
          | (NRow row', r') => skip_blank f limit h row' r'
          | other => other
          end
      end
  | _ => (NRow row, r)
  end.

(** clevercsv/dict_read_write.py:106-114: the dictionary of a row. *)
Definition row_dict (names : list key) (restkey : key) (restval : option str) (row : list cell)
  : odict dval :=
  let d := od_update [] (zip names (map (fun x => DStr (cell_text x)) row)) in
  let lf := List.length names in
  let lr := List.length row in
  if Nat.ltb lf lr then od_set d restkey (DList (map cell_text (skipn lf row)))
  else if Nat.ltb lr lf then od_update d (map (fun k => (k, rest_dval restval)) (skipn lr names))
  else d.

(** clevercsv/dict_read_write.py:97-114 [DictReader.__next__]. *)
Definition dr_next (limit : Z) (h : heap) (o : dict_reader) : dict_result * dict_reader :=
  let '(start, o) := if Nat.eqb (dr_line_num o) 0 then dr_fieldnames limit h o else (Ok None, o) in
  match start with
  | Err x => (DRaise x, o)
  | Ok _ =>
      let set_reader r n := mk_dict_reader (dr_names o) (dr_restkey o) (dr_restval o) r n in
      match reader_next limit h (dr_reader o) with
      | (NStop, r) => (DStop, set_reader r (dr_line_num o))
      | (NRaise x, r) => (DRaise x, set_reader r (dr_line_num o))
      | (NRow row, r) =>
          let n := r_line_num r in
          match skip_blank (S (List.length (r_rest r))) limit h row r with
          | (NStop, r) => (DStop, set_reader r n)
          | (NRaise x, r) => (DRaise x, set_reader r n)
          | (NRow row, r) =>
              match dr_fieldnames limit h (set_reader r n) with
              | (Err x, o) => (DRaise x, o)
              | (Ok None, o) => (DRaise TypeError, o)      (* zip(None, row) *)
              | (Ok (Some ns), o) => (DRow (row_dict ns (dr_restkey o) (dr_restval o) row), o)
              end
          end
      end
  end.

(** [list(dict_reader)] / iterating over it: the dictionaries and the exception
    at the end. *)
Fixpoint dr_drain (fuel : nat) (limit : Z) (h : heap) (o : dict_reader)
  : list (odict dval) * option pyexc :=
  match fuel with
  | O => ([], Some Diverged)
  | S f =>
      match dr_next limit h o with
      | (DRow d, o') => let '(ds, x) := dr_drain f limit h o' in (d :: ds, x)
      | (DStop, _) => ([], None)
      | (DRaise x, _) => ([], Some x)
      end
  end.

(** ** DictWriter *)

(** clevercsv/dict_read_write.py:117-135.  [lower] is Python's [str.lower]. *)
Record dict_writer := mk_dict_writer {
  dw_names : list key;
  dw_restval : value;
  dw_extras : str;
  dw_writer : wdialect
}.
Definition new_dict_writer (lower : str -> str) (reg : registry) (h : heap) (names : list key)
    (restval : value) (extrasaction : str) (dialect : dialect_arg) (params : list wparam)
  : res pyexc dict_writer :=
  if str_eqb (lower extrasaction) (s2l "raise") || str_eqb (lower extrasaction) (s2l "ignore")
  then bind (new_writer reg h dialect params) (fun w =>
       Ok (mk_dict_writer names restval extrasaction w))
  else Err ValueError.

Definition key_value (k : key) : value := match k with Some s => VStr s | None => VNone end.
Definition mem_key (k : key) (ks : list key) : bool := existsb (key_eqb k) ks.

(** clevercsv/dict_read_write.py:141-149 [_dict_to_list] *)
Definition dict_to_list (w : dict_writer) (d : odict value) : res pyexc (list value) :=
  if str_eqb (dw_extras w) (s2l "raise") && existsb (fun p => negb (mem_key (fst p) (dw_names w))) d
  then Err ValueError
  else Ok (map (fun k => match od_get d k with Some v => v | None => dw_restval w end) (dw_names w)).

(** clevercsv/dict_read_write.py:151-152 [writerow]: the text written. *)
Definition dw_writerow (w : dict_writer) (d : odict value) : res pyexc str :=
  bind (dict_to_list w d) (writerow (dw_writer w)).
(** clevercsv/dict_read_write.py:137-139 [writeheader] *)
Definition dw_writeheader (w : dict_writer) : res pyexc str :=
  dw_writerow w (od_update [] (zip (dw_names w) (map key_value (dw_names w)))).
(** clevercsv/dict_read_write.py:154-155 [writerows]: the texts of the rows
    written, and the exception. *)
Fixpoint dw_writerows (w : dict_writer) (ds : list (odict value)) : list str * option pyexc :=
  match ds with
  | [] => ([], None)
  | d :: ds' =>
      match dw_writerow w d with
      | Err x => ([], Some x)
      | Ok t => let '(ts, x) := dw_writerows w ds' in (t :: ts, x)
      end
  end.

(** ** clevercsv/wrappers.py *)

(** clevercsv/wrappers.py:461-507 [write_dicts], for a list of dictionaries. *)
Definition write_dicts (E : env) (lower : str -> str) (f : fs) (h : heap) (items : list (odict value))
    (p : path) (dialect : dialect_arg) (encoding : option str) : fs * option pyexc :=
  match items with
  | [] => (f, None)
  | first :: _ =>
      match open_write E f p encoding with
      | (Err x, f') => (f', Some x)
      | (Ok c, f') =>
          match new_dict_writer lower (e_registry E) h (map fst first) (VStr []) (s2l "raise") dialect [] with
          | Err x => (f', Some x)
          | Ok w =>
              let '(ts, x) :=
                match dw_writeheader w with
                | Err x => ([], Some x)
                | Ok t => let '(ts, x) := dw_writerows w items in (t :: ts, x)
                end in
              let '(t, y) := put c [] ts in
              (upd f' p (Some (content c t)), match y with Some _ => y | None => x end)
          end
      end
  end.

(** clevercsv/wrappers.py:43-104 [stream_dicts] / 107-163 [read_dicts].  (The
    test for a missing detection result comes after [seek], which makes no
    difference.) *)
Definition stream_dicts (E : env) (f : fs) (h : heap) (p : path) (dialect : option dialect_arg)
    (encoding : option str) (num_chars : option Z) : list (odict dval) * option pyexc :=
  match open_reader E f h p dialect encoding num_chars with
  | (Err x, _) => ([], Some x)
  | (Ok r, h') =>
      dr_drain (S (List.length (r_rest r))) (e_limit E) h' (new_dict_reader None None None r)
  end.
