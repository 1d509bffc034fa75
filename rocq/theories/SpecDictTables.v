(** * SpecDictTables: dictionaries and tables *)
From Verif Require Import Base Parser Dialect CsvLib Reader Writer Dict SpecLayout SpecParse SpecDict.

(** The table of some dictionaries: the names, and a row of values for each one. *)
Definition dict_table (names : list str) (items : list (odict value)) : list (list value) :=
  map VStr names :: map (fun it => map (fun k => match od_get it (Some k) with Some v => v | None => VStr [] end) names) items.
(** The dictionaries of a table: the first row names the columns, blank rows do not count. *)
Definition dicts_of (rows : list (list cell)) : list (odict dval) :=
  match rows with
  | [] => []
  | header :: records => map (expected_dict (map (fun x => Some (cell_str x)) header) None None) (filter not_blank records)
  end.
