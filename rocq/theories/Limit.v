(** * Limit: the global field size limit *)
From Verif Require Import Base Parser Dialect.

(** An argument of field_size_limit: an int, a bool (bools are ints), or
    anything else. *)
Inductive larg :=
| LInt (z : Z)
| LBool (b : bool)
| LOther.

(** clevercsv/cparser_util.py:26-46 [field_size_limit], with the value of the
    global variable before and after.  Keyword arguments are taken by position. *)
Definition field_size_limit (args : list larg) (kwargs : list (str * larg)) (limit : Z) : res pyexc Z * Z :=
  let old_limit := limit in
  let all_args := args ++ map snd kwargs in
  if negb (Nat.leb (length all_args) 1) then (Err TypeError, limit)
  else match all_args with
       | [] => (Ok old_limit, limit)
       | LInt z :: _ => (Ok old_limit, z)
       | LBool b :: _ => (Ok old_limit, if b then 1 else 0)%Z
       | LOther :: _ => (Err TypeError, limit)
       end.

(** Successive calls. *)
Fixpoint field_size_limits (calls : list (list larg * list (str * larg))) (limit : Z) : list (res pyexc Z) * Z :=
  match calls with
  | [] => ([], limit)
  | (args, kwargs) :: calls' =>
      let '(r, limit) := field_size_limit args kwargs limit in
      let '(rs, limit) := field_size_limits calls' limit in
      (r :: rs, limit)
  end.

(** src/cparser.c:106-124 [_set_long], for a C [long] of [w] bits. *)
Definition set_long (w : Z) (value : Z) : res pyexc Z :=
  if ((- 2 ^ (w - 1) <=? value) && (value <? 2 ^ (w - 1)))%Z then Ok value else Err OverflowError.

(** clevercsv/cparser_util.py:49-70 and src/cparser.c:665-674: parse_string when
    the limit is not known to fit a C [long]. *)
Definition parse_string_long (w : Z) (limit : Z) (data : str) (dl : SimpleDialect) (rq : bool)
  : list (list cell) * option pyexc :=
  match set_char (sd_delimiter dl), set_char (sd_quotechar dl), set_char (sd_escapechar dl) with
  | Ok d, Ok q, Ok e =>
      match set_long w limit with
      | Err x => ([], Some x)
      | Ok limit =>
          let '(rows, en) := parse_items (mk_pconf d q e limit (sd_strict dl) rq) (map ILine (univ_lines data)) in
          (rows, py_ending en)
      end
  | Err x, _, _ | _, Err x, _ | _, _, Err x => ([], Some x)
  end.
