(** * Json: the json module of CPython 3.11 and dialect serialisation

    [dumps] and [loads] model the json module with default arguments.  Its C
    accelerator ([_json]) is not in /repo and its source was not at hand, so the
    definitions below follow its behaviour and cite no lines of it.  They belong
    to the trusted base; they were compared with the running module (CPython
    3.11.10) by tools/check_json.py. *)
From Coq Require Import String.
From Verif Require Import Base Parser Dialect.

(** A JSON value.  Numbers are kept as text: [JNum text]; objects are
    dictionaries in insertion order. *)
Inductive jvalue :=
| JNull
| JBool (b : bool)
| JNum (text : str)
| JStr (s : str)
| JArr (l : list jvalue)
| JObj (l : list (str * jvalue)).

(** ** Writing *)
Definition hex_digit (n : N) : N := if (n <? 10)%N then (48 + n)%N else (87 + n)%N.
(** [\uXXXX], lower case *)
Definition u_escape (c : N) : str :=
  [BACKSLASH; 117%N; hex_digit (c / 4096 mod 16); hex_digit (c / 256 mod 16); hex_digit (c / 16 mod 16); hex_digit (c mod 16)]%N.
(** [json.dumps]: one character of a string. *)
Definition escape_char (c : N) : str :=
  if ((32 <=? c) && (c <=? 126) && negb (c =? BACKSLASH) && negb (c =? DQ))%N then [c]
  else if (c =? BACKSLASH)%N then [BACKSLASH; BACKSLASH]
  else if (c =? DQ)%N then [BACKSLASH; DQ]
  else if (c =? 8)%N then [BACKSLASH; 98%N]
  else if (c =? 12)%N then [BACKSLASH; 102%N]
  else if (c =? LF)%N then [BACKSLASH; 110%N]
  else if (c =? CR)%N then [BACKSLASH; 114%N]
  else if (c =? TAB)%N then [BACKSLASH; 116%N]
  else if (65536 <=? c)%N then
    let v := (c - 65536)%N in
    u_escape (55296 + v / 1024 mod 1024)%N ++ u_escape (56320 + v mod 1024)%N
  else u_escape c.
Definition dumps_str (s : str) : str := DQ :: concat (map escape_char s) ++ [DQ].
(** Lib/json/encoder.py, separators [", "] and [": "]. *)
Fixpoint dumps (v : jvalue) : str :=
  match v with
  | JNull => s2l "null"
  | JBool true => s2l "true"
  | JBool false => s2l "false"
  | JNum t => t
  | JStr s => dumps_str s
  | JArr l => s2l "[" ++ join (s2l ", ") (map dumps l) ++ s2l "]"
  | JObj l => s2l "{" ++ join (s2l ", ") (map (fun '(k, v) => dumps_str k ++ s2l ": " ++ dumps v) l) ++ s2l "}"
  end.

(** ** Reading *)
Definition hex_val (c : N) : option N :=
  if ((48 <=? c) && (c <=? 57))%N then Some (c - 48)%N
  else if ((97 <=? c) && (c <=? 102))%N then Some (c - 87)%N
  else if ((65 <=? c) && (c <=? 70))%N then Some (c - 55)%N
  else None.
Definition hex4 (a b c d : N) : option N :=
  match hex_val a, hex_val b, hex_val c, hex_val d with
  | Some a, Some b, Some c, Some d => Some (4096 * a + 256 * b + 16 * c + d)%N
  | _, _, _, _ => None
  end.
Definition high_surrogate (c : N) : bool := ((55296 <=? c) && (c <=? 56319))%N.
Definition low_surrogate (c : N) : bool := ((56320 <=? c) && (c <=? 57343))%N.
Definition join_surrogates (h l : N) : N := (65536 + (h - 55296) * 1024 + (l - 56320))%N.
Definition unescape (c : N) : option N :=
  if (c =? DQ)%N then Some DQ
  else if (c =? BACKSLASH)%N then Some BACKSLASH
  else if (c =? 47)%N then Some 47%N
  else if (c =? 98)%N then Some 8%N
  else if (c =? 102)%N then Some 12%N
  else if (c =? 110)%N then Some LF
  else if (c =? 114)%N then Some CR
  else if (c =? 116)%N then Some TAB
  else None.

Definition cons_char (c : N) (r : res pyexc (str * str)) : res pyexc (str * str) :=
  bind r (fun '(s, rest) => Ok (c :: s, rest)).
(** [json.loads]: a string, strict: the string from behind
    its opening quote, and what follows its closing quote. *)
Fixpoint scan_string (s : str) : res pyexc (str * str) :=
  match s with
  | [] => Err JSONDecodeError
  | c :: r =>
      if (c =? DQ)%N then Ok ([], r)
      else if (c =? BACKSLASH)%N then
        match r with
        | [] => Err JSONDecodeError
        | e :: r1 =>
            if negb (e =? 117)%N then
              match unescape e with
              | None => Err JSONDecodeError
              | Some c => cons_char c (scan_string r1)
              end
            else
              match r1 with
              | x1 :: x2 :: x3 :: x4 :: ((_ :: _) as r2) =>
                  match hex4 x1 x2 x3 x4 with
                  | None => Err JSONDecodeError
                  | Some c1 =>
                      match r2 with
                      | b :: u :: y1 :: y2 :: y3 :: y4 :: ((_ :: _) as r3) =>
                          if high_surrogate c1 && (b =? BACKSLASH)%N && (u =? 117)%N then
                            match hex4 y1 y2 y3 y4 with
                            | None => Err JSONDecodeError
                            | Some c2 =>
                                if low_surrogate c2
                                then cons_char (join_surrogates c1 c2) (scan_string r3)
                                else cons_char c1 (scan_string r2)
                            end
                          else cons_char c1 (scan_string r2)
                      | _ => cons_char c1 (scan_string r2)
                      end
                  end
              | _ => Err JSONDecodeError
              end
        end
      else if (c <=? 31)%N then Err JSONDecodeError
      else cons_char c (scan_string r)
  end.

Definition is_digit (c : N) : bool := ((48 <=? c) && (c <=? 57))%N.
Fixpoint span (p : N -> bool) (s : str) : str * str :=
  match s with
  | c :: r => if p c then let '(a, b) := span p r in (c :: a, b) else ([], s)
  | [] => ([], [])
  end.
Definition skip_ws (s : str) : str :=
  snd (span (fun c => (c =? SPACE) || (c =? TAB) || (c =? LF) || (c =? CR))%N s).
Fixpoint strip_prefix (p s : str) : option str :=
  match p, s with
  | [], _ => Some s
  | c :: p', d :: s' => if (c =? d)%N then strip_prefix p' s' else None
  | _ :: _, [] => None
  end.

(** [json.loads]: a number.  [maxdigits] is
    sys.get_int_max_str_digits(), 4300 by default: longer ints raise ValueError.
    Converting to float does not fail. *)
Definition scan_number (maxdigits : nat) (s : str) : res pyexc (jvalue * str) :=
  let '(sign, r) := match s with c :: r => if (c =? 45)%N then ([c], r) else ([], s) | [] => ([], []) end in
  let '(int, r) := match r with
                   | c :: r' => if (c =? 48)%N then ([c], r') else span is_digit r
                   | [] => ([], [])
                   end in
  match int with
  | [] => Err JSONDecodeError
  | _ =>
      let '(frac, r) := match r with
                        | c :: d :: r' => if ((c =? 46)%N && is_digit d) then let '(a, b) := span is_digit (d :: r') in (c :: a, b) else ([], r)
                        | _ => ([], r)
                        end in
      let '(exp, r) := match r with
                       | c :: r' =>
                           if ((c =? 101) || (c =? 69))%N then
                             let '(sg, r'') := match r' with x :: r'' => if ((x =? 45) || (x =? 43))%N then ([x], r'') else ([], r') | [] => ([], []) end in
                             match span is_digit r'' with
                             | ([], _) => ([], r)
                             | (ds, rest) => (c :: sg ++ ds, rest)
                             end
                           else ([], r)
                       | [] => ([], [])
                       end in
      match frac ++ exp with
      | [] => if Nat.ltb maxdigits (List.length int) then Err ValueError else Ok (JNum (sign ++ int), r)
      | _ => Ok (JNum (sign ++ int ++ frac ++ exp), r)
      end
  end.

Fixpoint dict_set {A} (k : str) (v : A) (d : list (str * A)) : list (str * A) :=
  match d with
  | [] => [(k, v)]
  | (k', v') :: d' => if str_eqb k k' then (k', v) :: d' else (k', v') :: dict_set k v d'
  end.

(** [json.loads]: an object, from the first key on. *)
Fixpoint scan_members (scan : str -> res pyexc (jvalue * str)) (fuel : nat) (d : list (str * jvalue)) (s : str)
  : res pyexc (jvalue * str) :=
  match fuel with
  | 0%nat => Err Diverged
  | S f =>
      match s with
      | c :: r =>
          if (c =? DQ)%N then
            bind (scan_string r) (fun '(k, r) =>
            match skip_ws r with
            | c :: r =>
                if (c =? 58)%N then
                  bind (scan (skip_ws r)) (fun '(v, r) =>
                  let d := dict_set k v d in
                  match skip_ws r with
                  | c :: r =>
                      if (c =? 125)%N then Ok (JObj d, r)
                      else if (c =? COMMA)%N then scan_members scan f d (skip_ws r)
                      else Err JSONDecodeError
                  | [] => Err JSONDecodeError
                  end)
                else Err JSONDecodeError
            | [] => Err JSONDecodeError
            end)
          else Err JSONDecodeError
      | [] => Err JSONDecodeError
      end
  end.
(** [json.loads]: an array, from the first element on. *)
Fixpoint scan_elements (scan : str -> res pyexc (jvalue * str)) (fuel : nat) (l : list jvalue) (s : str)
  : res pyexc (jvalue * str) :=
  match fuel with
  | 0%nat => Err Diverged
  | S f =>
      bind (scan s) (fun '(v, r) =>
      let l := l ++ [v] in
      match skip_ws r with
      | c :: r =>
          if (c =? 93)%N then Ok (JArr l, r)
          else if (c =? COMMA)%N then scan_elements scan f l (skip_ws r)
          else Err JSONDecodeError
      | [] => Err JSONDecodeError
      end)
  end.

(** [json.loads]: a value.  [depth] is the number of
    nested containers the interpreter's recursion limit admits. *)
Fixpoint scan_once (maxdigits : nat) (depth : nat) (s : str) : res pyexc (jvalue * str) :=
  match s with
  | [] => Err JSONDecodeError
  | c :: r =>
      if (c =? DQ)%N then bind (scan_string r) (fun '(t, r) => Ok (JStr t, r))
      else if (c =? 123)%N then
        match depth with
        | 0%nat => Err RecursionError
        | S depth =>
            match skip_ws r with
            | c :: r' =>
                if (c =? 125)%N then Ok (JObj [], r')
                else scan_members (scan_once maxdigits depth) (S (List.length r)) [] (c :: r')
            | [] => Err JSONDecodeError
            end
        end
      else if (c =? 91)%N then
        match depth with
        | 0%nat => Err RecursionError
        | S depth =>
            match skip_ws r with
            | c :: r' =>
                if (c =? 93)%N then Ok (JArr [], r')
                else scan_elements (scan_once maxdigits depth) (S (List.length r)) [] (c :: r')
            | [] => Err JSONDecodeError
            end
        end
      else match strip_prefix (s2l "null") s with Some r => Ok (JNull, r) | None =>
           match strip_prefix (s2l "true") s with Some r => Ok (JBool true, r) | None =>
           match strip_prefix (s2l "false") s with Some r => Ok (JBool false, r) | None =>
           match strip_prefix (s2l "NaN") s with Some r => Ok (JNum (s2l "NaN"), r) | None =>
           match strip_prefix (s2l "Infinity") s with Some r => Ok (JNum (s2l "Infinity"), r) | None =>
           match strip_prefix (s2l "-Infinity") s with Some r => Ok (JNum (s2l "-Infinity"), r) | None =>
           scan_number maxdigits s
           end end end end end end
  end.

(** [json.loads] and [JSONDecoder.decode] (lines 299-359 of json/__init__.py and
    332-356 of json/decoder.py in CPython 3.11.10). *)
Definition loads (maxdigits depth : nat) (s : str) : res pyexc jvalue :=
  match s with
  | 65279%N :: _ => Err JSONDecodeError
  | _ =>
      bind (scan_once maxdigits depth (skip_ws s)) (fun '(v, r) =>
      match skip_ws r with
      | [] => Ok v
      | _ => Err JSONDecodeError
      end)
  end.

(** ** Dialects *)

(** clevercsv/dialect.py:122-130 [to_dict] *)
Definition to_dict (d : SimpleDialect) : res pyexc jvalue :=
  if validate d then
    let field o := match o with Some s => JStr s | None => JNull end in
    Ok (JObj [(s2l "delimiter", field (sd_delimiter d)); (s2l "quotechar", field (sd_quotechar d));
              (s2l "escapechar", field (sd_escapechar d)); (s2l "strict", JBool (sd_strict d))])
  else Err ValueError.
(** clevercsv/dialect.py:132-134 [serialize] *)
Definition serialize (d : SimpleDialect) : res pyexc str := bind (to_dict d) (fun o => Ok (dumps o)).

(** A SimpleDialect whose attributes can be any JSON value. *)
Record jdialect := mk_jdialect { jd_delimiter : jvalue; jd_quotechar : jvalue; jd_escapechar : jvalue; jd_strict : jvalue }.

Definition dict_get {A} (k : str) (d : list (str * A)) : option A :=
  option_map snd (find (fun kv => str_eqb (fst kv) k) d).
(** The expression [obj[k]]; strings, lists, numbers etc. raise TypeError. *)
Definition subscript (obj : jvalue) (k : str) : res pyexc jvalue :=
  match obj with
  | JObj d => match dict_get k d with Some v => Ok v | None => Err KeyError end
  | _ => Err TypeError
  end.
(** clevercsv/dialect.py:86-93 [from_dict] *)
Definition from_dict (d : jvalue) : res pyexc jdialect :=
  bind (subscript d (s2l "delimiter")) (fun x =>
  bind (subscript d (s2l "quotechar")) (fun q =>
  bind (subscript d (s2l "escapechar")) (fun e =>
  bind (subscript d (s2l "strict")) (fun s => Ok (mk_jdialect x q e s))))).
(** clevercsv/dialect.py:136-139 [deserialize] *)
Definition deserialize (maxdigits depth : nat) (obj : str) : res pyexc jdialect :=
  bind (loads maxdigits depth obj) from_dict.
