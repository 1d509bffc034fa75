(** * Potential: clevercsv/potential_dialects.py and clevercsv/escape.py

    The Unicode database ([unicodedata.category]) is the function [cat], the
    URL regular expression is a matcher [url] (given the text before and after
    the current position, the length of the match there).  Python sets are
    duplicate-free lists; the order in which a set is iterated is given by
    functions of type [list A -> list A] (see [orders]), which the theorems
    only assume to be permutations. *)
From Coq Require Import String.
From Verif Require Import Base Parser Dialect.

(** The text encoding argument: [enc_plain] tells whether
    [encoding.lower() in {"utf-8", "ascii"}] (clevercsv/escape.py:74), [enc_trip] is
    [codecs.decode(bytes(x, encoding), encoding)]. *)
Record encoding := mk_encoding {
  enc_plain : bool;
  enc_trip : N -> res pyexc str
}.

(** UTF-8 encodes every code point except the surrogates. *)
Definition surrogate (c : N) : bool := (0xD800 <=? c)%N && (c <=? 0xDFFF)%N.
Definition utf8 : encoding :=
  mk_encoding true (fun c => if surrogate c then Err UnicodeEncodeError else Ok [c]).

Definition mem_str (s : str) (l : list str) : bool := existsb (str_eqb s) l.
(** [set.add]. *)
Definition set_add (s : str) (l : list str) : list str := if mem_str s l then l else l ++ [s].
(** [set(data)] for a string. *)
Definition set_of (data : str) : list N := nodup N.eq_dec data.

(** Iteration orders of the sets the code builds. *)
Record orders := mk_orders {
  o_chars : list N -> list N;            (* set(data), get_delimiters *)
  o_delims : list str -> list str;       (* delims *)
  o_quotes : list str -> list str;       (* quotechars *)
  o_escapes : str -> str -> list str -> list str   (* escapechars[(delim, quotechar)] *)
}.

Section Unicode.
Variable cat : N -> str.                       (* unicodedata.category *)
Variable url : str -> str -> option nat.       (* PATTERN_URL at a position *)

(** clevercsv/escape.py:19-34 [DEFAULT_BLOCK_CHARS]. *)
Definition default_block_chars : str := s2l "!?""'.,;:%*&#".

(** clevercsv/escape.py:37-43 [UNICODE_PO_CHARS], as a membership test. *)
Definition unicode_po (s : str) : bool :=
  match s with [c] => str_eqb (cat c) (s2l "Po") | _ => false end.

(** clevercsv/escape.py:46-84 [is_potential_escapechar], with the default
    [block_char] (no caller passes another). *)
Definition is_potential_escapechar (c : N) (E : encoding) : res pyexc bool :=
  bind (if enc_plain E then Ok [c] else enc_trip E c) (fun uchar =>
  Ok (unicode_po uchar && negb (match uchar with [u] => mem_char u default_block_chars | _ => false end))).

(** clevercsv/potential_dialects.py:107-125 [unicode_category]. *)
Definition unicode_category (x : N) (E : encoding) : res pyexc str :=
  bind (enc_trip E x) (fun u => match u with [c] => Ok (cat c) | _ => Err TypeError end).

(** clevercsv/potential_dialects.py:128-130 [filter_urls]: [PATTERN_URL.sub].
    The pattern matches no empty string, so a match of length 0 counts as no
    match. *)
Fixpoint sub_url (skip : nat) (before s : str) : str :=
  match s with
  | [] => []
  | c :: s' =>
      match skip with
      | S k => sub_url k (before ++ [c]) s'
      | O => match url before s with
             | Some (S n) => 85%N :: sub_url n (before ++ [c]) s'
             | _ => c :: sub_url 0 (before ++ [c]) s'
             end
      end
  end.
Definition filter_urls (data : str) : str := sub_url 0 [] data.

(** clevercsv/potential_dialects.py:184-199: the default block lists. *)
Definition block_cat : list str :=
  map s2l ["Lu"; "Ll"; "Lt"; "Lm"; "Lo"; "Nd"; "Nl"; "No"; "Ps"; "Pe"; "Co"]%string.
Definition block_char : str := s2l "./""'" ++ [LF; CR].

(** clevercsv/potential_dialects.py:204-209: is [x], of category [c], added? *)
Definition delimiter_ok (delimiters : option (list str)) (x : N) (c : str) : bool :=
  match delimiters with
  | None => (x =? TAB)%N || (negb (mem_char x block_char) && negb (mem_str c block_cat))
  | Some l => mem_str [x] l
  end.

Fixpoint collect_delims (E : encoding) (delimiters : option (list str)) (xs : list N)
    (D : list str) : res pyexc (list str) :=
  match xs with
  | [] => Ok D
  | x :: xs' =>
      bind (unicode_category x E) (fun c =>
      collect_delims E delimiters xs' (if delimiter_ok delimiters x c then set_add [x] D else D))
  end.

(** clevercsv/potential_dialects.py:133-211 [get_delimiters], with the default
    [block_cat] and [block_char] (no caller passes others). *)
Definition get_delimiters (O : orders) (E : encoding) (data : str)
    (delimiters : option (list str)) : res pyexc (list str) :=
  bind (collect_delims E delimiters (o_chars O (set_of data)) []) (fun D => Ok (set_add [] D)).

(** clevercsv/potential_dialects.py:214-246 [get_quotechars], with the default
    [quote_chars]. *)
Definition quote_candidates : str := s2l "'""~`".
Definition get_quotechars (data : str) : list str :=
  set_add [] (map (fun c => [c]) (filter (fun c => mem_char c data) quote_candidates)).

(** clevercsv/potential_dialects.py:249-301 [masked_by_quotechar].  The loop
    index is represented by the rest of the text; [data[i+1] == quotechar]
    looks one character ahead. *)
Definition is_char (c : N) (s : str) : bool := str_eqb [c] s.
Fixpoint masked_loop (q e t : str) (esc inq : bool) (skip : bool) (s : str) : bool :=
  match s with
  | [] => true
  | c :: s' =>
      if skip then masked_loop q e t esc inq false s'
      else if is_char c q then
        if esc then masked_loop q e t esc inq false s'
        else if negb inq then masked_loop q e t esc true false s'
        else match s' with
             | d :: _ => if is_char d q then masked_loop q e t esc inq true s'
                         else masked_loop q e t esc false false s'
             | [] => masked_loop q e t esc false false s'
             end
      else if is_char c t && negb inq then false
      else if is_char c e then masked_loop q e t true inq false s'
      else masked_loop q e t esc inq false s'
  end.
Definition masked_by_quotechar (data q e t : str) : bool :=
  match t with [] => false | _ => masked_loop q e t false false false data end.

(** clevercsv/potential_dialects.py:74-90: the dictionary of escape characters
    per (delimiter, quotechar), and the cache of [is_potential_escapechar]. *)
Definition esc_dict := list ((str * str) * list str).
Definition esc_init (ds qs : list str) : esc_dict :=
  map (fun p => (p, [[]])) (list_prod ds qs).
(** Lines 88-90; the keys of the dictionary are exactly the pairs of the
    product, so the inner loop visits every entry once. *)
Definition esc_add (u v : N) (m : esc_dict) : esc_dict :=
  map (fun '((d, q), es) =>
    ((d, q), if is_char v d || is_char v q then set_add [u] es else es)) m.
Fixpoint assoc_char {A} (c : N) (l : list (N * A)) : option A :=
  match l with
  | [] => None
  | (k, a) :: l' => if (c =? k)%N then Some a else assoc_char c l'
  end.
Fixpoint esc_loop (E : encoding) (ps : list (N * N)) (cache : list (N * bool)) (m : esc_dict)
  : res pyexc esc_dict :=
  match ps with
  | [] => Ok m
  | (u, v) :: ps' =>
      bind (match assoc_char u cache with
            | Some b => Ok (b, cache)
            | None => bind (is_potential_escapechar u E) (fun b => Ok (b, (u, b) :: cache))
            end) (fun '(b, cache) =>
      esc_loop E ps' cache (if b then esc_add u v m else m))
  end.
(** [escapechars[(delim, quotechar)]] *)
Fixpoint esc_get (d q : str) (m : esc_dict) : res pyexc (list str) :=
  match m with
  | [] => Err KeyError
  | ((d', q'), es) :: m' => if str_eqb d d' && str_eqb q q' then Ok es else esc_get d q m'
  end.

Fixpoint map_res {A B} (f : A -> res pyexc B) (l : list A) : res pyexc (list B) :=
  match l with
  | [] => Ok []
  | a :: l' => bind (f a) (fun b => bind (map_res f l') (fun bs => Ok (b :: bs)))
  end.

(** clevercsv/potential_dialects.py:26-104 [get_dialects]. *)
Definition get_dialects (O : orders) (E : encoding) (data : str)
    (delimiters : option (list str)) (test_masked : bool) : res pyexc (list SimpleDialect) :=
  let no_url := filter_urls data in
  bind (get_delimiters O E no_url delimiters) (fun D =>
  let ds := o_delims O D in
  let qs := o_quotes O (get_quotechars no_url) in
  bind (esc_loop E (pairwise data) [] (esc_init ds qs)) (fun m =>
  bind (map_res (fun '(d, q) =>
    bind (esc_get d q m) (fun es =>
    Ok (map (fun e => dialect3 d q e)
            (filter (fun e => negb (test_masked && masked_by_quotechar data q e d))
                    (o_escapes O d q es))))) (list_prod ds qs)) (fun rows =>
  Ok (concat rows)))).

End Unicode.

(** ** clevercsv/dialect.py:148-174: comparison of dialects *)

Fixpoint str_ltb (a b : str) : bool :=
  match a, b with
  | [], _ :: _ => true
  | _, [] => false
  | x :: a', y :: b' => if (x =? y)%N then str_ltb a' b' else (x <? y)%N
  end.

Definition opt_str_eqb (a b : option str) : bool :=
  match a, b with
  | None, None => true
  | Some a, Some b => str_eqb a b
  | _, _ => false
  end.
Definition opt_str_ltb (a b : option str) : res pyexc bool :=
  match a, b with
  | Some a, Some b => Ok (str_ltb a b)
  | _, _ => Err TypeError        (* '<' with None *)
  end.

(** clevercsv/dialect.py:156-159 [__eq__], between two dialects. *)
Definition dialect_eqb (a b : SimpleDialect) : bool :=
  opt_str_eqb (sd_delimiter a) (sd_delimiter b) &&
  opt_str_eqb (sd_quotechar a) (sd_quotechar b) &&
  opt_str_eqb (sd_escapechar a) (sd_escapechar b) &&
  Bool.eqb (sd_strict a) (sd_strict b).

(** Comparison of the key tuples: the first component that differs decides. *)
Definition key_ltb (a b : SimpleDialect) : res pyexc bool :=
  if negb (opt_str_eqb (sd_delimiter a) (sd_delimiter b))
  then opt_str_ltb (sd_delimiter a) (sd_delimiter b)
  else if negb (opt_str_eqb (sd_quotechar a) (sd_quotechar b))
  then opt_str_ltb (sd_quotechar a) (sd_quotechar b)
  else if negb (opt_str_eqb (sd_escapechar a) (sd_escapechar b))
  then opt_str_ltb (sd_escapechar a) (sd_escapechar b)
  else Ok (negb (sd_strict a) && sd_strict b).

Definition delim_is (d : SimpleDialect) (c : N) : bool :=
  opt_str_eqb (sd_delimiter d) (Some [c]).

(** clevercsv/dialect.py:161-174 [__lt__], between two dialects. *)
Definition dialect_ltb (a b : SimpleDialect) : res pyexc bool :=
  if delim_is a COMMA && negb (delim_is b COMMA) then Ok true
  else if delim_is b COMMA && negb (delim_is a COMMA) then Ok false
  else if delim_is a SEMI && negb (delim_is b SEMI) then Ok true
  else if delim_is b SEMI && negb (delim_is a SEMI) then Ok false
  else key_ltb a b.

(** clevercsv/dialect.py:28 [functools.total_ordering]: the derived methods. *)
Definition dialect_leb (a b : SimpleDialect) : res pyexc bool :=
  bind (dialect_ltb a b) (fun lt => Ok (lt || dialect_eqb a b)).
Definition dialect_gtb (a b : SimpleDialect) : res pyexc bool :=
  bind (dialect_ltb a b) (fun lt => Ok (negb lt && negb (dialect_eqb a b))).
Definition dialect_geb (a b : SimpleDialect) : res pyexc bool :=
  bind (dialect_ltb a b) (fun lt => Ok (negb lt)).

(** [sorted(dialects)]: CPython's sort is stable and only uses [__lt__]; it is
    modelled by a stable insertion sort.  (Which comparisons are made differs,
    so for dialects with incomparable [None] attributes only the fact that a
    TypeError is possible is modelled.) *)
Fixpoint insert (x : SimpleDialect) (l : list SimpleDialect) : res pyexc (list SimpleDialect) :=
  match l with
  | [] => Ok [x]
  | y :: l' =>
      bind (dialect_ltb y x) (fun lt =>
      if lt then bind (insert x l') (fun r => Ok (y :: r)) else Ok (x :: l))
  end.
Fixpoint py_sorted (l : list SimpleDialect) : res pyexc (list SimpleDialect) :=
  match l with
  | [] => Ok []
  | x :: l' => bind (py_sorted l') (fun r => insert x r)
  end.
