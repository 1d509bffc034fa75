(** * Consistency: clevercsv/consistency.py, pattern_score and type_score *)
From Verif Require Import Base Parser Dialect Potential Abstraction Floats Ties.

(** ** clevercsv/detect_pattern.py:25-53 [pattern_score] *)

(** [collections.Counter(l).items()]: in the order of first occurrence. *)
Fixpoint count_in (s : str) (m : list (str * Z)) : list (str * Z) :=
  match m with
  | [] => [(s, 1%Z)]
  | (k, n) :: m' => if str_eqb s k then (k, (n + 1)%Z) :: m' else (k, n) :: count_in s m'
  end.
Definition counter (l : list str) : list (str * Z) := fold_left (fun m s => count_in s m) l [].

(** [Nk * (max(eps, Lk - 1) / Lk)].  [max] compares the float with the int
    and returns one of them; the int is converted by the division. *)
Definition pattern_term (N L : Z) : float :=
  fmul (float_of_Z N) (fdiv (fmax eps_pat (float_of_Z (L - 1))) (float_of_Z L)).
Definition pattern_length (pat : str) : Z := Z.of_nat (length (py_split [chD] pat)).
Definition score_of_abstraction (A : str) : float :=
  let row_patterns := counter (py_split [chR] A) in
  let P := fold_left (fun P '(pat, n) => fadd P (pattern_term n (pattern_length pat)))
                     row_patterns fzero in
  fdiv P (float_of_Z (Z.of_nat (length row_patterns))).
(** [make_abstraction] raises TypeError for an attribute that is not a single
    character; its memory errors are excluded by the theorems C25. *)
Definition pattern_score (data : str) (d : SimpleDialect) : res pyexc float :=
  match make_abstraction data d with
  | Ok A => Ok (score_of_abstraction A)
  | Err _ => Err TypeError
  end.

(** ** The cache: functools.lru_cache(capacity) around the type test

    The arguments are the key.  A hit moves the entry to the front; a miss
    calls the function and stores its result, dropping the oldest entry when
    the cache is full.  A capacity of 0 or less disables the cache.  An
    exception is not stored. *)
Definition ckey := (str * bool)%type.
Definition ckey_eqb (a b : ckey) : bool := str_eqb (fst a) (fst b) && Bool.eqb (snd a) (snd b).
Definition cache := list (ckey * bool).
Fixpoint cache_find (k : ckey) (c : cache) : option bool :=
  match c with
  | [] => None
  | (k', b) :: c' => if ckey_eqb k k' then Some b else cache_find k c'
  end.
Fixpoint cache_drop (k : ckey) (c : cache) : cache :=
  match c with
  | [] => []
  | (k', b) :: c' => if ckey_eqb k k' then c' else (k', b) :: cache_drop k c'
  end.
Definition cached_call (known : str -> bool -> res pyexc bool) (capacity : Z) (s : str) (q : bool)
    (c : cache) : res pyexc (bool * cache) :=
  if (capacity <=? 0)%Z then bind (known s q) (fun b => Ok (b, c))
  else match cache_find (s, q) c with
       | Some b => Ok (b, ((s, q), b) :: cache_drop (s, q) c)
       | None => bind (known s q) (fun b => Ok (b, firstn (Z.to_nat capacity) (((s, q), b) :: c)))
       end.

Section Detection.
Variable cat : N -> str.
Variable url : str -> str -> option nat.
(** [TypeDetector.is_known_type] *)
Variable known : str -> bool -> res pyexc bool.
Variable O : orders.
Variable o_set : list SimpleDialect -> list SimpleDialect.

(** ** clevercsv/consistency.py:194-206 [compute_type_score] *)
Fixpoint type_cells (capacity : Z) (cells : list cell) (total kn : Z) (c : cache)
  : res pyexc (Z * Z * cache) :=
  match cells with
  | [] => Ok (total, kn, c)
  | CTuple s q :: cells' =>
      bind (cached_call known capacity s q c) (fun '(b, c) =>
      type_cells capacity cells' (total + 1) (if b then kn + 1 else kn) c)%Z
  | CStr _ :: _ => Err AssertionError
  end.
(** [known / total], with the eps of clevercsv/detect_type.py:21. *)
Definition type_ratio (total kn : Z) : float :=
  if (total =? 0)%Z then eps_type
  else fmax eps_type (fdiv (float_of_Z kn) (float_of_Z total)).
Definition compute_type_score (limit : Z) (capacity : Z) (data : str) (d : SimpleDialect) (c : cache)
  : res pyexc (float * cache) :=
  let '(rows, en) := parse_string limit data d true in
  bind (type_cells capacity (concat rows) 0 0 c) (fun '(total, kn, c) =>
  match en with
  | Some x => Err x
  | None => Ok (type_ratio total kn, c)
  end).

(** clevercsv/detect_type.py:220-252 [type_score]: without a cache. *)
Fixpoint plain_cells (cells : list cell) (total kn : Z) : res pyexc (Z * Z) :=
  match cells with
  | [] => Ok (total, kn)
  | CTuple s q :: cells' =>
      bind (known s q) (fun b => plain_cells cells' (total + 1) (if b then kn + 1 else kn))%Z
  | CStr _ :: _ => Err AssertionError
  end.
Definition type_score (limit : Z) (data : str) (d : SimpleDialect) : res pyexc float :=
  let '(rows, en) := parse_string limit data d true in
  bind (plain_cells (concat rows) 0 0) (fun '(total, kn) =>
  match en with
  | Some x => Err x
  | None => Ok (type_ratio total kn)
  end).

(** ** clevercsv/consistency.py:28-47 [ConsistencyScore] *)
Record score := mk_score { s_P : float; s_T : option float; s_Q : option float }.
(** [scores[dialect] = ...] *)
Fixpoint scores_set (d : SimpleDialect) (s : score) (m : list (SimpleDialect * score))
  : list (SimpleDialect * score) :=
  match m with
  | [] => [(d, s)]
  | (d', s') :: m' => if dialect_eqb d d' then (d', s) :: m' else (d', s') :: scores_set d s m'
  end.

(** clevercsv/consistency.py:162-178: the loop. *)
Fixpoint scores_loop (limit capacity : Z) (skip : bool) (data : str) (ds : list SimpleDialect)
    (incumbent : float) (m : list (SimpleDialect * score)) (c : cache)
  : res pyexc (list (SimpleDialect * score)) :=
  match ds with
  | [] => Ok m
  | d :: ds' =>
      bind (pattern_score data d) (fun P =>
      if fltb P incumbent && skip
      then scores_loop limit capacity skip data ds' incumbent (scores_set d (mk_score P None None) m) c
      else bind (compute_type_score limit capacity data d c) (fun '(T, c) =>
           let Q := fmul P T in
           scores_loop limit capacity skip data ds' (fmax incumbent Q)
             (scores_set d (mk_score P (Some T) (Some Q)) m) c))
  end.
(** clevercsv/consistency.py:132-179 [compute_consistency_scores]; printing is
    not modelled. *)
Definition compute_consistency_scores (limit capacity : Z) (skip : bool) (data : str)
    (dialects : list SimpleDialect) (c : cache) : res pyexc (list (SimpleDialect * score)) :=
  bind (py_sorted dialects) (fun ds =>
  scores_loop limit capacity skip data ds minus_inf [] c).

(** clevercsv/consistency.py:181-192 [get_best_dialects] *)
Definition q_max (qs : list (option float)) : float :=
  fold_left (fun m q => match q with None => m | Some q => fmax m q end) qs minus_inf.
Definition get_best_dialects (m : list (SimpleDialect * score)) : list SimpleDialect :=
  let Qmax := q_max (map (fun p => s_Q (snd p)) m) in
  map fst (filter (fun p => match s_Q (snd p) with Some q => feqb q Qmax | None => false end) m).

(** clevercsv/consistency.py:90-130 [detect]: the result, and the value of the
    global field size limit afterwards. *)
Definition detect (capacity : Z) (skip : bool) (data : str) (delimiters : option (list str))
    (old_limit : Z) : res pyexc (option SimpleDialect) * Z :=
  match get_dialects cat url O utf8 data delimiters false with
  | Err x => (Err x, old_limit)
  | Ok dialects =>
      let limit := (Z.of_nat (length data) + 1)%Z in
      match bind (compute_consistency_scores limit capacity skip data dialects []) (fun scores =>
            match get_best_dialects scores with
            | [d] => Ok (Some d)
            | best => tie_breaker limit data o_set best
            end) with
      | Ok r => (Ok r, old_limit)
      | Err x => (Err x, limit)
      end
  end.

(** clevercsv/consistency.py:209-220 [detect_dialect_consistency] *)
Definition detect_dialect_consistency (data : str) (delimiters : option (list str)) (skip : bool)
    (old_limit : Z) : res pyexc (option SimpleDialect) * Z :=
  detect 100000 skip data delimiters old_limit.
End Detection.
