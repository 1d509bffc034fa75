(** * Abstraction: src/abstraction.c and clevercsv/detect_pattern.py

    C arrays are modelled with their allocated size and initialisation: an
    access outside the allocation, or a read of memory that was never written,
    is an error value ([AOverrun], [AUninit]).  Allocation failure is not
    modelled. *)
From Verif Require Import Base Parser Dialect.

Definition chC : N := 67%N.
Definition chD : N := 68%N.
Definition chR : N := 82%N.
Definition chQ : N := 81%N.

(** ** Arrays *)
Inductive aerr := AOverrun | AUninit | AFuel | AType.
Definition arr (A : Type) := list (option A).
Definition a_new {A} (n : nat) : arr A := repeat None n.
Definition a_get {A} (a : arr A) (i : nat) : res aerr A :=
  match nth_error a i with
  | Some (Some x) => Ok x
  | Some None => Err AUninit
  | None => Err AOverrun
  end.
Fixpoint a_put {A} (a : arr A) (i : nat) (x : A) : arr A :=
  match a, i with
  | [], _ => []
  | _ :: a', O => Some x :: a'
  | y :: a', S i' => y :: a_put a' i' x
  end.
Definition a_set {A} (a : arr A) (i : nat) (x : A) : res aerr (arr A) :=
  if Nat.ltb i (length a) then Ok (a_put a i x) else Err AOverrun.
Definition a_realloc {A} (a : arr A) (n : nat) : arr A :=
  firstn n a ++ repeat None (n - length a).
(** [PyUnicode_FromStringAndSize(a, n)] on ASCII bytes. *)
Fixpoint a_read (a : arr N) (i n : nat) : res aerr str :=
  match n with
  | O => Ok []
  | S n' => bind (a_get a i) (fun c => bind (a_read a (S i) n') (fun s => Ok (c :: s)))
  end.
(** Zeroing loop (src/abstraction.c:86, 198-200). *)
Fixpoint a_zero (a : arr N) (i n : nat) : res aerr (arr N) :=
  match n with
  | O => Ok a
  | S n' => bind (a_set a i NUL) (fun a' => a_zero a' (S i) n')
  end.

(** ** src/abstraction.c:48-137 [base_abstraction] *)
Record bstate := mk_bstate { b_stack : arr N; b_len : nat; b_esc : bool }.

(** [stack[len++] = x] *)
Definition b_push (st : bstate) (x : N) : res aerr bstate :=
  bind (a_set (b_stack st) (b_len st) x) (fun a => Ok (mk_bstate a (S (b_len st)) (b_esc st))).
(** [len == 0 || stack[len-1] != x] *)
Definition b_last_not (st : bstate) (x : N) : res aerr bool :=
  match b_len st with
  | O => Ok true
  | S n => bind (a_get (b_stack st) n) (fun y => Ok (negb (y =? x)%N))
  end.
Definition b_unesc (st : bstate) : bstate := mk_bstate (b_stack st) (b_len st) false.
Definition b_doesc (st : bstate) : bstate := mk_bstate (b_stack st) (b_len st) true.
Definition b_push_if (b : bool) (st : bstate) (x : N) : res aerr bstate :=
  if b then b_push st x else Ok st.

(** src/abstraction.c:90-120: one character... *)
Definition b_char (delimiter quotechar escapechar : N) (st : bstate) (s : N) : res aerr bstate :=
  if is_nl s then
    bind (b_last_not st chR) (fun b => b_push_if b st chR)
  else if (s =? delimiter)%N then
    if b_esc st then bind (b_push st chC) (fun st => Ok (b_unesc st)) else b_push st chD
  else if (s =? quotechar)%N then
    if b_esc st then bind (b_push st chC) (fun st => Ok (b_unesc st)) else b_push st chQ
  else if (s =? escapechar)%N then
    if b_esc st then
      bind (b_last_not st chC) (fun b => bind (b_push_if b st chC) (fun st => Ok (b_unesc st)))
    else Ok (b_doesc st)
  else
    bind (b_last_not st chC) (fun b => b_push_if b (b_unesc st) chC).
(** ... and lines 121-131, the reallocation. *)
Definition b_grow (st : bstate) : bstate :=
  if Nat.eqb (b_len st) (length (b_stack st))
  then mk_bstate (a_realloc (b_stack st) (2 * length (b_stack st))) (b_len st) (b_esc st)
  else st.
Fixpoint b_loop (delimiter quotechar escapechar : N) (st : bstate) (s : str) : res aerr bstate :=
  match s with
  | [] => Ok st
  | c :: s' => bind (b_char delimiter quotechar escapechar st c) (fun st =>
               b_loop delimiter quotechar escapechar (b_grow st) s')
  end.
(** src/abstraction.c:55, 81-86: the initial stack size. *)
Definition stack_size0 : nat := N.to_nat 4096.
Definition base_abstraction_sized (size : nat) (delimiter quotechar escapechar : N) (s : str) : res aerr str :=
  bind (a_zero (a_new size) 0 size) (fun a =>
  bind (b_loop delimiter quotechar escapechar (mk_bstate a 0 false) s) (fun st =>
  a_read (b_stack st) 0 (b_len st))).
(** [_set_char] (src/abstraction.c:18-45) is the same function as the parser's. *)
Definition base_abstraction (s : str) (delimiter quotechar escapechar : option str) : res aerr str :=
  match set_char delimiter, set_char quotechar, set_char escapechar with
  | Ok d, Ok q, Ok e => base_abstraction_sized stack_size0 d q e s
  | _, _, _ => Err AType
  end.

(** ** src/abstraction.c:139-269 [c_merge_with_quotechar] *)
Record mstate := mk_mstate {
  m_i : nat;
  m_out : arr N;               (* new_S *)
  m_l : arr nat;               (* quote_idx_l *)
  m_r : arr nat;               (* quote_idx_r *)
  m_idx : nat;                 (* quote_idx *)
  m_inq : bool                 (* in_quotes *)
}.
(** [PyUnicode_READ(kind, data, i)] *)
Definition u_read (s : str) (i : nat) : res aerr N :=
  match nth_error s i with Some c => Ok c | None => Err AOverrun end.
(** src/abstraction.c:233-249: the reallocation of both index arrays. *)
Definition m_grow (st : mstate) : mstate :=
  if Nat.eqb (m_idx st) (length (m_l st))
  then mk_mstate (m_i st) (m_out st) (a_realloc (m_l st) (2 * length (m_l st)))
         (a_realloc (m_r st) (2 * length (m_l st))) (m_idx st) (m_inq st)
  else st.
(** src/abstraction.c:204-252: the body of the loop.  [(char)s] keeps the low
    byte. *)
Definition m_step (s : str) (st : mstate) : res aerr mstate :=
  let i := m_i st in
  let len := length s in
  bind (u_read s i) (fun c =>
  bind (a_set (m_out st) i (c mod 256)%N) (fun out =>
  if negb (c =? chQ)%N then Ok (mk_mstate (S i) out (m_l st) (m_r st) (m_idx st) (m_inq st))
  else if negb (m_inq st) then
    bind (a_set (m_l st) (m_idx st) i) (fun l =>
    Ok (mk_mstate (S i) out l (m_r st) (m_idx st) true))
  else
    bind (if Nat.ltb (S i) len then u_read s (S i) else Ok NUL) (fun t =>
    if Nat.ltb (S i) len && (t =? chQ)%N
    then Ok (mk_mstate (S (S i)) out (m_l st) (m_r st) (m_idx st) (m_inq st))
    else
      bind (a_set (m_r st) (m_idx st) i) (fun r =>
      let st' := m_grow (mk_mstate i out (m_l st) r (S (m_idx st)) false) in
      Ok (mk_mstate (S i) (m_out st') (m_l st') (m_r st') (m_idx st') (m_inq st')))))).
Fixpoint m_loop (fuel : nat) (s : str) (st : mstate) : res aerr mstate :=
  if Nat.ltb (m_i st) (length s) then
    match fuel with
    | O => Err AFuel
    | S f => bind (m_step s st) (m_loop f s)
    end
  else Ok st.
(** src/abstraction.c:255-259: [for (i=l; i<=r; i++) new_S[i] = 'C';] *)
Fixpoint m_fill (out : arr N) (i n : nat) : res aerr (arr N) :=
  match n with
  | O => Ok out
  | S n' => bind (a_set out i chC) (fun out => m_fill out (S i) n')
  end.
Fixpoint m_fill_all (out : arr N) (l r : arr nat) (j n : nat) : res aerr (arr N) :=
  match n with
  | O => Ok out
  | S n' =>
      bind (a_get l j) (fun a => bind (a_get r j) (fun b =>
      bind (m_fill out a (S b - a)) (fun out => m_fill_all out l r (S j) n')))
  end.
Definition c_merge_with_quotechar (s : str) : res aerr str :=
  match s with
  | [] => Ok []
  | _ =>
      let len := length s in
      bind (a_zero (a_new len) 0 len) (fun out =>
      bind (m_loop len s (mk_mstate 0 out (a_new 4) (a_new 4) 0 false)) (fun st =>
      bind (m_fill_all (m_out st) (m_l st) (m_r st) 0 (m_idx st)) (fun out =>
      a_read out 0 len)))
  end.

(** ** clevercsv/detect_pattern.py *)

(** [while old in s: s = s.replace(old, new)]; [fuel] bounds the iterations. *)
Fixpoint replace_while (fuel : nat) (old new s : str) : option str :=
  if contains old s then
    match fuel with
    | O => None
    | S f => replace_while f old new (py_replace old new s)
    end
  else Some s.
(** [re.compile(r"C{2,}").sub("C", s)] (clevercsv/detect_pattern.py:22, 141): every
    maximal run of two or more C becomes one C. *)
Fixpoint squeeze_c (s : str) : str :=
  match s with
  | [] => []
  | c :: s' =>
      match s' with
      | c' :: _ => if (c =? chC)%N && (c' =? chC)%N then squeeze_c s' else c :: squeeze_c s'
      | [] => [c]
      end
  end.
(** clevercsv/detect_pattern.py:112-149 [fill_empties].  [None]: a loop did
    not end. *)
Definition fill_empties (abstract : str) : option str :=
  let while_ s old new := match s with Some s => replace_while (S (length s)) old new s | None => None end in
  match while_ (while_ (while_ (Some abstract) [chD; chD] [chD; chC; chD])
                  [chD; chR] [chD; chC; chR])
          [chR; chD] [chR; chC; chD] with
  | None => None
  | Some s =>
      let s := squeeze_c s in
      let s := if starts_with [chD] s then chC :: s else s in
      let s := if ends_with [chD] s then s ++ [chC] else s in
      Some s
  end.
(** clevercsv/detect_pattern.py:152-156 [strip_trailing] *)
Definition strip_trailing (s : str) : str := rstrip_by (fun c => (c =? chR)%N) s.

(** clevercsv/detect_pattern.py:56-82 [make_abstraction] *)
Definition make_abstraction (data : str) (dl : SimpleDialect) : res aerr str :=
  bind (base_abstraction data (sd_delimiter dl) (sd_quotechar dl) (sd_escapechar dl)) (fun a =>
  bind (c_merge_with_quotechar a) (fun a =>
  match fill_empties a with
  | None => Err AFuel
  | Some a => Ok (strip_trailing a)
  end)).
