(** * Parser: model of src/cparser.c

    The parser object of [src/cparser.c] as a state machine driven by an
    iterator of lines.  Memory allocation failures and reference counting are
    not modelled.  The growing field buffer is modelled with its allocated
    size; a store outside of it is the model-level error [EOverrun]. *)
From Verif Require Import Base.

(** src/cparser.c:53-63 [ParserState]. *)
Inductive pstate :=
| START_RECORD | START_FIELD | ESCAPED_CHAR | IN_FIELD | IN_QUOTED_FIELD
| ESCAPE_IN_QUOTED_FIELD | QUOTE_IN_QUOTED_FIELD | EAT_CRNL | AFTER_ESCAPED_CRNL.

(** src/cparser.c:76-81: the configuration fields of [ParserObj].  A character
    that is not set is NUL, as produced by [_set_char] (126-153). *)
Record pconf := mk_pconf {
  delimiter : N;
  quotechar : N;
  escapechar : N;
  field_limit : Z;
  strict : bool;
  return_quoted : bool
}.

(** The errors the parser can raise.
    [EFieldLimit] 270, [EQuoteExpected] 368 and 415, [ENewline] 428,
    [EUnexpectedEnd] 470, [ENotStr] 482, [ENull] 512; [EIter] is an exception
    raised by the input iterator itself (464-467); [EOverrun] is not an
    exception of the code but marks an out-of-bounds store (276). *)
Inductive perr :=
| EFieldLimit | EQuoteExpected | ENewline | EUnexpectedEnd | ENotStr | ENull
| EIter | EOverrun.

(** A returned cell: a string, or a (string, is_quoted) tuple (219-246). *)
Inductive cell :=
| CStr (s : str)
| CTuple (s : str) (q : bool).

(** ** The field buffer

    The code of the state machine only touches the buffer through three
    operations; they are a parameter so that the machine can be run both on
    the real buffer (with its allocated size) and on a plain string. *)
Record bufops (B : Type) := mk_bufops {
  b_add : Z -> B -> N -> res perr B;      (* parse_add_char *)
  b_str : B -> str;                       (* the field_len characters stored *)
  b_clear : B -> B                        (* self->field_len = 0 *)
}.
Arguments b_add {B} _ _ _ _.
Arguments b_str {B} _ _.
Arguments b_clear {B} _ _.

(** src/cparser.c:71-73: the array [field] (only the first [field_len]
    characters are ever read back) and its allocated [field_size]. *)
Record membuf := mk_membuf { m_data : str; m_size : Z }.

(** src/cparser.c:251-265 [parse_grow_buff]. *)
Definition grow_buff (b : membuf) : membuf :=
  mk_membuf (m_data b) (if (m_size b =? 0)%Z then 4096%Z else (2 * m_size b)%Z).

(** src/cparser.c:267-278 [parse_add_char].  [PyErr_NoMemory] is not modelled. *)
Definition mem_add (limit : Z) (b : membuf) (c : N) : res perr membuf :=
  let len := Z.of_nat (length (m_data b)) in
  if (limit <=? len)%Z then Err EFieldLimit
  else
    let b1 := if (len =? m_size b)%Z then grow_buff b else b in
    if (len <? m_size b1)%Z then Ok (mk_membuf (m_data b1 ++ [c]) (m_size b1))
    else Err EOverrun.

Definition mem_ops : bufops membuf :=
  mk_bufops membuf mem_add m_data (fun b => mk_membuf [] (m_size b)).

(** The same operations on a plain string (used in proofs; see
    [ParserFacts.parse_items_pure]). *)
Definition str_add (limit : Z) (b : str) (c : N) : res perr str :=
  if (limit <=? Z.of_nat (length b))%Z then Err EFieldLimit else Ok (b ++ [c]).
Definition str_ops : bufops str := mk_bufops str str_add (fun b => b) (fun _ => []).

(** src/cparser.c:160-188: [_strstrip], [_strstartswith], [_strendswith],
    [_quotecond].  Stripping is only called on strings that are long enough. *)
Definition str_startswith (s : str) (c : N) : bool :=
  match s with [] => false | a :: _ => (a =? c)%N end.
Definition str_endswith (s : str) (c : N) : bool := str_startswith (rev s) c.
Definition strip_front (s : str) : str := tl s.
Definition strip_back (s : str) : str := removelast s.
Definition quotecond (s : str) (q : N) : bool :=
  if (q =? 0)%N then false
  else if Nat.leb (length s) 1 then false
  else str_startswith s q && str_endswith s q.

Section Machine.
  Context {B : Type} (ops : bufops B).

  (** src/cparser.c:65-84: the mutable part of [ParserObj]. *)
  Record pobj := mk_pobj {
    p_state : pstate;
    p_buf : B;
    p_fields : list cell;
    p_doublequote : bool
  }.

  Definition set_state (o : pobj) (s : pstate) : pobj :=
    mk_pobj s (p_buf o) (p_fields o) (p_doublequote o).
  Definition set_doublequote (o : pobj) : pobj :=
    mk_pobj (p_state o) (p_buf o) (p_fields o) true.

  (** src/cparser.c:267-278: [parse_add_char] on the object. *)
  Definition add_char (cf : pconf) (o : pobj) (c : N) : res perr pobj :=
    bind (b_add ops (field_limit cf) (p_buf o) c) (fun b =>
      Ok (mk_pobj (p_state o) b (p_fields o) (p_doublequote o))).

  (** src/cparser.c:190-249 [parse_save_field]. *)
  Definition save_field (cf : pconf) (o : pobj) (trailing : bool) : pobj :=
    let field0 := b_str ops (p_buf o) in
    let '(field1, q1) :=
      if quotecond field0 (quotechar cf)
      then (strip_back (strip_front field0), true) else (field0, false) in
    let '(field2, q2) :=
      if trailing && str_startswith field1 (quotechar cf)
      then (strip_front field1, true) else (field1, q1) in
    let c := if return_quoted cf then CTuple field2 q2 else CStr field2 in
    mk_pobj (p_state o) (b_clear ops (p_buf o)) (p_fields o ++ [c]) (p_doublequote o).

  (** src/cparser.c:292-311: [case START_FIELD]. *)
  Definition do_start_field (cf : pconf) (o : pobj) (u : N) : res perr pobj :=
    if is_nl u || (u =? 0)%N then
      Ok (set_state (save_field cf o false)
            (if (u =? 0)%N then START_RECORD else EAT_CRNL))
    else if (u =? quotechar cf)%N then
      bind (add_char cf o u) (fun o => Ok (set_state o IN_QUOTED_FIELD))
    else if (u =? escapechar cf)%N then
      Ok (set_state o ESCAPED_CHAR)
    else if (u =? delimiter cf)%N then
      Ok (save_field cf o false)
    else
      bind (add_char cf o u) (fun o => Ok (set_state o IN_FIELD)).

  (** src/cparser.c:336-357: [case IN_FIELD]. *)
  Definition do_in_field (cf : pconf) (o : pobj) (u : N) : res perr pobj :=
    if is_nl u || (u =? 0)%N then
      Ok (set_state (save_field cf o false)
            (if (u =? 0)%N then START_RECORD else EAT_CRNL))
    else if (u =? escapechar cf)%N then
      Ok (set_state o ESCAPED_CHAR)
    else if (u =? quotechar cf)%N then
      bind (add_char cf o u) (fun o => Ok (set_state o IN_QUOTED_FIELD))
    else if (u =? delimiter cf)%N then
      Ok (set_state (save_field cf o false) START_FIELD)
    else
      add_char cf o u.

  (** src/cparser.c:280-435 [parse_process_char]. *)
  Definition process_char (cf : pconf) (o : pobj) (u v : N) : res perr pobj :=
    match p_state o with
    | START_RECORD =>
        if (u =? 0)%N then Ok o
        else if is_nl u then Ok (set_state o EAT_CRNL)
        else do_start_field cf (set_state o START_FIELD) u
    | START_FIELD => do_start_field cf o u
    | ESCAPED_CHAR =>
        if is_nl u then
          bind (add_char cf o u) (fun o => Ok (set_state o AFTER_ESCAPED_CRNL))
        else
          bind (if negb (u =? 0)%N && negb (u =? delimiter cf)%N
                   && negb (u =? escapechar cf)%N && negb (u =? quotechar cf)%N
                then add_char cf o (escapechar cf) else Ok o) (fun o =>
          bind (if (u =? 0)%N then Ok o else add_char cf o u) (fun o =>
          Ok (set_state o IN_FIELD)))
    | AFTER_ESCAPED_CRNL =>
        if (u =? 0)%N then Ok o else do_in_field cf o u
    | IN_FIELD => do_in_field cf o u
    | IN_QUOTED_FIELD =>
        if (u =? 0)%N then Ok o
        else if (u =? escapechar cf)%N then Ok (set_state o ESCAPE_IN_QUOTED_FIELD)
        else if (u =? quotechar cf)%N then
          if (v =? quotechar cf)%N then
            Ok (set_state (set_doublequote o) QUOTE_IN_QUOTED_FIELD)
          else if strict cf then Err EQuoteExpected
          else bind (add_char cf o u) (fun o => Ok (set_state o IN_FIELD))
        else add_char cf o u
    | ESCAPE_IN_QUOTED_FIELD =>
        bind (if negb (u =? escapechar cf)%N && negb (u =? delimiter cf)%N
                 && negb (u =? quotechar cf)%N && negb (u =? 0)%N
              then add_char cf o (escapechar cf) else Ok o) (fun o =>
        bind (add_char cf o (if (u =? 0)%N then LF else u)) (fun o =>
        Ok (set_state o IN_QUOTED_FIELD)))
    | QUOTE_IN_QUOTED_FIELD =>
        if (u =? quotechar cf)%N then
          bind (add_char cf o u) (fun o => Ok (set_state o IN_QUOTED_FIELD))
        else if (u =? delimiter cf)%N then
          Ok (set_state (save_field cf o false) START_FIELD)
        else if is_nl u || (u =? 0)%N then
          Ok (set_state (save_field cf o false)
                (if (u =? 0)%N then START_RECORD else EAT_CRNL))
        else if negb (strict cf) then
          bind (add_char cf o u) (fun o => Ok (set_state o IN_FIELD))
        else Err EQuoteExpected
    | EAT_CRNL =>
        if is_nl u then Ok o
        else if (u =? 0)%N then Ok (set_state o START_RECORD)
        else Err ENewline
    end.

  (** src/cparser.c:437-445 [parse_reset]. *)
  Definition parse_reset (o : pobj) : pobj :=
    mk_pobj START_RECORD (b_clear ops (p_buf o)) [] (p_doublequote o).

  (** src/cparser.c:499-521: the loop over the characters of one line.  [v] is
      the look-ahead of the previous iteration (NUL before the first). *)
  Fixpoint process_chars (cf : pconf) (o : pobj) (v : N) (line : str) : res perr pobj :=
    match line with
    | [] => Ok o
    | x :: rest =>
        let u := if negb (v =? 0)%N then v else x in
        let v' := match rest with [] => 0%N | y :: _ => y end in
        if (u =? 0)%N then Err ENull
        else bind (process_char cf o u v') (fun o' => process_chars cf o' v' rest)
    end.

  (** src/cparser.c:499-524: one line followed by the end-of-line event. *)
  Definition process_line (cf : pconf) (o : pobj) (line : str) : res perr pobj :=
    bind (process_chars cf o 0%N line) (fun o => process_char cf o 0%N 0%N).

  (** What the input iterator can produce: a string, an object that is not a
      string, or an exception.  The end of the list is StopIteration. *)
  Inductive item :=
  | ILine (s : str)
  | INotStr
  | IExc.

  Inductive outcome :=
  | Row (r : list cell)
  | Stop
  | Raise (e : perr).

  (** src/cparser.c:463-534: the do-while loop of [Parser_iternext].  Returns
      the outcome, the object left behind and the unread input. *)
  Fixpoint iternext_loop (cf : pconf) (o : pobj) (input : list item)
    : outcome * pobj * list item :=
    match input with
    | [] =>
        if negb (Nat.eqb (length (b_str ops (p_buf o))) 0)
           || (match p_state o with IN_QUOTED_FIELD => true | _ => false end)
        then
          if strict cf then (Raise EUnexpectedEnd, o, [])
          else let o' := save_field cf o true in (Row (p_fields o'), o', [])
        else (Stop, o, [])
    | IExc :: rest => (Raise EIter, o, rest)
    | INotStr :: rest => (Raise ENotStr, o, rest)
    | ILine line :: rest =>
        match process_line cf o line with
        | Err e => (Raise e, o, rest)
        | Ok o' =>
            match p_state o' with
            | START_RECORD => (Row (p_fields o'), o', rest)
            | _ => iternext_loop cf o' rest
            end
        end
    end.

  (** src/cparser.c:447-534 [Parser_iternext].  After an error the C object
      keeps whatever the failing line left in it; the model keeps the object
      from before that line.  [parse_reset] clears the state, the fields and
      the field length at the next call, so only the read-only [doublequote]
      flag and the spare capacity of the buffer can differ. *)
  Definition iternext (cf : pconf) (o : pobj) (input : list item)
    : outcome * pobj * list item :=
    iternext_loop cf (parse_reset o) input.

  (** How a [for row in parser] loop ends. *)
  Inductive ending :=
  | Done
  | Raised (e : perr)
  | OutOfFuel.

  (** clevercsv/cparser_util.py:66-70: [for row in parser: yield row], i.e. the
      rows delivered and how the generator ended.  [fuel] bounds the number of
      [next] calls; [ParserFacts.drain_fuel] shows that one more than the
      number of items is enough, and [parse_items] supplies that. *)
  Fixpoint drain (fuel : nat) (cf : pconf) (o : pobj) (input : list item)
    : list (list cell) * ending :=
    match fuel with
    | O => ([], OutOfFuel)
    | S f =>
        match iternext cf o input with
        | (Row r, o', rest) =>
            let '(rows, e) := drain f cf o' rest in (r :: rows, e)
        | (Stop, _, _) => ([], Done)
        | (Raise e, _, _) => ([], Raised e)
        end
    end.
End Machine.
Arguments pobj : clear implicits.
Arguments mk_pobj {B} _ _ _ _.
Arguments p_state {B} _.
Arguments p_buf {B} _.
Arguments p_fields {B} _.
Arguments p_doublequote {B} _.

(** src/cparser.c:611-638 [cparser_parser]: a new parser object. *)
Definition new_parser : pobj membuf :=
  mk_pobj START_RECORD (mk_membuf [] 0%Z) [] false.

(** Iterating a new parser over the items of an iterable. *)
Definition parse_items (cf : pconf) (input : list item) : list (list cell) * ending :=
  drain mem_ops (S (length input)) cf new_parser input.

(** ** Lines of a text stream

    [iter(io.StringIO(data, newline=""))] (clevercsv/cparser_util.py:149) and a
    file opened with [newline=""]: lines end at LF, CR or CRLF and keep their
    terminator; no translation.  This is Python's universal-newline splitting,
    part of the trusted base. *)
Fixpoint univ_lines_aux (cur t : str) : list str :=
  match t with
  | [] => match cur with [] => [] | _ => [cur] end
  | c :: t' =>
      if (c =? LF)%N then (cur ++ [c]) :: univ_lines_aux [] t'
      else if (c =? CR)%N then
        match t' with
        | d :: t'' =>
            if (d =? LF)%N then (cur ++ [c; d]) :: univ_lines_aux [] t''
            else (cur ++ [c]) :: univ_lines_aux [] t'
        | [] => [cur ++ [c]]
        end
      else univ_lines_aux (cur ++ [c]) t'
  end.
Definition univ_lines (t : str) : list str := univ_lines_aux [] t.

(** [iter(io.StringIO(data))] with the default [newline="\n"]: lines end at LF
    only (used by clevercsv/detect.py:150). *)
Fixpoint lf_lines_aux (cur t : str) : list str :=
  match t with
  | [] => match cur with [] => [] | _ => [cur] end
  | c :: t' =>
      if (c =? LF)%N then (cur ++ [c]) :: lf_lines_aux [] t'
      else lf_lines_aux (cur ++ [c]) t'
  end.
Definition lf_lines (t : str) : list str := lf_lines_aux [] t.

(** clevercsv/cparser_util.py:142-152 [parse_string] (through [parse_data]
    73-139 and [_parse_data] 49-70) once the dialect's characters and the
    current field size limit have been collected in [cf]. *)
Definition parse_text (cf : pconf) (data : str) : list (list cell) * ending :=
  parse_items cf (map ILine (univ_lines data)).
