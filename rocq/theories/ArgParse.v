(** * ArgParse: the options of the five commands and how the words of a command
    line become their arguments

    The commands declare their options with [add_argument] (the [register]
    methods); wilderness hands the declarations and the words after the name of
    the command to [argparse], of which this file models the part that is used:
    options with a short and a long name that take no value or one, one
    positional argument, one mutually exclusive group.  It follows
    [ArgumentParser._parse_known_args] and its helpers of CPython 3.11.10. *)
From Coq Require Import String.
From Verif Require Import Base Dialect Files Json Standardize Codegen Console.

Open Scope N_scope.
Definition is_nil {A} (l : list A) : bool := match l with [] => true | _ => false end.
Definition DASH : N := 45.
Definition EQUALS : N := 61.

(** ** Declarations *)

(** What an option does: show the help, [action="store_true"], store one word,
    store one word as an int ([type=int]), [action="append"] with [default=[]]. *)
Inductive okind := KHelp | KFlag | KStr | KInt | KAppend.
(** [add_argument("-e", "--encoding", …)]: the letter behind the single dash, if
    there is a short name, and the text behind the two dashes. *)
Record opt := mk_opt { o_short : option N; o_long : str; o_kind : okind }.
Record parser := mk_parser {
  p_options : list opt;
  p_exclusive : list str;   (* long names of the mutually exclusive group *)
  p_many : bool             (* [nargs="+"] for path *)
}.

(** [ArgumentParser.__init__]: every parser has this option in front. *)
Definition help : opt := mk_opt (Some 104) (s2l "help") KHelp.

(** clevercsv/console/commands/detect.py:29-101 [DetectCommand.register] *)
Definition detect_parser : parser := mk_parser
  [ mk_opt (Some 99) (s2l "consistency") KFlag;
    mk_opt (Some 101) (s2l "encoding") KStr;
    mk_opt (Some 110) (s2l "num-chars") KInt;
    mk_opt (Some 112) (s2l "plain") KFlag;
    mk_opt (Some 106) (s2l "json") KFlag;
    mk_opt None (s2l "no-skip") KFlag;
    mk_opt None (s2l "add-runtime") KFlag ]
  [ s2l "plain"; s2l "json" ] false.

(** clevercsv/console/commands/view.py:33-53 [ViewCommand.register] *)
Definition view_parser : parser := mk_parser
  [ mk_opt (Some 101) (s2l "encoding") KStr;
    mk_opt (Some 110) (s2l "num-chars") KInt;
    mk_opt (Some 116) (s2l "transpose") KFlag ] [] false.

(** clevercsv/console/commands/standardize.py:49-113 [StandardizeCommand.register] *)
Definition standardize_parser : parser := mk_parser
  [ mk_opt (Some 101) (s2l "encoding") KAppend;
    mk_opt (Some 69) (s2l "target-encoding") KStr;
    mk_opt (Some 105) (s2l "in-place") KFlag;
    mk_opt (Some 110) (s2l "num-chars") KInt;
    mk_opt (Some 111) (s2l "output") KAppend;
    mk_opt (Some 116) (s2l "transpose") KFlag ] [] true.

(** clevercsv/console/commands/code.py:32-58 [CodeCommand.register] *)
Definition code_parser : parser := mk_parser
  [ mk_opt (Some 101) (s2l "encoding") KStr;
    mk_opt (Some 110) (s2l "num-chars") KInt;
    mk_opt (Some 112) (s2l "pandas") KFlag ] [] false.

(** clevercsv/console/commands/explore.py:37-63 [ExploreCommand.register] *)
Definition explore_parser : parser := mk_parser
  [ mk_opt (Some 101) (s2l "encoding") KStr;
    mk_opt (Some 110) (s2l "num-chars") KInt;
    mk_opt (Some 112) (s2l "pandas") KFlag ] [] false.

(** [_get_optional_kwargs]: the attribute is named after the long name. *)
Definition dest (long : str) : str := map (fun c => if N.eqb c DASH then 95 else c) long.

(** [_option_string_actions], in the order of the declarations *)
Definition names (o : opt) : list str :=
  match o_short o with Some c => [[DASH; c]] | None => [] end ++ [DASH :: DASH :: o_long o].
Definition option_map_of (P : parser) : list (str * opt) :=
  flat_map (fun o => map (fun n => (n, o)) (names o)) (help :: p_options P).

(** ** Which words are options *)

(** [str.partition("=")]: the second part is [None] if there is no equals sign. *)
Fixpoint partition_equals (w : str) : str * option str :=
  match w with
  | [] => ([], None)
  | c :: w' => if N.eqb c EQUALS then ([], Some w')
               else let '(a, b) := partition_equals w' in (c :: a, b)
  end.

(** An option that was recognised: the option, the name that was used, and the
    value given in the same word with whether an equals sign stood in front of it. *)
Record hit := mk_hit { h_opt : opt; h_name : str; h_explicit : option (bool * str) }.

(** [_get_option_tuples] *)
Definition option_tuples (P : parser) (w : str) : list hit :=
  match w with
  | _ :: c :: tail =>
      if N.eqb c DASH then
        let '(prefix, explicit) := partition_equals w in
        map (fun no => mk_hit (snd no) (fst no) (option_map (fun v => (true, v)) explicit))
            (filter (fun no => starts_with prefix (fst no)) (option_map_of P))
      else
        flat_map (fun no =>
                    if str_eqb (fst no) [DASH; c] then [mk_hit (snd no) (fst no) (Some (false, tail))]
                    else if starts_with w (fst no) then [mk_hit (snd no) (fst no) None]
                    else [])
                 (option_map_of P)
  | _ => []
  end.

(** A word is an argument, the first "--", a known or an unknown option. *)
Inductive mark := MArg | MDashes | MOption (h : option hit).

Section Parse.
(** [\d] of the regular expression for negative numbers, and [int] *)
Context (digit : N -> bool) (int_of : str -> option Z).

(** [_negative_number_matcher]: ^-\d+$|^-\d*\.\d+$ where $ also matches in front
    of a final line feed. *)
Definition at_end (s : str) : bool :=
  match s with [] => true | [c] => N.eqb c LF | _ => false end.
Definition negative_number (w : str) : bool :=
  match w with
  | c :: r =>
      N.eqb c DASH &&
      let '(a, rest) := span digit r in
      (negb (Nat.eqb (List.length a) 0%nat) && at_end rest ||
       match rest with
       | d :: r' => N.eqb d 46 && let '(b, rest') := span digit r' in negb (Nat.eqb (List.length b) 0%nat) && at_end rest'
       | [] => false
       end)
  | [] => false
  end.

(** [_parse_optional]; [None] for an ambiguous abbreviation. *)
Definition mark_word (P : parser) (w : str) : option mark :=
  match w with
  | [] => Some MArg
  | c :: tail =>
      if negb (N.eqb c DASH) then Some MArg
      else match dict_get w (option_map_of P) with
      | Some o => Some (MOption (Some (mk_hit o w None)))
      | None =>
          if is_nil tail then Some MArg
          else match (let '(name, explicit) := partition_equals w in
                      match explicit with
                      | Some v => match dict_get name (option_map_of P) with
                                  | Some o => Some (mk_hit o name (Some (true, v)))
                                  | None => None
                                  end
                      | None => None
                      end) with
          | Some h => Some (MOption (Some h))
          | None =>
              match option_tuples P w with
              | _ :: _ :: _ => None
              | [h] => Some (MOption (Some h))
              | [] =>
                  if negative_number w then Some MArg
                  else if mem_char 32 w then Some MArg
                  else Some (MOption None)
              end
          end
      end
  end.
(** the first loop of [_parse_known_args] *)
Fixpoint mark_words (P : parser) (ws : list str) : option (list (str * mark)) :=
  match ws with
  | [] => Some []
  | w :: ws' =>
      if str_eqb w [DASH; DASH] then Some ((w, MDashes) :: map (fun w => (w, MArg)) ws')
      else match mark_word P w, mark_words P ws' with
           | Some m, Some l => Some ((w, m) :: l)
           | _, _ => None
           end
  end.

(** ** Actions *)

Inductive avalue := ANone | ABool (b : bool) | AStr (s : str) | AInt (z : Z) | AList (l : list str).
Definition namespace := list (str * avalue).
Definition default (k : okind) : avalue :=
  match k with KFlag => ABool false | KAppend => AList [] | _ => ANone end.
(** the defaults; help is not in the namespace *)
Definition initial (P : parser) : namespace :=
  (s2l "path", ANone) :: map (fun o => (dest (o_long o), default (o_kind o))) (p_options P).

(** What becomes of a command line: the attributes of [self.args], the help text,
    or a usage message and exit code 2.  ([Stuck] is never the answer.) *)
Inductive parsed := Parsed (ns : namespace) | Helped | Usage | Stuck.
Record state := mk_state {
  st_ns : namespace;
  st_path : bool;         (* path has been given *)
  st_extras : bool;       (* there are words that are not understood *)
  st_seen : list str      (* long names of the options given so far *)
}.
(** the end of the program, or the state to go on with *)
Definition step := sum parsed state.

Definition set_value (st : state) (long : str) (v : avalue) : state :=
  mk_state (dict_set (dest long) v (st_ns st)) (st_path st) (st_extras st) (long :: st_seen st).
Definition extra (st : state) : state := mk_state (st_ns st) (st_path st) true (st_seen st).

(** [take_action] for an option with the words that belong to it *)
Definition take_option (P : parser) (st : state) (o : opt) (args : list str) : step :=
  let l := o_long o in
  if existsb (str_eqb l) (p_exclusive P) &&
     existsb (fun x => negb (str_eqb x l) && existsb (str_eqb x) (st_seen st)) (p_exclusive P) then inl Usage
  else match o_kind o, args with
  | KHelp, _ => inl Helped
  | KFlag, _ => inr (set_value st l (ABool true))
  | KStr, [w] => inr (set_value st l (AStr w))
  | KInt, [w] => match int_of w with Some z => inr (set_value st l (AInt z)) | None => inl Usage end
  | KAppend, [w] =>
      inr (set_value st l (match dict_get (dest l) (st_ns st) with Some (AList x) => AList (x ++ [w]) | _ => AList [w] end))
  | _, _ => inl Stuck
  end.
Fixpoint take_options (P : parser) (st : state) (acts : list (opt * list str)) : step :=
  match acts with
  | [] => inr st
  | (o, args) :: acts' => match take_option P st o args with inl r => inl r | inr st' => take_options P st' acts' end
  end.

(** number of words an option takes *)
Definition arity (o : opt) : nat := match o_kind o with KHelp | KFlag => 0%nat | _ => 1%nat end.

(** [consume_optional] after the current word, for an option without a value in
    the same word: the words it takes and the words that remain. *)
Definition following (o : opt) (rest : list (str * mark)) : option (list str * list (str * mark)) :=
  match arity o, rest with
  | O%nat, _ => Some ([], rest)
  | _, (w, MArg) :: rest' => Some ([w], rest')
  | _, _ => None
  end.

(** [consume_optional], lines of the loop for a value in the same word: the
    options of the word with their values, whether a part of the word is left
    over, and the remaining words; [None] is an error. *)
Fixpoint chain (P : parser) (o : opt) (name : str) (sep : bool) (e : str) (rest : list (str * mark))
  : option (list (opt * list str) * bool * list (str * mark)) :=
  match arity o with
  | O%nat =>
      match e with
      | c :: e' =>
          match name with
          | _ :: d :: _ =>
              if N.eqb d DASH then None
              else if sep || N.eqb c DASH then None
              else match dict_get [DASH; c] (option_map_of P) with
              | None => Some ([(o, [])], true, rest)
              | Some o' =>
                  match (match e' with
                         | [] => match following o' rest with
                                 | Some (args, rest') => Some ([(o', args)], false, rest')
                                 | None => None
                                 end
                         | s :: e'' => if N.eqb s EQUALS then chain P o' [DASH; c] true e'' rest
                                       else chain P o' [DASH; c] false e' rest
                         end) with
                  | Some (acts, x, rest') => Some ((o, []) :: acts, x, rest')
                  | None => None
                  end
              end
          | _ => None
          end
      | [] => None
      end
  | _ => Some ([(o, [e])], false, rest)
  end.

(** [consume_optional] *)
Definition consume_optional (P : parser) (st : state) (h : option hit) (rest : list (str * mark))
  : sum parsed (state * list (str * mark)) :=
  match h with
  | None => inr (extra st, rest)
  | Some h =>
      match (match h_explicit h with
             | Some (sep, e) => chain P (h_opt h) (h_name h) sep e rest
             | None => match following (h_opt h) rest with
                       | Some (args, rest') => Some ([(h_opt h, args)], false, rest')
                       | None => None
                       end
             end) with
      | None => inl Usage
      | Some (acts, x, rest') =>
          match take_options P (if x then extra st else st) acts with
          | inl r => inl r
          | inr st' => inr (st', rest')
          end
      end
  end.

(** [consume_positionals]: how many words path takes; the patterns are -*A-* and
    -*A[A-]*. *)
Definition is_arg (wm : str * mark) : bool := match snd wm with MArg => true | _ => false end.
Definition is_dashes (wm : str * mark) : bool := match snd wm with MDashes => true | _ => false end.
Definition is_opt (wm : str * mark) : bool := match snd wm with MOption _ => true | _ => false end.
Fixpoint prefix_length (p : str * mark -> bool) (l : list (str * mark)) : nat :=
  match l with x :: l' => if p x then S (prefix_length p l') else 0%nat | [] => 0%nat end.
Definition path_length (many : bool) (ws : list (str * mark)) : option nat :=
  let k := prefix_length is_dashes ws in
  match skipn k ws with
  | wm :: rest =>
      if is_arg wm then Some (k + 1 + prefix_length (fun x => (many && is_arg x) || is_dashes x) rest)%nat else None
  | [] => None
  end.
(** [_get_values] for path: without the first "--" *)
Fixpoint remove_dashes (ws : list str) : list str :=
  match ws with [] => [] | w :: ws' => if str_eqb w [DASH; DASH] then ws' else w :: remove_dashes ws' end.
Definition path_value (many : bool) (ws : list str) : avalue :=
  match many, ws with false, [w] => AStr w | _, _ => AList ws end.
Definition consume_path (P : parser) (st : state) (ws : list (str * mark)) : option (state * list (str * mark)) :=
  if st_path st then None
  else match path_length (p_many P) ws with
       | None => None
       | Some n =>
           Some (mk_state (dict_set (s2l "path") (path_value (p_many P) (remove_dashes (map fst (firstn n ws)))) (st_ns st))
                          true (st_extras st) (st_seen st),
                 skipn n ws)
       end.

(** the second loop of [_parse_known_args]; the checks behind it and
    [parse_args], which refuses words that are not understood *)
Definition finish (st : state) : parsed :=
  if st_path st then if st_extras st then Usage else Parsed (st_ns st) else Usage.
Definition conclude (P : parser) (st : state) (ws : list (str * mark)) : parsed :=
  match consume_path P st ws with
  | Some (st', rest) => finish (if is_nil rest then st' else extra st')
  | None => finish (if is_nil ws then st else extra st)
  end.
Fixpoint loop (P : parser) (fuel : nat) (st : state) (ws : list (str * mark)) : parsed :=
  match fuel with
  | O%nat => Stuck
  | S fuel' =>
      if existsb is_opt ws then
        let n := prefix_length (fun x => negb (is_opt x)) ws in
        match (if Nat.eqb n 0%nat then None else consume_path P st ws) with
        | Some (st', rest) => loop P fuel' st' rest
        | None =>
            let st := if Nat.eqb n 0%nat then st else extra st in
            match skipn n ws with
            | (_, MOption h) :: rest =>
                match consume_optional P st h rest with
                | inl r => r
                | inr (st', rest') => loop P fuel' st' rest'
                end
            | _ => Stuck
            end
        end
      else conclude P st ws
  end.
Definition parse_args (P : parser) (ws : list str) : parsed :=
  match mark_words P ws with
  | None => Usage
  | Some l => loop P (S (List.length ws)) (mk_state (initial P) false false []) l
  end.
End Parse.

(** ** The arguments of the commands *)

(** [self.args.name] where the value must be of a certain kind *)
Definition attr {A} (get : avalue -> option A) (ns : namespace) (name : string) : res pyexc A :=
  match dict_get (s2l name) ns with
  | None => Err AttributeError
  | Some v => match get v with Some x => Ok x | None => Err TypeError end
  end.
Definition as_bool v := match v with ABool b => Some b | _ => None end.
Definition as_str v := match v with AStr s => Some s | _ => None end.
Definition as_opt_str v := match v with AStr s => Some (Some s) | ANone => Some None | _ => None end.
(** clevercsv/console/commands/_utils.py:11-20 [parse_int] for an int or None *)
Definition as_opt_int v := match v with AInt z => Some (Some z) | ANone => Some None | _ => None end.
Definition as_list v := match v with AList l => Some l | _ => None end.

(** clevercsv/console/commands/detect.py:104-137: the attributes that are used *)
Definition detect_args_of (ns : namespace) : res pyexc (str * detect_args) :=
  bind (attr as_str ns "path") (fun path =>
  bind (attr as_opt_str ns "encoding") (fun encoding =>
  bind (attr as_opt_int ns "num_chars") (fun num_chars =>
  bind (attr as_bool ns "consistency") (fun consistency =>
  bind (attr as_bool ns "plain") (fun plain =>
  bind (attr as_bool ns "json") (fun json =>
  bind (attr as_bool ns "no_skip") (fun no_skip =>
  bind (attr as_bool ns "add_runtime") (fun add_runtime =>
  Ok (path, mk_detect_args encoding num_chars consistency plain json no_skip add_runtime))))))))).

(** clevercsv/console/commands/standardize.py:122-128, 194, 235 *)
Definition sargs_of (locate : str -> path) (ns : namespace) : res pyexc sargs :=
  bind (attr as_list ns "path") (fun paths =>
  bind (attr as_list ns "output") (fun outputs =>
  bind (attr as_list ns "encoding") (fun encodings =>
  bind (attr as_opt_int ns "num_chars") (fun num_chars =>
  bind (attr as_bool ns "in_place") (fun in_place =>
  bind (attr as_opt_str ns "target_encoding") (fun target =>
  bind (attr as_bool ns "transpose") (fun transpose =>
  Ok (mk_sargs (map locate paths) encodings target in_place num_chars (map locate outputs) transpose)))))))).

(** clevercsv/console/commands/view.py:71-83; clevercsv/console/commands/code.py:61-75;
    clevercsv/console/commands/explore.py:66-96:
    path, encoding, num_chars and the flag of the command *)
Definition small_args_of (flag : string) (ns : namespace) : res pyexc (str * option str * option Z * bool) :=
  bind (attr as_str ns "path") (fun path =>
  bind (attr as_opt_str ns "encoding") (fun encoding =>
  bind (attr as_opt_int ns "num_chars") (fun num_chars =>
  bind (attr as_bool ns flag) (fun flag =>
  Ok (path, encoding, num_chars, flag))))).
