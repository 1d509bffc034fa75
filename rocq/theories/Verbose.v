(** * Verbose: what is printed in verbose mode, and what happens if it cannot be *)
From Coq Require Import String.
From Verif Require Import Base Parser Dialect CsvLib Reader Writer Files Wrappers Standardize Potential Floats Ties Consistency NormalForm Detect Json Codegen Console.
Open Scope N_scope.

(** [s.rjust(n)], which is what [%15r] does to the text. *)
Definition rjust (n : nat) (s : str) : str := repeat 32 (n - List.length s) ++ s.

Section Verbose.
Variable cat : N -> str.
Variable url : str -> str -> option nat.
Variable known : str -> bool -> res pyexc bool.
Variable O : orders.
Variable o_set : list SimpleDialect -> list SimpleDialect.
Variable printable : N -> bool.
(** ["%15.6f" % x] *)
Variable f6 : float -> str.
(** [print(line)]: the exception if standard output does not take the line. *)
Variable stdout : str -> option pyexc.
Variable verbose : bool.

(** [if verbose: print(line)], followed by the rest of the function: the lines
    that were printed and the result. *)
Definition say {A} (line : str) (k : list str * res pyexc A) : list str * res pyexc A :=
  if verbose then
    match stdout line with
    | Some x => ([], Err x)
    | None => (line :: fst k, snd k)
    end
  else k.

(** clevercsv/consistency.py:167 *)
Definition skip_text (d : SimpleDialect) (P : float) : str :=
  rjust 15 (dialect_repr printable d) ++ s2l ":" ++ [TAB] ++ s2l "P = " ++ f6 P ++ [TAB] ++ s2l "skip.".
(** clevercsv/consistency.py:175-178 *)
Definition score_text (d : SimpleDialect) (P T Q : float) : str :=
  rjust 15 (dialect_repr printable d) ++ s2l ":" ++ [TAB] ++ s2l "P = " ++ f6 P ++ [TAB] ++ s2l "T = " ++ f6 T ++ [TAB] ++
  s2l "Q = " ++ f6 Q.

(** clevercsv/consistency.py:160-179: the loop with its messages. *)
Fixpoint scores_loop_v (limit capacity : Z) (skip : bool) (data : str) (ds : list SimpleDialect)
    (incumbent : float) (m : list (SimpleDialect * score)) (c : cache)
  : list str * res pyexc (list (SimpleDialect * score)) :=
  match ds with
  | [] => ([], Ok m)
  | d :: ds' =>
      match pattern_score data d with
      | Err x => ([], Err x)
      | Ok P =>
          if fltb P incumbent && skip
          then say (skip_text d P)
                 (scores_loop_v limit capacity skip data ds' incumbent (scores_set d (mk_score P None None) m) c)
          else
            match compute_type_score known limit capacity data d c with
            | Err x => ([], Err x)
            | Ok (T, c) =>
                let Q := fmul P T in
                say (score_text d P T Q)
                  (scores_loop_v limit capacity skip data ds' (fmax incumbent Q)
                     (scores_set d (mk_score P (Some T) (Some Q)) m) c)
            end
      end
  end.

(** clevercsv/consistency.py:90-130 [detect], with the lines printed. *)
Definition detect_v (capacity : Z) (skip : bool) (data : str) (delimiters : option (list str)) (old_limit : Z)
  : list str * (res pyexc (option SimpleDialect) * Z) :=
  match get_dialects cat url O utf8 data delimiters false with
  | Err x => ([], (Err x, old_limit))
  | Ok dialects =>
      let limit := (Z.of_nat (List.length data) + 1)%Z in
      let '(lines, scores) := match py_sorted dialects with
                              | Err x => ([], Err x)
                              | Ok ds => scores_loop_v limit capacity skip data ds minus_inf [] []
                              end in
      match bind scores (fun scores =>
            match get_best_dialects scores with
            | [d] => Ok (Some d)
            | best => tie_breaker limit data o_set best
            end) with
      | Ok r => (lines, (Ok r, old_limit))
      | Err x => (lines, (Err x, limit))
      end
  end.

(** The number of a normal form, as [%i] prints it. *)
Definition form_number (k : form) : str :=
  match k with F1 => s2l "1" | F2 => s2l "2" | F3 => s2l "3" | F4 => s2l "4" | F5 => s2l "5" end.

(** clevercsv/normal_form.py:33-102 [detect_dialect_normal], with the lines printed. *)
Definition normal_v (data : str) (delimiters : option (list str)) : list str * res pyexc (option SimpleDialect) :=
  let delims := match delimiters with None => DELIMS | Some l => l end in
  match any_escapechar cat data utf8 (list_prod delims QUOTECHARS) with
  | Err x => ([], Err x)
  | Ok true => say (s2l "Not normal, has potential escapechar.") ([], Ok None)
  | Ok false =>
      match find (form_test (split_file data)) (forms delims) with
      | Some (k, d, q) => say (s2l "Matched normal form " ++ form_number k ++ s2l ".") ([], Ok (Some (dialect3 d q [])))
      | None => say (s2l "Didn't match any normal forms.") ([], Ok None)
      end
  end.

(** clevercsv/detect.py:64-127 [Detector.detect], with the lines printed.  The
    attribute [method_] is set before the second message. *)
Definition detector_detect_v (sample : str) (delimiters : option (list str)) (method : method_arg) (skip : bool) (s : dstate)
  : list str * (res pyexc (option SimpleDialect) * dstate) :=
  match
    match method with
    | MStr v => bind (dmethod_of_str v) (fun m => Ok (Some m))
    | MEnum m => bind (dmethod_of_str (dmethod_value m)) (fun m => Ok (Some m))
    | MOther => Ok None
    end with
  | Err x => ([], (Err x, s))
  | Ok m =>
      let is k := match m with Some m => dmethod_eqb m k | None => false end in
      match (if is NORMAL || is AUTO then say (s2l "Running normal form detection ...") (normal_v sample delimiters)
             else ([], Ok None)) with
      | (l1, Err x) => (l1, (Err x, s))
      | (l1, Ok (Some d)) => (l1, (Ok (Some d), mk_state (Some NORMAL) (st_limit s)))
      | (l1, Ok None) =>
          match say (s2l "Running data consistency measure ...") ([], Ok tt) with
          | (l2, Err x) => (l1 ++ l2, (Err x, mk_state (Some CONSISTENCY) (st_limit s)))
          | (l2, Ok _) =>
              let '(l3, (r, limit)) := detect_v 100000 skip sample delimiters (st_limit s) in
              (l1 ++ l2 ++ l3, (r, mk_state (Some CONSISTENCY) limit))
          end
      end
  end.
End Verbose.

(** ** Commands *)

(** Standard output takes every line. *)
Definition takes_all : str -> option pyexc := fun _ => None.

(** What [print] sends to standard output for these lines. *)
Definition printed (lines : list str) : str := List.concat (map (fun l => l ++ [LF]) lines).

(** [Detector().detect(data, method=method, skip=skip, verbose=verbose)]: the
    lines printed and the result; standard output takes every line here. *)
Definition talker := method_arg -> bool -> str -> list str * res pyexc (option SimpleDialect).
Definition quiet (det : talker) : detector := fun method skip data => snd (det method skip data).

(** The detector itself, talking; the field size limit is [limit] before. *)
Definition loud cat url known O o_set printable f6 (limit : Z) : talker := fun method skip data =>
  let '(lines, (r, _)) :=
    detector_detect_v cat url known O o_set printable f6 takes_all true data None method skip (mk_state None limit) in
  (lines, r).

(** The lines printed by [detect_dialect] (clevercsv/wrappers.py:350-401) and
    by [read_table] and its relatives: none if the file cannot be read. *)
Definition detection_lines (E : env) (det : str -> list str) (f : fs) (p : path) (encoding : option str) (num_chars : option Z)
  : list str :=
  match bind (open_text E f p (or_encoding encoding)) (fun '(c, b) => read_chars c b num_chars) with
  | Ok data => det data
  | Err _ => []
  end.

(** clevercsv/console/commands/detect.py:103-139 with the option verbose: the
    lines printed by the detection come in front of those of the command,
    which [detect_command] in Console.v gives. *)
Definition detect_command_v (E : env) (det : talker) (printable space : N -> bool) (runtime runtime6 : str)
    (f : fs) (p : path) (A : detect_args) : list str * outcome :=
  let method := MStr (if da_consistency A then s2l "consistency" else s2l "auto") in
  (detection_lines E (fun data => fst (det method (negb (da_no_skip A)) data)) f p (da_encoding A) (da_num_chars A),
   detect_command E (quiet det) printable space runtime runtime6 f p A).
(** Everything the command sends to standard output; what it prints itself is
    lost if it raises. *)
Definition detect_stdout (o : list str * outcome) : str :=
  printed (fst o ++ match snd o with Printed lines _ => lines | Raised _ => [] end).

Definition auto_detect (det : talker) (data : str) : list str * res pyexc (option SimpleDialect) := det (MEnum AUTO) true data.
Definition talking_env (E : env) (det : talker) : env := with_detect E (fun data => snd (auto_detect det data)).

(** The command without verbose, with the same detector. *)
Definition silent (S : senv) (det : talker) : senv := mk_senv (talking_env (s_env S) det) (s_sha1 S) (s_mkstemp S).

(** clevercsv/console/commands/standardize.py:176-198 [handle_path] with the
    option verbose.  The first step is the detection (lines 185-189). *)
Definition handle_path_v (S : senv) (det : talker) (A : sargs) (f : fs) (p : path) (output : option path) (encoding : option str)
  : exit * fs * str :=
  let S := silent S det in
  let '(c, f', t) := handle_path S A f p output encoding in
  match f p with
  | None => (c, f', t)
  | Some b =>
      let encoding := match or_encoding encoding with None => e_get_encoding (s_env S) b | e => e end in
      (c, f', printed (detection_lines (s_env S) (fun data => fst (auto_detect det data)) f p encoding (a_num_chars A)) ++ t)
  end.
