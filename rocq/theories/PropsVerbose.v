(** * Properties: verbose mode (C97)

    [detector_detect_v ... stdout verbose] is [Detector.detect] with its
    messages: the lines printed and the result.  [stdout line] is the exception
    that printing the line raises, if any. *)
From Coq Require Import String Permutation Sorting.Sorted.
From Verif Require Import Base Parser Dialect CsvLib Reader Files Wrappers Standardize Potential Floats Ties Consistency NormalForm Detect Json Codegen Console.
From Verif Require Import SpecPotential MaskedFacts SpecConsistency DetectFacts DetectCases TableFacts Verbose SpecNormal SpecVerbose VerboseFacts VerboseScores VerboseCommands VerboseReasons VerboseCases.
Local Notation len := List.length.

(** Without verbose nothing is printed and nothing changes. *)
Theorem C97_quiet cat url known O o_set printable f6 stdout sample user method skip s :
  detector_detect_v cat url known O o_set printable f6 stdout false sample user method skip s =
  ([], detector_detect cat url known O o_set sample user method skip s).
Proof. exact (detector_quiet cat url known O o_set printable f6 stdout sample user method skip s). Qed.
Print Assumptions C97_quiet.

(** With verbose the result is the same, if standard output takes the lines. *)
Theorem C97_same_result cat url known O o_set printable f6 sample user method skip s :
  snd (detector_detect_v cat url known O o_set printable f6 takes_all true sample user method skip s) =
  detector_detect cat url known O o_set sample user method skip s.
Proof. exact (detector_all cat url known O o_set printable f6 sample user method skip s). Qed.
Print Assumptions C97_same_result.
(** Otherwise the detection ends with the exception of [print] at the first
    line that is refused. *)
Theorem C97_refused cat url known O o_set printable f6 stdout sample user method skip s :
  let all := detector_detect_v cat url known O o_set printable f6 takes_all true sample user method skip s in
  let run := detector_detect_v cat url known O o_set printable f6 stdout true sample user method skip s in
  ((forall y, In y (fst all) -> stdout y = None) /\ run = all) \/
  (exists a x s', refused stdout (fst all) a x /\ run = (a, (Err x, s')) /\
     (st_limit s' = st_limit s \/ st_limit s' = Z.of_nat (len sample) + 1)%Z).
Proof. exact (detector_cut cat url known O o_set printable f6 stdout sample user method skip s). Qed.
Print Assumptions C97_refused.
(** If that happens while the scores are printed, the global field size limit
    is not set back. *)
Theorem C97_limit_not_restored cat url known O o_set printable f6 stdout capacity skip data user old :
  let all := detect_v cat url known O o_set printable f6 takes_all true capacity skip data user old in
  let run := detect_v cat url known O o_set printable f6 stdout true capacity skip data user old in
  ((forall y, In y (fst all) -> stdout y = None) /\ run = all) \/
  (exists a x, refused stdout (fst all) a x /\ run = (a, (Err x, (Z.of_nat (len data) + 1)%Z))).
Proof. exact (detect_cut cat url known O o_set printable f6 stdout capacity skip data user old). Qed.
Print Assumptions C97_limit_not_restored.
Example C97_refused_case : sample_run only_scores =
  ([tabs (s2l "SimpleDialect(',', '', ''):^P =        0.500000^T =        1.000000^Q =        0.500000")], (Err UnicodeEncodeError, 4%Z)).
Proof. exact sample_refused. Qed.

(** The messages. *)
Theorem C97_messages cat url known O o_set printable f6 sample user m skip s : m = NORMAL \/ m = AUTO ->
  let lines := fst (detector_detect_v cat url known O o_set printable f6 takes_all true sample user (MEnum m) skip s) in
  match detect_dialect_normal cat sample utf8 user with
  | Err _ => lines = [running_normal]
  | Ok r => exists line, normal_message (match user with None => DELIMS | Some l => l end) line r /\
      match r with
      | Some _ => lines = [running_normal; line]
      | None => lines = [running_normal; line; running_consistency] ++
          fst (detect_v cat url known O o_set printable f6 takes_all true 100000 skip sample user (st_limit s))
      end
  end.
Proof. exact (detector_messages cat url known O o_set printable f6 sample user m skip s). Qed.
Print Assumptions C97_messages.
(** The reason given is the true one: the text has a character that may be an
    escape character in front of a quote or delimiter. *)
Theorem C97_escape_message cat url known O o_set printable f6 sample ds m skip s : m = NORMAL \/ m = AUTO ->
  let line := nth_error (fst (detector_detect_v cat url known O o_set printable f6 takes_all true sample (Some (map (fun c => [c]) ds)) (MEnum m) skip s)) 1 in
  (escape_suspect cat ds sample -> line = Some (s2l "Not normal, has potential escapechar.")) /\
  (~ escape_suspect cat ds sample -> exists l, line = Some l /\ l <> s2l "Not normal, has potential escapechar.").
Proof. exact (escape_reason cat url known O o_set printable f6 sample ds m skip s). Qed.
Print Assumptions C97_escape_message.
Example C97_escape_message_case : escape_suspect ascii_cat [COMMA] (s2l "a\,b").
Proof. exists 92%N, COMMA. split; [exists [97%N], [98%N]; reflexivity|]. split; [split; [reflexivity|vm_compute; intuition discriminate]|]. split; [discriminate|]. cbn. tauto. Qed.
Theorem C97_messages_consistency cat url known O o_set printable f6 sample user skip s :
  fst (detector_detect_v cat url known O o_set printable f6 takes_all true sample user (MEnum CONSISTENCY) skip s) =
  running_consistency :: fst (detect_v cat url known O o_set printable f6 takes_all true 100000 skip sample user (st_limit s)).
Proof. exact (detector_messages_consistency cat url known O o_set printable f6 sample user skip s). Qed.
Print Assumptions C97_messages_consistency.
(** One line for each candidate, in ascending order, with its true scores; the
    type score is left out exactly if an earlier candidate has a score above
    this candidate's pattern score. *)
Theorem C97_scores cat url kb O o_set printable f6 capacity data user skip old :
  any_orders O -> (forall x, In x (filter_urls url data) -> surrogate x = false) -> ~ In NUL data -> (Z.of_nat (len data) < 2 ^ 50)%Z ->
  let limit := (Z.of_nat (len data) + 1)%Z in
  let lines := fst (detect_v cat url (total_known kb) O o_set printable f6 takes_all true capacity skip data user old) in
  exists L ds P T, get_dialects cat url O utf8 data user false = Ok L /\
    Permutation ds L /\ StronglySorted (fun a b => ~ dlt b a) ds /\
    (forall d, In d L -> pattern_score data d = Ok (P d) /\ type_score (total_known kb) limit data d = Ok (T d)) /\
    len lines = len ds /\
    forall i d, nth_error ds i = Some d -> nth_error lines i =
      Some (dialect_line printable f6 d (P d)
        (if skip && existsb (fun k => fltb (P d) (fmul (P k) (T k))) (firstn i ds) then None else Some (T d, fmul (P d) (T d)))).
Proof. exact (fun HO Hc Hn H50 => printed_scores cat url kb O o_set printable f6 capacity data user HO Hc Hn H50 skip old). Qed.
Print Assumptions C97_scores.
(** The scores of the dialect that is detected are always printed. *)
Theorem C97_detected cat url kb O o_set printable f6 capacity data user skip old d :
  any_orders O -> (forall x, In x (filter_urls url data) -> surrogate x = false) -> ~ In NUL data -> (Z.of_nat (len data) < 2 ^ 50)%Z ->
  (forall l, Permutation (o_set l) l) ->
  fst (detect cat url (total_known kb) O o_set capacity skip data user old) = Ok (Some d) ->
  exists P T, pattern_score data d = Ok P /\ type_score (total_known kb) (Z.of_nat (len data) + 1) data d = Ok T /\
    In (dialect_line printable f6 d P (Some (T, fmul P T)))
      (fst (detect_v cat url (total_known kb) O o_set printable f6 takes_all true capacity skip data user old)).
Proof. exact (fun HO Hc Hn H50 => detected_line cat url kb O o_set printable f6 capacity data user HO Hc Hn H50 skip old d). Qed.
Print Assumptions C97_detected.
Example C97_scores_case : sample_run takes_all =
  ([tabs (s2l "SimpleDialect(',', '', ''):^P =        0.500000^T =        1.000000^Q =        0.500000");
    tabs (s2l "SimpleDialect('', '', ''):^P =        0.001000^skip.")], (Ok (Some (dialect3 [COMMA] [] [])), 131072%Z)).
Proof. exact sample_lines. Qed.

(** ** The messages go to standard output, where the commands print too *)

(** What [detect --json] prints in verbose mode is never JSON. *)
Theorem C97_json cat url known O o_set printable f6 limit E pr space runtime runtime6 f p A md depth :
  let det := loud cat url known O o_set printable f6 limit in
  loads md depth (detect_stdout (detect_command_v E det pr space runtime runtime6 f p A)) = Err JSONDecodeError.
Proof. exact (verbose_json cat url known O o_set printable f6 limit E pr space runtime runtime6 f p A md depth). Qed.
Print Assumptions C97_json.
(** Files are written as without verbose. *)
Theorem C97_files cat url known O o_set printable f6 limit S A f p output encoding :
  let det := loud cat url known O o_set printable f6 limit in
  fst (handle_path_v S det A f p output encoding) = fst (handle_path (silent S det) A f p output encoding).
Proof. exact (verbose_files cat url known O o_set printable f6 limit S A f p output encoding). Qed.
Print Assumptions C97_files.
(** What [standardize] prints starts with the messages, and reading it back
    returns the first message as the first row. *)
Theorem C97_stdout cat url known O o_set printable f6 limit S A f p output encoding c f' t :
  let det := loud cat url known O o_set printable f6 limit in
  handle_path (silent S det) A f p output encoding = (Code c, f', t) ->
  exists rest, handle_path_v S det A f p output encoding = (Code c, f', running_normal ++ LF :: rest ++ t).
Proof. exact (verbose_stdout cat url known O o_set printable f6 limit S A f p output encoding c f' t). Qed.
Print Assumptions C97_stdout.
(** If the file cannot be read nothing is printed. *)
Theorem C97_unreadable E S det pr space rt rt6 f p A x :
  (forall A, bind (open_text E f p (or_encoding (da_encoding A))) (fun '(c, b) => read_chars c b (da_num_chars A)) = Err x ->
     detect_stdout (detect_command_v E det pr space rt rt6 f p A) = []) /\
  (forall b output encoding, f p = Some b ->
     let e := match or_encoding encoding with None => e_get_encoding (s_env S) b | e => e end in
     bind (open_text (s_env S) f p (or_encoding e)) (fun '(c, b) => read_chars c b (a_num_chars A)) = Err x ->
     handle_path_v S det A f p output encoding = (Uncaught x, f, [])).
Proof. exact (conj (fun A => unread_detect E det pr space rt rt6 f p A x) (fun b o e Hb => unread_standardize S det A f p o e b x Hb)). Qed.
Print Assumptions C97_unreadable.
Example C97_unreadable_case :
  let E := s_env (demo_senv (fun _ => Ok None)) in
  bind (open_text E (fun _ => None) 1%N (or_encoding None)) (fun '(c, b) => read_chars c b None) = Err OSError.
Proof. reflexivity. Qed.
Theorem C97_first_row rest : exists rows x,
  parse_string 131072 (running_normal ++ LF :: rest) (dialect3 [COMMA] [DQ] []) false = ([CStr running_normal] :: rows, x).
Proof. exact (first_row rest). Qed.
Print Assumptions C97_first_row.
Example C97_stdout_case :
  let S := demo_senv (fun _ => Ok None) in
  handle_path (silent S small_loud) plain_args semi_file 1%N None None = (Code 0, semi_file, s2l "a,b" ++ [CR; LF] ++ s2l "c,d" ++ [CR; LF]) /\
  snd (handle_path_v S small_loud plain_args semi_file 1%N None None) =
    running_normal ++ [LF] ++ s2l "Matched normal form 2." ++ [LF] ++ s2l "a,b" ++ [CR; LF] ++ s2l "c,d" ++ [CR; LF].
Proof. exact small_standardize. Qed.
