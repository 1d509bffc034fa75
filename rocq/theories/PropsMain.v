(** * C106: from the words of a command line to the result *)
From Coq Require Import String.
From Verif Require Import Base Parser Dialect CsvLib Files Wrappers Standardize SpecLayout SpecParse SpecFiles Potential NormalForm Consistency Detect
  Json SpecJson SpecText Codegen SpecCodegen Console SpecConsole SpecTables SpecExcel SpecDocument SpecBatch ArgParse SpecArgs ArgMain SpecMain MainFacts ArgErrorCases.
Open Scope nat_scope.

(** Without -o and -i the tables are printed in standard form.  Case: stdout_case
    of MainCases.v *)
Theorem C106_stdout cat url known O o_set S method skip st digit int_of locate f items ws ps (old : nat -> bytes) (tables : nat -> list (list str)) :
  In method [MStr (s2l "normal"); MEnum NORMAL; MStr (s2l "auto"); MEnum AUTO] ->
  (forall sample, e_detect (s_env S) sample = fst (detector_detect cat url known O o_set sample None method skip st)) ->
  e_registry (s_env S) (s2l "excel") = Some excel_csv ->
  line digit standardize_sheet items ws -> files items = [ps] -> numbers int_of items -> enough (values items "encoding") (List.length ps) ->
  given items "in-place" = false -> values items "output" = [] ->
  (forall i p, nth_error ps i = Some p ->
     holds cat (s_env S) f (locate p) (encoding_for (values items "encoding") i) (number int_of items) (old i) (tables i)) ->
  standardize_main locate S f digit int_of ws =
    Finished (Code 0, f, List.concat (map (fun i => standard (given items "transpose") (tables i)) (seq 0 (List.length ps)))).
Proof. exact (fun HM HE HR HL HF HN HC => main_stdout cat url known O o_set S method skip st HM HE HR digit int_of locate f items ws ps HL HF HN HC old tables). Qed.
Print Assumptions C106_stdout.

(** Case: outputs_case of MainCases.v *)
Theorem C106_outputs cat url known O o_set S method skip st digit int_of locate f items ws ps (old new : nat -> bytes) (tables : nat -> list (list str)) :
  In method [MStr (s2l "normal"); MEnum NORMAL; MStr (s2l "auto"); MEnum AUTO] ->
  (forall sample, e_detect (s_env S) sample = fst (detector_detect cat url known O o_set sample None method skip st)) ->
  e_registry (s_env S) (s2l "excel") = Some excel_csv ->
  line digit standardize_sheet items ws -> files items = [ps] -> numbers int_of items -> enough (values items "encoding") (List.length ps) ->
  let outs := map locate (values items "output") in
  given items "in-place" = false -> List.length outs = List.length ps -> NoDup outs -> (forall o, In o outs -> ~ In o (map locate ps)) ->
  (forall i p, nth_error ps i = Some p ->
     holds cat (s_env S) f (locate p) (encoding_for (values items "encoding") i) (number int_of items) (old i) (tables i) /\
     encoded (s_env S) (encoding_for (values items "encoding") i) (latest (values items "target-encoding")) (old i)
       (standard (given items "transpose") (tables i)) (new i)) ->
  exists f', standardize_main locate S f digit int_of ws = Finished (Code 0, f', []) /\
    (forall i o, nth_error (values items "output") i = Some o -> f' (locate o) = Some (new i)) /\ same_fs_but outs f' f.
Proof. exact (fun HM HE HR HL HF HN HC => main_outputs cat url known O o_set S method skip st HM HE HR digit int_of locate f items ws ps HL HF HN HC old new tables). Qed.
Print Assumptions C106_outputs.

(** A file is replaced if its checksum changes; the exit code is 0 if no file is
    replaced and 2 otherwise.  Case: in_place_case of MainCases.v *)
Theorem C106_in_place cat url known O o_set S method skip st digit int_of locate f items ws ps (old new : nat -> bytes) (tables : nat -> list (list str)) :
  In method [MStr (s2l "normal"); MEnum NORMAL; MStr (s2l "auto"); MEnum AUTO] ->
  (forall sample, e_detect (s_env S) sample = fst (detector_detect cat url known O o_set sample None method skip st)) ->
  e_registry (s_env S) (s2l "excel") = Some excel_csv ->
  line digit standardize_sheet items ws -> files items = [ps] -> numbers int_of items -> enough (values items "encoding") (List.length ps) ->
  given items "in-place" = true -> values items "output" = [] -> NoDup (map locate ps) -> new_names S (map locate ps) f ->
  (forall i p, nth_error ps i = Some p ->
     holds cat (s_env S) f (locate p) (encoding_for (values items "encoding") i) (number int_of items) (old i) (tables i) /\
     encoded (s_env S) (encoding_for (values items "encoding") i) (latest (values items "target-encoding")) (old i)
       (standard (given items "transpose") (tables i)) (new i)) ->
  let same i := s_sha1 S (old i) = s_sha1 S (new i) in
  exists f' r, standardize_main locate S f digit int_of ws = Finished (Code r, f', []) /\
    (forall i p, nth_error ps i = Some p -> (~ same i -> f' (locate p) = Some (new i)) /\ (same i -> f' (locate p) = Some (old i))) /\
    same_fs_but (map locate ps) f' f /\ (r = 0 \/ r = 2) /\ (r = 0 <-> forall i, i < List.length ps -> same i).
Proof. exact (fun HM HE HR HL HF HN HC => main_in_place cat url known O o_set S method skip st HM HE HR digit int_of locate f items ws ps HL HF HN HC old new tables). Qed.
Print Assumptions C106_in_place.

(** Case: plain_written and plain_case of MainCases.v *)
Theorem C106_detect cat url known O o_set s E printable space rt rt6 digit int_of locate f items ws p b cells :
  let det := fun m skip sample => fst (detector_detect cat url known O o_set sample None m skip s) in
  line digit detect_sheet items ws -> files items = [[p]] -> numbers int_of items -> ~ (given items "plain" = true /\ given items "json" = true) ->
  given items "consistency" = false ->
  holds cat E f (locate p) (latest (values items "encoding")) (number int_of items) b cells ->
  exists lines text cod d q, detect_main locate E det printable space rt rt6 f digit int_of ws = Finished (Printed lines 0) /\
    open_text E f (locate p) (or_encoding (latest (values items "encoding"))) = Ok (cod, b) /\ cd_decode cod b = (text, true) /\ document cat text d q cells /\
    (given items "plain" = true -> python_space space -> plain_fields lines = Some (visible space d, visible space q, [])) /\
    (given items "json" = true -> forall md depth, (1 <= depth)%nat -> float_text rt ->
       exists line v j, lines = [line] /\ loads md depth line = Ok v /\ from_dict v = Ok j /\ same_dialect j (dialect3 d q [])) /\
    (given items "plain" = false -> given items "json" = false -> exists line more, lines = line :: more /\ detected_fields line = Some (d, q, [])).
Proof. exact (main_detect cat url known O o_set s E printable space rt rt6 digit int_of locate f items ws p b cells). Qed.
Print Assumptions C106_detect.

(** For all words whatsoever: only files that are named on the command line can
    change, except for one new temporary file if an exception ends the command.
    Case: outputs_case and in_place_case of MainCases.v *)
Theorem C106_touched digit int_of locate S f ws ex f' t : new_names S (map locate ws) f ->
  standardize_main locate S f digit int_of ws = Finished (ex, f', t) ->
  exists tmp, forall x, f' x <> f x -> named locate ws x \/ ((exists e, ex = Uncaught e) /\ x = tmp /\ f x = None).
Proof. exact (main_touched digit int_of locate S f ws ex f' t). Qed.
Print Assumptions C106_touched.
Theorem C106_no_crash digit int_of locate ws :
  (forall S f x, standardize_main locate S f digit int_of ws <> Crashed x) /\
  (forall E det printable space rt rt6 f x, detect_main locate E det printable space rt rt6 f digit int_of ws <> Crashed x).
Proof. exact (main_never_crashes digit int_of locate ws). Qed.
Print Assumptions C106_no_crash.

(** Refused command lines end with the usage and exit code 2, before any file is
    opened.  Case: refused_lines of ArgCases.v *)
Theorem C106_refused digit int_of locate items ws :
  (line digit detect_sheet items ws ->
     ~ ((exists p, files items = [[p]]) /\ numbers int_of items /\ ~ (given items "plain" = true /\ given items "json" = true)) ->
     forall E det printable space rt rt6 f, detect_main locate E det printable space rt rt6 f digit int_of ws = UsageShown) /\
  (line digit standardize_sheet items ws -> ~ (List.length (files items) = 1 /\ numbers int_of items) ->
     forall S f, standardize_main locate S f digit int_of ws = UsageShown).
Proof. exact (main_refused digit int_of locate items ws). Qed.
Print Assumptions C106_refused.

(** Case: unknown_cases and ambiguous_case of ArgErrorCases.v *)
Theorem C106_strange digit int_of locate ws1 w ws2 : ~ In (s2l "--") ws1 ->
  (unknown digit detect_sheet w -> sensible digit -> forall E det printable space rt rt6 f r,
     detect_main locate E det printable space rt rt6 f digit int_of (ws1 ++ w :: ws2) <> Finished r) /\
  (unknown digit standardize_sheet w -> sensible digit -> forall S f r, standardize_main locate S f digit int_of (ws1 ++ w :: ws2) <> Finished r) /\
  (ambiguous detect_sheet w -> forall E det printable space rt rt6 f,
     detect_main locate E det printable space rt rt6 f digit int_of (ws1 ++ w :: ws2) = UsageShown) /\
  (ambiguous standardize_sheet w -> forall S f, standardize_main locate S f digit int_of (ws1 ++ w :: ws2) = UsageShown).
Proof. exact (main_strange digit int_of locate ws1 w ws2). Qed.
Print Assumptions C106_strange.

(** Case: detect_written and standardize_written of ArgCases.v *)
Theorem C106_help digit int_of locate items ws h : h = s2l "-h" \/ h = s2l "--help" ->
  (line digit detect_sheet items ws -> forall E det printable space rt rt6 f,
     detect_main locate E det printable space rt rt6 f digit int_of (h :: ws) = HelpShown) /\
  (line digit standardize_sheet items ws -> forall S f, standardize_main locate S f digit int_of (h :: ws) = HelpShown).
Proof. exact (main_help digit int_of locate items ws h). Qed.
Print Assumptions C106_help.
