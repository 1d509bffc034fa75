(** * C107: view, code and explore from the words of a command line to the result *)
From Coq Require Import String.
From Verif Require Import Base Parser Dialect CsvLib Files Wrappers SpecFiles Potential NormalForm Consistency Detect
  Codegen SpecCodegen Console SpecTables SpecDocument ArgParse SpecArgs ArgMain ArgMainMore SpecMain MainMore MainMoreErrors.
Open Scope nat_scope.

(** Case: view_case of MainMoreCases.v *)
Theorem C107_view cat url known O o_set E method skip st digit int_of locate f items ws p b cells imp vlt h m :
  In method [MStr (s2l "normal"); MEnum NORMAL; MStr (s2l "auto"); MEnum AUTO] ->
  (forall sample, e_detect E sample = fst (detector_detect cat url known O o_set sample None method skip st)) ->
  line digit view_sheet items ws -> files items = [[p]] -> numbers int_of items ->
  latest (values items "encoding") <> Some [] ->
  holds cat E f (locate p) (latest (values items "encoding")) (number int_of items) b cells ->
  import_optional_dependency imp vlt (s2l "tabview") true = Ok m ->
  view_main locate E imp vlt false f h digit int_of ws =
    Finished (Viewed (map (map (fun x => Some (CStr x))) (if given items "transpose" then zip_star cells else cells))).
Proof. exact (fun HM HE HL HF HN He HH => main_view cat url known O o_set E method skip st HM HE digit int_of locate f items ws p b cells HF HN HH imp vlt h m HL He). Qed.
Print Assumptions C107_view.

(** The lines printed by code are a program; explore pushes the same lines.
    Case: code_case of MainMoreCases.v *)
Theorem C107_code cat url known O o_set E method skip st digit int_of locate f items ws p b cells printable :
  In method [MStr (s2l "normal"); MEnum NORMAL; MStr (s2l "auto"); MEnum AUTO] ->
  (forall sample, e_detect E sample = fst (detector_detect cat url known O o_set sample None method skip st)) ->
  e_registry E (s2l "excel") = Some excel_csv ->
  line digit code_sheet items ws -> files items = [[p]] -> numbers int_of items ->
  holds cat E f (locate p) (latest (values items "encoding")) (number int_of items) b cells ->
  let used := match or_encoding (latest (values items "encoding")) with Some e => Some e | None => e_get_encoding E b end in
  plain p -> plain_opt used ->
  exists lines text cod d q, code_main locate E printable f digit int_of ws = Finished (Printed lines 0) /\
    e_codec E used = Ok cod /\ cd_decode cod b = (text, true) /\ document cat text d q cells /\
    (given items "pandas" = true -> program_of lines = Some (ReadFrame p d q [])) /\
    (given items "pandas" = false -> program_of lines = Some (ReadRows p used d q []) /\
       forall h, run_rows E locate f h p used d q [] = (map (map CStr) cells, None)) /\
    forall C (push : C -> str -> C * bool) (console : C), (forall c l, snd (push c l) = false) ->
      explore_main push console locate E printable f digit int_of ws =
        Finished (Interacting (fold_left (fun c l => fst (push c l)) lines console) (if given items "pandas" then s2l "df" else s2l "rows")).
Proof. exact (fun HM HE HR HL HF HN HH Hp Hu => main_code cat url known O o_set E method skip st HM HE digit int_of locate f items ws p b cells HF HN HH printable HL Hp Hu HR). Qed.
Print Assumptions C107_code.

(** Case: nothing_named of MainMoreCases.v *)
Theorem C107_refused digit int_of locate items ws : ~ ((exists p, files items = [[p]]) /\ numbers int_of items) ->
  (line digit view_sheet items ws -> forall E imp vlt win32 f h, view_main locate E imp vlt win32 f h digit int_of ws = UsageShown) /\
  (line digit code_sheet items ws -> forall E printable f, code_main locate E printable f digit int_of ws = UsageShown /\
     forall C (push : C -> str -> C * bool) (console : C), explore_main push console locate E printable f digit int_of ws = UsageShown).
Proof. exact (more_usage digit int_of locate items ws). Qed.
Print Assumptions C107_refused.

(** Case: unknown_to_all of MainMoreErrors.v and digits_sensible of ArgErrorCases.v *)
Theorem C107_strange digit int_of locate ws1 w ws2 : ~ In (s2l "--") ws1 -> sensible digit ->
  (unknown digit view_sheet w -> forall E imp vlt win32 f h r, view_main locate E imp vlt win32 f h digit int_of (ws1 ++ w :: ws2) <> Finished r) /\
  (unknown digit code_sheet w -> forall E printable f, (forall r, code_main locate E printable f digit int_of (ws1 ++ w :: ws2) <> Finished r) /\
     forall C (push : C -> str -> C * bool) (console : C) r, explore_main push console locate E printable f digit int_of (ws1 ++ w :: ws2) <> Finished r).
Proof. exact (more_strange digit int_of locate ws1 w ws2). Qed.
Print Assumptions C107_strange.

(** Case: turn_written and code_written of MainMoreCases.v *)
Theorem C107_help digit int_of locate items ws x : x = s2l "-h" \/ x = s2l "--help" ->
  (line digit view_sheet items ws -> forall E imp vlt win32 f h, view_main locate E imp vlt win32 f h digit int_of (x :: ws) = HelpShown) /\
  (line digit code_sheet items ws -> forall E printable f, code_main locate E printable f digit int_of (x :: ws) = HelpShown /\
     forall C (push : C -> str -> C * bool) (console : C), explore_main push console locate E printable f digit int_of (x :: ws) = HelpShown).
Proof. exact (more_help digit int_of locate items ws x). Qed.
Print Assumptions C107_help.

(** For any words no argument is missing or of the wrong type. *)
Theorem C107_no_crash digit int_of locate ws :
  (forall E imp vlt win32 f h x, view_main locate E imp vlt win32 f h digit int_of ws <> Crashed x) /\
  (forall E printable f, (forall x, code_main locate E printable f digit int_of ws <> Crashed x) /\
     forall C (push : C -> str -> C * bool) (console : C) x, explore_main push console locate E printable f digit int_of ws <> Crashed x).
Proof. exact (more_never_crash digit int_of locate ws). Qed.
Print Assumptions C107_no_crash.
