(** * PropsCodegen: generated programs (C48) *)
From Coq Require Import String.
From Verif Require Import Base Parser Dialect CsvLib Reader Files Wrappers SpecFiles Potential SpecPotential Consistency Detect
  Codegen SpecCodegen CodegenFacts CodegenRun.

(** ** C48 *)
(** The program for a detected dialect says what was detected, unless the
    delimiter is a backslash. *)
Theorem C48_detected cat url known O o_set printable name enc sample m skip s D s' :
  any_orders O -> (forall l, incl (o_set l) l) ->
  detector_detect cat url known O o_set sample None m skip s = (Ok (Some D), s') -> ~ In NUL sample -> scalar sample ->
  plain name -> plain_opt enc ->
  exists d q e rows frame, D = dialect3 d q e /\
    generate_code printable name D enc false = Ok rows /\ generate_code printable name D enc true = Ok frame /\
    (d <> [BACKSLASH] -> program_of rows = Some (ReadRows name enc d q e) /\ program_of frame = Some (ReadFrame name d q e)) /\
    (d = [BACKSLASH] -> program_of rows <> Some (ReadRows name enc d q e) /\ program_of frame <> Some (ReadFrame name d q e)).
Proof. exact (code_of_detected cat url known O o_set printable name enc sample m skip s D s'). Qed.
Print Assumptions C48_detected.
(** Exactly which dialects survive. *)
Theorem C48_exact printable name enc d q e strict rows frame :
  plain name -> plain_opt enc -> inline d -> inline q -> scalar e ->
  validate (mk_dialect (Some d) (Some q) (Some e) strict) = true ->
  generate_code printable name (mk_dialect (Some d) (Some q) (Some e) strict) enc false = Ok rows ->
  generate_code printable name (mk_dialect (Some d) (Some q) (Some e) strict) enc true = Ok frame ->
  (program_of rows = Some (ReadRows name enc d q e) <-> good_delimiter d /\ good_quotechar q /\ good_escapechar e) /\
  (program_of frame = Some (ReadFrame name d q e) <-> good_delimiter d /\ good_quotechar q /\ good_escapechar e).
Proof. exact (code_exact printable name enc d q e strict rows frame). Qed.
Print Assumptions C48_exact.
(** Running the printed program reads the same rows as read_table. *)
Theorem C48_command cat url known O o_set skip m s E printable int_of locate f h name encoding num_chars n enc b c t lines :
  any_orders O -> (forall l, incl (o_set l) l) ->
  (forall sample, e_detect E sample = fst (detector_detect cat url known O o_set sample None m skip s)) ->
  e_registry E (s2l "excel") = Some excel_csv ->
  parse_int int_of num_chars = Ok n ->
  f (locate name) = Some b ->
  enc = match or_encoding encoding with Some e => Some e | None => e_get_encoding E b end ->
  e_codec E enc = Ok c -> cd_decode c b = (t, true) -> ~ In NUL t -> scalar t -> plain name -> plain_opt enc ->
  code_command E printable int_of locate f name encoding num_chars false = Printed lines 0 ->
  exists d q e, e_detect E (head_chars n t) = Ok (Some (dialect3 d q e)) /\
    (d <> [BACKSLASH] ->
     program_of lines = Some (ReadRows name enc d q e) /\
     run_rows E locate f h name enc d q e = stream_table E f h (locate name) None (or_encoding encoding) n) /\
    (d = [BACKSLASH] -> program_of lines <> Some (ReadRows name enc d q e)).
Proof. exact (code_command_runs cat url known O o_set skip m s E printable int_of locate f h name encoding num_chars n enc b c t lines). Qed.
Print Assumptions C48_command.
(** When the command fails. *)
Theorem C48_failures E printable int_of locate f name encoding num_chars pandas :
  (f (locate name) = None -> or_encoding encoding = None ->
   code_command E printable int_of locate f name encoding num_chars pandas = Raised OSError) /\
  (forall b x, f (locate name) = Some b -> num_chars = Some x -> int_of x = None ->
   code_command E printable int_of locate f name encoding num_chars pandas = Raised ValueError) /\
  (forall b n, f (locate name) = Some b -> parse_int int_of num_chars = Ok n ->
   detect_dialect E f (locate name) (match or_encoding encoding with Some e => Some e | None => e_get_encoding E b end) n = Ok None ->
   code_command E printable int_of locate f name encoding num_chars pandas = Printed [] 1).
Proof. exact (code_command_fails E printable int_of locate f name encoding num_chars pandas). Qed.
Print Assumptions C48_failures.
(** The text of one backslash is detected to have this delimiter. *)
Theorem C48_every_detected_dialect_refuted : exists cat url known O o_set sample s D s' name lines d q e,
  any_orders O /\ (forall l, incl (o_set l) l) /\ ~ In NUL sample /\ scalar sample /\ plain name /\
  detector_detect cat url known O o_set sample None (MStr (s2l "auto")) true s = (Ok (Some D), s') /\
  D = dialect3 d q e /\ generate_code ascii_only name D None false = Ok lines /\ program_of lines <> Some (ReadRows name None d q e).
Proof. exact esc_refuted. Qed.
Print Assumptions C48_every_detected_dialect_refuted.
(** A file name with a backslash becomes another name, one with a quote is not
    a literal. *)
Theorem C48_any_filename_refuted : exists name lines name', inline name /\
  generate_code ascii_only name (dialect3 [COMMA] [] []) None false = Ok lines /\
  program_of lines = Some (ReadRows name' None [COMMA] [] []) /\ name' <> name.
Proof. exact name_backslash. Qed.
Print Assumptions C48_any_filename_refuted.
Theorem C48_quote_in_filename_refuted : exists name lines, inline name /\
  generate_code ascii_only name (dialect3 [COMMA] [] []) None false = Ok lines /\ program_of lines = None.
Proof. exact name_quote. Qed.
Print Assumptions C48_quote_in_filename_refuted.
Example C48_case : generate_code ascii_only (s2l "a.csv") (dialect3 [TAB] [DQ] [233%N]) None false =
  Ok (heading ++ [s2l "with open(""a.csv"", ""r"", newline="""", encoding=None) as fp:";
    s2l "    reader = clevercsv.reader(fp, delimiter=""\t"", quotechar=""\"""", escapechar=""\xe9"")"; s2l "    rows = list(reader)"; []]) /\
  program_of (heading ++ [s2l "with open(""a.csv"", ""r"", newline="""", encoding=None) as fp:";
    s2l "    reader = clevercsv.reader(fp, delimiter=""\t"", quotechar=""\"""", escapechar=""\xe9"")"; s2l "    rows = list(reader)"; []]) =
  Some (ReadRows (s2l "a.csv") None [TAB] [DQ] [233%N]).
Proof. exact code_case. Qed.
(** Here the detector is the model's, with Unicode categories for ASCII. *)
Example C48_command_case :
  match code_command code_env ascii_only (fun _ => None) (fun _ => 1%N) code_fs (s2l "a.csv") None None false with
  | Printed lines 0 => program_of lines = Some (ReadRows (s2l "a.csv") (Some (s2l "latin-1")) [SEMI] [] [])
  | _ => False
  end /\
  run_rows code_env (fun _ => 1%N) code_fs [] (s2l "a.csv") (Some (s2l "latin-1")) [SEMI] [] [] =
    ([[CStr (s2l "a"); CStr (s2l "b")]; [CStr (s2l "c"); CStr (s2l "d")]], None).
Proof. exact command_case. Qed.
