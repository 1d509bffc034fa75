(** * PropsDetect: the detector and has_header (C43, C49) *)
From Coq Require Import String Permutation.
From Verif Require Import Base Parser Dialect CsvLib Reader SpecLayout SpecParse Potential SpecPotential PotentialFacts MaskedFacts
  NormalForm Consistency SpecConsistency DetectCases Detect SpecDetect HeaderFacts DetectorCases.

(** ** C43 *)
Theorem C43_normal_is_auto cat url known O o_set sample delims skip s m m' :
  In m [MStr (s2l "normal"); MEnum NORMAL; MStr (s2l "auto"); MEnum AUTO] ->
  In m' [MStr (s2l "normal"); MEnum NORMAL; MStr (s2l "auto"); MEnum AUTO] ->
  detector_detect cat url known O o_set sample delims m skip s = detector_detect cat url known O o_set sample delims m' skip s.
Proof. exact (normal_is_auto cat url known O o_set sample delims skip s m m'). Qed.
Print Assumptions C43_normal_is_auto.
Theorem C43_normal cat url known O o_set sample delims skip s m :
  In m [MStr (s2l "normal"); MEnum NORMAL; MStr (s2l "auto"); MEnum AUTO] ->
  detector_detect cat url known O o_set sample delims m skip s =
  match detect_dialect_normal cat sample utf8 delims with
  | Err x => (Err x, s)
  | Ok (Some d) => (Ok (Some d), mk_state (Some NORMAL) (st_limit s))
  | Ok None => detector_detect cat url known O o_set sample delims (MStr (s2l "consistency")) skip s
  end.
Proof. exact (dispatch_normal cat url known O o_set sample delims skip s m). Qed.
Print Assumptions C43_normal.
(** Anything that is not a string selects the consistency measure. *)
Theorem C43_consistency cat url known O o_set sample delims skip s m :
  In m [MStr (s2l "consistency"); MEnum CONSISTENCY; MOther] ->
  detector_detect cat url known O o_set sample delims m skip s =
  (fst (detect_dialect_consistency cat url known O o_set sample delims skip (st_limit s)),
   mk_state (Some CONSISTENCY) (snd (detect_dialect_consistency cat url known O o_set sample delims skip (st_limit s)))).
Proof. exact (dispatch_consistency cat url known O o_set sample delims skip s m). Qed.
Print Assumptions C43_consistency.
Theorem C43_unknown_method cat url known O o_set sample delims skip s v :
  ~ In v [s2l "auto"; s2l "normal"; s2l "consistency"] ->
  detector_detect cat url known O o_set sample delims (MStr v) skip s = (Err ValueError, s).
Proof. exact (dispatch_unknown cat url known O o_set sample delims skip s v). Qed.
Print Assumptions C43_unknown_method.
(** The method 'normal' returns an answer the normal forms do not give. *)
Theorem C43_exclusive_refuted : exists cat url known O o_set sample s d,
  detect_dialect_normal cat sample utf8 None = Ok None /\
  detector_detect cat url known O o_set sample None (MStr (s2l "normal")) true s =
    (Ok (Some d), mk_state (Some CONSISTENCY) (st_limit s)).
Proof. exact exclusive_refuted. Qed.
Print Assumptions C43_exclusive_refuted.
Example C43_case :
  ascii_sniff header_text None state0 = (Ok (Some (simple commas false)), by_normal) /\
  ascii_sniff late_text None state0 = (Ok (Some (simple commas false)), by_consistency).
Proof. exact (conj (proj1 header_case) late_sniff). Qed.

(** ** C49 *)

(** Every CR is part of a CRLF: the answer is the vote of the columns over the
    [max + 1] rows after the first. *)
Theorem C49_answer cat url known O o_set accepts reg sample max s D s' header rows e :
  any_orders O -> (forall l, incl (o_set l) l) -> no_bare_cr sample ->
  sniff cat url known O o_set sample None s = (Ok (Some D), s') ->
  parse_string (st_limit s) sample D false = (map (map CStr) (header :: rows), e) ->
  (e = None \/ (Z.to_nat (max + 1) < List.length rows)%nat) ->
  exists b, has_header cat url known O o_set (cast_of accepts) reg sample max s = (Ok b, s') /\
    header_vote accepts header (firstn (Z.to_nat (max + 1)) rows) b.
Proof. exact (has_header_rows cat url known O o_set accepts reg sample max s D s' header rows e). Qed.
Print Assumptions C49_answer.
Theorem C49_error cat url known O o_set accepts reg sample max s D s' rows x :
  any_orders O -> (forall l, incl (o_set l) l) -> no_bare_cr sample ->
  sniff cat url known O o_set sample None s = (Ok (Some D), s') ->
  parse_string (st_limit s) sample D false = (rows, Some x) ->
  (List.length rows <= S (Z.to_nat (max + 1)))%nat ->
  has_header cat url known O o_set (cast_of accepts) reg sample max s = (Err x, s').
Proof. exact (has_header_error cat url known O o_set accepts reg sample max s D s' rows x). Qed.
Print Assumptions C49_error.
Theorem C49_total cat url known O o_set accepts reg sample max s D s' :
  any_orders O -> (forall l, incl (o_set l) l) -> no_bare_cr sample -> ~ In NUL sample ->
  (Z.of_nat (List.length sample) <= st_limit s)%Z ->
  sniff cat url known O o_set sample None s = (Ok (Some D), s') ->
  (exists b, has_header cat url known O o_set (cast_of accepts) reg sample max s = (Ok b, s')) \/
  (has_header cat url known O o_set (cast_of accepts) reg sample max s = (Err StopIteration, s') /\
   parse_string (st_limit s) sample D false = ([], None)).
Proof. exact (has_header_total cat url known O o_set accepts reg sample max s D s'). Qed.
Print Assumptions C49_total.
Theorem C49_empty cat url known O o_set accepts reg max s D s' :
  any_orders O -> (forall l, incl (o_set l) l) ->
  sniff cat url known O o_set [] None s = (Ok (Some D), s') ->
  has_header cat url known O o_set (cast_of accepts) reg [] max s = (Err StopIteration, s').
Proof. exact (has_header_empty cat url known O o_set accepts reg max s D s'). Qed.
Print Assumptions C49_empty.
(** A complete record closed by a bare CR makes has_header raise, unless enough
    rows precede it. *)
Theorem C49_bare_cr cat url known O o_set accepts reg max s s' D rs cells c rest :
  any_orders O -> (forall l, incl (o_set l) l) ->
  let d := mk_doc (rs ++ [(cells, ECR)]) TEnd in
  let sample := render D d ++ c :: rest in
  sniff cat url known O o_set sample None s = (Ok (Some (simple D false)), s') ->
  wf_chars D = true -> wf_doc D d = true -> no_bare_cr (render D d) ->
  (1 <= st_limit s)%Z -> Forall (fun s0 => Z.of_nat (List.length s0) <= st_limit s)%Z (raw_cells D d) ->
  is_nl c = false -> c <> NUL ->
  ((List.length rs <= S (Z.to_nat (max + 1)))%nat ->
    has_header cat url known O o_set (cast_of accepts) reg sample max s = (Err (CleverError ENewline), s')) /\
  (forall header rows, (S (Z.to_nat (max + 1)) < List.length rs)%nat ->
    map (fun r => map fst (row_value D (fst r))) rs = header :: rows ->
    exists b, has_header cat url known O o_set (cast_of accepts) reg sample max s = (Ok b, s') /\
      header_vote accepts header (firstn (Z.to_nat (max + 1)) rows) b).
Proof. exact (has_header_bare_cr cat url known O o_set accepts reg max s s' D rs cells c rest). Qed.
Print Assumptions C49_bare_cr.
(** A text that is read without error by its detected dialect, but has no answer. *)
Theorem C49_detected_refuted : exists cat url known O o_set accepts reg sample s D s' row1 row2,
  any_orders O /\ sniff cat url known O o_set sample None s = (Ok (Some D), s') /\
  parse_string (st_limit s) sample D false = ([row1; row2], None) /\
  has_header cat url known O o_set (cast_of accepts) reg sample 20 s = (Err (CleverError ENewline), s').
Proof. exact detected_refuted. Qed.
Print Assumptions C49_detected_refuted.
Example C49_case :
  ascii_sniff header_text None state0 = (Ok (Some (simple commas false)), by_normal) /\
  ascii_header std_registry header_text 20 state0 = (Ok true, by_normal) /\ no_bare_cr header_text.
Proof. exact header_case. Qed.
Example C49_late_case :
  ascii_header std_registry late_text 0 state0 = (Err (CleverError ENewline), by_consistency) /\
  exists b, ascii_header std_registry late_text (-1) state0 = (Ok b, by_consistency) /\
    header_vote digit_types [s2l "a"; s2l "b"] [] b.
Proof. exact late_answers. Qed.
Example C49_empty_case : ascii_detector [] None (MEnum AUTO) true state0 = (Ok (Some (dialect3 [] [] [])), by_consistency).
Proof. exact (empty_case (MEnum AUTO) (or_intror (or_intror (or_intror (or_introl eq_refl))))). Qed.
