(** * Properties: the options of the type detector (C100) *)
From Coq Require Import String.
From Verif Require Import Base Dialect Json Types SpecTypes TypesCases TypesOptions SpecTypesOptions TypesOptionsFacts.
Open Scope N_scope.

(** With the default patterns the detector is the one of C61 to C66; without
    stripping it is that detector for data in which nothing is white space. *)
Theorem C100_default U cell q :
  detect_type_o U (init_patterns U None) true cell q = detect_type U cell q /\
  detect_type_o U (init_patterns U None) false cell q = detect_type (unstripped U) cell q.
Proof. exact (conj (detect_default U true cell q) (detect_default U false cell q)). Qed.
Print Assumptions C100_default.

(** Stripping makes no known cell unknown. *)
Theorem C100_known U : sane_categories (u_cat U) -> (forall c, digit (u_cat U) c -> u_isdigit U c = true) -> sane_spaces U -> forall cell q,
  is_known_type_o U (init_patterns U None) false cell q = Ok true -> is_known_type_o U (init_patterns U None) true cell q = Ok true.
Proof. exact (stripping_keeps_known U). Qed.
Print Assumptions C100_known.
(** A type other than percentage, currency and datetime that is found with
    stripping is found without it if the cell is stripped before. *)
Theorem C100_stripped_before U : sane_categories (u_cat U) -> (forall c, digit (u_cat U) c -> u_isdigit U c = true) -> sane_spaces U -> forall cell q name,
  ~ In name composed -> detect_type_o U (init_patterns U None) true cell q = Ok (Some name) ->
  detect_type_o U (init_patterns U None) false (strip U cell) q = Ok (Some name).
Proof. exact (stripped_before U). Qed.
Print Assumptions C100_stripped_before.
Example C100_spaces_case : sane_spaces ascii_data.
Proof. exact ascii_spaces. Qed.
(** The three exceptions are needed. *)
Example C100_case :
  let raw s := detect_type_o ascii_data (init_patterns ascii_data None) false (s2l s) false in
  let stripped s := detect_type_o ascii_data (init_patterns ascii_data None) true (s2l s) false in
  map stripped [" 5"; "5 %"; "$  5"; " /a/b"; " a"; " "]%string =
    map Ok [Some "number"; Some "percentage"; Some "currency"; Some "unix_path"; Some "unicode_alphanum"; Some "empty"]%string /\
  map raw [" 5"; "5 %"; "$  5"; " /a/b"; " a"; " "; "5"; "/a/b"; "5%"]%string =
    map Ok [Some "unicode_alphanum"; None; None; None; Some "unicode_alphanum"; Some "unicode_alphanum"; Some "number"; Some "unix_path"; Some "percentage"]%string.
Proof. split; vm_compute; reflexivity. Qed.

(** With some of the patterns of another dictionary the answer is the same or an
    AssertionError. *)
Theorem C100_missing U ps ps' sw cell q :
  (forall name p, get_pattern ps name = Some p -> get_pattern ps' name = Some p) ->
  detect_type_o U ps sw cell q = Err AssertionError \/ detect_type_o U ps sw cell q = detect_type_o U ps' sw cell q.
Proof. exact (fun H => missing_patterns U ps ps' sw H cell q). Qed.
Print Assumptions C100_missing.
Example C100_missing_case :
  let ps := filter (fun x => negb (String.eqb (fst x) "number_1")) (DEFAULT_TYPE_REGEXES ascii_data) in
  (forall name p, get_pattern ps name = Some p -> get_pattern (DEFAULT_TYPE_REGEXES ascii_data) name = Some p) /\
  detect_type_o ascii_data ps true (s2l "a@b.c") false = Ok (Some "email"%string) /\
  detect_type_o ascii_data ps true (s2l "12") false = Err AssertionError /\
  is_known_type_o ascii_data [] true [] false = Ok true /\
  detect_type_o ascii_data (init_patterns ascii_data (Some [])) true (s2l "12") false = Ok (Some "number"%string).
Proof. split; [exact (pattern_removed _ _)|]. repeat split; vm_compute; reflexivity. Qed.

(** A currency pattern whose first group took no part in the match: the missing
    group is an exception, not a cell without a type. *)
Theorem C100_no_group U ps p cell : get_pattern ps "currency" = Some p -> p cell = Some (Ok None) ->
  is_currency_o U ps true cell = Err AttributeError /\
  (forall n, get_pattern ps "number_1" = Some n -> is_currency_o U ps false cell = Err TypeError).
Proof. exact (no_group U ps p cell). Qed.
Print Assumptions C100_no_group.
Example C100_no_group_case :
  let ps := ("currency"%string, (fun _ : str => Some (Ok None))) :: DEFAULT_TYPE_REGEXES ascii_data in
  detect_type_o ascii_data ps true (s2l "a;b") false = Err AttributeError /\
  detect_type_o ascii_data ps false (s2l "a;b") false = Err TypeError /\
  detect_type_o ascii_data ps true (s2l "12") false = Ok (Some "number"%string).
Proof. repeat split; vm_compute; reflexivity. Qed.

(** The names, and [gen_known_type]. *)
Theorem C100_names U ps sw cell q name : detect_type_o U ps sw cell q = Ok (Some name) -> In name (list_known_types U ps sw).
Proof. exact (known_names U ps sw cell q name). Qed.
Print Assumptions C100_names.
Theorem C100_generator U cells :
  exists n, (n <= List.length cells)%nat /\
    map (fun c => is_known_type U c false) (firstn n cells) = map Ok (fst (gen_known_type U cells)) /\
    match snd (gen_known_type U cells) with
    | None => n = List.length cells
    | Some x => exists c, nth_error cells n = Some c /\ is_known_type U c false = Err x
    end.
Proof. exact (gen_known U cells). Qed.
Print Assumptions C100_generator.
Example C100_generator_case :
  gen_known_type ascii_data (map s2l ["a;b"; "12"; "{""a"": 12345}"; "x"]%string) = ([false; true], Some ValueError) /\
  list_known_types ascii_data [] true =
    ["empty"; "url"; "email"; "ipv4"; "number"; "time"; "percentage"; "currency"; "unix_path"; "nan"; "date"; "datetime"; "unicode_alphanum"; "bytearray"; "json"]%string.
Proof. split; vm_compute; reflexivity. Qed.
