(** * PropsTypes: the types of cells (C61 to C68) *)
From Coq Require Import String Permutation.
From Verif Require Import Base Parser Dialect SpecParse Potential SpecPotential Floats Consistency SpecConsistency MaskedFacts DetectFacts
  Json Regex Types SpecTypes TypesFacts TypesText TypesNumber TypesDate TypesUrl TypesAll TypesJson TypesDetect TypesCases.
Open Scope N_scope.

(** ** C61 *)
Theorem C61_number U : sane_categories (u_cat U) -> forall cell,
  is_number U cell = true <-> a_number (u_cat U) (strip U cell).
Proof. exact (is_number_iff U). Qed.
Print Assumptions C61_number.
Theorem C61_characters cat : sane_categories cat -> forall s, a_number cat s ->
  Forall (fun c => digit cat c \/ In c (s2l "+-.,eE")) s.
Proof. exact (number_chars cat). Qed.
Print Assumptions C61_characters.
Theorem C61_whole cat sg w : a_sign sg -> whole cat w -> a_number cat (sg ++ w).
Proof. exact (whole_is_number cat sg w). Qed.
Print Assumptions C61_whole.
Theorem C61_lone_sign cat : a_number cat (s2l "+") /\ a_number cat (s2l "-").
Proof. exact (sign_is_number cat). Qed.
Print Assumptions C61_lone_sign.
Example C61_ascii : sane_categories (u_cat ascii_data) /\ forall c, digit (u_cat ascii_data) c -> u_isdigit ascii_data c = true.
Proof. exact (conj ascii_sane ascii_isdigit). Qed.
Example C61_case :
  map (fun s => is_number ascii_data (s2l s))
    ["1"; " -12.50 "; "1.5e3"; "1,55e3"; ",5"; "+"; "1,234.5"; "1.234.567,"; "1,5e3"; "01"; "1,23.4"; "."; ""; "1e"]%string =
  [true; true; true; true; true; true; true; true; false; false; false; false; false; false].
Proof. reflexivity. Qed.

(** ** C62 *)
Theorem C62_time U : sane_categories (u_cat U) -> (forall c, digit (u_cat U) c -> u_isdigit U c = true) -> forall cell,
  is_time U cell = true <-> a_time (strip U cell).
Proof. exact (is_time_iff U). Qed.
Print Assumptions C62_time.
Theorem C62_date U : sane_categories (u_cat U) -> (forall c, digit (u_cat U) c -> u_isdigit U c = true) -> forall cell,
  is_date U cell = true <-> a_date (u_cat U) (strip U cell).
Proof. exact (is_date_iff U). Qed.
Print Assumptions C62_date.
Theorem C62_datetime U : sane_categories (u_cat U) -> (forall c, digit (u_cat U) c -> u_isdigit U c = true) -> forall cell,
  cell = strip U cell -> is_datetime U cell = true <-> a_datetime (u_cat U) (strip U) cell.
Proof. exact (is_datetime_iff U). Qed.
Print Assumptions C62_datetime.
Example C62_times :
  map (fun s => is_time ascii_data (s2l s)) ["9:59"; "23:59:59"; "00:00:00+19:00"; "24:00"; "9:60"; "9:00:00"; "1200"]%string =
  [true; true; true; false; false; false; false].
Proof. reflexivity. Qed.
Example C62_dates :
  map (fun s => is_date ascii_data (s2l s)) ["2020-1-31"; "31-02-2020"; "12/31/99"; "20200101"; "2020-01/01"; "32-01-2020"; "3020-01-01"]%string =
  [true; true; true; true; false; false; false].
Proof. reflexivity. Qed.
Example C62_datetimes :
  map (fun s => is_datetime ascii_data (s2l s))
    ["2020-01-01 10:00"; "2020-01-01T10:00Z"; "2020-01-01T10:00+0100"; "2020-01-01T10:00+0100+junk"; "2020-01-01T10:00+02"; "2020-01-01  10:00"]%string =
  [true; true; true; true; false; false].
Proof. reflexivity. Qed.

(** ** C63 *)
Theorem C63_url U : sane_categories (u_cat U) -> forall cell, is_url U cell = true <-> a_url (u_cat U) (strip U cell).
Proof. exact (is_url_iff U). Qed.
Print Assumptions C63_url.
Theorem C63_email U cell : is_email U cell = true <-> an_email (strip U cell).
Proof. exact (is_email_iff U cell). Qed.
Print Assumptions C63_email.
Theorem C63_ipv4 U cell : is_ipv4 U cell = true <-> an_ipv4 (u_cat U) (strip U cell).
Proof. exact (is_ipv4_iff U cell). Qed.
Print Assumptions C63_ipv4.
Theorem C63_path U cell : is_unix_path U cell = true <-> a_path (strip U cell).
Proof. exact (is_path_iff U cell). Qed.
Print Assumptions C63_path.
Example C63_case :
  map (fun s => is_url ascii_data (s2l s)) ["http://a.nl/b"; "data.csv"; "localhost:80"; "http://-a.nl"; "a.b"; "nl"]%string =
    [true; true; true; false; false; false] /\
  map (fun s => is_email ascii_data (s2l s)) ["a@b.c"; "a@b"; "a b@c.d"]%string = [true; false; false] /\
  map (fun s => is_ipv4 ascii_data (s2l s)) ["999.999.999.999"; "1.2.3"; "1.2.3.4567"]%string = [true; false; false] /\
  map (fun s => is_unix_path ascii_data (s2l s)) ["~/a/b"; "/usr/bin/"; "usr"; "/"]%string = [true; true; false; false].
Proof. repeat split; reflexivity. Qed.

(** ** C64 *)
Theorem C64_text U cell q : is_unicode_alphanum U cell q = true <-> a_text (u_cat U) q (strip U cell).
Proof. exact (is_text_iff U cell q). Qed.
Print Assumptions C64_text.
Theorem C64_percentage U : sane_categories (u_cat U) -> forall cell,
  is_percentage U cell = true <-> a_percentage (u_cat U) (strip U) cell.
Proof. exact (is_percentage_iff U). Qed.
Print Assumptions C64_percentage.
Theorem C64_amount U : sane_categories (u_cat U) -> forall cell,
  is_currency U cell = true <-> an_amount (u_cat U) (strip U) (u_ws U) cell.
Proof. exact (is_currency_iff U). Qed.
Print Assumptions C64_amount.
Theorem C64_bytearray s : is_bytearray s = true <-> a_bytearray s.
Proof. exact (is_bytearray_iff s). Qed.
Print Assumptions C64_bytearray.
Theorem C64_missing U s : is_nan U s = true <-> missing (u_lower U) s.
Proof. exact (is_nan_iff U s). Qed.
Print Assumptions C64_missing.
Example C64_case :
  map (fun s => is_unicode_alphanum ascii_data (s2l s) false) ["a b-c (d)!"; "a, b"; "a;b"; ""]%string = [true; false; false; false] /\
  is_unicode_alphanum ascii_data (s2l "a, b") true = true /\
  map (fun s => is_percentage ascii_data (s2l s)) ["5%"; "1.5 %%"; "%"; "a%"]%string = [true; true; false; false] /\
  map (fun s => is_currency ascii_data (s2l s)) ["$5"; "$ 1,000.50"; "5$"; "$a"]%string = [true; true; false; false] /\
  is_bytearray (s2l "bytearray(b'a')") = true /\ is_nan ascii_data (s2l "N/A") = true.
Proof. repeat split; reflexivity. Qed.

(** ** C65 *)
Theorem C65_first U : sane_categories (u_cat U) -> (forall c, digit (u_cat U) c -> u_isdigit U c = true) -> forall cell q name,
  detect_type U cell q = Ok (Some name) <->
  first_of (cell_types (u_cat U) (strip U) (u_ws U) (u_lower U)
    (fun s => exists v, loads (u_maxdigits U) (u_depth U) s = Ok v) q) (strip U cell) name.
Proof. exact (detect_type_some U). Qed.
Print Assumptions C65_first.
Theorem C65_none U : sane_categories (u_cat U) -> (forall c, digit (u_cat U) c -> u_isdigit U c = true) -> forall cell q,
  detect_type U cell q = Ok None <->
  none_of (cell_types (u_cat U) (strip U) (u_ws U) (u_lower U)
    (fun s => exists v, loads (u_maxdigits U) (u_depth U) s = Ok v) q) (strip U cell) /\
  (in_braces (strip U cell) -> loads (u_maxdigits U) (u_depth U) (strip U cell) = Err JSONDecodeError).
Proof. exact (detect_type_none U). Qed.
Print Assumptions C65_none.
Theorem C65_strip U cell q : detect_type U (strip U cell) q = detect_type U cell q.
Proof. exact (detect_type_strip U cell q). Qed.
Print Assumptions C65_strip.
Theorem C65_quoting U : sane_categories (u_cat U) -> (forall c, digit (u_cat U) c -> u_isdigit U c = true) -> forall cell,
  is_known_type U cell false = Ok true -> is_known_type U cell true = Ok true.
Proof. exact (quoting_keeps_known U). Qed.
Print Assumptions C65_quoting.
Theorem C65_known U : sane_categories (u_cat U) -> (forall c, digit (u_cat U) c -> u_isdigit U c = true) -> forall cell q,
  is_known_type U cell q = Ok true <->
  exists name P, In (name, P) (cell_types (u_cat U) (strip U) (u_ws U) (u_lower U)
    (fun s => exists v, loads (u_maxdigits U) (u_depth U) s = Ok v) q) /\ P (strip U cell).
Proof. exact (is_known_iff U). Qed.
Print Assumptions C65_known.
Example C65_case :
  map ascii_type [""; "data.csv"; "1.2.3.4"; "010203"; "5"; "12:30"; "5%"; "$5"; "/a"; "nan"; "1-1-99"; "1-1-99 12:30"; "a b";
    "bytearray(b,)"; "{}"; "a;b"]%string =
  map Ok [Some "empty"; Some "url"; Some "url"; Some "date"; Some "number"; Some "time"; Some "percentage"; Some "currency"; Some "unix_path";
    Some "nan"; Some "date"; Some "datetime"; Some "unicode_alphanum"; Some "bytearray"; Some "json"; None]%string /\
  detect_type ascii_data (s2l "bytearray(b,)") true = Ok (Some "unicode_alphanum"%string).
Proof. split; reflexivity. Qed.

(** ** C66 *)
Theorem C66_raises U : sane_categories (u_cat U) -> (forall c, digit (u_cat U) c -> u_isdigit U c = true) -> forall cell q x,
  detect_type U cell q = Err x -> in_braces (strip U cell) /\ (x = ValueError \/ x = RecursionError).
Proof. exact (raises_only U). Qed.
Print Assumptions C66_raises.
Theorem C66_long_integer U : sane_categories (u_cat U) -> (forall c, digit (u_cat U) c -> u_isdigit U c = true) ->
  u_cat U 123 = s2l "Ps" -> u_space U 123 = false /\ u_space U 125 = false ->
  (forall t, exists t', u_lower U (123 :: t) = 123 :: t') -> (1 <= u_depth U)%nat -> forall c ds q,
  49 <= c <= 57 -> Forall ascii_digit ds -> (u_maxdigits U <= List.length ds)%nat ->
  detect_type U (s2l "{""a"":" ++ c :: ds ++ s2l "}") q = Err ValueError.
Proof. exact (long_integer_raises U). Qed.
Print Assumptions C66_long_integer.
Theorem C66_deep_nesting U : sane_categories (u_cat U) -> (forall c, digit (u_cat U) c -> u_isdigit U c = true) ->
  u_cat U 123 = s2l "Ps" -> u_space U 123 = false /\ u_space U 125 = false ->
  (forall t, exists t', u_lower U (123 :: t) = 123 :: t') -> (1 <= u_depth U)%nat -> forall rest q,
  detect_type U (s2l "{""a"":" ++ repeat 91 (u_depth U) ++ rest ++ s2l "}") q = Err RecursionError.
Proof. exact (deep_nesting_raises U). Qed.
Print Assumptions C66_deep_nesting.
(** A line that cannot be typed aborts detection of a text without commas and
    semicolons; the field size limit is left changed. *)
Theorem C66_aborts U : sane_categories (u_cat U) -> (forall c, digit (u_cat U) c -> u_isdigit U c = true) ->
  forall O o_set capacity skip lines last user old l x,
  any_orders O -> Forall line_ok lines -> (last = [] \/ line_ok last) ->
  ~ In COMMA (text_of lines last) -> ~ In SEMI (text_of lines last) -> (forall c, In c (text_of lines last) -> surrogate c = false) ->
  In l (lines_of lines last) -> detect_type U l false = Err x ->
  exists y, (y = ValueError \/ y = RecursionError) /\
    detect (u_cat U) (shipped_url U) (is_known_type U) O o_set capacity skip (text_of lines last) user old =
    (Err y, (Z.of_nat (List.length (text_of lines last)) + 1)%Z).
Proof. exact (lines_abort U). Qed.
Print Assumptions C66_aborts.
Theorem C66_one_object U : sane_categories (u_cat U) -> (forall c, digit (u_cat U) c -> u_isdigit U c = true) ->
  u_cat U 123 = s2l "Ps" -> u_space U 123 = false /\ u_space U 125 = false ->
  (forall t, exists t', u_lower U (123 :: t) = 123 :: t') -> (1 <= u_depth U)%nat ->
  forall O o_set capacity skip user old c ds, any_orders O ->
  49 <= c <= 57 -> Forall ascii_digit ds -> (u_maxdigits U <= List.length ds)%nat ->
  let data := s2l "{""a"":" ++ c :: ds ++ s2l "}" in
  detect (u_cat U) (shipped_url U) (is_known_type U) O o_set capacity skip data user old =
  (Err ValueError, (Z.of_nat (List.length data) + 1)%Z).
Proof. exact (long_integer_aborts U). Qed.
Print Assumptions C66_one_object.
(** Texts without an opening brace are always detected without exception. *)
Theorem C66_no_brace U : sane_categories (u_cat U) -> (forall c, digit (u_cat U) c -> u_isdigit U c = true) ->
  forall O o_set capacity skip data user old,
  any_orders O -> (forall c, In c data -> surrogate c = false) -> (forall l, Permutation (o_set l) l) ->
  ~ In NUL data -> ~ In 123 data -> (Z.of_nat (List.length data) < 2 ^ 50)%Z ->
  exists r, detect (u_cat U) (shipped_url U) (is_known_type U) O o_set capacity skip data user old = (Ok r, old).
Proof. exact (no_brace_detect U). Qed.
Print Assumptions C66_no_brace.
Example C66_case :
  (ascii_cat 123 = s2l "Ps" /\ (u_space ascii_data 123 = false /\ u_space ascii_data 125 = false) /\
   (forall t, exists t', u_lower ascii_data (123 :: t) = 123 :: t') /\ (1 <= u_depth ascii_data)%nat) /\
  map ascii_type ["{""a"":1234}"; "{""a"":12345}"; "{""a"":[[1]]}"; "{""a"":[[[1]]]}"; "{""a"":}"]%string =
  [Ok (Some "json"%string); Err ValueError; Ok (Some "json"%string); Err RecursionError; Ok None].
Proof. exact (conj ascii_parts eq_refl). Qed.

(** ** C67 *)
Theorem C67_removed U : sane_categories (u_cat U) -> forall data,
  urls_removed (u_cat U) data (filter_urls (shipped_url U) data).
Proof. exact (filter_urls_removed U). Qed.
Print Assumptions C67_removed.
Theorem C67_unchanged U : sane_categories (u_cat U) -> forall data,
  filter_urls (shipped_url U) data = data <-> forall a u b, data = a ++ u ++ b -> ~ a_url (u_cat U) u.
Proof. exact (filter_urls_same U). Qed.
Print Assumptions C67_unchanged.
Theorem C67_no_dot U : sane_categories (u_cat U) -> forall data,
  ~ In dot data -> (forall a b, data <> a ++ s2l "localhost" ++ b) -> filter_urls (shipped_url U) data = data.
Proof. exact (filter_urls_plain U). Qed.
Print Assumptions C67_no_dot.
Theorem C67_other_characters U : sane_categories (u_cat U) -> forall P data,
  (forall c, P c = true -> ~ path_char (u_cat U) c) -> a_letter (u_cat U) 85 ->
  filter P (filter_urls (shipped_url U) data) = filter P data.
Proof. exact (url_filter_keeps U). Qed.
Print Assumptions C67_other_characters.
Theorem C67_delimiters U : sane_categories (u_cat U) -> forall c data,
  (forall x, a_letter (u_cat U) x -> In (u_cat U x) (map s2l ["Lu"; "Ll"; "Lt"; "Lm"; "Lo"]%string)) ->
  (forall x, a_numeral (u_cat U) x -> In (u_cat U x) (map s2l ["Nd"; "Nl"; "No"]%string)) ->
  u_cat U 40 = s2l "Ps" -> u_cat U 41 = s2l "Pe" -> a_letter (u_cat U) 85 -> ~ a_letter (u_cat U) TAB -> ~ a_numeral (u_cat U) TAB ->
  default_delimiter (u_cat U) c -> ~ In c (s2l "_~?=&%-#:") ->
  In c (filter_urls (shipped_url U) data) <-> In c data.
Proof. exact (delimiter_survives U). Qed.
Print Assumptions C67_delimiters.
(** The excluded delimiters can be lost. *)
Theorem C67_every_delimiter_refuted : exists U c data, sane_categories (u_cat U) /\ default_delimiter (u_cat U) c /\ In c data /\
  ~ In c (filter_urls (shipped_url U) data).
Proof. exact delimiter_lost. Qed.
Print Assumptions C67_every_delimiter_refuted.
Example C67_case :
  filter_urls (shipped_url ascii_data) (s2l "x,http://a.nl/b_c?d,y;data.csv") = s2l "x,U,y;U" /\
  filter_urls (shipped_url ascii_data) (s2l "a.io/1:b.io/2") = s2l "U".
Proof. split; reflexivity. Qed.

(** ** C68 *)
Theorem C68_share U limit data d : sane_categories (u_cat U) -> (forall c, digit (u_cat U) c -> u_isdigit U c = true) ->
  validate d = true -> sd_strict d = false -> (Z.of_nat (List.length data) <= limit)%Z -> ~ In NUL data ->
  exists rows, parse_string limit data d true = (mk_rows true rows, None) /\
    ((forall s q, In (s, q) (List.concat rows) -> exists t, detect_type U s q = Ok t) ->
     exists kb, (forall s q, kb s q = true <-> exists name P, In (name, P) (cell_types (u_cat U) (strip U) (u_ws U) (u_lower U)
         (fun s => exists v, loads (u_maxdigits U) (u_depth U) s = Ok v) q) /\ P (strip U s)) /\
       type_score (is_known_type U) limit data d = Ok (type_share kb (List.concat rows))) /\
    (forall s q x, In (s, q) (List.concat rows) -> detect_type U s q = Err x ->
     exists y, type_score (is_known_type U) limit data d = Err y /\ (y = ValueError \/ y = RecursionError)).
Proof. exact (shipped_share U limit data d). Qed.
Print Assumptions C68_share.
Theorem C68_one U limit data d rows T : sane_categories (u_cat U) -> (forall c, digit (u_cat U) c -> u_isdigit U c = true) ->
  validate d = true -> sd_strict d = false -> (Z.of_nat (List.length data) <= limit)%Z -> ~ In NUL data ->
  parse_string limit data d true = (mk_rows true rows, None) -> (Z.of_nat (List.length (List.concat rows)) <= 2 ^ 53)%Z ->
  type_score (is_known_type U) limit data d = Ok T ->
  fleb eps_type T = true /\ fleb T fone = true /\
  (T = fone <-> List.concat rows <> [] /\ forall s q, In (s, q) (List.concat rows) ->
     exists name P, In (name, P) (cell_types (u_cat U) (strip U) (u_ws U) (u_lower U)
       (fun s => exists v, loads (u_maxdigits U) (u_depth U) s = Ok v) q) /\ P (strip U s)).
Proof. exact (shipped_share_one U limit data d rows T). Qed.
Print Assumptions C68_one.
Example C68_case :
  type_score (is_known_type ascii_data) 100 (s2l "a,5,{x,$1") (dialect3 [COMMA] [] []) = Ok (fdiv (float_of_Z 3) (float_of_Z 4)).
Proof. reflexivity. Qed.
