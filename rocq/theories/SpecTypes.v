(** * SpecTypes: what the type names mean

    Stated on characters and strings, without regular expressions.  [cat c] is
    the general category of the character. *)
From Coq Require Import String.
From Verif Require Import Base.
Open Scope N_scope.

Definition dot : N := 46.
Definition colon : N := 58.
Definition slash : N := 47.
Definition hyphen : N := 45.
Definition T_char : N := 84.
Definition Z_char : N := 90.
Definition plus_char : N := 43.
Definition percent : N := 37.

(** ** Characters *)
Section Chars.
Variable cat : N -> str.
Definition digit (c : N) : Prop := cat c = s2l "Nd".
Definition a_letter (c : N) : Prop := exists t, cat c = 76 :: t.
Definition a_numeral (c : N) : Prop := exists t, cat c = 78 :: t.
Definition a_currency (c : N) : Prop := cat c = s2l "Sc".
Definition digits (s : str) : Prop := Forall digit s.
Definition ascii_digit (c : N) : Prop := 48 <= c <= 57.
Definition lower_case (c : N) : Prop := 97 <= c <= 122.
Definition upper_case (c : N) : Prop := 65 <= c <= 90.
Definition ascii_alnum (c : N) : Prop := lower_case c \/ upper_case c \/ ascii_digit c.

(** What is needed of the Unicode data: below 128 the digits are 0 to 9, and a
    to z are letters. *)
Definition sane_categories : Prop :=
  (forall c, ascii_digit c -> digit c) /\
  (forall c, c < 128 -> digit c -> ascii_digit c) /\
  (forall c, lower_case c -> a_letter c).

(** ** Numbers *)
Definition a_sign (s : str) : Prop := s = [] \/ s = s2l "+" \/ s = s2l "-".
(** 0, or digits that start with 1 to 9 *)
Definition whole (s : str) : Prop := s = s2l "0" \/ exists c t, s = c :: t /\ 49 <= c <= 57 /\ digits t.
Definition expo (s : str) : Prop :=
  exists e sg t, s = e :: sg ++ t /\ In e (s2l "eE") /\ a_sign sg /\ t <> [] /\ digits t.
(** What may follow the sign and the whole part [w]: an exponent, a dot with
    digits before or after it, or a comma with digits after it (two, if an
    exponent follows). *)
Definition number_tail (w r : str) : Prop :=
  r = [] \/
  (w <> [] /\ expo r) \/
  (exists f x, r = dot :: f ++ x /\ digits f /\ (w <> [] \/ f <> []) /\ (x = [] \/ expo x)) \/
  (exists f x, r = COMMA :: f ++ x /\ digits f /\ f <> [] /\ (x = [] \/ ((2 <= List.length f)%nat /\ expo x))).
Definition plain_number (s : str) : Prop :=
  s <> [] /\ exists sg w r, s = sg ++ w ++ r /\ a_sign sg /\ (w = [] \/ whole w) /\ number_tail w r.
(** 12,345.67: one to three digits, groups of three, and a decimal sign. *)
Definition grouped_number (sep dec : N) (s : str) : Prop :=
  exists sg c t gs f,
    s = sg ++ (c :: t) ++ concat (map (cons sep) gs) ++ dec :: f /\ a_sign sg /\
    49 <= c <= 57 /\ digits t /\ (List.length t <= 2)%nat /\
    gs <> [] /\ Forall (fun g => digits g /\ List.length g = 3%nat) gs /\ digits f.
Definition a_number (s : str) : Prop := plain_number s \/ grouped_number COMMA dot s \/ grouped_number dot COMMA s.

(** ** Times: two ASCII digits and the number they write *)
Definition two_digits (s : str) (v : N) : Prop :=
  exists a b, s = [a; b] /\ ascii_digit a /\ ascii_digit b /\ v = 10 * (a - 48) + (b - 48).
Definition below (n : N) (s : str) : Prop := exists v, two_digits s v /\ v < n.
Definition a_time (s : str) : Prop :=
  (exists h mi, s = h ++ colon :: mi /\ ((exists c, h = [c] /\ ascii_digit c) \/ below 24 h) /\ below 60 mi) \/
  (exists h mi se, s = h ++ colon :: mi ++ colon :: se /\ below 24 h /\ below 60 mi /\ below 60 se) \/
  (exists h mi se sg zh zm, s = h ++ colon :: mi ++ colon :: se ++ sg :: zh ++ colon :: zm /\
     below 24 h /\ below 60 mi /\ below 60 se /\ In sg (s2l "+-") /\ below 20 zh /\ below 60 zm).
(** four digits without a colon *)
Definition hhmm (s : str) : Prop := exists h mi, s = h ++ mi /\ below 24 h /\ below 60 mi.

(** ** Dates *)
Definition month2 (s : str) : Prop := exists v, two_digits s v /\ 1 <= v <= 12.
Definition a_month (s : str) : Prop := month2 s \/ exists c, s = [c] /\ 49 <= c <= 57.
(** In a day that starts with 1 or 2 the second digit may be any digit of Unicode. *)
Definition day2 (s : str) : Prop :=
  (exists v, two_digits s v /\ 1 <= v <= 31) \/ (exists a b, s = [a; b] /\ In a (s2l "12") /\ digit b).
Definition a_day (s : str) : Prop := day2 s \/ exists c, s = [c] /\ 49 <= c <= 57.
Definition a_year (s : str) : Prop :=
  digits s /\ (List.length s = 2%nat \/ (List.length s = 4%nat /\ exists a t, s = a :: t /\ In a (s2l "12"))).
Definition a_date (s : str) : Prop :=
  (exists sep x y z, s = x ++ sep :: y ++ sep :: z /\ In sep (s2l "-/. ") /\
     ((a_month x /\ a_day y /\ a_year z) \/ (a_day x /\ a_month y /\ a_year z) \/ (a_year x /\ a_month y /\ a_day z))) \/
  (exists x y z, s = x ++ y ++ z /\
     ((month2 x /\ day2 y /\ a_year z) \/ (day2 x /\ month2 y /\ a_year z) \/ (a_year x /\ month2 y /\ day2 z))) \/
  (exists x y z, (s = x ++ 24180 :: y ++ 26376 :: z ++ [26085] \/ s = x ++ 45380 :: y ++ 50900 :: z ++ [51068]) /\
     a_year x /\ a_month y /\ a_day z).

(** ** Dates with times; [strip] removes white space at both ends *)
Section Datetime.
Variable strip : str -> str.
Definition zone (s : str) : Prop := a_time (strip s) \/ hhmm (strip s).
(** A time, the sign, and a zone.  What follows a second sign is ignored. *)
Definition with_zone (sg : N) (s : str) : Prop :=
  exists a b rest, s = a ++ sg :: b ++ rest /\ ~ In sg a /\ ~ In sg b /\ (rest = [] \/ exists r, rest = sg :: r) /\
    a_time (strip a) /\ zone b.
Definition a_datetime (s : str) : Prop :=
  (exists d t, s = d ++ SPACE :: t /\ ~ In SPACE d /\ ~ In SPACE t /\ a_date (strip d) /\ a_time (strip t)) \/
  (exists d t, s = d ++ T_char :: t /\ ~ In SPACE s /\ ~ In T_char d /\ ~ In T_char t /\ a_date (strip d) /\
     (a_time (strip t) \/ (exists u, t = u ++ [Z_char] /\ a_time (strip u)) \/
      (In plus_char t /\ with_zone plus_char t) \/
      (~ In plus_char t /\ In hyphen t /\ with_zone hyphen t))).

(** ** Numbers with a sign for a unit *)
Definition a_percentage (s : str) : Prop :=
  exists p k, s = p ++ repeat percent (S k) /\ ~ (exists q, p = q ++ [percent]) /\ a_number (strip p).
(** A currency sign, at most one white space character that is skipped, and a
    number without a line feed in front of it. *)
Definition an_amount (ws : N -> bool) (s : str) : Prop :=
  exists c w g, s = c :: w ++ g /\ a_currency c /\
    ((exists x, w = [x] /\ ws x = true) \/ (w = [] /\ forall x t, g = x :: t -> ws x = false)) /\
    ~ In LF g /\ a_number (strip g).
End Datetime.

(** ** Addresses *)
Definition one_to (n : nat) (s : str) : Prop := s <> [] /\ (List.length s <= n)%nat.
Definition an_ipv4 (s : str) : Prop :=
  exists a b c d, s = a ++ dot :: b ++ dot :: c ++ dot :: d /\
    Forall (fun x => digits x /\ one_to 3 x) [a; b; c; d].
Definition label_char (c : N) : Prop := a_letter c \/ a_numeral c \/ c = hyphen.
(** labels, each with a dot behind it, and two or more letters a to z *)
Definition domain (s : str) : Prop :=
  exists labels t, s = concat (map (fun l => l ++ [dot]) labels) ++ t /\ labels <> [] /\
    Forall (fun l => l <> [] /\ Forall label_char l) labels /\
    Forall lower_case t /\ (2 <= List.length t)%nat.
Definition a_port (s : str) : Prop := s = [] \/ exists p, s = colon :: p /\ digits p /\ one_to 5 p.
Definition a_host (s : str) : Prop :=
  domain s \/ (exists p, s = s2l "localhost" ++ p /\ a_port p) \/ (exists a p, s = a ++ p /\ an_ipv4 a /\ a_port p).
Definition path_char (c : N) : Prop := a_letter c \/ a_numeral c \/ In c (s2l "_/()~?=&%-#.:").
Definition a_url (s : str) : Prop :=
  exists scheme host path ext, s = scheme ++ host ++ path ++ ext /\
    (scheme = [] \/ (In scheme [s2l "http://"; s2l "https://"; s2l "ftp://"] /\ forall t, host <> hyphen :: t)) /\
    a_host host /\
    (path = [] \/ exists p, path = slash :: p /\ Forall path_char p) /\
    (ext = [] \/ exists x, ext = dot :: x /\ x <> [] /\ Forall lower_case x).
Definition an_email (s : str) : Prop :=
  exists a b c, s = a ++ 64 :: b ++ dot :: c /\
    (a <> [] /\ Forall (fun x => ascii_alnum x \/ In x (s2l "_.+-")) a) /\
    (b <> [] /\ Forall (fun x => ascii_alnum x \/ x = hyphen) b) /\
    (c <> [] /\ Forall (fun x => ascii_alnum x \/ In x (s2l "-.")) c).
Definition a_path (s : str) : Prop :=
  exists h segs e, s = h ++ concat (map (cons slash) segs) ++ e /\
    (h = [] \/ h = s2l "~" \/ h = s2l ".") /\ segs <> [] /\
    Forall (fun g => g <> [] /\ Forall (fun x => ascii_alnum x \/ In x (s2l ".-_")) g) segs /\
    (e = [] \/ e = [slash]).

(** ** Text *)
Definition text_marks : list N :=
  [45; 95; 46; 1748; 12290; 65106; 65294; 65377; 40; 41; 10222; 10223; 65288; 65289;
   63; 191; 894; 1374; 1567; 4967; 6469; 8263; 8264; 8265; 11514; 11515; 11822; 42511; 42743; 65046; 65110; 65311; 69955; 125279;
   33; 161; 451; 1372; 2041; 4255; 6468; 8252; 43639; 65045; 65111; 65281; 125278].
Definition text_commas : list N := [44; 1548; 4963; 6146; 6152; 65292; 65104].
Definition text_char (quoted : bool) (c : N) : Prop :=
  a_letter c \/ a_numeral c \/ c = SPACE \/ In c text_marks \/ (quoted = true /\ In c text_commas).
Definition a_text (quoted : bool) (s : str) : Prop := s <> [] /\ Forall (text_char quoted) s.
Definition a_bytearray (s : str) : Prop := (exists t, s = s2l "bytearray(b" ++ t) /\ exists t, s = t ++ s2l ")".

(** ** The order of the types

    [lower] puts a string in lower case; [reads_json s] says that the JSON reader
    accepts the text. *)
Definition missing (lower : str -> str) (s : str) : Prop := In (lower s) [s2l "n/a"; s2l "na"; s2l "nan"].
Definition in_braces (s : str) : Prop := (exists t, s = s2l "{" ++ t) /\ exists t, s = t ++ s2l "}".
Definition cell_types (strip : str -> str) (ws : N -> bool) (lower : str -> str) (reads_json : str -> Prop) (quoted : bool)
  : list (string * (str -> Prop)) :=
  [ ("empty", fun s => s = []); ("url", a_url); ("email", an_email); ("ipv4", an_ipv4); ("number", a_number); ("time", a_time);
    ("percentage", a_percentage strip); ("currency", an_amount strip ws); ("unix_path", a_path); ("nan", missing lower);
    ("date", a_date); ("datetime", a_datetime strip); ("unicode_alphanum", a_text quoted); ("bytearray", a_bytearray);
    ("json", fun s => in_braces s /\ reads_json s) ]%string.

(** ** Text without its URLs

    From left to right: a URL is replaced by the letter U, and a character stays
    only if no URL starts there. *)
Inductive urls_removed : str -> str -> Prop :=
| ur_nil : urls_removed [] []
| ur_keep c s t : (forall u r, c :: s = u ++ r -> ~ a_url u) -> urls_removed s t -> urls_removed (c :: s) (c :: t)
| ur_url u s t : a_url u -> urls_removed s t -> urls_removed (u ++ s) (85 :: t).
End Chars.

(** [name] is the first of the listed descriptions that [s] meets. *)
Definition first_of (L : list (string * (str -> Prop))) (s : str) (name : string) : Prop :=
  exists a P b, L = a ++ (name, P) :: b /\ P s /\ forall n Q, In (n, Q) a -> ~ Q s.
Definition none_of (L : list (string * (str -> Prop))) (s : str) : Prop := forall n Q, In (n, Q) L -> ~ Q s.

(** ** Texts given by their lines *)
Definition line_ok (l : str) : Prop := l <> [] /\ Forall (fun c => c <> NUL /\ c <> CR /\ c <> LF) l.
Definition text_of (lines : list str) (last : str) : str := concat (map (fun l => l ++ [LF]) lines) ++ last.
Definition lines_of (lines : list str) (last : str) : list str := lines ++ match last with [] => [] | _ => [last] end.
