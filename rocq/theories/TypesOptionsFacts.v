(** * TypesOptionsFacts *)
From Coq Require Import String.
From Verif Require Import Base Parser Dialect Json Regex RegexFacts Types SpecTypes TypesFacts TypesText TypesNumber TypesDate TypesUrl TypesAll TypesCases TypesOptions SpecTypesOptions.
From Verif Require NormalFacts MaskedFacts.
Open Scope N_scope.

(** ** The default patterns *)
Section Default.
Variable U : unidata.
Variable sw : bool.
Definition effective : unidata := if sw then U else unstripped U.
Local Notation ps := (DEFAULT_TYPE_REGEXES U).
Lemma strip_nothing s : strip_by (fun _ => false) s = s.
Proof.
  unfold strip_by, rstrip_by. assert (E : forall t : str, lstrip_by (fun _ => false) t = t) by (now intros [|]). rewrite !E. apply rev_involutive.
Qed.
Lemma strip_effective s : strip_o U sw s = strip effective s.
Proof. unfold strip_o, effective. destruct sw; [reflexivity|]. symmetry. apply strip_nothing. Qed.
Lemma groupless_match r s : match groupless r s with Some _ => true | None => false end = fullmatches r s.
Proof. unfold groupless, fullmatches. now destruct (fullmatch r s). Qed.
Lemma run_default name r cell : get_pattern ps name = Some (groupless r) -> run_regex_o U ps sw name cell = Ok (run_regex effective r cell).
Proof. intros E. unfold run_regex_o. rewrite E. now rewrite groupless_match, strip_effective. Qed.
Local Ltac runs := repeat (erewrite run_default; [|reflexivity]).
Local Ltac res := unfold effective; destruct sw; reflexivity.
Lemma number_default cell : is_number_o U ps sw cell = Ok (is_number effective cell).
Proof.
  unfold is_number_o, is_number. destruct (str_eqb cell []); [reflexivity|]. runs. unfold or_else. cbn [bind negb andb].
  replace (re_number_1 U) with (re_number_1 effective) by res. replace (re_number_2 U) with (re_number_2 effective) by res. replace (re_number_3 U) with (re_number_3 effective) by res.
  destruct (run_regex effective (re_number_1 effective) cell); [reflexivity|]. now destruct (run_regex effective (re_number_2 effective) cell).
Qed.
Lemma digit_first_effective cell : digit_first U cell = digit_first effective cell.
Proof. res. Qed.
Lemma date_default cell : is_date_o U ps sw cell = Ok (is_date effective cell).
Proof.
  unfold is_date_o, is_date. cbn zeta. rewrite strip_effective, digit_first_effective. destruct (digit_first effective (strip effective cell)); [|reflexivity]. runs. cbn [andb]. now replace (re_date U) with (re_date effective) by res.
Qed.
Lemma time_default cell : is_time_o U ps sw cell = Ok (is_time effective cell).
Proof.
  unfold is_time_o, is_time. cbn zeta. rewrite strip_effective, digit_first_effective. destruct (digit_first effective (strip effective cell)); [|reflexivity]. runs. unfold or_else. cbn [bind andb].
  destruct (run_regex effective re_time_hmm _); [reflexivity|]. cbn [orb]. destruct (run_regex effective re_time_hhmm _); [reflexivity|]. cbn [orb]. now destruct (run_regex effective re_time_hhmmss _).
Qed.
Lemma percentage_default cell : is_percentage_o U ps sw cell = Ok (is_percentage effective cell).
Proof. unfold is_percentage_o, is_percentage. destruct (ends_with _ cell); [|reflexivity]. now rewrite number_default. Qed.
(** The group of the pattern for currencies takes part in every match. *)
Lemma currency_group s b t e : fullmatch (re_currency U) s = Some (b, t, e) -> exists g, group e 1 = Some g.
Proof.
  unfold fullmatch. intros E. apply find_some in E as [E _]. unfold re_currency in E. cbn [seqs] in E. rewrite m_seq in E. destruct E as (s1 & _ & E). rewrite m_seq in E. destruct E as (s2 & _ & E).
  destruct s2 as [[b2 t2] e2]. cbn [m] in E. apply in_map_iff in E as ([[b3 t3] e3] & E & _). injection E as _ _ <-. unfold group. cbn [find fst Nat.eqb]. eexists; reflexivity.
Qed.
Lemma currency_default cell : is_currency_o U ps sw cell = Ok (is_currency effective cell).
Proof.
  unfold is_currency_o, is_currency. replace (re_currency effective) with (re_currency U) by res. change (get_pattern ps "currency") with (Some (first_group (re_currency U))). unfold first_group.
  destruct (fullmatch (re_currency U) cell) as [[[b t] e]|] eqn:E; [|reflexivity]. apply currency_group in E as (g & ->). cbn [bind]. apply number_default.
Qed.
Lemma split_contains sg p : contains [sg] p = true -> exists a b l, py_split [sg] p = a :: b :: l.
Proof.
  intros H. assert (Hi : In sg p) by (apply NormalFacts.contains_one; exact H). destruct (split_first sg p) as [(Hn & _)|(x & r & -> & Hx & E)]; [now elim Hn|]. rewrite E.
  destruct (split_first sg r) as [(_ & ->)|(y & r' & -> & _ & ->)]; eauto.
Qed.
Lemma zoned_default sg p : contains [sg] p = true -> zoned_o U ps sw [sg] p = Ok (zoned effective [sg] p).
Proof.
  intros H. apply split_contains in H as (a & b & l & E). unfold zoned_o, zoned. rewrite E, !time_default. runs. unfold and_then, or_else. cbn [bind].
  destruct (is_time effective a); [|reflexivity]. cbn [andb]. destruct (is_time effective b); [reflexivity|]. cbn [orb]. now destruct (run_regex effective re_time_HHMM b).
Qed.
Lemma datetime_default cell : is_datetime_o U ps sw cell = Ok (is_datetime effective cell).
Proof.
  unfold is_datetime_o, is_datetime. rewrite digit_first_effective. destruct (digit_first effective cell); [|reflexivity]. cbn [andb]. destruct (contains (s2l " ") cell).
  - destruct (py_split (s2l " ") cell) as [|p0 [|p1 [|]]]; try reflexivity. unfold and_then. rewrite date_default, time_default. cbn [bind]. now destruct (is_date effective p0).
  - destruct (contains (s2l "T") cell); [|reflexivity]. destruct (py_split (s2l "T") cell) as [|p0 [|p1 [|]]]; try reflexivity. unfold and_then, or_else. rewrite date_default. cbn [bind]. destruct (is_date effective p0); [|reflexivity]. cbn [andb].
    rewrite !time_default. destruct (ends_with (s2l "Z") p1); cbn [bind andb orb]; [destruct (is_time effective (removelast p1)); [reflexivity|]; cbn [bind orb]|];
      (destruct (is_time effective p1); [reflexivity|]; cbn [orb]; destruct (contains (s2l "+") p1) eqn:E1; [exact (zoned_default 43 p1 E1)|]; destruct (contains (s2l "-") p1) eqn:E2; [exact (zoned_default 45 p1 E2)|reflexivity]).
Qed.
Theorem detect_default cell q : detect_type_o U ps sw cell q = detect_type effective cell q.
Proof.
  unfold detect_type_o, detect_type. rewrite strip_effective. generalize (strip effective cell) as s. intros s. unfold type_tests_o, type_tests. cbn [first_type].
  rewrite number_default, time_default, percentage_default, currency_default, date_default, datetime_default. unfold is_url_o, is_email_o, is_ipv4_o, is_unix_path_o, is_unicode_alphanum_o. runs.
  replace (is_url effective s) with (run_regex effective (re_url U) s) by (unfold is_url; now replace (re_url effective) with (re_url U) by res).
  replace (is_ipv4 effective s) with (run_regex effective (re_ipv4 U) s) by (unfold is_ipv4; now replace (re_ipv4 effective) with (re_ipv4 U) by res).
  replace (is_nan U s) with (is_nan effective s) by res. replace (is_json_obj U s) with (is_json_obj effective s) by res.
  replace (if q then Ok (run_regex effective (re_alphanum_quoted U) s) else Ok (run_regex effective (re_alphanum U) s)) with (@Ok pyexc bool (is_unicode_alphanum effective s q)).
  - reflexivity.
  - unfold is_unicode_alphanum. replace (re_alphanum_quoted effective) with (re_alphanum_quoted U) by res. replace (re_alphanum effective) with (re_alphanum U) by res. now destruct q.
Qed.
Theorem known_default cell q : is_known_type_o U ps sw cell q = is_known_type effective cell q.
Proof. unfold is_known_type_o, is_known_type. now rewrite detect_default. Qed.
End Default.

(** ** Missing patterns *)
Section Missing.
Variable U : unidata.
Variables ps ps' : patterns.
Variable sw : bool.
Hypothesis sub : forall name p, get_pattern ps name = Some p -> get_pattern ps' name = Some p.
Definition either {A} (x y : res pyexc A) : Prop := x = Err AssertionError \/ x = y.
Lemma either_refl {A} (x : res pyexc A) : either x x.
Proof. now right. Qed.
Lemma either_bind {A B} (x y : res pyexc A) (f g : A -> res pyexc B) : either x y -> (forall a, either (f a) (g a)) -> either (bind x f) (bind y g).
Proof. intros [->| ->] H; [now left|]. destruct y; [apply H|now right]. Qed.
Lemma either_or a a' b b' : either a a' -> either b b' -> either (or_else a b) (or_else a' b').
Proof. intros H1 H2. apply either_bind; [exact H1|]. intros [|]; [apply either_refl|exact H2]. Qed.
Lemma either_and a a' b b' : either a a' -> either b b' -> either (and_then a b) (and_then a' b').
Proof. intros H1 H2. apply either_bind; [exact H1|]. intros [|]; [exact H2|apply either_refl]. Qed.
Lemma either_if (c : bool) (a a' b b' : res pyexc bool) : either a a' -> either b b' -> either (if c then a else b) (if c then a' else b').
Proof. now destruct c. Qed.
Lemma either_run name cell : either (run_regex_o U ps sw name cell) (run_regex_o U ps' sw name cell).
Proof. unfold run_regex_o. destruct (get_pattern ps name) as [p|] eqn:E; [|now left]. rewrite (sub name p E). now right. Qed.
Lemma either_number cell : either (is_number_o U ps sw cell) (is_number_o U ps' sw cell).
Proof. unfold is_number_o. apply either_if; [apply either_refl|]. repeat apply either_or; apply either_run. Qed.
Lemma either_none : either (is_number_none ps sw) (is_number_none ps' sw).
Proof. unfold is_number_none. apply either_if; [apply either_refl|]. destruct (get_pattern ps "number_1") as [p|] eqn:E; [|now left]. rewrite (sub _ p E). now right. Qed.
Lemma either_date cell : either (is_date_o U ps sw cell) (is_date_o U ps' sw cell).
Proof. unfold is_date_o. cbn zeta. apply either_if; [apply either_run|apply either_refl]. Qed.
Lemma either_time cell : either (is_time_o U ps sw cell) (is_time_o U ps' sw cell).
Proof. unfold is_time_o. cbn zeta. apply either_if; [|apply either_refl]. repeat apply either_or; apply either_run. Qed.
Lemma either_percentage cell : either (is_percentage_o U ps sw cell) (is_percentage_o U ps' sw cell).
Proof. unfold is_percentage_o. apply either_if; [apply either_number|apply either_refl]. Qed.
Lemma either_currency cell : either (is_currency_o U ps sw cell) (is_currency_o U ps' sw cell).
Proof.
  unfold is_currency_o. destruct (get_pattern ps "currency") as [p|] eqn:E; [|now left]. rewrite (sub _ p E). destruct (p cell) as [g|]; [|now right]. apply either_bind; [apply either_refl|]. intros [grp|]; [apply either_number|apply either_none].
Qed.
Lemma either_zoned sep part : either (zoned_o U ps sw sep part) (zoned_o U ps' sw sep part).
Proof.
  unfold zoned_o. destruct (py_split sep part) as [|p0 [|p1 l]]; try apply either_refl. apply either_and; [apply either_time|]. apply either_or; [apply either_time|]. apply either_or; apply either_run.
Qed.
Lemma either_datetime cell : either (is_datetime_o U ps sw cell) (is_datetime_o U ps' sw cell).
Proof.
  unfold is_datetime_o. apply either_if; [|apply either_refl]. apply either_if.
  - destruct (py_split (s2l " ") cell) as [|p0 [|p1 [|]]]; try apply either_refl. apply either_and; [apply either_date|apply either_time].
  - apply either_if; [|apply either_refl]. destruct (py_split (s2l "T") cell) as [|p0 [|p1 [|]]]; try apply either_refl. apply either_and; [apply either_date|].
    apply either_or; [apply either_if; [apply either_time|apply either_refl]|]. apply either_or; [apply either_time|]. apply either_if; [apply either_zoned|]. apply either_if; [apply either_zoned|apply either_refl].
Qed.
Lemma either_first (l l' : list (string * (str -> bool -> res pyexc bool))) cell q :
  Forall2 (fun t t' => fst t = fst t' /\ either (snd t cell q) (snd t' cell q)) l l' -> either (first_type l cell q) (first_type l' cell q).
Proof.
  induction 1 as [|[n f] [n' f'] l l' (E & H) HF IH]; [apply either_refl|]. cbn [fst snd first_type] in *. subst n'. apply either_bind; [exact H|]. intros [|]; [apply either_refl|exact IH].
Qed.
Theorem missing_patterns cell q :
  detect_type_o U ps sw cell q = Err AssertionError \/ detect_type_o U ps sw cell q = detect_type_o U ps' sw cell q.
Proof.
  apply either_first. unfold type_tests_o. repeat (constructor; [split; [reflexivity|cbn [snd]]|]).
  - apply either_refl.
  - apply either_run.
  - apply either_run.
  - apply either_run.
  - apply either_number.
  - apply either_time.
  - apply either_percentage.
  - apply either_currency.
  - apply either_run.
  - apply either_refl.
  - apply either_date.
  - apply either_datetime.
  - unfold is_unicode_alphanum_o. apply either_if; apply either_run.
  - apply either_refl.
  - apply either_refl.
  - constructor.
Qed.
End Missing.

(** ** The names *)
Theorem known_names U ps sw cell q name : detect_type_o U ps sw cell q = Ok (Some name) -> In name (list_known_types U ps sw).
Proof.
  unfold detect_type_o, list_known_types. generalize (type_tests_o U ps sw). induction l as [|[n f] l IH]; cbn [first_type map fst]; [discriminate|]. destruct (f (strip_o U sw cell) q) as [[|]|x]; cbn [bind]; [intros [= <-]; now left|intros H; right; now apply IH|discriminate].
Qed.

(** ** White space *)
Section Spaces.
Variable U : unidata.
Local Notation cat := (u_cat U).
Local Notation strip := (strip U).
Hypothesis sane : sane_categories cat.
Hypothesis isdigit_ok : forall c, digit cat c -> u_isdigit U c = true.
Hypothesis spaces : sane_spaces U.
Definition solid (c : N) : Prop := u_space U c = false.
Lemma not_space c : ~ In c py_spaces -> solid c.
Proof. intros H. unfold solid. destruct (u_space U c) eqn:E; [|reflexivity]. apply spaces in E. contradiction. Qed.
Lemma digit_numeral c : digit cat c -> a_numeral cat c.
Proof. unfold digit, a_numeral. intros ->. now eexists. Qed.
Lemma numeral_solid c : a_numeral cat c -> solid c.
Proof. intros H. apply not_space. intros K. now apply spaces in K. Qed.
Lemma letter_solid c : a_letter cat c -> solid c.
Proof. intros H. apply not_space. intros K. now apply spaces in K. Qed.
Lemma digit_solid c : digit cat c -> solid c.
Proof. intros H. now apply numeral_solid, digit_numeral. Qed.
Lemma currency_solid c : a_currency cat c -> solid c.
Proof. intros H. apply not_space. intros K. now apply spaces in K. Qed.
Lemma listed_solid l c : forallb (fun x => negb (existsb (N.eqb x) py_spaces)) l = true -> In c l -> solid c.
Proof.
  intros H Hc. apply not_space. rewrite forallb_forall in H. specialize (H c Hc). intros K. assert (E : existsb (N.eqb c) py_spaces = true) by (apply existsb_exists; exists c; split; [exact K|apply N.eqb_refl]). rewrite E in H. discriminate H.
Qed.
Lemma range_solid lo hi c : forallb (fun x => (x <? lo) || (hi <? x)) py_spaces = true -> lo <= c <= hi -> solid c.
Proof.
  intros H Hc. apply not_space. intros K. rewrite forallb_forall in H. specialize (H c K). apply orb_true_iff in H as [H|H]; apply N.ltb_lt in H; lia.
Qed.
Lemma alnum_solid c : ascii_alnum c -> solid c.
Proof. unfold ascii_alnum, lower_case, upper_case, ascii_digit. intros H. apply (range_solid 33 126); [reflexivity|lia]. Qed.
Lemma all_solid s : Forall solid s -> strip s = s.
Proof.
  intros H. unfold Types.strip, strip_by, rstrip_by. assert (E : forall t, Forall solid t -> lstrip_by (u_space U) t = t).
  { intros [|c t] Ht; [reflexivity|]. cbn [lstrip_by]. pose proof (Forall_inv Ht) as Hc. unfold solid in Hc. now rewrite Hc. }
  rewrite (E s H), (E (rev s)); [apply rev_involutive|]. apply Forall_rev. exact H.
Qed.
Lemma ends_solid s : (exists c t, s = c :: t /\ solid c) -> (exists t c, s = t ++ [c] /\ solid c) -> strip s = s.
Proof.
  intros (c & t & E1 & H1) (u & d & E2 & H2). unfold Types.strip, strip_by, rstrip_by. rewrite E1 at 1. cbn [lstrip_by]. unfold solid in *. rewrite H1, <- E1, E2, rev_app_distr. cbn [rev app lstrip_by]. rewrite H2. cbn [rev]. now rewrite rev_involutive.
Qed.
Lemma last_solid s : s <> [] -> Forall solid s -> exists t c, s = t ++ [c] /\ solid c.
Proof. intros H F. destruct (exists_last H) as (t & c & ->). apply Forall_app in F as [_ F]. exists t, c. split; [reflexivity|exact (Forall_inv F)]. Qed.
Lemma first_solid s : s <> [] -> Forall solid s -> exists c t, s = c :: t /\ solid c.
Proof. intros H F. destruct s as [|c t]; [now elim H|]. exists c, t. split; [reflexivity|exact (Forall_inv F)]. Qed.
Lemma Forall_imp {A} (P Q : A -> Prop) l : (forall x, P x -> Q x) -> Forall P l -> Forall Q l.
Proof. intros H F. eapply Forall_impl; [|exact F]. exact H. Qed.

Lemma number_solid s : a_number cat s -> Forall solid s.
Proof. intros H. apply number_chars in H; [|exact sane]. eapply Forall_imp; [|exact H]. intros c [Hc|Hc]; [now apply digit_solid|now apply (listed_solid (s2l "+-.,eE"))]. Qed.
Lemma two_solid s v : two_digits s v -> Forall solid s.
Proof. intros (a & b & -> & Ha & Hb & _). repeat constructor; apply alnum_solid; unfold ascii_alnum; tauto. Qed.
Lemma below_solid n s : below n s -> Forall solid s.
Proof. intros (v & H & _). now apply two_solid in H. Qed.
Lemma colon_solid : solid colon.
Proof. apply (range_solid 33 126); [reflexivity|unfold colon; lia]. Qed.
Lemma sign_solid c : In c (s2l "+-") -> solid c.
Proof. now apply (listed_solid (s2l "+-")). Qed.
Local Ltac pieces := repeat first [apply Forall_app; split | apply Forall_cons]; try exact colon_solid; try (eapply below_solid; eassumption); try (now apply sign_solid); try apply Forall_nil.
Lemma time_solid s : a_time s -> Forall solid s.
Proof.
  intros [(h & mi & -> & Hh & Hm)|[(h & mi & se & -> & Hh & Hm & Hs)|(h & mi & se & sg & zh & zm & -> & Hh & Hm & Hs & Hg & Hzh & Hzm)]]; pieces.
  destruct Hh as [(c & -> & Hc)|Hh]; [|now apply below_solid in Hh]. repeat constructor. apply alnum_solid. unfold ascii_alnum. tauto.
Qed.
Lemma hhmm_solid s : hhmm s -> Forall solid s.
Proof. intros (h & mi & -> & Hh & Hm). pieces. Qed.
Lemma digits_solid s : digits cat s -> Forall solid s.
Proof. apply Forall_imp, digit_solid. Qed.
Lemma small_solid c : 49 <= c <= 57 -> solid c.
Proof. intros H. apply (range_solid 33 126); [reflexivity|lia]. Qed.
Lemma part_solid s : month2 s \/ a_month s \/ day2 cat s \/ a_day cat s \/ a_year cat s -> Forall solid s /\ s <> [].
Proof.
  intros H. split.
  - assert (H2 : day2 cat s -> Forall solid s). { intros [(v & K & _)|(a & b & -> & Ha & Hb)]; [now apply two_solid in K|]. repeat constructor; [now apply (listed_solid (s2l "12"))|now apply digit_solid]. }
    assert (H1 : (exists c, s = [c] /\ 49 <= c <= 57) -> Forall solid s) by (intros (c & -> & Hc); repeat constructor; now apply small_solid).
    destruct H as [(v & K & _)|[[(v & K & _)|K]|[K|[[K|K]|(K & _)]]]]; try (now apply two_solid in K); auto. now apply digits_solid.
  - destruct (part_first U sane isdigit_ok s H) as (c & t & -> & _). discriminate.
Qed.
Lemma date_ends s : a_date cat s -> (exists c t, s = c :: t /\ solid c) /\ exists t c, s = t ++ [c] /\ solid c.
Proof.
  intros H. split.
  - destruct (date_first U sane isdigit_ok s H) as (c & t & -> & Hc). exists c, t. split; [reflexivity|now apply digit_solid].
  - assert (T : forall z, month2 z \/ a_month z \/ day2 cat z \/ a_day cat z \/ a_year cat z -> forall a, exists t c, a ++ z = t ++ [c] /\ solid c).
    { intros z Hz a. destruct (part_solid z Hz) as [P1 P2]. destruct (last_solid z P2 P1) as (t & c & -> & Hc). exists (a ++ t), c. split; [now rewrite app_assoc|exact Hc]. }
    destruct H as [(sep & x & y & z & -> & _ & K)|[(x & y & z & -> & K)|(x & y & z & K & _)]].
    + replace (x ++ sep :: y ++ sep :: z) with ((x ++ sep :: y ++ [sep]) ++ z) by (rewrite <- app_assoc; cbn [app]; now rewrite <- app_assoc). apply T. tauto.
    + rewrite app_assoc. apply T. tauto.
    + destruct K as [-> | ->].
      * exists (x ++ 24180 :: y ++ 26376 :: z), 26085. split; [rewrite <- !app_assoc; cbn [app]; now rewrite <- !app_assoc|apply (listed_solid [26085]); [reflexivity|now left]].
      * exists (x ++ 45380 :: y ++ 50900 :: z), 51068. split; [rewrite <- !app_assoc; cbn [app]; now rewrite <- !app_assoc|apply (listed_solid [51068]); [reflexivity|now left]].
Qed.
Lemma date_strip s : a_date cat s -> strip s = s.
Proof. intros H. apply date_ends in H as [H1 H2]. now apply ends_solid. Qed.

(** *** What is seen without stripping is seen with it *)
Local Notation bare := (Types.strip (unstripped U)).
Lemma bare_id s : bare s = s.
Proof. apply strip_nothing. Qed.
Lemma percentage_mono s : a_percentage cat bare s -> a_percentage cat strip s.
Proof. intros (p & k & E & H & Hn). exists p, k. rewrite bare_id in Hn. split; [exact E|split; [exact H|]]. now rewrite all_solid by now apply number_solid. Qed.
Lemma amount_mono s : an_amount cat bare (u_ws U) s -> an_amount cat strip (u_ws U) s.
Proof. intros (c & w & g & E & Hc & Hw & Hl & Hn). exists c, w, g. rewrite bare_id in Hn. repeat split; try assumption. now rewrite all_solid by now apply number_solid. Qed.
Lemma time_mono s : a_time (bare s) -> a_time (strip s).
Proof. rewrite bare_id. intros H. now rewrite all_solid by now apply time_solid. Qed.
Lemma date_mono s : a_date cat (bare s) -> a_date cat (strip s).
Proof. rewrite bare_id. intros H. now rewrite date_strip. Qed.
Lemma zone_mono sg s : with_zone bare sg s -> with_zone strip sg s.
Proof.
  intros (a & b & rest & E & H1 & H2 & H3 & Ht & Hz). exists a, b, rest. split; [exact E|]. split; [exact H1|]. split; [exact H2|]. split; [exact H3|]. split; [now apply time_mono|].
  destruct Hz as [Hz|Hz]; [left; now apply time_mono|right]. rewrite bare_id in Hz. now rewrite all_solid by now apply hhmm_solid.
Qed.
Lemma datetime_mono s : a_datetime cat bare s -> a_datetime cat strip s.
Proof.
  intros [(d & t & E & H1 & H2 & Hd & Ht)|(d & t & E & H1 & H2 & H3 & Hd & Ht)].
  - left. exists d, t. split; [exact E|]. split; [exact H1|]. split; [exact H2|]. split; [now apply date_mono|now apply time_mono].
  - right. exists d, t. split; [exact E|]. split; [exact H1|]. split; [exact H2|]. split; [exact H3|]. split; [now apply date_mono|].
    destruct Ht as [Ht|[(u & Eu & Ht)|[(Hi & Ht)|(Hn & Hi & Ht)]]].
    + left. now apply time_mono.
    + right. left. exists u. split; [exact Eu|now apply time_mono].
    + right. right. left. split; [exact Hi|now apply zone_mono].
    + right. right. right. split; [exact Hn|]. split; [exact Hi|now apply zone_mono].
Qed.
Lemma types_related q s : Forall2 (fun a b : string * (str -> Prop) => fst a = fst b /\ (snd a s -> snd b s) /\ (In (fst a) composed \/ (snd b s -> snd a s)))
  (types (unstripped U) q) (types U q).
Proof.
  assert (K : forall n (P Q : str -> Prop), (P s -> Q s) -> In n composed \/ (Q s -> P s) -> fst (n, P) = fst (n, Q) /\ (snd (n, P) s -> snd (n, Q) s) /\ (In (fst (n, P)) composed \/ (snd (n, Q) s -> snd (n, P) s))) by (intros; now split).
  unfold types, cell_types. repeat (apply Forall2_cons; [try (apply K; [intros H; exact H|right; intros H; exact H])|]); [| | |constructor].
  - apply K; [apply percentage_mono|left; cbn; tauto].
  - apply K; [apply amount_mono|left; cbn; tauto].
  - apply K; [apply datetime_mono|left; cbn; tauto].
Qed.
(** *** No other type has white space at its ends *)
Lemma path_char_solid c : path_char cat c -> solid c.
Proof. intros [H|[H|H]]; [now apply letter_solid|now apply numeral_solid|]. revert H. now apply listed_solid. Qed.
Lemma ipv4_chars s : an_ipv4 cat s -> Forall (path_char cat) s.
Proof.
  intros (a & b & c & d & -> & H). inversion H as [|? ? [H1 _] T1]; subst. inversion T1 as [|? ? [H2 _] T2]; subst. inversion T2 as [|? ? [H3 _] T3]; subst. inversion T3 as [|? ? [H4 _] T4]; subst.
  assert (G : forall x, digits cat x -> Forall (path_char cat) x) by (intros x; apply Forall_imp; intros y Hy; right; left; now apply digit_numeral).
  assert (Gd : path_char cat dot) by (right; right; cbn; tauto). repeat first [apply Forall_app; split | apply Forall_cons]; auto.
Qed.
Lemma lower_chars s : Forall lower_case s -> Forall (path_char cat) s.
Proof. apply Forall_imp. intros c Hc. left. now apply sane. Qed.
Lemma listed_chars l : forallb (fun x => existsb (N.eqb x) (s2l "_/()~?=&%-#.:") || in_range 97 122 x) l = true -> Forall (path_char cat) l.
Proof.
  intros H. apply Forall_forall. intros c Hc. rewrite forallb_forall in H. specialize (H c Hc). apply orb_true_iff in H as [H|H].
  - apply existsb_exists in H as (x & Hx & E). apply N.eqb_eq in E as ->. now right; right.
  - left. apply sane. unfold in_range in H. apply andb_true_iff in H as [H1 H2]. apply N.leb_le in H1. apply N.leb_le in H2. split; assumption.
Qed.
Lemma port_chars s : a_port cat s -> Forall (path_char cat) s.
Proof. intros [->|(p & -> & H & _)]; [constructor|]. constructor; [right; right; cbn; tauto|]. eapply Forall_imp; [|exact H]. intros y Hy. right. left. now apply digit_numeral. Qed.
Lemma url_solid s : a_url cat s -> Forall solid s.
Proof.
  intros (sch & host & path & ext & -> & Hs & Hh & Hp & He). apply (Forall_imp (path_char cat)); [exact path_char_solid|].
  apply Forall_app. split; [|apply Forall_app; split; [|apply Forall_app; split]].
  - destruct Hs as [->|(Hs & _)]; [constructor|]. destruct Hs as [<-|[<-|[<-|[]]]]; now apply listed_chars.
  - destruct Hh as [(labels & t & -> & _ & Hl & Ht & _)|[(p & -> & Hp')|(a & p & -> & Ha & Hp')]].
    + apply Forall_app. split; [|now apply lower_chars]. clear - Hl. induction Hl as [|l ls (_ & Hl) _ IH]; [constructor|]. cbn [map concat]. apply Forall_app. split; [|exact IH]. apply Forall_app. split.
      * eapply Forall_imp; [|exact Hl]. intros c [H|[H| ->]]; [now left|now right; left|right; right; cbn; tauto].
      * constructor; [right; right; cbn; tauto|constructor].
    + apply Forall_app. split; [now apply listed_chars|now apply port_chars].
    + apply Forall_app. split; [now apply ipv4_chars|now apply port_chars].
  - destruct Hp as [->|(p & -> & Hp)]; [constructor|]. constructor; [right; right; cbn; tauto|exact Hp].
  - destruct He as [->|(x & -> & _ & Hx)]; [constructor|]. constructor; [right; right; cbn; tauto|now apply lower_chars].
Qed.
Lemma email_solid s : an_email s -> Forall solid s.
Proof.
  assert (G : forall l x, forallb (fun x => negb (existsb (N.eqb x) py_spaces)) l = true -> Forall (fun c => ascii_alnum c \/ In c l) x -> Forall solid x).
  { intros l x Hl. apply Forall_imp. intros c [H|H]; [now apply alnum_solid|now apply (listed_solid l)]. }
  intros (a & b & c & -> & (_ & Ha) & (_ & Hb) & (_ & Hc)). apply Forall_app. split; [now apply (G (s2l "_.+-"))|]. constructor; [apply (listed_solid [64]); [reflexivity|now left]|]. apply Forall_app. split.
  - apply (G [hyphen]); [reflexivity|]. eapply Forall_imp; [|exact Hb]. intros x [H| ->]; [now left|right; now left].
  - constructor; [apply (listed_solid [46]); [reflexivity|now left]|]. now apply (G (s2l "-.")).
Qed.
Lemma path_solid s : a_path s -> Forall solid s.
Proof.
  intros (h & segs & e & -> & Hh & _ & Hs & He). assert (Hsl : solid slash) by (apply (listed_solid [47]); [reflexivity|now left]). apply Forall_app. split; [|apply Forall_app; split].
  - destruct Hh as [->|[->| ->]]; [constructor| |]; (constructor; [apply (listed_solid (s2l "~.")); [reflexivity|cbn; tauto]|constructor]).
  - clear Hh He. induction Hs as [|g gs (_ & Hg) _ IH]; [constructor|]. cbn [map concat app]. constructor; [exact Hsl|]. apply Forall_app. split; [|exact IH]. eapply Forall_imp; [|exact Hg]. intros c [H|H]; [now apply alnum_solid|now apply (listed_solid (s2l ".-_"))].
  - destruct He as [->| ->]; repeat constructor. exact Hsl.
Qed.
Lemma percentage_strip s : a_percentage cat bare s -> strip s = s.
Proof.
  intros (p & k & -> & _ & Hn). rewrite bare_id in Hn. apply all_solid. apply Forall_app. split; [now apply number_solid|]. apply Forall_forall. intros c Hc. apply repeat_spec in Hc as ->. apply (listed_solid [37]); [reflexivity|now left].
Qed.
Lemma number_nonempty s : a_number cat s -> s <> [].
Proof. intros [(H & _)|[H|H]]; [exact H| |]; destruct H as (sg & c & t & gs & f & E & _); intros ->; destruct sg; discriminate E. Qed.
Lemma amount_strip s : an_amount cat bare (u_ws U) s -> strip s = s.
Proof.
  intros (c & w & g & -> & Hc & _ & _ & Hn). rewrite bare_id in Hn. apply ends_solid.
  - exists c, (w ++ g). split; [reflexivity|now apply currency_solid].
  - destruct (last_solid g) as (t & d & -> & Hd); [now apply number_nonempty|now apply number_solid|]. exists (c :: w ++ t), d. split; [|exact Hd]. cbn. now rewrite <- app_assoc.
Qed.
Lemma lstrip_stop f (c : N) l k : f c = false -> lstrip_by f (l ++ c :: k) = lstrip_by f l ++ c :: k.
Proof. intros H. induction l as [|x l IH]; cbn [app lstrip_by]; [now rewrite H|]. destruct (f x); [exact IH|reflexivity]. Qed.
Lemma strip_behind s x c r : (exists d t, s = d :: t /\ solid d) -> s = x ++ c :: r -> solid c -> exists r' w, strip s = x ++ c :: r' /\ r = r' ++ w.
Proof.
  intros (d & t & E1 & H1) E2 H2. unfold solid in *. assert (E : lstrip_by (u_space U) s = s) by (rewrite E1; cbn [lstrip_by]; now rewrite H1).
  destruct (rstrip_prefix (u_space U) r) as (w & Ew). exists (rstrip_by (u_space U) r), w. split; [|exact Ew].
  unfold Types.strip, strip_by. rewrite E, E2. unfold rstrip_by. rewrite rev_app_distr. cbn [rev]. rewrite <- app_assoc. cbn [app]. rewrite lstrip_stop by exact H2. rewrite rev_app_distr. cbn [rev]. rewrite rev_involutive, <- app_assoc. reflexivity.
Qed.
Lemma datetime_strip s : a_datetime cat bare s -> a_datetime cat bare (strip s).
Proof.
  intros H. assert (H0 := H).
  assert (F : forall d r, a_date cat d -> exists c t, d ++ r = c :: t /\ solid c).
  { intros d r Hd. apply date_ends in Hd as [(c & t & -> & Hc) _]. exists c, (t ++ r). now split. }
  assert (T : forall t, a_time t -> t <> [] /\ Forall solid t).
  { intros t Ht. split; [|now apply time_solid]. destruct Ht as [(h & mi & -> & _)|[(h & mi & se & -> & _)|(h & mi & se & sg & zh & zm & -> & _)]]; destruct h; discriminate. }
  assert (L : forall a t, t <> [] -> Forall solid t -> exists u c, a ++ t = u ++ [c] /\ solid c).
  { intros a t H1 H2. destruct (last_solid t H1 H2) as (u & c & -> & Hc). exists (a ++ u), c. split; [now rewrite app_assoc|exact Hc]. }
  assert (Fix : (exists u c, s = u ++ [c] /\ solid c) -> a_datetime cat bare (strip s)).
  { intros Hu. rewrite ends_solid; [exact H0| |exact Hu]. destruct H as [(d & t & -> & _ & _ & Hd & _)|(d & t & -> & _ & _ & _ & Hd & _)]; rewrite bare_id in Hd; now apply F. }
  destruct H as [(d & t & E & _ & _ & Hd & Ht)|(d & t & E & N1 & N2 & N3 & Hd & Ht)]; rewrite bare_id in Hd.
  - apply Fix. rewrite bare_id in Ht. apply T in Ht as [T1 T2]. subst s. replace (d ++ SPACE :: t) with ((d ++ [SPACE]) ++ t) by now rewrite <- app_assoc. now apply L.
  - assert (Es : s = (d ++ [T_char]) ++ t) by (rewrite E, <- app_assoc; reflexivity).
    assert (Z : forall sg, solid sg -> with_zone bare sg t -> (exists u c, s = u ++ [c] /\ solid c) \/
      exists t' w, strip s = d ++ T_char :: t' /\ t = t' ++ w /\ In sg t' /\ with_zone bare sg t').
    { intros sg Hsg (a & b & rest & -> & A1 & B1 & Hr & Ha & Hb). destruct Hr as [->|(r & ->)].
      - left. rewrite app_nil_r in Es. assert (Eb : s = ((d ++ [T_char]) ++ a ++ [sg]) ++ b) by (rewrite Es, <- !app_assoc; reflexivity). rewrite Eb.
        unfold zone in Hb. rewrite bare_id in Hb. destruct Hb as [Hb|Hb]; [apply T in Hb as [B1' B2']; now apply L|]. apply L; [|now apply hhmm_solid]. destruct Hb as (h & mi & -> & (v & (x & y & -> & _) & _) & _). discriminate.
      - right. assert (Eb : s = ((d ++ [T_char]) ++ a ++ sg :: b) ++ sg :: r) by (rewrite Es, <- !app_assoc; reflexivity).
        destruct (strip_behind s ((d ++ [T_char]) ++ a ++ sg :: b) sg r) as (r' & w & K1 & K2); [rewrite E; now apply F|exact Eb|exact Hsg|].
        exists (a ++ sg :: b ++ sg :: r'), w. repeat split.
        + rewrite K1, <- !app_assoc. reflexivity.
        + rewrite K2, <- !app_assoc. cbn [app]. now rewrite <- app_assoc.
        + apply in_elt.
        + exists a, b, (sg :: r'). repeat split; try assumption. right. now exists r'. }
    assert (Keep : forall sg t' w, strip s = d ++ T_char :: t' -> t = t' ++ w -> a_datetime cat bare (strip s) \/ True -> (with_zone bare sg t' -> In sg t' -> sg = plus_char \/ sg = hyphen /\ ~ In plus_char t -> with_zone bare sg t' -> a_datetime cat bare (strip s))).
    { intros sg t' w K1 K2 _ _ Hi Hsg Hz. right. exists d, t'. split; [exact K1|]. split; [intros K; apply N1; rewrite K1 in K; rewrite E, K2; apply in_app_or in K as [K|[K|K]]; apply in_or_app; [now left|right; now left|right; right; apply in_or_app; now left]|].
      split; [exact N2|]. split; [intros K; apply N3; rewrite K2; apply in_or_app; now left|]. split; [now rewrite bare_id|]. destruct Hsg as [->|(-> & Hn)]; [right; right; left; now split|right; right; right].
      split; [intros K; apply Hn; rewrite K2; apply in_or_app; now left|now split]. }
    destruct Ht as [Ht|[(u & -> & Ht)|[(Hi & Ht)|(Hn & Hi & Ht)]]].
    + apply Fix. rewrite bare_id in Ht. apply T in Ht as [T1 T2]. rewrite Es. now apply L.
    + apply Fix. rewrite Es, app_assoc. exists ((d ++ [T_char]) ++ u), Z_char. split; [reflexivity|]. apply (listed_solid [90]); [reflexivity|now left].
    + destruct (Z plus_char) as [K|(t' & w & K1 & K2 & K3 & K4)]; [apply (listed_solid [43]); [reflexivity|now left]|exact Ht|now apply Fix|]. apply (Keep plus_char t' w); auto.
    + destruct (Z hyphen) as [K|(t' & w & K1 & K2 & K3 & K4)]; [apply (listed_solid [45]); [reflexivity|now left]|exact Ht|now apply Fix|]. apply (Keep hyphen t' w); auto.
Qed.
Lemma text_strip q s : a_text cat q s -> strip s = [] \/ a_text cat q (strip s).
Proof.
  intros (_ & H). destruct (strip s) as [|c t] eqn:E; [now left|right]. split; [discriminate|]. rewrite <- E. apply Forall_forall. intros x Hx. rewrite Forall_forall in H. apply H. revert Hx. unfold Types.strip, strip_by. intros Hx.
  destruct (rstrip_prefix (u_space U) (lstrip_by (u_space U) s)) as (w & Ew). destruct (lstrip_suffix (u_space U) s) as (v & Ev). rewrite Ev. apply in_or_app. right. rewrite Ew. apply in_or_app. now left.
Qed.
Lemma missing_strip s : missing (u_lower U) s -> strip s = s.
Proof. intros H. apply all_solid. apply spaces in H. eapply Forall_imp; [|exact H]. intros c. apply not_space. Qed.
Lemma bytearray_strip s : a_bytearray s -> strip s = s.
Proof.
  intros ((t & E1) & u & E2). apply ends_solid.
  - exists 98. eexists. split; [rewrite E1; reflexivity|]. apply (listed_solid [98]); [reflexivity|now left].
  - exists u, 41. split; [rewrite E2; reflexivity|]. apply (listed_solid [41]); [reflexivity|now left].
Qed.
Lemma braces_strip s : in_braces s -> strip s = s.
Proof.
  intros ((t & E1) & u & E2). apply ends_solid.
  - exists 123, t. split; [rewrite E1; reflexivity|]. apply (listed_solid [123]); [reflexivity|now left].
  - exists u, 125. split; [rewrite E2; reflexivity|]. apply (listed_solid [125]); [reflexivity|now left].
Qed.
(** A type that the text has without stripping: the stripped text has it as well,
    or is empty. *)
Lemma raw_type_kept q s n P : In (n, P) (types (unstripped U) q) -> P s -> strip s = [] \/ P (strip s).
Proof.
  assert (K : strip s = s -> P s -> strip s = [] \/ P (strip s)) by (intros E; rewrite E; now right).
  unfold types, cell_types. cbn [u_cat u_ws u_lower unstripped]. intros H HP.
  repeat (destruct H as [H|H]; [injection H as <- <-|]).
  - left. now rewrite HP.
  - apply K; [now apply all_solid, url_solid|exact HP].
  - apply K; [now apply all_solid, email_solid|exact HP].
  - apply K; [|exact HP]. apply all_solid. apply ipv4_chars in HP. eapply Forall_imp; [|exact HP]. exact path_char_solid.
  - apply K; [now apply all_solid, number_solid|exact HP].
  - apply K; [now apply all_solid, time_solid|exact HP].
  - apply K; [now apply percentage_strip|exact HP].
  - apply K; [now apply amount_strip|exact HP].
  - apply K; [now apply all_solid, path_solid|exact HP].
  - apply K; [now apply missing_strip|exact HP].
  - apply K; [now apply date_strip|exact HP].
  - right. now apply datetime_strip.
  - now apply text_strip.
  - apply K; [now apply bytearray_strip|exact HP].
  - apply K; [apply braces_strip; apply HP|exact HP].
  - destruct H.
Qed.
Lemma related_right q s n P : In (n, P) (types (unstripped U) q) -> P s -> exists P', In (n, P') (types U q) /\ P' s.
Proof.
  generalize (types_related q s). generalize (types (unstripped U) q) (types U q). intros l l' F. induction F as [|[a A] [b B] l l' (E & H & _) F IH]; [intros []|]. cbn [fst snd] in *. subst b. intros [[= <- <-]|Hin] HP.
  - exists B. split; [now left|now apply H].
  - destruct (IH Hin HP) as (P' & H1 & H2). exists P'. split; [now right|exact H2].
Qed.
Theorem stripping_keeps_known cell q :
  is_known_type_o U (DEFAULT_TYPE_REGEXES U) false cell q = Ok true -> is_known_type_o U (DEFAULT_TYPE_REGEXES U) true cell q = Ok true.
Proof.
  rewrite !known_default. cbn [effective]. intros H. apply (is_known_iff (unstripped U) sane isdigit_ok) in H as (n & P & Hin & HP). rewrite bare_id in HP. apply (is_known_iff U sane isdigit_ok).
  destruct (raw_type_kept q cell n P Hin HP) as [E|HP'].
  - exists "empty"%string, (fun s => s = []). split; [now left|exact E].
  - destruct (related_right q (strip cell) n P Hin HP') as (P' & H1 & H2). now exists n, P'.
Qed.
Theorem stripped_before cell q name : ~ In name composed ->
  detect_type_o U (DEFAULT_TYPE_REGEXES U) true cell q = Ok (Some name) -> detect_type_o U (DEFAULT_TYPE_REGEXES U) false (strip cell) q = Ok (Some name).
Proof.
  rewrite !detect_default. cbn [effective]. intros Hc H. apply (detect_type_some U sane isdigit_ok) in H. apply (detect_type_some (unstripped U) sane isdigit_ok). rewrite bare_id.
  destruct H as (a & P & b & E & HP & Ha). pose proof (types_related q (strip cell)) as R. rewrite E in R. apply Forall2_app_inv_r in R as (a0 & r0 & Fa & Fr & E0).
  inversion Fr as [|[n0 P0] ? b0 ? (En & _ & Hn) Fb]; subst. cbn [fst snd] in *. subst n0. exists a0, P0, b0. split; [exact E0|]. split.
  - destruct Hn as [Hn|Hn]; [contradiction|now apply Hn].
  - intros n Q HQ K. clear - Fa Ha HQ K. induction Fa as [|[x X] [y Y] a0 a (Ex & Hx & _) F IH]; [destruct HQ|]. cbn [fst snd] in *. subst y. destruct HQ as [[= -> ->]|HQ].
    + apply (Ha n Y); [now left|now apply Hx].
    + apply IH; [|exact HQ]. intros m R HR. apply (Ha m R). now right.
Qed.
End Spaces.

(** ** [gen_known_type] *)
Theorem gen_known U cells :
  exists n, (n <= length cells)%nat /\
    map (fun c => is_known_type U c false) (firstn n cells) = map Ok (fst (gen_known_type U cells)) /\
    match snd (gen_known_type U cells) with
    | None => n = length cells
    | Some x => exists c, nth_error cells n = Some c /\ is_known_type U c false = Err x
    end.
Proof.
  induction cells as [|c cells (n & Hn & IH1 & IH2)]; [exists 0%nat; now repeat split|]. cbn [gen_known_type]. cbn [init_patterns]. rewrite known_default. cbn [effective]. destruct (is_known_type U c false) as [b|x] eqn:E.
  - exists (S n). destruct (gen_known_type U cells) as [l x]. cbn [fst snd firstn map length nth_error] in *. rewrite E, IH1. split; [lia|]. split; [reflexivity|]. destruct x; [exact IH2|now rewrite IH2].
  - exists 0%nat. cbn. split; [lia|]. split; [reflexivity|]. exists c. now split.
Qed.

(** ** Concrete cases *)
Lemma ascii_spaces : sane_spaces ascii_data.
Proof.
  split; [|split].
  - intros c H. cbn [ascii_data u_space] in H. unfold ascii_space in H. rewrite !orb_true_iff, !andb_true_iff, !N.leb_le, N.eqb_eq in H.
    assert (K : c = 9 \/ c = 10 \/ c = 11 \/ c = 12 \/ c = 13 \/ c = 28 \/ c = 29 \/ c = 30 \/ c = 31 \/ c = 32) by lia. clear H. unfold py_spaces. cbn. intuition.
  - intros c H. cbn [ascii_data u_cat]. unfold a_letter, a_numeral, a_currency.
    assert (E : forallb (fun c => negb (starts_with [76] (MaskedFacts.ascii_cat c)) && negb (starts_with [78] (MaskedFacts.ascii_cat c)) && negb (str_eqb (MaskedFacts.ascii_cat c) (s2l "Sc"))) py_spaces = true) by (vm_compute; reflexivity).
    rewrite forallb_forall in E. specialize (E c H). apply andb_true_iff in E as [E E3]. apply andb_true_iff in E as [E1 E2]. repeat split.
    + intros (t & K). rewrite K in E1. discriminate E1.
    + intros (t & K). rewrite K in E2. discriminate E2.
    + intros K. rewrite K in E3. discriminate E3.
  - intros s H. cbn [ascii_data u_lower] in H. apply Forall_forall. intros c Hc K.
    assert (E : forallb (fun c => negb (existsb (N.eqb (ascii_lower c)) (s2l "n/a"))) py_spaces = true) by (vm_compute; reflexivity).
    rewrite forallb_forall in E. specialize (E c K). apply (in_map ascii_lower) in Hc. unfold missing in H.
    assert (Hin : In (ascii_lower c) (s2l "n/a")).
    { destruct H as [H|[H|[H|[]]]]; rewrite <- H in Hc; cbn in Hc |- *; tauto. }
    assert (Ex : existsb (N.eqb (ascii_lower c)) (s2l "n/a") = true) by (apply existsb_exists; exists (ascii_lower c); split; [exact Hin|apply N.eqb_refl]). rewrite Ex in E. discriminate E.
Qed.
(** Removing a key from a dictionary. *)
Lemma pattern_removed key ps name p :
  get_pattern (filter (fun x => negb (String.eqb (fst x) key)) ps) name = Some p -> get_pattern ps name = Some p.
Proof.
  unfold get_pattern. induction ps as [|[k v] ps IH]; [discriminate|]. cbn [filter fst find]. destruct (String.eqb k key) eqn:E; cbn [negb].
  - intros H. destruct (String.eqb k name) eqn:E2; [|now apply IH]. exfalso. apply String.eqb_eq in E. apply String.eqb_eq in E2. subst k name.
    destruct (find (fun x : string * pattern => String.eqb (fst x) key) (filter (fun x : string * pattern => negb (String.eqb (fst x) key)) ps)) as [y|] eqn:F; [|discriminate H].
    apply find_some in F as [F1 F2]. apply filter_In in F1 as [_ F1]. rewrite F2 in F1. discriminate F1.
  - cbn [find fst]. destruct (String.eqb k name); [intros H; exact H|exact IH].
Qed.

(** A currency pattern whose group 1 took no part in the match. *)
Lemma no_group U ps p cell : get_pattern ps "currency" = Some p -> p cell = Some (Ok None) ->
  is_currency_o U ps true cell = Err AttributeError /\
  (forall n, get_pattern ps "number_1" = Some n -> is_currency_o U ps false cell = Err TypeError).
Proof. intros H1 H2. unfold is_currency_o, is_number_none. rewrite H1, H2. cbn [bind]. split; [reflexivity|]. now intros n ->. Qed.
