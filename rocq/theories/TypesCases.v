(** * TypesCases: consequences and concrete cells *)
From Coq Require Import String Permutation.
From Verif Require Import Base Parser Dialect SpecParse Potential SpecPotential PotentialFacts MaskedFacts
  Floats Consistency SpecConsistency TypeFacts DetectFacts
  Json JsonScan Regex RegexFacts Types SpecTypes TypesFacts TypesText TypesNumber TypesDate TypesUrl TypesAll TypesJson TypesDetect.
Open Scope N_scope.
Local Notation len := List.length.

(** ** The characters of numbers and dates *)
Section Chars.
Variable cat : N -> str.
Definition number_char (c : N) : Prop := digit cat c \/ In c (s2l "+-.,eE").
Hypothesis sane : sane_categories cat.
Lemma digits_number s : digits cat s -> Forall number_char s.
Proof. intros H. eapply Forall_impl; [|exact H]. intros c Hc. now left. Qed.
Lemma sign_number s : a_sign s -> Forall number_char s.
Proof. intros [->|[->| ->]]; cbn; auto using Forall_nil; apply Forall_cons; auto using Forall_nil; right; cbn; tauto. Qed.
Lemma ascii_number c : ascii_digit c -> number_char c.
Proof. intros H. left. now apply sane. Qed.
Lemma whole_number s : whole cat s -> Forall number_char s.
Proof.
  intros [->|(c & t & -> & Hc & Ht)]; [cbn; apply Forall_cons; [apply ascii_number; unfold ascii_digit; lia|apply Forall_nil]|].
  constructor; [apply ascii_number; unfold ascii_digit; lia|now apply digits_number].
Qed.
Lemma expo_number s : expo cat s -> Forall number_char s.
Proof.
  intros (e & sg & t & -> & He & Hs & _ & Ht). constructor.
  - right. cbn in *. tauto.
  - apply Forall_app. split; [now apply sign_number|now apply digits_number].
Qed.
Lemma number_chars s : a_number cat s -> Forall number_char s.
Proof.
  assert (HE : forall x, x = [] \/ expo cat x -> Forall number_char x) by (intros x [->|H]; [constructor|now apply expo_number]).
  assert (HG : forall sep dec s, In sep (s2l "+-.,eE") -> In dec (s2l "+-.,eE") -> grouped_number cat sep dec s -> Forall number_char s).
  { intros sep dec t Hsep Hdec (sg & c & u & gs & f & -> & Hs & Hc & Hu & _ & _ & Hg & Hf). apply Forall_app. split; [now apply sign_number|].
    apply Forall_app. split; [constructor; [apply ascii_number; unfold ascii_digit; lia|now apply digits_number]|]. apply Forall_app. split.
    - induction Hg as [|g gs (Hg & _) H IH]; [constructor|]. cbn. constructor; [now right|]. apply Forall_app. split; [now apply digits_number|exact IH].
    - constructor; [now right|now apply digits_number]. }
  intros [(_ & sg & w & r & -> & Hs & Hw & Hr)|[H|H]]; [|apply (HG COMMA dot); auto; cbn; tauto|apply (HG dot COMMA); auto; cbn; tauto].
  apply Forall_app. split; [now apply sign_number|]. apply Forall_app. split; [destruct Hw as [->|Hw]; [constructor|now apply whole_number]|].
  destruct Hr as [->|[(_ & Hr)|[(f & x & -> & Hf & _ & Hx)|(f & x & -> & Hf & _ & Hx)]]]; [constructor|now apply expo_number| |].
  - constructor; [right; cbn; tauto|]. apply Forall_app. split; [now apply digits_number|]. now apply HE.
  - constructor; [right; cbn; tauto|]. apply Forall_app. split; [now apply digits_number|]. apply HE. tauto.
Qed.
(** Every whole number without leading zeros is a number, with or without sign. *)
Lemma whole_is_number sg w : a_sign sg -> whole cat w -> a_number cat (sg ++ w).
Proof.
  intros Hs Hw. left. split.
  - intros E. apply app_eq_nil in E as (_ & ->). destruct Hw as [Hw|(c & t & Hw & _)]; discriminate.
  - exists sg, w, []. rewrite app_nil_r. repeat split; auto. now left.
Qed.
(** A sign alone is a number. *)
Lemma sign_is_number : a_number cat (s2l "+") /\ a_number cat (s2l "-").
Proof.
  split; left; (split; [discriminate|]); [exists (s2l "+"), [], []|exists (s2l "-"), [], []]; (split; [reflexivity|split; [|split; [now left|now left]]]);
    unfold a_sign; auto.
Qed.
End Chars.

Lemma strip_ends f c s d : f c = false -> f d = false -> strip_by f (c :: s ++ [d]) = c :: s ++ [d].
Proof.
  intros Hc Hd. unfold strip_by. rewrite lstrip_fixed by exact Hc. unfold rstrip_by. cbn [rev]. rewrite rev_app_distr. cbn [rev app].
  cbn [lstrip_by]. rewrite Hd. cbn [rev]. rewrite rev_app_distr, rev_involutive. reflexivity.
Qed.

(** ** Objects that cannot be read *)
Section Braces.
Variable U : unidata.
Local Notation cat := (u_cat U).
Hypothesis sane : sane_categories cat.
Hypothesis isdigit_ok : forall c, digit cat c -> u_isdigit U c = true.
Hypothesis brace_cat : cat 123 = s2l "Ps".
Hypothesis brace_space : u_space U 123 = false /\ u_space U 125 = false.
Hypothesis brace_lower : forall t, exists t', u_lower U (123 :: t) = 123 :: t'.
Hypothesis some_depth : (1 <= u_depth U)%nat.

Lemma brace_raises body q x : loads (u_maxdigits U) (u_depth U) (s2l "{" ++ body ++ s2l "}") = Err x -> x <> JSONDecodeError ->
  detect_type U (s2l "{" ++ body ++ s2l "}") q = Err x.
Proof.
  intros H Hx. set (cell := s2l "{" ++ body ++ s2l "}") in *.
  assert (Es : strip U cell = cell) by (apply (strip_ends (u_space U) 123 body 125); tauto).
  destruct (brace_type U sane isdigit_ok brace_cat (proj1 brace_space) brace_lower cell q (body ++ s2l "}")) as [HB _]; [exact Es|].
  rewrite HB, Es, H; [now destruct x|]. rewrite Es. split; [now exists (body ++ s2l "}")|]. exists (s2l "{" ++ body). unfold cell. now rewrite <- app_assoc.
Qed.
Lemma long_integer_raises c ds q : 49 <= c <= 57 -> Forall ascii_digit ds -> (u_maxdigits U <= len ds)%nat ->
  detect_type U (s2l "{""a"":" ++ c :: ds ++ s2l "}") q = Err ValueError.
Proof.
  intros Hc Hd Hl. change (s2l "{""a"":" ++ c :: ds ++ s2l "}") with (s2l "{" ++ (s2l """a"":" ++ c :: ds) ++ s2l "}").
  apply brace_raises; [|discriminate].
  change (s2l "{" ++ (s2l """a"":" ++ c :: ds) ++ s2l "}") with (s2l "{""a"":" ++ c :: ds ++ s2l "}").
  destruct (u_depth U) as [|d]; [lia|]. now apply long_integer.
Qed.
Lemma deep_nesting_raises rest q :
  detect_type U (s2l "{""a"":" ++ repeat 91 (u_depth U) ++ rest ++ s2l "}") q = Err RecursionError.
Proof.
  assert (E : s2l "{""a"":" ++ repeat 91 (u_depth U) ++ rest ++ s2l "}" = s2l "{" ++ (s2l """a"":" ++ repeat 91 (u_depth U) ++ rest) ++ s2l "}").
  { cbn. now rewrite <- app_assoc. }
  rewrite E. apply brace_raises; [|discriminate]. rewrite <- E. destruct (u_depth U) as [|d]; [lia|]. apply deep_nesting.
Qed.
(** A file that holds one such object cannot be detected. *)
Lemma long_integer_aborts O o_set capacity skip user old c ds : any_orders O ->
  49 <= c <= 57 -> Forall ascii_digit ds -> (u_maxdigits U <= len ds)%nat ->
  let data := s2l "{""a"":" ++ c :: ds ++ s2l "}" in
  detect cat (shipped_url U) (is_known_type U) O o_set capacity skip data user old = (Err ValueError, (Z.of_nat (len data) + 1)%Z).
Proof.
  intros HO Hc Hd Hl data.
  assert (HF : forall x, In x data -> In x (s2l "{""a"":}") \/ ascii_digit x).
  { intros x Hx. unfold data in Hx. rewrite in_app_iff in Hx. destruct Hx as [Hx|[<-|Hx]].
    - left. cbn in *. tauto.
    - right. unfold ascii_digit. lia.
    - rewrite in_app_iff in Hx. destruct Hx as [Hx|Hx]; [right; rewrite Forall_forall in Hd; auto|]. left. cbn in *. tauto. }
  assert (NF : forall x, ~ In x (s2l "{""a"":}") -> ~ ascii_digit x -> ~ In x data) by (intros x H1 H2 H3; destruct (HF x H3); contradiction).
  assert (HN : forall x, In x data -> 32 <= x <= 126).
  { intros x Hx. apply HF in Hx as [Hx|Hx]; [|unfold ascii_digit in Hx; lia]. cbn in Hx. intuition (subst; lia). }
  assert (HL : line_ok data).
  { split; [discriminate|]. apply Forall_forall. intros x Hx. apply HN in Hx. unfold NUL, CR, LF. lia. }
  assert (EK : is_known_type U data false = Err ValueError) by (apply known_errors; now apply long_integer_raises).
  destruct (lines_raise (is_known_type U) [] data data ValueError) as (y & l' & E & Hi & Hy); [constructor|now right| |exact EK|].
  { unfold lines_of. cbn. now left. }
  change (text_of [] data) with data in E.
  apply detect_first; auto.
  - intros x Hx. apply (url_sub_In _ _ (filter_urls_sub _ _)) in Hx as [Hx| ->]; [|reflexivity]. apply HN in Hx.
    unfold surrogate. apply andb_false_iff. left. apply N.leb_gt. lia.
  - apply NF; [cbn; unfold COMMA; lia|unfold ascii_digit, COMMA; lia].
  - apply NF; [cbn; unfold SEMI; lia|unfold ascii_digit, SEMI; lia].
  - rewrite E. f_equal. destruct Hi as [<-|[]]. congruence.
Qed.
End Braces.

(** ** ASCII *)
Definition ascii_space (c : N) : bool := (c =? 32) || ((9 <=? c) && (c <=? 13)) || ((28 <=? c) && (c <=? 31)).
Definition ascii_lower (c : N) : N := if (65 <=? c) && (c <=? 90) then c + 32 else c.
(** Unicode data for ASCII, and small limits for the JSON reader. *)
Definition ascii_data : unidata :=
  mk_unidata ascii_cat ascii_space ascii_space (fun c => (48 <=? c) && (c <=? 57)) (map ascii_lower) 4 3.
Lemma ascii_table (P : N -> str -> bool) : (forall c, 128 <= c -> P c (s2l "Cn") = true) ->
  forallb (fun n => P (N.of_nat n) (ascii_cat (N.of_nat n))) (seq 0 128) = true -> forall c, P c (ascii_cat c) = true.
Proof.
  intros H1 H2 c. destruct (N.lt_ge_cases c 128) as [Hc|Hc].
  - rewrite forallb_forall in H2. specialize (H2 (N.to_nat c)). rewrite N2Nat.id in H2. apply H2. apply in_seq. lia.
  - replace (ascii_cat c) with (s2l "Cn"); [auto|]. unfold ascii_cat.
    destruct (c <? 32) eqn:E; [apply N.ltb_lt in E; lia|]. destruct (c =? 127) eqn:E0; [apply N.eqb_eq in E0; lia|].
    destruct (c =? 32) eqn:E1; [apply N.eqb_eq in E1; lia|].
    destruct (c <=? 57) eqn:E2; [apply N.leb_le in E2; lia|]. destruct (c <=? 90) eqn:E3; [apply N.leb_le in E3; lia|].
    destruct (c <=? 122) eqn:E4; [apply N.leb_le in E4; lia|]. rewrite !andb_false_r. cbn [orb].
    assert (M : forall l, Forall (fun x => x < 128) l -> mem_char c l = false).
    { intros l Hl. apply not_true_is_false. intros Hm. apply mem_char_In in Hm. rewrite Forall_forall in Hl. apply Hl in Hm. lia. }
    rewrite !M by (cbn; repeat constructor). 
    destruct (c =? 36) eqn:E5; [apply N.eqb_eq in E5; lia|]. destruct (c =? 45) eqn:E6; [apply N.eqb_eq in E6; lia|].
    destruct (c =? 95) eqn:E7; [apply N.eqb_eq in E7; lia|]. reflexivity.
Qed.
Lemma ascii_sane : sane_categories ascii_cat.
Proof.
  assert (H : forall c, (implb ((48 <=? c) && (c <=? 57)) (str_eqb (ascii_cat c) (s2l "Nd")) &&
    implb (str_eqb (ascii_cat c) (s2l "Nd")) ((48 <=? c) && (c <=? 57)) &&
    implb ((97 <=? c) && (c <=? 122)) (starts_with (s2l "L") (ascii_cat c)))%bool = true).
  { apply (ascii_table (fun c s => (implb ((48 <=? c) && (c <=? 57)) (str_eqb s (s2l "Nd")) &&
      implb (str_eqb s (s2l "Nd")) ((48 <=? c) && (c <=? 57)) && implb ((97 <=? c) && (c <=? 122)) (starts_with (s2l "L") s))%bool)); [|reflexivity].
    intros c Hc. destruct (c <=? 57) eqn:E; [apply N.leb_le in E; lia|]. destruct (c <=? 122) eqn:E0; [apply N.leb_le in E0; lia|].
    rewrite !andb_false_r. reflexivity. }
  split; [|split]; intros c.
  - intros (H1 & H2). specialize (H c). apply andb_true_iff in H as (H & _). apply andb_true_iff in H as (H & _).
    apply N.leb_le in H1, H2. rewrite H1, H2 in H. cbn [implb andb] in H. now apply str_eqb_eq.
  - intros _ Hd. specialize (H c). apply andb_true_iff in H as (H & _). apply andb_true_iff in H as (_ & H).
    unfold digit in Hd. rewrite Hd in H. cbn [str_eqb] in H. change (implb true ((48 <=? c) && (c <=? 57)) = true) in H. cbn [implb] in H.
    apply andb_true_iff in H as (H1 & H2). apply N.leb_le in H1, H2. split; assumption.
  - intros (H1 & H2). specialize (H c). apply andb_true_iff in H as (_ & H). apply N.leb_le in H1, H2. rewrite H1, H2 in H. cbn [implb andb] in H.
    destruct (ascii_cat c) as [|x t] eqn:E; [discriminate|]. change (((76 =? x) && true)%bool = true) in H. apply andb_true_iff in H as (Hx & _). apply N.eqb_eq in Hx. exists t. rewrite E. now f_equal.
Qed.
Lemma ascii_isdigit c : digit ascii_cat c -> u_isdigit ascii_data c = true.
Proof.
  intros Hd. destruct (N.lt_ge_cases c 128) as [Hc|Hc].
  - apply ascii_sane in Hd as (H1 & H2); [|exact Hc]. cbn. apply andb_true_iff. split; now apply N.leb_le.
  - exfalso. assert (H := ascii_table (fun c s => (c <? 128) || negb (str_eqb s (s2l "Nd")))%bool).
    assert (E : ((c <? 128) || negb (str_eqb (ascii_cat c) (s2l "Nd")))%bool = true).
    { apply H; [intros x Hx; now rewrite orb_true_r|reflexivity]. }
    unfold digit in Hd. rewrite Hd in E. apply N.ltb_ge in Hc. rewrite Hc in E. discriminate.
Qed.
Definition ascii_type (s : string) : res pyexc (option string) := detect_type ascii_data (s2l s) false.
Lemma ascii_parts : ascii_cat 123 = s2l "Ps" /\ (u_space ascii_data 123 = false /\ u_space ascii_data 125 = false) /\
  (forall t, exists t', u_lower ascii_data (123 :: t) = 123 :: t') /\ (1 <= u_depth ascii_data)%nat.
Proof. split; [reflexivity|]. split; [now split|]. split; [intros t; cbn; eauto|]. cbn. lia. Qed.

(** The type score with the shipped detector, in one statement. *)
Lemma shipped_share U limit data d : sane_categories (u_cat U) -> (forall c, digit (u_cat U) c -> u_isdigit U c = true) ->
  validate d = true -> sd_strict d = false -> (Z.of_nat (len data) <= limit)%Z -> ~ In NUL data ->
  exists rows, parse_string limit data d true = (mk_rows true rows, None) /\
    ((forall s q, In (s, q) (concat rows) -> exists t, detect_type U s q = Ok t) ->
     exists kb, (forall s q, kb s q = true <-> exists name P, In (name, P) (types U q) /\ P (strip U s)) /\
       type_score (is_known_type U) limit data d = Ok (type_share kb (concat rows))) /\
    (forall s q x, In (s, q) (concat rows) -> detect_type U s q = Err x ->
     exists y, type_score (is_known_type U) limit data d = Err y /\ (y = ValueError \/ y = RecursionError)).
Proof.
  intros Hs Hd Hv Hst HL Hn. destruct (shipped_type_score U Hs Hd limit data d Hv Hst HL Hn) as (rows & E & H1 & H2).
  exists rows. split; [exact E|]. split.
  - intros H. exists (known_bool U). split; [now apply known_bool_iff|]. apply H1. intros s q Hi. destruct (H s q Hi) as (t & Ht).
    unfold is_known_type. rewrite Ht. cbn [bind]. eauto.
  - intros s q x Hi Hx. apply (H2 s q x Hi). now apply known_errors.
Qed.
Lemma shipped_share_one U limit data d rows T : sane_categories (u_cat U) -> (forall c, digit (u_cat U) c -> u_isdigit U c = true) ->
  validate d = true -> sd_strict d = false -> (Z.of_nat (len data) <= limit)%Z -> ~ In NUL data ->
  parse_string limit data d true = (mk_rows true rows, None) -> (Z.of_nat (len (concat rows)) <= 2 ^ 53)%Z ->
  type_score (is_known_type U) limit data d = Ok T ->
  fleb eps_type T = true /\ fleb T fone = true /\
  (T = fone <-> concat rows <> [] /\ forall s q, In (s, q) (concat rows) -> exists name P, In (name, P) (types U q) /\ P (strip U s)).
Proof.
  intros Hs Hd Hv Hst HL Hn E H53 HT. destruct (shipped_share U limit data d Hs Hd Hv Hst HL Hn) as (rows' & E' & H1 & H2).
  assert (ER : rows' = rows).
  { rewrite E in E'. injection E' as E'. symmetry. clear -E'. revert rows' E'. unfold mk_rows. induction rows as [|r rows IH]; intros [|r' rows'] E'; try discriminate; [reflexivity|].
    cbn in E'. injection E' as Er Es. f_equal; [|now apply IH]. clear -Er. revert r' Er. induction r as [|[s q] r IH]; intros [|[s' q'] r'] Er; try discriminate; [reflexivity|].
    cbn in Er. injection Er as -> -> Er. f_equal. now apply IH. }
  subst rows'. destruct H1 as (kb & Hk & HT').
  - intros s q Hi. destruct (detect_type U s q) as [t|x] eqn:Et; [eauto|]. destruct (H2 s q x Hi Et) as (y & Hy & _). congruence.
  - assert (T = type_share kb (concat rows)) as -> by congruence. destruct (share_bounds kb (concat rows) H53) as (B1 & B2 & B3).
    split; [exact B1|]. split; [exact B2|]. rewrite B3. split; intros (Hne & HA); (split; [exact Hne|]); intros s q Hi; apply Hk; eauto.
Qed.
(** A colon that separates addresses is part of the first address. *)
Lemma colon_lost : exists data, default_delimiter ascii_cat colon /\ In colon data /\
  ~ In colon (filter_urls (shipped_url ascii_data) data).
Proof.
  exists (s2l "a.io/1:b.io/2"). split; [|split]; [|cbn; unfold colon; tauto|].
  2:{ assert (E : filter_urls (shipped_url ascii_data) (s2l "a.io/1:b.io/2") = s2l "U") by reflexivity. rewrite E. cbn. unfold colon. intuition lia. }
  right. split; [cbn; unfold colon; intuition lia|]. cbn. intuition discriminate.
Qed.
Lemma delimiter_lost : exists U c data, sane_categories (u_cat U) /\ default_delimiter (u_cat U) c /\ In c data /\
  ~ In c (filter_urls (shipped_url U) data).
Proof. destruct colon_lost as (data & H). exists ascii_data, colon, data. split; [exact ascii_sane|exact H]. Qed.
Lemma raises_only U : sane_categories (u_cat U) -> (forall c, digit (u_cat U) c -> u_isdigit U c = true) -> forall cell q x,
  detect_type U cell q = Err x -> in_braces (strip U cell) /\ (x = ValueError \/ x = RecursionError).
Proof. intros Hs Hd cell q x H. split; [now apply (detect_type_err U Hs Hd) in H|]. now apply (detect_type_errors U Hs Hd) in H. Qed.
Lemma no_brace_detect U : sane_categories (u_cat U) -> (forall c, digit (u_cat U) c -> u_isdigit U c = true) ->
  forall O o_set capacity skip data user old,
  any_orders O -> (forall c, In c data -> surrogate c = false) -> (forall l, Permutation (o_set l) l) ->
  ~ In NUL data -> ~ In 123 data -> (Z.of_nat (len data) < 2 ^ 50)%Z ->
  exists r, detect (u_cat U) (shipped_url U) (is_known_type U) O o_set capacity skip data user old = (Ok r, old).
Proof. intros Hs Hd O o_set capacity skip data user old. intros. now apply (detect_without_braces U Hs Hd). Qed.
