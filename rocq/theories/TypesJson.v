(** * TypesJson: cells in braces, and how they abort detection *)
From Coq Require Import String Permutation Sorted.
From Verif Require Import Base Parser Dialect SpecLayout SpecParse ParserLift Potential SpecPotential PotentialFacts MaskedFacts
  Floats Ties Consistency SpecConsistency ScoreFacts TypeFacts TieFacts DetectFacts
  Json JsonScan Regex RegexFacts Types SpecTypes TypesFacts TypesText TypesNumber TypesDate TypesUrl TypesAll.
Open Scope N_scope.
Local Notation len := List.length.

(** ** Texts on which the JSON reader gives up *)
Lemma span_digits ds r : Forall ascii_digit ds -> (forall c t, r = c :: t -> ~ ascii_digit c) -> span is_digit (ds ++ r) = (ds, r).
Proof.
  intros Hd Hr. assert (HI : forall c, is_digit c = true <-> ascii_digit c).
  { intros c. unfold is_digit, ascii_digit. rewrite andb_true_iff, !N.leb_le. tauto. }
  induction Hd as [|c ds Hc Hd IH]; cbn [app].
  - destruct r as [|c t]; [reflexivity|]. cbn. destruct (is_digit c) eqn:E; [|reflexivity]. apply HI in E. now destruct (Hr c t).
  - cbn [span]. apply HI in Hc. now rewrite Hc, IH.
Qed.
Lemma scan_key md depth s x : skip_ws s = s -> scan_once md depth s = Err x -> loads md (S depth) (s2l "{""a"":" ++ s) = Err x.
Proof.
  intros Hw H. change (s2l "{""a"":") with [123; DQ; 97; DQ; 58]. cbn - [scan_once skip_ws scan_string].
  change (skip_ws (123 :: DQ :: 97 :: DQ :: 58 :: s)) with (123 :: DQ :: 97 :: DQ :: 58 :: s).
  cbn - [skip_ws scan_string]. change (skip_ws (DQ :: 97 :: DQ :: 58 :: s)) with (DQ :: 97 :: DQ :: 58 :: s).
  cbn - [skip_ws scan_string]. change (scan_string (97 :: DQ :: 58 :: s)) with (@Ok pyexc (str * str) ([97], 58 :: s)). cbn [bind].
  change (skip_ws (58 :: s)) with (58 :: s). cbn - [skip_ws]. now rewrite Hw, H.
Qed.
Lemma scan_digit md depth c r : 49 <= c <= 57 -> scan_once md depth (c :: r) = scan_number md (c :: r).
Proof.
  intros Hc. assert (H : forall x, x < 49 \/ 57 < x -> (c =? x) = false /\ (x =? c) = false).
  { intros x Hx. split; apply N.eqb_neq; lia. }
  assert (HP : forall p t, p < 49 \/ 57 < p -> strip_prefix (p :: t) (c :: r) = None).
  { intros p t Hp. cbn. now rewrite (proj2 (H p Hp)). }
  destruct depth; cbn [scan_once].
  all: rewrite (proj1 (H DQ ltac:(unfold DQ; lia))), (proj1 (H 123 ltac:(lia))), (proj1 (H 91 ltac:(lia))).
  all: change (s2l "null") with (110 :: s2l "ull"); change (s2l "true") with (116 :: s2l "rue"); change (s2l "false") with (102 :: s2l "alse").
  all: change (s2l "NaN") with (78 :: s2l "aN"); change (s2l "Infinity") with (73 :: s2l "nfinity"); change (s2l "-Infinity") with (45 :: s2l "Infinity").
  all: now rewrite !HP by lia.
Qed.
(** An integer with more digits than the interpreter converts. *)
Lemma long_integer md depth c ds : 49 <= c <= 57 -> Forall ascii_digit ds -> (md <= len ds)%nat ->
  loads md (S depth) (s2l "{""a"":" ++ c :: ds ++ s2l "}") = Err ValueError.
Proof.
  intros Hc Hd Hl.
  assert (Hw : skip_ws (c :: ds ++ s2l "}") = c :: ds ++ s2l "}").
  { unfold skip_ws. cbn [span]. rewrite !(proj2 (N.eqb_neq c _)) by (unfold SPACE, TAB, LF, CR; lia). reflexivity. }
  apply scan_key; [exact Hw|].
  assert (E : scan_number md (c :: ds ++ s2l "}") = Err ValueError).
  { unfold scan_number. rewrite (proj2 (N.eqb_neq c 45)) by lia. rewrite (proj2 (N.eqb_neq c 48)) by lia.
    change (c :: ds ++ s2l "}") with ((c :: ds) ++ s2l "}"). rewrite span_digits.
    - cbn. destruct (Nat.leb_spec (S md) (len (c :: ds))); [|cbn in *; lia]. 
      match goal with |- (if ?b then _ else _) = _ => replace b with true; [reflexivity|] end. symmetry. apply Nat.leb_le. exact Hl.
    - constructor; [unfold ascii_digit; lia|exact Hd].
    - intros d t [= <- <-]. unfold ascii_digit. lia. }
  rewrite <- E. apply scan_digit. exact Hc.
Qed.
(** More open brackets than the interpreter nests. *)
Lemma deep_nesting md depth rest : loads md (S depth) (s2l "{""a"":" ++ repeat 91 (S depth) ++ rest) = Err RecursionError.
Proof.
  assert (Hw : forall t, skip_ws (91 :: t) = 91 :: t) by reflexivity.
  apply scan_key; [apply Hw|]. induction depth as [|d IH]; [reflexivity|].
  change (repeat 91 (S (S d)) ++ rest) with (91 :: 91 :: repeat 91 d ++ rest).
  change (scan_once md (S d) (91 :: 91 :: repeat 91 d ++ rest)) with
    (scan_elements (scan_once md d) (S (len (91 :: repeat 91 d ++ rest))) [] (91 :: repeat 91 d ++ rest)).
  cbn [scan_elements]. change (91 :: repeat 91 d ++ rest) with (repeat 91 (S d) ++ rest). now rewrite IH.
Qed.

(** ** A cell that starts with a brace is a JSON object or nothing *)
Section Braces.
Variable U : unidata.
Local Notation cat := (u_cat U).
Local Notation strip := (strip U).
Hypothesis sane : sane_categories cat.
Hypothesis isdigit_ok : forall c, digit cat c -> u_isdigit U c = true.
(** The opening brace is punctuation, not white space, and has no lower case. *)
Hypothesis brace_cat : cat 123 = s2l "Ps".
Hypothesis brace_space : u_space U 123 = false.
Hypothesis brace_lower : forall t, exists t', u_lower U (123 :: t) = 123 :: t'.

Lemma brace_not_letter : ~ a_letter cat 123. Proof. intros (t & E). rewrite brace_cat in E. discriminate. Qed.
Lemma brace_not_numeral : ~ a_numeral cat 123. Proof. intros (t & E). rewrite brace_cat in E. discriminate. Qed.
Lemma brace_not_digit : ~ digit cat 123. Proof. intros E. unfold digit in E. rewrite brace_cat in E. discriminate. Qed.
Lemma brace_strip t : exists t', strip (123 :: t) = 123 :: t'.
Proof. now apply strip_first. Qed.
Lemma brace_number t : ~ a_number cat (123 :: t).
Proof.
  assert (HS : forall sg r, a_sign sg -> 123 :: t = sg ++ r -> sg = []).
  { intros sg r [->|[->| ->]] E; [reflexivity|discriminate E|discriminate E]. }
  assert (HD : forall c r, 123 :: t = c :: r -> digit cat c -> False).
  { intros c r [= <- _]. apply brace_not_digit. }
  intros [(_ & sg & w & r & E & Hs & Hw & Hr)|[(sg & c & u & gs & f & E & Hs & Hc & _)|(sg & c & u & gs & f & E & Hs & Hc & _)]].
  - rewrite (HS _ _ Hs E) in E. cbn in E. destruct Hw as [->|[->|(c & u & -> & Hc & _)]].
    + cbn in E. subst r. destruct Hr as [Hr|[(Hr & _)|[(f & x & Hr & _)|(f & x & Hr & _)]]]; try discriminate. now contradiction Hr.
    + discriminate.
    + injection E as <- _. lia.
  - rewrite (HS _ _ Hs E) in E. injection E as <- _. lia.
  - rewrite (HS _ _ Hs E) in E. injection E as <- _. lia.
Qed.
Lemma brace_url t : ~ a_url cat (123 :: t).
Proof.
  intros (sch & h & p & x & E & Hs & Hh & _).
  assert (Hs' : sch = []).
  { destruct Hs as [->|([<-|[<-|[<-|[]]]] & _)]; [reflexivity|discriminate E..]. }
  subst sch. cbn in E. destruct Hh as [(ls & u & -> & Hn & Hl & _)|[(q & -> & _)|(a & q & -> & (a1 & a2 & a3 & a4 & -> & Ha) & _)]].
  - destruct ls as [|l ls]; [easy|]. inversion Hl as [|? ? (Hl1 & Hl2) _]; subst. destruct l as [|c l]; [easy|].
    cbn in E. injection E as <- _. inversion Hl2 as [|? ? Hc _]; subst. destruct Hc as [Hc|[Hc|Hc]]; [now apply brace_not_letter|now apply brace_not_numeral|discriminate].
  - discriminate.
  - inversion Ha as [|? ? (Hd & Hb & _) _]; subst. destruct a1 as [|c a1]; [easy|]. cbn in E. injection E as <- _. inversion Hd; subst. now apply brace_not_digit.
Qed.
Lemma brace_other q t name P : In (name, P) (types U q) -> name <> "json"%string -> ~ P (123 :: t).
Proof.
  intros Hi Hn HP. unfold types, cell_types in Hi. cbn [In] in Hi.
  repeat (destruct Hi as [Hi|Hi]; [injection Hi as <- <-; try contradiction|]); try contradiction; cbn beta in HP.
  - discriminate.
  - now apply brace_url in HP.
  - destruct HP as (a & b & c & E & (Ha & Hf) & _). destruct a as [|x a]; [easy|]. cbn in E. injection E as <- _.
    inversion Hf as [|? ? Hx _]; subst. unfold ascii_alnum, lower_case, upper_case, ascii_digit in Hx. cbn in Hx. lia.
  - destruct HP as (a & b & c & d & E & Hf). inversion Hf as [|? ? (Hd & Hb & _) _]; subst. destruct a as [|x a]; [easy|]. cbn in E. injection E as <- _.
    inversion Hd; subst. now apply brace_not_digit.
  - now apply brace_number in HP.
  - apply time_first in HP as (c & u & [= <- _] & Hc). unfold ascii_digit in Hc. lia.
  - destruct HP as (p & k & E & _ & Hp). destruct p as [|c p]; [discriminate|]. cbn in E. injection E as <- _.
    destruct (brace_strip p) as (p' & Ep). rewrite Ep in Hp. now apply brace_number in Hp.
  - destruct HP as (c & w & g & [= <- _] & Hc & _). unfold a_currency in Hc. rewrite brace_cat in Hc. discriminate.
  - destruct HP as (h & segs & e & E & Hh & Hs & _). destruct segs as [|g segs]; [easy|].
    destruct Hh as [->|[->| ->]]; discriminate.
  - unfold missing in HP. destruct (brace_lower t) as (t' & E). rewrite E in HP. cbn in HP. intuition discriminate.
  - apply (date_first U sane isdigit_ok) in HP as (c & u & [= <- _] & Hc). now apply brace_not_digit.
  - assert (G : forall d, a_date cat (strip d) -> forall x r, 123 :: t = d ++ x :: r -> x = 123).
    { intros d Hd x r E. destruct d as [|c d]; [cbn in E; congruence|]. cbn in E. injection E as <- _. destruct (brace_strip d) as (d' & Ed). rewrite Ed in Hd.
      apply (date_first U sane isdigit_ok) in Hd as (c & u & [= <- _] & Hc). now destruct brace_not_digit. }
    destruct HP as [(d & u & E & _ & _ & Hd & _)|(d & u & E & _ & _ & _ & Hd & _)]; discriminate (G d Hd _ _ E).
  - destruct HP as (_ & HP). inversion HP as [|? ? Hc _]; subst. destruct Hc as [Hc|[Hc|[Hc|[Hc|(_ & Hc)]]]].
    + now apply brace_not_letter.
    + now apply brace_not_numeral.
    + discriminate.
    + revert Hc. unfold text_marks. cbn. intuition discriminate.
    + revert Hc. unfold text_commas. cbn. intuition discriminate.
  - destruct HP as ((u & E) & _). discriminate.
Qed.
Theorem brace_type cell q t : strip cell = 123 :: t ->
  (in_braces (strip cell) -> detect_type U cell q =
     match loads (u_maxdigits U) (u_depth U) (strip cell) with
     | Ok _ => Ok (Some "json"%string)
     | Err JSONDecodeError => Ok None
     | Err x => Err x
     end) /\
  (~ in_braces (strip cell) -> detect_type U cell q = Ok None).
Proof.
  intros E.
  assert (HN : (~ (in_braces (strip cell) /\ reads_json U (strip cell))) -> none_of (types U q) (strip cell)).
  { intros H n Q Hi HQ. destruct (string_dec n "json"); [|rewrite E in HQ; now apply (brace_other q t n Q)]. subst n. apply H.
    unfold types, cell_types in Hi. cbn [In] in Hi. repeat (destruct Hi as [Hi|Hi]; [try discriminate|]); [|destruct Hi]. injection Hi as <-. exact HQ. }
  split.
  - intros Hb. destruct (loads (u_maxdigits U) (u_depth U) (strip cell)) as [v|x] eqn:El.
    + apply detect_type_some; [exact sane|exact isdigit_ok|]. exists (firstn 14 (types U q)), (fun s => in_braces s /\ reads_json U s), [].
      split; [reflexivity|]. split; [split; [exact Hb|now exists v]|]. intros n Q Hi. rewrite E. apply (brace_other q t n).
      * rewrite <- (firstn_skipn 14 (types U q)). apply in_or_app. now left.
      * intros ->. cbn in Hi. repeat (destruct Hi as [Hi|Hi]; [discriminate|]). exact Hi.
    + assert (Hn : none_of (types U q) (strip cell)) by (apply HN; intros (_ & v & Ev); congruence).
      assert (Hx : x = JSONDecodeError \/ x <> JSONDecodeError) by (destruct x; (now left) || (now right)).
      destruct Hx as [->|Hx].
      * apply detect_type_none; auto.
      * assert (G : detect_type U cell q = Err x) by (apply detect_type_err; auto). rewrite G. now destruct x.
  - intros Hb. apply detect_type_none; [exact sane|exact isdigit_ok|]. split; [apply HN; tauto|contradiction].
Qed.
End Braces.
