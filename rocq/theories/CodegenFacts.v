(** * CodegenFacts: the literals of the generated code *)
From Coq Require Import String.
From Verif Require Import Base Parser Dialect CsvLib Reader Files Wrappers Codegen SpecCodegen.

(** ** Reading literals *)
Lemma skip_app : forall a s, string_rest DQ (List.length a) (a ++ s) = string_rest DQ 0 s.
Proof. induction a as [|c a IH]; intros s; [reflexivity|]. cbn [List.length app string_rest]. apply IH. Qed.

Lemma hex_char_value v : (v < 16)%N -> hex_value (hex_char v) = Some v.
Proof.
  intros H. unfold hex_char, hex_value. destruct (N.ltb_spec v 10).
  - replace ((48 <=? 48 + v) && (48 + v <=? 57))%N with true by (symmetry; apply andb_true_iff; split; apply N.leb_le; lia).
    f_equal. lia.
  - replace ((48 <=? 87 + v) && (87 + v <=? 57))%N with false
      by (symmetry; apply andb_false_iff; right; apply N.leb_gt; lia).
    replace ((65 <=? 87 + v) && (87 + v <=? 70))%N with false
      by (symmetry; apply andb_false_iff; right; apply N.leb_gt; lia).
    replace ((97 <=? 87 + v) && (87 + v <=? 102))%N with true
      by (symmetry; apply andb_true_iff; split; apply N.leb_le; lia).
    f_equal. lia.
Qed.

Lemma hex_number_snoc : forall k v s c r x, List.length s = k -> hex_number k v s = Some x ->
  hex_number (S k) v (s ++ c :: r) = match hex_value c with Some y => Some (16 * x + y)%N | None => None end.
Proof.
  induction k as [|k IH]; intros v [|a s] c r x Hl H; try discriminate.
  - cbn in H. injection H as <-. cbn. now destruct (hex_value c).
  - cbn [List.length] in Hl. injection Hl as Hl. cbn [hex_number] in H.
    change ((a :: s) ++ c :: r) with (a :: (s ++ c :: r)).
    change (hex_number (S (S k)) v (a :: (s ++ c :: r))) with
      (match hex_value a with Some x => hex_number (S k) (16 * v + x)%N (s ++ c :: r) | None => None end).
    destruct (hex_value a) as [y|]; [|discriminate]. apply IH; assumption.
Qed.

Lemma hex_digits_length : forall n v, List.length (hex_digits n v) = n.
Proof. induction n as [|n IH]; intros v; [reflexivity|]. cbn [hex_digits]. rewrite app_length, IH. cbn. lia. Qed.

Lemma hex_number_ext : forall n v s r x, List.length s = n -> hex_number n v s = Some x -> hex_number n v (s ++ r) = Some x.
Proof.
  induction n as [|n IH]; intros v [|a s] r x Hl H; try discriminate; [exact H|].
  cbn [hex_number app] in *. destruct (hex_value a); [|discriminate]. apply IH; [now injection Hl|exact H].
Qed.

Lemma hex_digits_value : forall n w, (w < 16 ^ N.of_nat n)%N -> hex_number n 0 (hex_digits n w) = Some w.
Proof.
  induction n as [|n IH]; intros w H.
  - cbn in H. cbn. f_equal. lia.
  - cbn [hex_digits]. rewrite (hex_number_snoc n 0 _ _ [] (w / 16)%N).
    + rewrite hex_char_value by (apply N.mod_lt; discriminate).
      f_equal. symmetry. apply N.div_mod. discriminate.
    + apply hex_digits_length.
    + apply IH. rewrite Nat2N.inj_succ, N.pow_succ_r' in H. apply N.div_lt_upper_bound; [discriminate|exact H].
Qed.
Lemma hex_digits_number n w r : (w < 16 ^ N.of_nat n)%N -> hex_number n 0 (hex_digits n w ++ r) = Some w.
Proof. intros H. apply hex_number_ext; [apply hex_digits_length|now apply hex_digits_value]. Qed.

Lemma plain_cons c s : plain (c :: s) -> plain s.
Proof. intros H x Hx. apply H. now right. Qed.

Lemma plain_char c r : ~ In c [DQ; BACKSLASH; LF; CR; NUL] ->
  string_rest DQ 0 (c :: r) = match string_rest DQ 0 r with Some (v, rest) => Some (c :: v, rest) | None => None end.
Proof.
  intros H. cbn [string_rest].
  assert (E : forall x, In x [DQ; BACKSLASH; LF; CR; NUL] -> (c =? x)%N = false)
    by (intros x Hx; apply N.eqb_neq; intros ->; auto).
  rewrite !E by (cbn; auto 8). reflexivity.
Qed.

Lemma string_rest_plain : forall s r, plain s -> string_rest DQ 0 (s ++ DQ :: r) = Some (s, r).
Proof.
  induction s as [|c s IH]; intros r H; [reflexivity|].
  change ((c :: s) ++ DQ :: r) with (c :: (s ++ DQ :: r)).
  rewrite plain_char by (apply H; now left). now rewrite IH by (eapply plain_cons; eassumption).
Qed.

(** What follows a literal does not start with a double quote. *)
Definition sep (r : str) : Prop := match r with c :: _ => c <> DQ | [] => True end.

Lemma sep_comma t : sep (COMMA :: t).
Proof. discriminate. Qed.
Lemma sep_paren t : sep (41%N :: t).
Proof. discriminate. Qed.

(** A literal with the text [body]. *)
Lemma literal_of body r v : sep r -> string_rest DQ 0 (body ++ DQ :: r) = Some (v, r) ->
  (hd_error body = Some DQ -> False) -> string_literal (DQ :: body ++ DQ :: r) = Some (v, r).
Proof.
  intros Hr H Hb. destruct body as [|a body].
  - cbn [app] in *. destruct r as [|c r]; [exact H|]. cbn [string_literal].
    replace (c =? DQ)%N with false by (symmetry; now apply N.eqb_neq). exact H.
  - cbn [app] in *. unfold string_literal.
    assert (E : (a =? DQ)%N = false) by (apply N.eqb_neq; intros ->; now apply Hb).
    destruct (body ++ DQ :: r) as [|b t] eqn:F; [destruct body; discriminate|].
    rewrite E. exact H.
Qed.

Lemma literal_plain s r : plain s -> sep r -> string_literal (DQ :: s ++ DQ :: r) = Some (s, r).
Proof.
  intros H Hr. apply literal_of; [exact Hr|now apply string_rest_plain|].
  destruct s as [|c s]; [discriminate|]. intros [= ->]. apply (H DQ); [now left|now left].
Qed.

(** ** The three literals *)
Definition delimiter_text (d : str) : str := if str_eqb d [TAB] then [DQ; BACKSLASH; 116%N; DQ] else DQ :: d ++ [DQ].
Definition quote_text (q : str) : str := DQ :: escape_dq q ++ [DQ].
Definition escape_text (printable : N -> bool) (e : str) : str := sq_to_dq (repr printable e).

Lemma plain_one c : ~ In c [DQ; BACKSLASH; LF; CR; NUL] -> plain [c].
Proof. intros H x [<-|[]]. exact H. Qed.

Lemma not_awkward c : ~ In c [DQ; BACKSLASH] -> ~ In c [LF; CR; NUL] -> ~ In c [DQ; BACKSLASH; LF; CR; NUL].
Proof. cbn. intuition. Qed.

Lemma delimiter_literal d r : good_delimiter d -> inline d -> sep r ->
  string_literal (delimiter_text d ++ r) = Some (d, r).
Proof.
  intros [->|(c & -> & Hc)] Hi Hr.
  - exact (literal_plain [] r (fun x Hx => match Hx with end) Hr).
  - destruct (N.eq_dec c 9) as [->|Ht].
    + unfold delimiter_text. exact (literal_of [BACKSLASH; 116%N] r [9%N] Hr eq_refl (fun E => ltac:(discriminate E))).
    + assert (E : delimiter_text [c] = DQ :: [c] ++ [DQ]).
      { unfold delimiter_text. replace (str_eqb [c] [TAB]) with false; [reflexivity|].
        symmetry. apply str_eqb_neq. intros [= ->]. now apply Ht. }
      rewrite E. change ((DQ :: [c] ++ [DQ]) ++ r) with (DQ :: [c] ++ DQ :: r).
      apply literal_plain; [|exact Hr]. apply plain_one, not_awkward; [exact Hc|apply Hi; now left].
Qed.

Lemma quote_literal q r : good_quotechar q -> inline q -> sep r ->
  string_literal (quote_text q ++ r) = Some (q, r).
Proof.
  intros [->|(c & -> & Hc)] Hi Hr.
  - exact (literal_plain [] r (fun x Hx => match Hx with end) Hr).
  - unfold quote_text, escape_dq. cbn [flat_map app].
    destruct (N.eqb_spec c DQ) as [->|Hd].
    + exact (literal_of [BACKSLASH; DQ] r [DQ] Hr eq_refl (fun E => ltac:(discriminate E))).
    + refine (literal_plain [c] r _ Hr). apply plain_one, not_awkward; [|apply Hi; now left].
      cbn. intuition congruence.
Qed.

Lemma hex_char_dq v : (v < 16)%N -> hex_char v <> SQ.
Proof. unfold hex_char, SQ. destruct (v <? 10)%N; lia. Qed.
Lemma sq_hex : forall n w, sq_to_dq (hex_digits n w) = hex_digits n w.
Proof.
  induction n as [|n IH]; intros w; [reflexivity|]. cbn [hex_digits]. unfold sq_to_dq in *. rewrite map_app, IH. cbn [map].
  replace (hex_char (w mod 16) =? SQ)%N with false; [reflexivity|].
  symmetry. apply N.eqb_neq, hex_char_dq, N.mod_lt. discriminate.
Qed.

(** The escape [\x..], [\u....] or [\U........] *)
Lemma hex_escape n letter w r :
  (letter = 120%N /\ n = 2%nat) \/ (letter = 117%N /\ n = 4%nat) \/ (letter = 85%N /\ n = 8%nat /\ (w <= 1114111)%N) ->
  (w < 16 ^ N.of_nat n)%N ->
  string_rest DQ 0 (([BACKSLASH; letter] ++ hex_digits n w) ++ DQ :: r) = Some ([w], r).
Proof.
  intros H Hw. rewrite <- app_assoc.
  pose proof (hex_digits_number n w (DQ :: r) Hw) as E.
  assert (Sk : string_rest DQ (S n) (letter :: hex_digits n w ++ DQ :: r) = Some ([], r)).
  { change (letter :: hex_digits n w ++ DQ :: r) with ((letter :: hex_digits n w) ++ DQ :: r).
    rewrite <- (hex_digits_length n w) at 1.
    change (S (List.length (hex_digits n w))) with (List.length (letter :: hex_digits n w)).
    now rewrite skip_app. }
  cbn [app] in *. destruct H as [[-> ->]|[[-> ->]|(-> & -> & Hl)]].
  - change (string_rest DQ 0 (BACKSLASH :: 120%N :: hex_digits 2 w ++ DQ :: r)) with
      (match hex_number 2 0 (hex_digits 2 w ++ DQ :: r) with
       | Some v => match string_rest DQ 3 (120%N :: hex_digits 2 w ++ DQ :: r) with Some (x, rest) => Some (v :: x, rest) | None => None end
       | None => None end).
    now rewrite E, Sk.
  - change (string_rest DQ 0 (BACKSLASH :: 117%N :: hex_digits 4 w ++ DQ :: r)) with
      (match hex_number 4 0 (hex_digits 4 w ++ DQ :: r) with
       | Some v => match string_rest DQ 5 (117%N :: hex_digits 4 w ++ DQ :: r) with Some (x, rest) => Some (v :: x, rest) | None => None end
       | None => None end).
    now rewrite E, Sk.
  - change (string_rest DQ 0 (BACKSLASH :: 85%N :: hex_digits 8 w ++ DQ :: r)) with
      (match hex_number 8 0 (hex_digits 8 w ++ DQ :: r) with
       | Some v => if (v <=? 1114111)%N then
           match string_rest DQ 9 (85%N :: hex_digits 8 w ++ DQ :: r) with Some (x, rest) => Some (v :: x, rest) | None => None end
           else None
       | None => None end).
    rewrite E, Sk. now replace (w <=? 1114111)%N with true by (symmetry; now apply N.leb_le).
Qed.

Lemma escape_literal printable e r : good_escapechar e -> scalar e -> sep r ->
  string_literal (escape_text printable e ++ r) = Some (e, r).
Proof.
  intros [->|(c & -> & Hc)] Hs Hr.
  - exact (literal_plain [] r (fun x Hx => match Hx with end) Hr).
  - specialize (Hs c (or_introl eq_refl)).
    assert (Hq : c <> SQ) by (intros ->; apply Hc; now left).
    assert (Hd : c <> DQ) by (intros ->; apply Hc; cbn; auto).
    unfold escape_text, repr. cbn [existsb]. replace (SQ =? c)%N with false by (symmetry; apply N.eqb_neq; congruence).
    cbn [orb andb]. cbn [flat_map]. rewrite app_nil_r.
    set (body := sq_to_dq (repr_char printable SQ c)).
    assert (E : sq_to_dq (SQ :: repr_char printable SQ c ++ [SQ]) ++ r = DQ :: body ++ DQ :: r).
    { unfold sq_to_dq. cbn [map]. rewrite map_app. cbn [map]. rewrite !N.eqb_refl. cbn [app].
      rewrite <- app_assoc. reflexivity. }
    rewrite E. clear E.
    assert (P : ~ In c [DQ; BACKSLASH; LF; CR; NUL] -> string_rest DQ 0 ([c] ++ DQ :: r) = Some ([c], r))
      by (intros H; apply string_rest_plain, plain_one, H).
    assert (X : forall n l w, sq_to_dq ([BACKSLASH; l] ++ hex_digits n w) = if (l =? SQ)%N then [BACKSLASH; DQ] ++ hex_digits n w else [BACKSLASH; l] ++ hex_digits n w).
    { intros n l w. unfold sq_to_dq. rewrite map_app. cbn [map]. fold (sq_to_dq (hex_digits n w)). rewrite sq_hex.
      change (BACKSLASH =? SQ)%N with false. now destruct (l =? SQ)%N. }
    apply literal_of; [exact Hr| |].
    + unfold body, repr_char. replace (c =? SQ)%N with false by (symmetry; now apply N.eqb_neq). cbn [orb].
      destruct (N.eqb_spec c BACKSLASH) as [->|Hb]; [reflexivity|].
      destruct (N.eqb_spec c TAB) as [->|Ht]; [reflexivity|].
      destruct (N.eqb_spec c LF) as [->|Hl]; [reflexivity|].
      destruct (N.eqb_spec c CR) as [->|Hcr]; [reflexivity|].
      assert (One : sq_to_dq [c] = [c]) by (cbn; now replace (c =? SQ)%N with false by (symmetry; now apply N.eqb_neq)).
      destruct ((c <? 32) || (c =? 127))%N eqn:E1.
      { rewrite X. change (120 =? SQ)%N with false. cbv iota. apply hex_escape; [auto|]. change (16 ^ N.of_nat 2)%N with 256%N.
        apply orb_true_iff in E1 as [E1|E1]; [apply N.ltb_lt in E1|apply N.eqb_eq in E1]; lia. }
      apply orb_false_iff in E1 as [E1 _]. apply N.ltb_ge in E1.
      assert (N0 : ~ In c [DQ; BACKSLASH; LF; CR; NUL]) by (cbn; unfold NUL; intuition (try congruence); lia).
      destruct (c <? 127)%N; [rewrite One; now apply P|]. destruct (printable c); [rewrite One; now apply P|].
      destruct (N.leb_spec c 255).
      { rewrite X. change (120 =? SQ)%N with false. cbv iota. apply hex_escape; [auto|]. change (16 ^ N.of_nat 2)%N with 256%N. lia. }
      destruct (N.leb_spec c 65535).
      { rewrite X. change (117 =? SQ)%N with false. cbv iota. apply hex_escape; [auto|]. change (16 ^ N.of_nat 4)%N with 65536%N. lia. }
      rewrite X. change (85 =? SQ)%N with false. cbv iota. apply hex_escape; [auto|]. change (16 ^ N.of_nat 8)%N with 4294967296%N. lia.
    + unfold body, repr_char. replace (c =? SQ)%N with false by (symmetry; now apply N.eqb_neq). cbn [orb].
      repeat match goal with |- context [if ?b then _ else _] => destruct b eqn:?; try discriminate end;
        try (cbn; replace (c =? SQ)%N with false by (symmetry; now apply N.eqb_neq); intros [= ->]; now contradict Hd).
Qed.

(** ** Lines *)
Lemma after_app : forall w s, after w (w ++ s) = Some s.
Proof. induction w as [|c w IH]; intros s; [reflexivity|]. cbn [app after]. rewrite N.eqb_refl. apply IH. Qed.

Lemma fields_cons w ws s v rest : string_literal s = Some (v, rest) ->
  fields (w :: ws) (w ++ s) = match fields ws rest with Some (vs, r) => Some (v :: vs, r) | None => None end.
Proof. intros H. cbn [fields]. now rewrite after_app, H. Qed.

Lemma fields_lit w ws t v r : (forall r, sep r -> string_literal (t ++ r) = Some (v, r)) -> sep r ->
  fields (w :: ws) (w ++ t ++ r) = match fields ws r with Some (vs, r) => Some (v :: vs, r) | None => None end.
Proof. intros H Hr. apply fields_cons, H, Hr. Qed.
Lemma fields_plain w ws v r : plain v -> sep r ->
  fields (w :: ws) (w ++ DQ :: v ++ DQ :: r) = match fields ws r with Some (vs, r) => Some (v :: vs, r) | None => None end.
Proof. intros H Hr. apply fields_cons, literal_plain; assumption. Qed.

(** The text of a call. *)
Definition call_text (printable : N -> bool) (head d q e : str) : str :=
  (head ++ s2l "delimiter=") ++ delimiter_text d ++ s2l ", quotechar=" ++ quote_text q ++
  s2l ", escapechar=" ++ escape_text printable e ++ s2l ")".

Lemma arguments_good printable head d q e :
  good_delimiter d -> good_quotechar q -> good_escapechar e -> inline d -> inline q -> scalar e ->
  arguments head (call_text printable head d q e) = Some (d, q, e).
Proof.
  intros Hd Hq He Id Iq Se. unfold arguments, call_text.
  rewrite (fields_lit _ _ _ d _ (fun r => delimiter_literal d r Hd Id)) by discriminate.
  rewrite (fields_lit _ _ _ q _ (fun r => quote_literal q r Hq Iq)) by discriminate.
  rewrite (fields_lit _ _ _ e _ (fun r => escape_literal printable e r He Se)) by discriminate.
  reflexivity.
Qed.

Lemma arguments_exact printable head d q e :
  (List.length d <= 1)%nat -> (List.length q <= 1)%nat -> (List.length e <= 1)%nat -> inline d -> inline q -> scalar e ->
  arguments head (call_text printable head d q e) = Some (d, q, e) ->
  good_delimiter d /\ good_quotechar q /\ good_escapechar e.
Proof.
  intros Ld Lq Le Id Iq Se H.
  assert (Hd : good_delimiter d).
  { destruct d as [|c [|]]; [now left| |cbn in Ld; lia]. right. exists c. split; [reflexivity|].
    intros [<-|[<-|[]]].
    - unfold arguments, call_text in H. cbn [fields] in H. rewrite after_app in H. discriminate H.
    - unfold arguments, call_text in H. cbn [fields] in H. rewrite after_app in H.
      assert (E : exists rest, string_literal (delimiter_text [BACKSLASH] ++ s2l ", quotechar=" ++ quote_text q ++
        s2l ", escapechar=" ++ escape_text printable e ++ s2l ")") = Some (s2l """, quotechar=", rest)) by (eexists; reflexivity).
      destruct E as (rest & E). rewrite E in H.
      destruct (after (s2l ", quotechar=") rest); [|discriminate].
      destruct (string_literal s) as [[v2 s2]|]; [|discriminate].
      destruct (after (s2l ", escapechar=") s2); [|discriminate].
      destruct (string_literal s0) as [[v3 s3]|]; [|discriminate].
      destruct s3 as [|x [|]]; try discriminate H.
      + destruct x as [|p]; try discriminate H. repeat (destruct p as [p|p|]; try discriminate H).
      + destruct x as [|p]; try discriminate H. repeat (destruct p as [p|p|]; try discriminate H). }
  unfold arguments, call_text in H.
  rewrite (fields_lit _ _ _ d _ (fun r => delimiter_literal d r Hd Id)) in H by discriminate.
  assert (Hq : good_quotechar q).
  { destruct q as [|c [|]]; [now left| |cbn in Lq; lia]. right. exists c. split; [reflexivity|]. intros ->.
    cbn [fields] in H. rewrite after_app in H.
    assert (E : exists rest, string_literal (quote_text [BACKSLASH] ++
        s2l ", escapechar=" ++ escape_text printable e ++ s2l ")") = Some (s2l """, escapechar=", rest)).
    { unfold escape_text, repr.
      set (qq := if existsb (N.eqb SQ) e && negb (existsb (N.eqb DQ) e) then DQ else SQ).
      assert (Eq : exists t, sq_to_dq (qq :: flat_map (repr_char printable qq) e ++ [qq]) = DQ :: t).
      { unfold qq. destruct (existsb (N.eqb SQ) e && negb (existsb (N.eqb DQ) e)); eexists; reflexivity. }
      destruct Eq as (t & ->). eexists. reflexivity. }
    destruct E as (rest & E). rewrite E in H.
    destruct (after (s2l ", escapechar=") rest); [|discriminate].
    destruct (string_literal s) as [[v3 s3]|]; [|discriminate].
    destruct s3 as [|x [|]]; try discriminate H.
    + destruct x as [|p]; try discriminate H. repeat (destruct p as [p|p|]; try discriminate H).
    + destruct x as [|p]; try discriminate H. repeat (destruct p as [p|p|]; try discriminate H). }
  rewrite (fields_lit _ _ _ q _ (fun r => quote_literal q r Hq Iq)) in H by discriminate.
  split; [exact Hd|]. split; [exact Hq|].
  destruct e as [|c [|]]; [now left| |cbn in Le; lia]. right. exists c. split; [reflexivity|].
  intros [<-|[<-|[]]]; cbn [fields] in H; rewrite after_app in H; discriminate H.
Qed.

(** ** Programs *)
Definition enc_text (enc : option str) : str := match enc with None => s2l "None" | Some x => DQ :: x ++ [DQ] end.

Lemma open_line_good name enc : plain name -> plain_opt enc ->
  open_line (s2l "with open(""" ++ name ++ s2l """, ""r"", newline="""", encoding=" ++ enc_text enc ++ s2l ") as fp:") =
  Some (name, enc).
Proof.
  intros Hn He. unfold open_line.
  set (tail := enc_text enc ++ s2l ") as fp:").
  assert (E : s2l "with open(""" ++ name ++ s2l """, ""r"", newline="""", encoding=" ++ tail =
    s2l "with open(" ++ DQ :: name ++ DQ :: (s2l ", " ++ s2l """r""" ++ s2l ", newline=" ++ s2l """""" ++ s2l ", encoding=" ++ tail)).
  { change (s2l "with open(""") with (s2l "with open(" ++ [DQ]). rewrite <- app_assoc. reflexivity. }
  rewrite E. clear E.
  rewrite (fields_plain _ _ name _ Hn) by discriminate.
  rewrite (fields_cons (s2l ", ") [s2l ", newline="] (s2l """r""" ++ s2l ", newline=" ++ s2l """""" ++ s2l ", encoding=" ++ tail)
    (s2l "r") (s2l ", newline=" ++ s2l """""" ++ s2l ", encoding=" ++ tail) eq_refl).
  rewrite (fields_cons (s2l ", newline=") [] (s2l """""" ++ s2l ", encoding=" ++ tail) [] (s2l ", encoding=" ++ tail) eq_refl).
  change (fields [] (s2l ", encoding=" ++ tail)) with (Some (@nil str, s2l ", encoding=" ++ tail)). cbv beta iota.
  change (str_eqb (s2l "r") (s2l "r") && str_eqb [] []) with true. cbv iota.
  unfold tail, enc_text. destruct enc as [x|]; [|reflexivity].
  assert (E : str_eqb (s2l ", encoding=" ++ (DQ :: x ++ [DQ]) ++ s2l ") as fp:") (s2l ", encoding=None) as fp:") = false) by reflexivity.
  rewrite E.
  replace ((DQ :: x ++ [DQ]) ++ s2l ") as fp:") with (DQ :: x ++ DQ :: s2l ") as fp:")
    by (cbn [app]; rewrite <- app_assoc; reflexivity).
  rewrite (fields_plain _ _ x _ He) by discriminate. reflexivity.
Qed.

Definition fields3 (d q e : str) (strict : bool) : SimpleDialect := mk_dialect (Some d) (Some q) (Some e) strict.

Lemma generate_text printable name d q e strict enc pandas :
  generate_code printable name (fields3 d q e strict) enc pandas =
  Ok (heading ++
    if pandas then
      [s2l "df = clevercsv.read_dataframe(" ++ DQ :: name ++ DQ :: call_text printable (s2l ", ") d q e; []]
    else
      [s2l "with open(""" ++ name ++ s2l """, ""r"", newline="""", encoding=" ++ enc_text enc ++ s2l ") as fp:";
       call_text printable (s2l "    reader = clevercsv.reader(fp, ") d q e; s2l "    rows = list(reader)"; []]).
Proof.
  unfold generate_code. cbn [fields3 sd_quotechar sd_delimiter sd_escapechar fmt].
  fold (delimiter_text d). fold (quote_text q). fold (escape_text printable e). destruct pandas.
  - unfold call_text. f_equal.
  - fold (enc_text enc). unfold call_text. rewrite <- !app_assoc. reflexivity.
Qed.

Lemma ok_inj {X} (a b : X) : @Ok pyexc X a = Ok b -> a = b.
Proof. now intros [= ->]. Qed.

Lemma firstn_heading l : firstn 5 (heading ++ l) = heading.
Proof. reflexivity. Qed.
Lemma skipn_heading l : skipn 5 (heading ++ l) = l.
Proof. reflexivity. Qed.

Lemma rows_program printable name d q e strict enc lines : plain name -> plain_opt enc ->
  generate_code printable name (fields3 d q e strict) enc false = Ok lines ->
  program_of lines =
  match arguments (s2l "    reader = clevercsv.reader(fp, ") (call_text printable (s2l "    reader = clevercsv.reader(fp, ") d q e) with
  | Some (d, q, e) => Some (ReadRows name enc d q e) | None => None end.
Proof.
  intros Hn He. rewrite generate_text. intros H. apply ok_inj in H. rewrite <- H. clear H. unfold program_of.
  rewrite firstn_heading, skipn_heading. change (list_eqb str_eqb heading heading) with true. cbv beta iota.
  rewrite !str_eqb_refl. cbn [andb]. now rewrite open_line_good.
Qed.

Lemma frame_program printable name d q e strict enc lines : plain name ->
  generate_code printable name (fields3 d q e strict) enc true = Ok lines ->
  program_of lines =
  match arguments (s2l ", ") (call_text printable (s2l ", ") d q e) with
  | Some (d, q, e) => Some (ReadFrame name d q e) | None => None end.
Proof.
  intros Hn. rewrite generate_text. intros H. apply ok_inj in H. rewrite <- H. clear H. unfold program_of.
  rewrite firstn_heading, skipn_heading. change (list_eqb str_eqb heading heading) with true. cbv beta iota.
  rewrite str_eqb_refl.
  rewrite (fields_plain _ _ name _ Hn) by discriminate. reflexivity.
Qed.
