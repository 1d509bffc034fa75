(** * Refuse: strict mode and the field size limit only refuse *)
From Verif Require Import Base Parser ParserFacts Dialect CsvLib CsvReader Reader ReaderFacts SpecRefuse.
Local Notation len := List.length.
Open Scope N_scope.

Section Lax.
Variables cf cf' : pconf.
Hypothesis HL : laxer cf cf'.
Definition lax (x y : res perr (pobj str)) : Prop := match x with Ok o => y = Ok o | Err e => refusal e \/ y = Err e end.
Lemma lax_refl x : lax x x.
Proof. destruct x; [reflexivity|now right]. Qed.
Lemma lax_bind x y f g : lax x y -> (forall o, lax (f o) (g o)) -> lax (bind x f) (bind y g).
Proof. destruct x as [o|e]; cbn; intros H HF; [subst y; apply HF|]. destruct H as [H|H]; [now left|]. subst y. now right. Qed.
Lemma lax_add o c : lax (add_char str_ops cf o c) (add_char str_ops cf' o c).
Proof.
  destruct HL as (_ & _ & _ & _ & _ & H). unfold add_char. cbn [str_ops b_add]. unfold str_add.
  destruct (Z.leb_spec (field_limit cf) (Z.of_nat (len (p_buf o)))); [left; now left|].
  destruct (Z.leb_spec (field_limit cf') (Z.of_nat (len (p_buf o)))); [lia|]. reflexivity.
Qed.
Lemma save_same o t : save_field str_ops cf' o t = save_field str_ops cf o t.
Proof. destruct HL as (_ & H1 & _ & H2 & _). unfold save_field. now rewrite H1, H2. Qed.
Ltac step :=
  match goal with
  | |- lax (bind _ _) (bind _ _) => apply lax_bind; [|intros ?]
  | |- lax (if ?b then _ else _) (if ?b then _ else _) => destruct b
  | |- lax (add_char _ _ _ _) _ => apply lax_add
  | |- lax _ _ => apply lax_refl
  end.
Lemma lax_start o u : lax (do_start_field str_ops cf o u) (do_start_field str_ops cf' o u).
Proof. destruct HL as (H1 & H2 & H3 & _). unfold do_start_field. rewrite save_same, H1, H2, H3. repeat step. Qed.
Lemma lax_field o u : lax (do_in_field str_ops cf o u) (do_in_field str_ops cf' o u).
Proof. destruct HL as (H1 & H2 & H3 & _). unfold do_in_field. rewrite save_same, H1, H2, H3. repeat step. Qed.
Lemma lax_char o u v : lax (process_char str_ops cf o u v) (process_char str_ops cf' o u v).
Proof.
  pose proof HL as (H1 & H2 & H3 & _ & HS & _). unfold process_char. rewrite !save_same, H1, H2, H3.
  destruct (p_state o); try apply lax_start; try apply lax_field; repeat step; try apply lax_start; try apply lax_field.
  - destruct (strict cf); [left; right; now left|]. destruct (strict cf'); [now specialize (HS eq_refl)|]. repeat step.
  - destruct (strict cf); cbn [negb]; [left; right; now left|]. destruct (strict cf'); [now specialize (HS eq_refl)|]. cbn [negb]. repeat step.
Qed.
Lemma lax_chars : forall line o v, lax (process_chars str_ops cf o v line) (process_chars str_ops cf' o v line).
Proof.
  induction line as [|x line IH]; intros o v; cbn [process_chars]; [reflexivity|]. destruct (_ =? 0); [now right|]. apply lax_bind; [apply lax_char|]. intros o'. apply IH.
Qed.
Lemma lax_line o line : lax (process_line str_ops cf o line) (process_line str_ops cf' o line).
Proof. unfold process_line. apply lax_bind; [apply lax_chars|]. intros o'. apply lax_char. Qed.
Definition refused (x : outcome * pobj str * list item) : Prop := exists e o rest, x = (Raise e, o, rest) /\ refusal e.
Lemma lax_next : forall input o, refused (iternext_loop str_ops cf o input) \/ iternext_loop str_ops cf' o input = iternext_loop str_ops cf o input.
Proof.
  induction input as [|[l| |] input IH]; intros o; cbn [iternext_loop]; try (now right).
  - destruct (_ || _); [|now right]. pose proof HL as (_ & _ & _ & _ & HS & _). destruct (strict cf).
    + left. eexists _, _, _. split; [reflexivity|]. right. now right.
    + right. destruct (strict cf'); [now specialize (HS eq_refl)|]. now rewrite save_same.
  - pose proof (lax_line o l) as H. destruct (process_line str_ops cf o l) as [o'|e]; cbn in H.
    + rewrite H. destruct (p_state o'); try apply IH. now right.
    + destruct H as [H|H]; [|right; now rewrite H]. left. now exists e, o, input.
Qed.
Lemma lax_drain : forall fuel o input,
  begins (fst (drain str_ops fuel cf o input)) (fst (drain str_ops fuel cf' o input)) /\
  ((exists e, snd (drain str_ops fuel cf o input) = Raised e /\ refusal e) \/ drain str_ops fuel cf' o input = drain str_ops fuel cf o input).
Proof.
  induction fuel as [|fuel IH]; intros o input; cbn [drain]; [split; [now exists []|now right]|].
  unfold iternext. destruct (lax_next input (parse_reset str_ops o)) as [(e & o1 & rest & -> & He)| ->].
  - split; [now eexists|]. left. now exists e.
  - destruct (iternext_loop str_ops cf (parse_reset str_ops o) input) as [[[r| |e] o1] rest].
    + destruct (IH o1 rest) as ((more & H1) & H2). destruct (drain str_ops fuel cf o1 rest) as [rows e], (drain str_ops fuel cf' o1 rest) as [rows' e']. cbn [fst snd] in *. split.
      * exists more. now rewrite H1.
      * destruct H2 as [H2|H2]; [now left|]. right. congruence.
    + split; [now exists []|now right].
    + split; [now exists []|now right].
Qed.
Lemma lax_parse input :
  begins (fst (parse_items cf input)) (fst (parse_items cf' input)) /\
  ((exists e, snd (parse_items cf input) = Raised e /\ refusal e) \/ parse_items cf' input = parse_items cf input).
Proof. rewrite !parse_items_pure. apply lax_drain. Qed.
End Lax.

Lemma lax_data limit limit' input dl d q e strict strict' rq rows :
  (limit <= limit')%Z -> (strict' = true -> strict = true) ->
  parse_data limit input dl d q e (Some strict) rq = (rows, None) -> parse_data limit' input dl d q e (Some strict') rq = (rows, None).
Proof.
  intros H1 H2. unfold parse_data. set (a := match d with Some s => Some s | None => _ end). set (b := match q with Some s => Some s | None => _ end). set (c := match e with Some s => Some s | None => _ end).
  cbn [or_else]. unfold parse_data_, make_conf. destruct (set_char a) as [a'|x]; [|discriminate]. destruct (set_char b) as [b'|x]; [|discriminate]. destruct (set_char c) as [c'|x]; [|discriminate]. cbn [bind].
  destruct (lax_parse (mk_pconf a' b' c' limit strict rq) (mk_pconf a' b' c' limit' strict' rq)) with (input := input) as (_ & [(y & H & _)|H]); [repeat split; auto| |now rewrite H].
  destruct (parse_items (mk_pconf a' b' c' limit strict rq) input) as [rows1 en]. cbn [snd] in H. subst en. destruct y; discriminate.
Qed.

(** ** csv.reader *)
Section Csv.
Variable w : wdialect.
Variables strict strict' : bool.
Variables limit limit' : Z.
Hypothesis HS : strict' = true -> strict = true.
Hypothesis HM : (limit <= limit')%Z.
Definition clax (x y : res pyexc cobj) : Prop := match x with Ok o => y = Ok o | Err _ => True end.
Lemma clax_add o c st : clax (c_add limit o c st) (c_add limit' o c st).
Proof.
  unfold c_add. destruct (Z.leb_spec limit (Z.of_nat (len (c_field o)))); [exact I|].
  destruct (Z.leb_spec limit' (Z.of_nat (len (c_field o)))); [lia|]. reflexivity.
Qed.
Lemma clax_refl x : clax x x.
Proof. now destruct x. Qed.
Ltac step :=
  match goal with
  | |- clax (if ?b then _ else _) (if ?b then _ else _) => destruct b
  | |- clax (match ?b with None => _ | Some _ => _ end) (match ?b with None => _ | Some _ => _ end) => destruct b
  | |- clax (c_add _ _ _ _) _ => apply clax_add
  | |- clax _ _ => apply clax_refl
  end.
Lemma clax_start o c : clax (c_start_field w limit o c) (c_start_field w limit' o c).
Proof. unfold c_start_field. repeat step. Qed.
Lemma clax_field o c : clax (c_in_field w limit o c) (c_in_field w limit' o c).
Proof. unfold c_in_field. repeat step. Qed.
Lemma clax_char o c : clax (c_process w strict limit o c) (c_process w strict' limit' o c).
Proof.
  unfold c_process. destruct (c_state o); try apply clax_start; try apply clax_field; repeat step; try apply clax_start; try apply clax_field.
  destruct strict; [exact I|]. destruct strict'; [now specialize (HS eq_refl)|]. cbn [negb]. apply clax_add.
Qed.
Lemma clax_chars : forall line o, clax (c_chars w strict limit o line) (c_chars w strict' limit' o line).
Proof.
  induction line as [|c line IH]; intros o; cbn [c_chars]; [reflexivity|]. pose proof (clax_char o (Some c)) as H.
  destruct (c_process w strict limit o (Some c)) as [o'|x]; [|exact I]. cbn in H. rewrite H. cbn [bind]. apply IH.
Qed.
Lemma clax_run : forall lines o,
  begins (fst (c_run w strict limit o lines)) (fst (c_run w strict' limit' o lines)) /\
  (snd (c_run w strict limit o lines) = None -> c_run w strict' limit' o lines = c_run w strict limit o lines).
Proof.
  induction lines as [|l lines IH]; intros o; cbn [c_run].
  - unfold c_eof. destruct (_ || _); [|split; [now exists []|reflexivity]]. destruct strict; [split; [now eexists|discriminate]|].
    destruct strict'; [now specialize (HS eq_refl)|]. split; [now exists []|reflexivity].
  - pose proof (clax_chars l o) as H. destruct (c_chars w strict limit o l) as [o1|x]; cbn [bind]; [|split; [now eexists|discriminate]].
    cbn in H. rewrite H. cbn [bind]. pose proof (clax_char o1 None) as H1. destruct (c_process w strict limit o1 None) as [o2|x]; [|split; [now eexists|discriminate]].
    cbn in H1. rewrite H1. destruct (c_state o2); try apply IH.
    destruct (IH c_new) as ((more & H2) & H3). destruct (c_run w strict limit c_new lines) as [rows x], (c_run w strict' limit' c_new lines) as [rows' x']. cbn [fst snd] in *. split.
    + exists more. now rewrite H2.
    + intros K. specialize (H3 K). congruence.
Qed.
Lemma clax_reader t :
  begins (fst (csv_reader w strict limit t)) (fst (csv_reader w strict' limit' t)) /\
  (snd (csv_reader w strict limit t) = None -> csv_reader w strict' limit' t = csv_reader w strict limit t).
Proof. apply clax_run. Qed.
End Csv.

Lemma lax_reader reg h seq file dialect params r h' h1 limit limit' rows :
  new_reader reg h seq file dialect params = (Ok r, h') -> (limit <= limit')%Z ->
  reader_rows limit h1 r = (rows, None) -> reader_rows limit' h1 r = (rows, None).
Proof.
  intros H HM. rewrite !(reader_rows_parse_data reg h seq file dialect params r h' _ h1 H).
  apply (lax_data limit limit' file (Some (deref h1 (r_dialect r))) None None None (sd_strict (deref h1 (r_dialect r))) (sd_strict (deref h1 (r_dialect r))) false rows HM). auto.
Qed.
