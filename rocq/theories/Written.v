(** * Written: what csv.writer writes *)
From Verif Require Import Base Parser Dialect CsvLib Writer SpecLayout SpecWriteErrors SpecWritten WriteErrors.

Section Text.
Variable w : wdialect.
Definition writable_char (c : N) : Prop := ~ (wd_escape w = None /\ needs_escape w c).
Lemma opt_is_spec o c : opt_is o c = is_opt o c.
Proof. reflexivity. Qed.
Lemma special_spec c : w_special w c = separator w c || is_opt (wd_quote w) c || is_opt (wd_escape w) c.
Proof.
  unfold w_special, separator, mem_char. cbn [existsb]. change opt_is with is_opt.
  replace (existsb (fun x => (x =? c)%N) (wd_term w)) with (existsb (N.eqb c) (wd_term w)).
  - destruct (c =? wd_delim w)%N, (is_opt (wd_escape w) c), (is_opt (wd_quote w) c), (c =? LF)%N, (c =? CR)%N, (existsb (N.eqb c) (wd_term w)); reflexivity.
  - induction (wd_term w) as [|x l IH]; [reflexivity|]. cbn [existsb]. now rewrite IH, N.eqb_sym.
Qed.
Lemma writable_escaped c : writable_char c -> char_way w c = Escaped -> exists e, wd_escape w = Some e.
Proof.
  intros H E. destruct (wd_escape w) as [e|] eqn:Ee; [eauto|]. exfalso. apply H. split; [exact Ee|]. unfold needs_escape. unfold char_way, unquoted_dialect in E. rewrite Ee in E.
  assert (HQ := opt_is_iff (wd_quote w) c). change opt_is with is_opt in HQ.
  assert (K : separator w c || is_opt (wd_quote w) c || is_opt None c = true -> c = wd_delim w \/ wd_quote w = Some c \/ c = LF \/ c = CR \/ In c (wd_term w)).
  { intros K. assert (HS := proj1 (special_iff w c)). rewrite special_spec, Ee in HS. specialize (HS K). intuition congruence. }
  destruct (wd_quoting w).
  all: try (destruct (is_opt (wd_quote w) c); [destruct (wd_doublequote w); [discriminate E|split; [now apply HQ|reflexivity]]|discriminate E]).
  apply K. cbn [is_opt] in E |- *. destruct (separator w c || is_opt (wd_quote w) c || false); [reflexivity|discriminate E].
Qed.
Lemma char_written b c : writable_char c -> w_char w b c = Ok (char_text w c, b || char_quotes w c).
Proof.
  intros H. assert (He := writable_escaped c H). unfold w_char, char_text, char_quotes. rewrite special_spec. change opt_is with is_opt.
  unfold char_way, unquoted_dialect in *.
  destruct (wd_quoting w), (separator w c) eqn:S, (is_opt (wd_quote w) c) eqn:Q, (is_opt (wd_escape w) c) eqn:E, (wd_doublequote w); cbn [orb] in *;
    try (destruct (He eq_refl) as (e & ->)); cbn [app opt_str]; rewrite ?orb_true_r, ?orb_false_r; reflexivity.
Qed.
Lemma field_written s : forall b, (forall c, In c s -> writable_char c) -> w_field w b s = Ok (concat (map (char_text w) s), b || existsb (char_quotes w) s).
Proof.
  induction s as [|c s IH]; intros b H; cbn [w_field map concat existsb]; [now rewrite orb_false_r|].
  rewrite char_written by (apply H; now left). cbn [bind]. rewrite IH by (intros x Hx; apply H; now right). cbn [bind]. now rewrite orb_assoc.
Qed.
Definition writable (v : value) : Prop :=
  (forall c, In c (value_str v) -> writable_char c) /\ ~ (value_str v = [] /\ wd_quoting w = QUOTE_NONE /\ wd_delim w = SPACE /\ wd_skipspace w = true).
Lemma quote_str : w_quote_str w = opt_str (wd_quote w).
Proof. reflexivity. Qed.
Lemma append_written first v : writable v -> w_append w first (w_quoted w v) (value_str v) = Ok ((if first then [] else [wd_delim w]) ++ value_text w v).
Proof.
  intros [H1 H2]. unfold w_append.
  assert (E : w_empty w (w_quoted w v) (value_str v) = Ok (style_quotes w v || lost_empty w (value_str v))).
  { unfold w_empty. change (w_quoted w v) with (style_quotes w v). destruct (value_str v) as [|c s]; cbn [lost_empty]; [|now rewrite orb_false_r].
    destruct (N.eqb_spec (wd_delim w) SPACE) as [Ed|Ed]; cbn [andb]; [|now rewrite orb_false_r]. destruct (wd_skipspace w); [|now rewrite orb_false_r].
    destruct (wd_quoting w); rewrite ?orb_true_r; try reflexivity. elim H2. repeat split. exact Ed. }
  rewrite E. cbn [bind]. rewrite field_written by exact H1. cbn [bind]. rewrite quote_str. unfold value_text, in_quotes, quotes.
  destruct (style_quotes w v), (lost_empty w (value_str v)), (existsb (char_quotes w) (value_str v)); reflexivity.
Qed.
Lemma fields_written row : Forall writable row ->
  w_fields w false row = Ok (concat (map (fun v => wd_delim w :: value_text w v) row)) /\
  w_fields w true row = Ok (join [wd_delim w] (map (value_text w) row)).
Proof.
  induction 1 as [|v row H HF [IH1 IH2]]; [now split|]. cbn [w_fields map concat]. rewrite !append_written by exact H. cbn [bind]. rewrite IH1. cbn [bind app]. split; [reflexivity|].
  f_equal. clear. revert v. induction row as [|u row IH]; intros v; [apply app_nil_r|]. cbn [map concat join]. specialize (IH u). cbn [map join] in IH. rewrite <- IH. reflexivity.
Qed.
Lemma row_written row : ~ unwritable w row -> csv_writerow w row = Ok (row_text w row).
Proof.
  intros H. assert (HF : Forall writable row).
  { apply Forall_forall. intros v Hv. split.
    - intros c Hc [K1 K2]. apply H. left. split; [exact K1|]. now exists v, c.
    - intros (K1 & K2 & K3 & K4). apply H. right. right. repeat split; try assumption. now exists v. }
  unfold csv_writerow. rewrite (proj2 (fields_written row HF)). cbn [bind]. unfold row_text. destruct row as [|v [|u row]]; [reflexivity| |].
  - cbn [map join]. destruct (value_text w v) as [|c s] eqn:E; [|reflexivity]. destruct (wd_quoting w) eqn:EQ; unfold quotes; rewrite ?quote_str; cbn [app]; rewrite <- ?app_assoc; try reflexivity.
    elim H. right. left. split; [exact EQ|]. exists v. split; [reflexivity|]. unfold value_text in E. destruct (value_str v) as [|c s]; [reflexivity|exfalso].
    cbn [map concat] in E. assert (K : char_text w c <> []) by (unfold char_text; destruct (char_way w c), (wd_escape w); discriminate).
    destruct (in_quotes w v); unfold quotes in E; destruct (char_text w c) as [|x y]; try (now elim K); destruct (wd_quote w); discriminate E.
  - destruct (join [wd_delim w] (map (value_text w) (v :: u :: row))) eqn:E; [|reflexivity]. cbn [map join] in E. apply app_eq_nil in E as [_ E]. discriminate E.
Qed.
Lemma writerow_written row : ~ unwritable w row -> writerow w row = Ok (row_text w row).
Proof. intros H. unfold writerow. now rewrite row_written. Qed.
Lemma writerows_written rows : Forall (fun r => ~ unwritable w r) rows -> writerows w rows = (concat (map (row_text w) rows), None).
Proof.
  induction 1 as [|r rows H HF IH]; [reflexivity|]. unfold writerows in *. cbn [csv_writerows map concat]. rewrite row_written by exact H.
  destruct (csv_writerows w rows) as [t x]. destruct x as [x|]; [discriminate IH|]. injection IH as ->. reflexivity.
Qed.
End Text.
Lemma in_quotes_minimal w v : wd_quoting w = QUOTE_MINIMAL ->
  in_quotes w v = true <->
  (exists c, In c (value_str v) /\ (wd_quote w = Some c /\ wd_doublequote w = true \/
     wd_quote w <> Some c /\ wd_escape w <> Some c /\ (c = wd_delim w \/ c = LF \/ c = CR \/ In c (wd_term w)))) \/
  (value_str v = [] /\ wd_delim w = SPACE /\ wd_skipspace w = true).
Proof.
  intros HQ. unfold in_quotes, style_quotes. rewrite HQ. cbn [orb]. rewrite orb_true_iff, existsb_exists.
  assert (HC : forall c, char_quotes w c = true <-> wd_quote w = Some c /\ wd_doublequote w = true \/
     wd_quote w <> Some c /\ wd_escape w <> Some c /\ (c = wd_delim w \/ c = LF \/ c = CR \/ In c (wd_term w))).
  { intros c. assert (Q := opt_is_iff (wd_quote w) c). assert (E := opt_is_iff (wd_escape w) c). change opt_is with is_opt in *.
    assert (S : separator w c = true <-> c = wd_delim w \/ c = LF \/ c = CR \/ In c (wd_term w)).
    { unfold separator. rewrite existsb_exists. split.
      - intros (x & Hx & Hc). apply N.eqb_eq in Hc. subst x. cbn [In] in Hx. intuition congruence.
      - intros H. exists c. split; [cbn [In]; intuition congruence|apply N.eqb_refl]. }
    unfold char_quotes, char_way, unquoted_dialect. rewrite HQ. destruct (is_opt (wd_quote w) c), (is_opt (wd_escape w) c), (wd_doublequote w), (separator w c); intuition congruence. }
  assert (HL : lost_empty w (value_str v) = true <-> value_str v = [] /\ wd_delim w = SPACE /\ wd_skipspace w = true).
  { unfold lost_empty. destruct (value_str v); [|split; [discriminate|intros [[=] _]]]. rewrite andb_true_iff, N.eqb_eq. tauto. }
  rewrite HL. split.
  - intros [(c & H1 & H2)|H]; [left; exists c; split; [exact H1|now apply HC]|now right].
  - intros [(c & H1 & H2)|H]; [left; exists c; split; [exact H1|now apply HC]|now right].
Qed.
