(** * WriteErrors: when the csv writer fails *)
From Verif Require Import Base Parser Dialect CsvLib Writer Dict DictFacts DictWriteFacts SpecWriteErrors.

Section Errors.
Variable w : wdialect.
Lemma opt_is_iff o c : opt_is o c = true <-> o = Some c.
Proof. destruct o as [x|]; cbn; [|split; discriminate]. rewrite N.eqb_eq. split; congruence. Qed.
Lemma mem_iff c s : mem_char c s = true <-> In c s.
Proof. unfold mem_char. rewrite existsb_exists. split; [intros (x & Hx & E); apply N.eqb_eq in E; now subst|intros H; exists c; split; [exact H|apply N.eqb_refl]]. Qed.
Lemma special_iff c : w_special w c = true <-> c = wd_delim w \/ wd_escape w = Some c \/ wd_quote w = Some c \/ c = LF \/ c = CR \/ In c (wd_term w).
Proof. unfold w_special. rewrite !orb_true_iff, !N.eqb_eq, !opt_is_iff, mem_iff. tauto. Qed.
Lemma char_fails b c : (wd_escape w = None /\ needs_escape w c) \/ exists t q, w_char w b c = Ok (t, q) /\ ~ (wd_escape w = None /\ needs_escape w c) /\ t <> [].
Proof.
  assert (HQ := opt_is_iff (wd_quote w) c). assert (HE := opt_is_iff (wd_escape w) c). assert (HS := special_iff c). unfold w_char, needs_escape. destruct (w_special w c).
  - destruct HS as [HS _]. specialize (HS eq_refl).
    destruct (opt_is (wd_quote w) c); [assert (HQ1 := proj1 HQ eq_refl)|assert (HQ1 : wd_quote w <> Some c) by (intros E; apply HQ in E; discriminate E)];
    destruct (opt_is (wd_escape w) c); [assert (HE1 := proj1 HE eq_refl)|assert (HE1 : wd_escape w <> Some c) by (intros E; apply HE in E; discriminate E)| assert (HE1 := proj1 HE eq_refl)|assert (HE1 : wd_escape w <> Some c) by (intros E; apply HE in E; discriminate E)];
    clear HQ HE; destruct (wd_quoting w), (wd_doublequote w); destruct (wd_escape w) as [e|]; try discriminate HE1;
    try (right; eexists _, _; split; [reflexivity|]; split; [intros [? ?]; intuition congruence|discriminate]); left; (split; [reflexivity|]); tauto.
  - right. exists [c], b. split; [reflexivity|]. split; [|discriminate]. intros [E H]. assert (HF : false = true); [|discriminate HF]. apply HS. destruct (wd_quoting w); tauto.
Qed.
Lemma char_error b c x : w_char w b c = Err x -> x = CsvError.
Proof.
  unfold w_char. destruct (w_special w c); [|discriminate]. destruct (wd_quoting w), (opt_is (wd_quote w) c), (wd_doublequote w), (opt_is (wd_escape w) c), (wd_escape w); intros [=]; auto.
Qed.
Definition bad_cell (s : str) : Prop := wd_escape w = None /\ exists c, In c s /\ needs_escape w c.
Lemma char_bad b c : wd_escape w = None -> needs_escape w c -> w_char w b c = Err CsvError.
Proof.
  intros E H. assert (HQ := opt_is_iff (wd_quote w) c). assert (HS := special_iff c). unfold w_char, needs_escape in *. rewrite E in *.
  assert (ES : w_special w c = true) by (apply HS; destruct (wd_quoting w); tauto). rewrite ES. destruct (wd_quoting w); try reflexivity; destruct H as [H1 H2]; apply HQ in H1; rewrite H1, H2; reflexivity.
Qed.
Lemma field_cases s : forall b, (bad_cell s /\ w_field w b s = Err CsvError) \/ (~ bad_cell s /\ exists t q, w_field w b s = Ok (t, q) /\ (t = [] <-> s = [])).
Proof.
  induction s as [|c s IH]; intros b.
  - right. split; [intros (_ & c & [] & _)|]. now exists [], b.
  - cbn [w_field]. destruct (char_fails b c) as [[E H]|(t & q & E & H & Ht)].
    + left. split; [split; [exact E|]; exists c; split; [now left|exact H]|]. now rewrite (char_bad b c E H).
    + rewrite E. cbn [bind]. destruct (IH q) as [[(E1 & c' & H1 & H2) H3]|[H1 (t' & q' & E' & _)]].
      * left. rewrite H3. split; [|reflexivity]. split; [exact E1|]. exists c'. split; [now right|exact H2].
      * right. rewrite E'. cbn [bind]. split; [|eexists _, _; split; [reflexivity|]; split; [intros H2; apply app_eq_nil in H2 as [-> _]; congruence|discriminate]].
        intros (E1 & c' & [<-|Hc] & H2); [tauto|]. apply H1. split; [exact E1|eauto].
Qed.
Definition bad_empty (s : str) : Prop := s = [] /\ wd_quoting w = QUOTE_NONE /\ wd_delim w = SPACE /\ wd_skipspace w = true.
Lemma empty_cases b s : (bad_empty s /\ w_empty w b s = Err CsvError) \/ (~ bad_empty s /\ exists q, w_empty w b s = Ok q /\ (wd_quoting w = QUOTE_NONE -> q = b)).
Proof.
  unfold w_empty, bad_empty. destruct s as [|c s]; [|right; split; [intros [[=] _]|eauto]]. destruct (N.eqb_spec (wd_delim w) SPACE) as [E|E]; cbn [andb]; [|right; split; [tauto|eauto]].
  destruct (wd_skipspace w); [|right; split; [intros (_ & _ & _ & [=])|eauto]]. destruct (wd_quoting w); try (right; split; [intros (_ & [=] & _)|eexists; split; [reflexivity|intros [=]]]). left. tauto.
Qed.
Lemma append_cases first b s : ((bad_cell s \/ bad_empty s) /\ w_append w first b s = Err CsvError) \/
  (~ (bad_cell s \/ bad_empty s) /\ exists t, w_append w first b s = Ok t /\ (wd_quoting w = QUOTE_NONE -> b = false -> (t = [] <-> first = true /\ s = []))).
Proof.
  unfold w_append. destruct (empty_cases b s) as [[H E]|[H (q & E & Hq)]]; rewrite E; cbn [bind]; [left; tauto|]. destruct (field_cases s q) as [[H1 E1]|[H1 (t & q' & E1 & Ht)]]; rewrite E1; cbn [bind]; [left; tauto|].
  right. split; [tauto|]. eexists. split; [reflexivity|]. intros HN ->. specialize (Hq HN). subst q.
  assert (G : q' = false).
  { assert (G0 : forall b t q', w_field w b s = Ok (t, q') -> q' = b); [|exact (G0 _ _ _ E1)]. clear - HN. induction s as [|c s IH]; intros b t q'; cbn [w_field]; [now intros [= <- <-]|].
    destruct (w_char w b c) as [[t1 q1]|] eqn:E; cbn [bind]; [|discriminate]. assert (E2 : q1 = b). { unfold w_char in E. rewrite HN in E. destruct (w_special w c); [destruct (wd_escape w); [|discriminate E]|]; injection E as _ <-; reflexivity. }
    subst q1. destruct (w_field w b s) as [[t2 q2]|] eqn:E3; cbn [bind]; [|discriminate]. intros [= _ <-]. exact (IH b t2 q2 E3). }
  subst q'. destruct first; cbn [app]; [rewrite Ht; tauto|]. split; [discriminate|now intros [[=] _]].
Qed.
Lemma quoted_none v : wd_quoting w = QUOTE_NONE -> w_quoted w v = false.
Proof. unfold w_quoted. now intros ->. Qed.
Lemma fields_cases row : forall first, ((exists v, In v row /\ (bad_cell (value_str v) \/ bad_empty (value_str v))) /\ w_fields w first row = Err CsvError) \/
  (~ (exists v, In v row /\ (bad_cell (value_str v) \/ bad_empty (value_str v))) /\ exists t, w_fields w first row = Ok t /\
   (wd_quoting w = QUOTE_NONE -> (t = [] <-> row = [] \/ (first = true /\ exists v, row = [v] /\ value_str v = [])))).
Proof.
  induction row as [|v row IH]; intros first.
  - right. split; [intros (v & [] & _)|]. exists []. split; [reflexivity|]. tauto.
  - cbn [w_fields]. destruct (append_cases first (w_quoted w v) (value_str v)) as [[H E]|[H (t & E & Ht)]]; rewrite E; cbn [bind]; [left; split; [exists v; split; [now left|exact H]|reflexivity]|].
    destruct (IH false) as [[(u & Hu & H1) E1]|[H1 (t' & E1 & Ht')]]; rewrite E1; cbn [bind]; [left; split; [exists u; split; [now right|exact H1]|reflexivity]|].
    right. split; [intros (u & [<-|Hu] & H2); [tauto|apply H1; eauto]|]. eexists. split; [reflexivity|]. intros HN. specialize (Ht HN (quoted_none v HN)). specialize (Ht' HN). split.
    + intros H2. apply app_eq_nil in H2 as [H2 H3]. right. apply Ht in H2 as [-> H2]. split; [reflexivity|]. exists v. split; [|exact H2]. apply Ht' in H3 as [->|([=] & _)]. reflexivity.
    + intros [[=]|(-> & u & [= -> ->] & H2)]. rewrite (proj2 Ht) by now split. now rewrite (proj2 Ht') by now left.
Qed.
Lemma row_error row x : csv_writerow w row = Err x <-> x = CsvError /\ unwritable w row.
Proof.
  unfold csv_writerow, unwritable. destruct (fields_cases row true) as [[(v & Hv & H) E]|[H (t & E & Ht)]]; rewrite E; cbn [bind].
  - split; [|now intros [-> _]]. intros [= <-]. split; [reflexivity|]. destruct H as [(H1 & c & H2 & H3)|(H1 & H2 & H3 & H4)]; [left; eauto 6|right; right; eauto 6].
  - assert (G : (wd_escape w = None /\ exists v c, In v row /\ In c (value_str v) /\ needs_escape w c) \/ (wd_quoting w = QUOTE_NONE /\ wd_delim w = SPACE /\ wd_skipspace w = true /\ exists v, In v row /\ value_str v = []) -> False).
    { intros [(H1 & v & c & H2 & H3 & H4)|(H1 & H2 & H3 & v & H4 & H5)]; apply H; exists v; (split; [assumption|]); [left; split; eauto|right]. now repeat split. }
    assert (R : forall y, (x = CsvError /\ (wd_quoting w = QUOTE_NONE /\ (exists v, row = [v] /\ value_str v = [])) <-> @Err pyexc str y = Err x) -> (@Err pyexc str y = Err x <-> x = CsvError /\ ((wd_escape w = None /\ exists v c, In v row /\ In c (value_str v) /\ needs_escape w c) \/
      (wd_quoting w = QUOTE_NONE /\ (exists v, row = [v] /\ value_str v = [])) \/ (wd_quoting w = QUOTE_NONE /\ wd_delim w = SPACE /\ wd_skipspace w = true /\ exists v, In v row /\ value_str v = [])))) by (intros y; tauto).
    assert (R2 : forall (s : str), ~ (wd_quoting w = QUOTE_NONE /\ (exists v, row = [v] /\ value_str v = [])) -> (@Ok pyexc str s = Err x <-> x = CsvError /\ ((wd_escape w = None /\ exists v c, In v row /\ In c (value_str v) /\ needs_escape w c) \/
      (wd_quoting w = QUOTE_NONE /\ (exists v, row = [v] /\ value_str v = [])) \/ (wd_quoting w = QUOTE_NONE /\ wd_delim w = SPACE /\ wd_skipspace w = true /\ exists v, In v row /\ value_str v = [])))) by (intros s HN; split; [discriminate|tauto]).
    destruct row as [|v row]; [apply R2; intros (_ & v & [=] & _)|]. destruct t as [|z t].
    + destruct (wd_quoting w) eqn:EQ; try (apply R2; now intros [[=] _]). apply R. specialize (Ht eq_refl). destruct (proj1 Ht eq_refl) as [[=]|(_ & u & E1 & E2)].
      split; [intros [-> _]; reflexivity|]. intros [= <-]. split; [reflexivity|]. split; [reflexivity|]. eauto.
    + apply R2. intros (HN & u & E1 & E2). specialize (Ht HN). assert (F : z :: t = []); [|discriminate F]. apply Ht. right. eauto.
Qed.
Lemma row_ok row : ~ unwritable w row -> exists t, csv_writerow w row = Ok t.
Proof. intros H. destruct (csv_writerow w row) as [t|x] eqn:E; [eauto|]. apply row_error in E. tauto. Qed.

(** ** None *)
Definition no_none (v : value) : value := match v with VNone => VStr [] | v => v end.
Lemma fields_none row : forall first, w_fields w first (map no_none row) = w_fields w first row.
Proof. induction row as [|v row IH]; intros first; [reflexivity|]. cbn [map w_fields]. rewrite IH. replace (w_quoted w (no_none v)) with (w_quoted w v) by (unfold w_quoted; now destruct (wd_quoting w), v). now destruct v. Qed.
Lemma row_none row : csv_writerow w (map no_none row) = csv_writerow w row.
Proof. unfold csv_writerow. rewrite fields_none. destruct (w_fields w true row); [|reflexivity]. now destruct row. Qed.
Lemma rows_none rows : csv_writerows w (map (map no_none) rows) = csv_writerows w rows.
Proof. induction rows as [|r rows IH]; [reflexivity|]. cbn [map csv_writerows]. now rewrite row_none, IH. Qed.
End Errors.

Lemma rows_written w rows text : writerows w rows = (text, None) -> Forall (fun r => ~ unwritable w r) rows.
Proof.
  unfold writerows. revert text. induction rows as [|r rows IH]; intros text; [constructor|]. cbn [csv_writerows]. destruct (csv_writerow w r) as [t|x] eqn:E; [|now destruct x].
  destruct (csv_writerows w rows) as [t' [x|]]; [discriminate|]. intros _. constructor; [|now apply (IH t')]. intros H. assert (E' := proj2 (row_error w r CsvError) (conj eq_refl H)). congruence.
Qed.
Lemma rows_ok w rows : Forall (fun r => ~ unwritable w r) rows -> exists text, writerows w rows = (text, None).
Proof.
  unfold writerows. induction 1 as [|r rows H HF IH]; [now exists []|]. cbn [csv_writerows]. destruct (row_ok w r H) as (t & ->). destruct IH as (t' & E). destruct (csv_writerows w rows) as [u [x|]]; [discriminate E|]. eauto.
Qed.
Lemma rows_fail w good row rest : Forall (fun r => ~ unwritable w r) good -> unwritable w row -> writerows w (good ++ row :: rest) = (fst (writerows w good), Some WriteError).
Proof.
  intros HG HB. unfold writerows. induction HG as [|r good H HF IH]; cbn [app csv_writerows].
  - now rewrite (proj2 (row_error w row CsvError) (conj eq_refl HB)).
  - destruct (row_ok w r H) as (t & ->). destruct (csv_writerows w (good ++ row :: rest)) as [t1 x1]. destruct (csv_writerows w good) as [t2 x2]. cbn in *. injection IH as -> ->. reflexivity.
Qed.

(** ** Headers *)
Lemma update_get (names : list key) k : forall d : odict value, (In k names \/ od_get d k = Some (key_value k)) -> od_get (od_update d (zip names (map key_value names))) k = Some (key_value k).
Proof.
  induction names as [|n names IH]; intros d H; cbn [map zip]; unfold od_update; cbn [fold_left fst snd]; [destruct H as [[]|H]; exact H|].
  apply (IH (od_set d n (key_value n))). rewrite od_get_set. destruct (key_eqb n k) eqn:E; [apply key_eqb_eq in E as ->; now right|]. destruct H as [[->|H]|H]; [|now left|now right]. assert (E' := proj2 (key_eqb_eq k k) eq_refl). congruence.
Qed.
Lemma update_keys (names : list key) : forall (d : odict value) k, In k (map fst (od_update d (zip names (map key_value names)))) -> In k names \/ In k (map fst d).
Proof.
  induction names as [|n names IH]; intros d k; cbn [map zip]; unfold od_update; cbn [fold_left fst snd]; [now right|]. intros H. apply (IH (od_set d n (key_value n))) in H as [H|H]; [left; now right|].
  apply od_set_keys in H as [H|H]; [left; now left|now right].
Qed.
Lemma header_written w : dw_writeheader w = writerow (dw_writer w) (map (fun k => VStr (match k with Some s => s | None => [] end)) (dw_names w)).
Proof.
  unfold dw_writeheader, dw_writerow, dict_to_list. set (d := od_update [] _).
  replace (existsb _ d) with false.
  2:{ symmetry. destruct (existsb _ d) eqn:E; [|reflexivity]. apply unknown_spec in E as (k & H1 & H2). elim H2. apply update_keys in H1 as [H1|[]]. exact H1. }
  rewrite andb_false_r. cbn [bind]. unfold writerow. rewrite <- row_none. replace (map no_none (map _ (dw_names w))) with (map (fun k : key => VStr (match k with Some s => s | None => [] end)) (dw_names w)); [reflexivity|].
  rewrite map_map. apply map_ext_in. intros k Hk. unfold d. rewrite update_get by now left. now destruct k.
Qed.

Lemma writerow_error w row x : writerow w row = Err x <-> x = WriteError /\ unwritable w row.
Proof.
  unfold writerow. destruct (csv_writerow w row) as [t|y] eqn:E.
  - split; [discriminate|]. intros [_ H]. assert (E' := proj2 (row_error w row CsvError) (conj eq_refl H)). congruence.
  - apply row_error in E as [-> H]. cbn. split; [now intros [= <-]|now intros [-> _]].
Qed.
Lemma writerows_iff w rows : (exists text, writerows w rows = (text, None)) <-> Forall (fun r => ~ unwritable w r) rows.
Proof. split; [intros [text E]; exact (rows_written w rows text E)|apply rows_ok]. Qed.
Lemma writerows_none w rows : writerows w (map (map (fun v => match v with VNone => VStr [] | v => v end)) rows) = writerows w rows.
Proof. unfold writerows. now rewrite <- (rows_none w rows). Qed.
