(** * RoundTripPlain: writing without quoting *)
From Verif Require Import Base Parser Dialect CsvLib Reader Writer SpecLayout SpecParse
  ParserFacts LayoutFacts ParserLift RoundTrip.

Section Plain.
  Variables (w : wdialect) (q : N) (e : eol).
  Let d := wd_delim w.
  Let D := mk_chars (Some d) None (wd_escape w).
  Hypothesis WF : wf_chars D = true.
  Hypothesis Hq : wd_quote w = Some q.
  Hypothesis Hqn : is_nl q = false.
  Hypothesis Hqt : wd_quoting w = QUOTE_NONE.
  Hypothesis Hsk : wd_skipspace w = false.
  Hypothesis Ht : term_eol (wd_term w) = Some e.

  (** What becomes of a character: the writer escapes the quote character
      although it has no role, and the reader then keeps the escape. *)
  Definition kept (c : N) : str :=
    if (c =? q)%N && negb (special D c) then opt_str (wd_escape w) ++ [c] else [c].

  Definition lay_n (c : N) : piece := if w_special w c then PEsc c else PChar c.

  Lemma w_char_n b c t b' : w_char w b c = Ok (t, b') ->
    b' = b /\ t = render_piece D (lay_n c) /\ (w_special w c = true -> is_set (wd_escape w) = true).
  Proof.
    unfold w_char, lay_n. rewrite Hqt. destruct (w_special w c).
    - destruct (wd_escape w) eqn:E; [|discriminate]. intros [= <- <-]. cbn [render_piece D ce].
      repeat split.
    - intros [= <- <-]. repeat split. discriminate.
  Qed.

  Lemma w_field_n s : forall b t b', w_field w b s = Ok (t, b') ->
    b' = b /\ t = render_cell D (map lay_n s) /\
    Forall (fun c => w_special w c = true -> is_set (wd_escape w) = true) s.
  Proof.
    induction s as [|c s IH]; intros b t b'; cbn [w_field].
    - intros [= <- <-]. repeat split; constructor.
    - destruct (w_char w b c) as [[t1 b1]|] eqn:E1; cbn [bind]; [|discriminate].
      destruct (w_field w b1 s) as [[t2 b2]|] eqn:E2; cbn [bind]; [|discriminate].
      intros [= <- <-]. apply w_char_n in E1 as (-> & -> & H1). apply IH in E2 as (-> & -> & H2).
      repeat split; auto.
  Qed.

  Lemma special_D c : special D c = (c =? d)%N || opt_is (wd_escape w) c.
  Proof. unfold special. cbn [D cd cq ce is_opt]. now rewrite orb_false_r. Qed.

  Lemma w_special_eq c : w_special w c = special D c || (c =? q)%N || is_nl c.
  Proof.
    rewrite special_D. unfold w_special. rewrite Hq. cbn [opt_is]. fold d. unfold is_nl.
    destruct (mem_char c (wd_term w)) eqn:E.
    - apply (term_eol_nl _ _ _ Ht), is_nl_spec in E. destruct E as [-> | ->]; cbn;
        now rewrite ?orb_true_r.
    - destruct (c =? d)%N, (opt_is _ c), (c =? q)%N, (c =? LF)%N, (c =? CR)%N; reflexivity.
  Qed.

  Lemma wf_lay_n s : no_nul s ->
    Forall (fun c => w_special w c = true -> is_set (wd_escape w) = true) s ->
    wf_cell D (map lay_n s) = true.
  Proof.
    intros Hn H. unfold wf_cell.
    replace (no_adjacent (map lay_n s)) with true.
    2:{ clear. induction s as [|c s IH]; [reflexivity|]. cbn [map]. unfold lay_n at 1.
        destruct (w_special w c); exact IH. }
    rewrite andb_true_r. apply forallb_forall. intros p Hp. apply in_map_iff in Hp as (c & <- & Hc).
    rewrite Forall_forall in H. specialize (H c Hc).
    assert (E0 : (c =? NUL)%N = false) by (apply N.eqb_neq; intros ->; contradiction).
    unfold lay_n. destruct (w_special w c) eqn:E.
    - cbn [wf_piece D ce]. now rewrite (H eq_refl), E0.
    - cbn [wf_piece]. rewrite E0. rewrite w_special_eq in E. rewrite !orb_false_iff in E.
      destruct E as [[-> _] ->]. reflexivity.
  Qed.

  Lemma raw_lay_n s : raw_cell D (map lay_n s) = concat (map kept s).
  Proof.
    unfold raw_cell. rewrite map_map. f_equal. apply map_ext. intros c. unfold lay_n, kept.
    rewrite w_special_eq. destruct (special D c) eqn:Es.
    - cbn [orb negb]. rewrite andb_false_r. cbn [piece_value]. now rewrite Es.
    - destruct (c =? q)%N eqn:Eq; cbn [orb andb negb].
      + cbn [piece_value]. rewrite Es. apply N.eqb_eq in Eq. subst c. now rewrite Hqn.
      + destruct (is_nl c) eqn:En; [|reflexivity]. cbn [piece_value]. now rewrite Es, En.
  Qed.

  Lemma w_append_n first v t : w_append w first (w_quoted w v) (value_str v) = Ok t ->
    t = (if first then [] else [d]) ++ render_cell D (map lay_n (value_str v)) /\
    Forall (fun c => w_special w c = true -> is_set (wd_escape w) = true) (value_str v).
  Proof.
    unfold w_append. assert (E : w_empty w (w_quoted w v) (value_str v) = Ok false).
    { unfold w_empty, w_quoted. rewrite Hqt, Hsk, andb_false_r. now destruct (value_str v). }
    rewrite E. cbn [bind]. destruct (w_field w false (value_str v)) as [[u b]|] eqn:F; cbn [bind]; [|discriminate].
    intros [= <-]. apply w_field_n in F as (-> & -> & H). split; [reflexivity|exact H].
  Qed.

  Lemma w_fields_n row : forall first t, w_fields w first row = Ok t ->
    t = concat (map (fun v => (if first then [] else [d]) ++ render_cell D (map lay_n (value_str v)))
                    (firstn 1 row)) ++
        concat (map (fun v => [d] ++ render_cell D (map lay_n (value_str v))) (skipn 1 row)) /\
    Forall (fun v => Forall (fun c => w_special w c = true -> is_set (wd_escape w) = true) (value_str v)) row.
  Proof.
    induction row as [|v row IH]; intros first t; cbn [w_fields]; [intros [= <-]; split; [reflexivity|constructor]|].
    destruct (w_append w first _ _) as [t1|] eqn:E1; cbn [bind]; [|discriminate].
    destruct (w_fields w false row) as [t2|] eqn:E2; cbn [bind]; [|discriminate]. intros [= <-].
    apply w_append_n in E1 as [-> H1]. apply IH in E2 as [-> H2]. split; [|now constructor].
    cbn [firstn skipn map concat]. rewrite app_nil_r. f_equal.
    destruct row; [reflexivity|]. cbn [firstn skipn map concat]. now rewrite app_nil_r.
  Qed.

  Definition lay_row_n (row : list value) : list (list piece) :=
    map (fun v => map lay_n (value_str v)) row.

  Lemma render_lay_n_nil s : render_cell D (map lay_n s) = [] ->
    Forall (fun c => w_special w c = true -> is_set (wd_escape w) = true) s -> s = [].
  Proof.
    destruct s as [|c s]; [reflexivity|]. intros H K. exfalso. inversion K as [|? ? K1 _]; subst.
    cbn in H. unfold lay_n in H. destruct (w_special w c); cbn in H; [|discriminate].
    destruct (wd_escape w); [discriminate|]. specialize (K1 eq_refl). discriminate.
  Qed.

  Lemma writerow_n row t : csv_writerow w row = Ok t ->
    t = render_record D (lay_row_n row, e) /\ (forall v, row = [v] -> value_str v <> []) /\
    Forall (fun v => Forall (fun c => w_special w c = true -> is_set (wd_escape w) = true) (value_str v)) row.
  Proof.
    unfold csv_writerow. destruct (w_fields w true row) as [u|] eqn:E; cbn [bind]; [|discriminate].
    apply w_fields_n in E as [-> H]. unfold render_record. cbn [fst snd].
    rewrite (term_eol_render _ _ Ht). unfold render_row, lay_row_n. rewrite Hqt.
    destruct row as [|v row]; [intros [= <-]; repeat split; [discriminate|constructor]|].
    cbn [firstn skipn map concat app]. rewrite app_nil_r.
    destruct row as [|v' row].
    - cbn [map concat join]. rewrite app_nil_r.
      destruct (render_cell D (map lay_n (value_str v))) as [|c t'] eqn:R; [discriminate|].
      intros [= <-]. repeat split; auto. intros v0 [= <-] E0. rewrite E0 in R. discriminate.
    - set (u := render_cell D (map lay_n (value_str v)) ++ _).
      assert (Hu : u <> []). { subst u. cbn [map concat app]. now destruct (render_cell D _). }
      intros K. assert (Ek : t = u ++ wd_term w).
      { destruct u; [contradiction|]. now injection K as <-. }
      split; [|split; [discriminate|exact H]]. rewrite Ek. f_equal. subst u.
      cbn [map opt_str cd D]. rewrite (join_cells w). f_equal. cbn [map concat]. now rewrite !map_map.
  Qed.

  Definition lay_doc_n (rows : list (list value)) : doc :=
    mk_doc (map (fun r => (lay_row_n r, e)) rows) TEnd.

  Definition good_row (row : list value) : Prop :=
    (forall v, row = [v] -> value_str v <> []) /\
    Forall (fun v => Forall (fun c => w_special w c = true -> is_set (wd_escape w) = true) (value_str v)) row.

  Lemma writerows_n rows t : csv_writerows w rows = (t, None) ->
    t = render D (lay_doc_n rows) /\ Forall good_row rows.
  Proof.
    unfold render, lay_doc_n. cbn [records last render_tail]. rewrite app_nil_r, map_map.
    revert t. induction rows as [|r rows IH]; intros t; cbn [csv_writerows].
    - intros [= <-]. split; [reflexivity|constructor].
    - destruct (csv_writerow w r) as [u|] eqn:E; [|discriminate].
      destruct (csv_writerows w rows) as [u' x] eqn:F. intros [= <- ->].
      apply writerow_n in E as (-> & H1 & H2). destruct (IH _ eq_refl) as [-> H3].
      split; [reflexivity|]. constructor; [now split|exact H3].
  Qed.

  Lemma unquote_n s : unquote D s = (s, false).
  Proof. unfold unquote. destruct s as [|c [|c' s]]; reflexivity. Qed.

  Theorem written_reads_back_n rows text limit :
    csv_writerows w rows = (text, None) ->
    (forall r v, In r rows -> In v r -> no_nul (value_str v) /\
       (Z.of_nat (length (concat (map kept (value_str v)))) <= limit)%Z) ->
    parse_string limit text (simple D false) false =
      (map (map (fun v => CStr (concat (map kept (value_str v))))) rows, None).
  Proof.
    intros HW H. apply writerows_n in HW as [-> HG]. rewrite Forall_forall in HG.
    assert (Hv : forall r v, In r rows -> In v r -> cell_value D (map lay_n (value_str v)) =
      (concat (map kept (value_str v)), false)).
    { intros. unfold cell_value. now rewrite raw_lay_n, unquote_n. }
    rewrite parse_string_layout; auto.
    - f_equal. unfold denote, lay_doc_n, mk_rows. cbn [records last tail_value]. rewrite app_nil_r, !map_map.
      apply map_ext_in. intros r Hr. cbn [fst]. unfold row_value, lay_row_n. rewrite !map_map.
      apply map_ext_in. intros v Hv'. now rewrite (Hv r v Hr Hv').
    - unfold wf_doc, lay_doc_n. cbn [records last wf_tail]. rewrite andb_true_r.
      rewrite <- (map_map lay_row_n (fun r => (r, e))). apply wf_same.
      intros x Hx. apply in_map_iff in Hx as (r & <- & Hr). destruct (HG r Hr) as [G1 G2].
      rewrite Forall_forall in G2. unfold wf_row. apply andb_true_iff. split.
      + apply forallb_forall. intros ps Hps. apply in_map_iff in Hps as (v & <- & Hvr).
        apply wf_lay_n; [now apply (H r v)|now apply G2].
      + destruct r as [|v [|v' r]]; try reflexivity.
        * cbn. specialize (G1 v eq_refl). now destruct (value_str v).
        * cbn. now destruct (map lay_n (value_str v)).
    - unfold raw_cells, lay_doc_n. cbn [records last]. rewrite app_nil_r, map_map. cbn [fst].
      apply Forall_concat, Forall_forall. intros l Hl. apply in_map_iff in Hl as (r & <- & Hr).
      apply Forall_forall. intros s Hs. unfold lay_row_n in Hs. rewrite map_map in Hs.
      apply in_map_iff in Hs as (v & <- & Hvr). rewrite raw_lay_n. now apply (H r v).
  Qed.

  (** With an escape character only a row of one empty cell cannot be written. *)
  Lemma w_field_some ec s : wd_escape w = Some ec -> forall b, exists t b', w_field w b s = Ok (t, b').
  Proof.
    intros He. induction s as [|c s IH]; intros b; cbn [w_field]; [eauto|].
    assert (exists t b', w_char w b c = Ok (t, b')) as (t & b1 & ->).
    { unfold w_char. rewrite Hqt, He. destruct (w_special w c); eauto. }
    cbn [bind]. destruct (IH b1) as (t' & b2 & ->). cbn [bind]. eauto.
  Qed.
  Lemma w_fields_some ec row : wd_escape w = Some ec -> forall first, exists t, w_fields w first row = Ok t.
  Proof.
    intros He. induction row as [|v row IH]; intros first; cbn [w_fields]; [eauto|].
    unfold w_append. assert (E : w_empty w (w_quoted w v) (value_str v) = Ok false).
    { unfold w_empty, w_quoted. rewrite Hqt, Hsk, andb_false_r. now destruct (value_str v). }
    rewrite E. cbn [bind]. destruct (w_field_some ec (value_str v) He false) as (t & b & ->). cbn [bind].
    destruct (IH false) as (t' & ->). cbn [bind]. eauto.
  Qed.
  Theorem writes_some ec rows : wd_escape w = Some ec ->
    (forall r v, In r rows -> r = [v] -> value_str v <> []) ->
    exists text, csv_writerows w rows = (text, None).
  Proof.
    intros He. induction rows as [|r rows IH]; intros H; cbn [csv_writerows]; [eauto|].
    assert (exists t, csv_writerow w r = Ok t) as [t ->].
    { unfold csv_writerow. destruct (w_fields_some ec r He true) as [u Hu]. rewrite Hu. cbn [bind].
      apply w_fields_n in Hu as [Hu Hs]. destruct r as [|v r]; [destruct u; eauto|].
      destruct u; [|eauto]. exfalso. symmetry in Hu. apply app_eq_nil in Hu as [H1 H2].
      destruct r as [|v' r]; [|discriminate].
      apply (H [v] v); [now left|reflexivity|]. cbn in H1. rewrite app_nil_r in H1.
      apply render_lay_n_nil; auto. inversion Hs; subst; assumption. }
    destruct IH as [t2 ->]; [intros ? ? ?; apply H; now right|]. eauto.
  Qed.

  (** Without one, exactly the cells without special characters can be. *)
  Theorem writes_none rows : wd_escape w = None ->
    ((exists text, csv_writerows w rows = (text, None)) <->
     (forall r v, In r rows -> In v r -> Forall (fun c => w_special w c = false) (value_str v)) /\
     (forall r v, In r rows -> r = [v] -> value_str v <> [])).
  Proof.
    intros He. split.
    - intros [text HW]. apply writerows_n in HW as [_ HG]. rewrite Forall_forall in HG. split.
      + intros r v Hr Hv. destruct (HG r Hr) as [_ G]. rewrite Forall_forall in G. specialize (G v Hv).
        eapply Forall_impl; [|exact G]. intros c Hc. rewrite He in Hc. cbn in Hc.
        destruct (w_special w c); [now specialize (Hc eq_refl)|reflexivity].
      + intros r v Hr E. now apply (HG r Hr).
    - intros [H1 H2]. induction rows as [|r rows IH]; cbn [csv_writerows]; [eauto|].
      assert (Hf : forall s, Forall (fun c => w_special w c = false) s -> forall b, w_field w b s = Ok (s, b)).
      { induction 1 as [|c s Hc _ IHs]; intros b; cbn [w_field]; [reflexivity|].
        unfold w_char. rewrite Hc. cbn [bind]. rewrite IHs. reflexivity. }
      assert (Hfs : forall row first, (forall v, In v row -> Forall (fun c => w_special w c = false) (value_str v)) ->
        exists t, w_fields w first row = Ok t).
      { induction row as [|v row IHr]; intros first Hr; cbn [w_fields]; [eauto|].
        unfold w_append. assert (E : w_empty w (w_quoted w v) (value_str v) = Ok false).
        { unfold w_empty, w_quoted. rewrite Hqt, Hsk, andb_false_r. now destruct (value_str v). }
        rewrite E. cbn [bind]. rewrite Hf by (apply Hr; now left). cbn [bind].
        destruct (IHr false) as [t ->]; [intros; apply Hr; now right|]. cbn [bind]. eauto. }
      assert (exists t, csv_writerow w r = Ok t) as [t ->].
      { unfold csv_writerow. destruct (Hfs r true) as [u Hu]; [intros; eapply H1; [now left|assumption]|].
        rewrite Hu. cbn [bind]. apply w_fields_n in Hu as [Hu Hs]. destruct r as [|v r]; [destruct u; eauto|].
        destruct u; [|eauto]. exfalso. symmetry in Hu. apply app_eq_nil in Hu as [E1 E2].
        destruct r as [|v' r]; [|discriminate].
        apply (H2 [v] v); [now left|reflexivity|]. cbn in E1. rewrite app_nil_r in E1.
        apply render_lay_n_nil; auto. inversion Hs; subst; assumption. }
      destruct IH as [t' ->]; [intros ? ? ?; apply H1; now right|intros ? ? ?; apply H2; now right|].
      eauto.
  Qed.
End Plain.
