(** * RoundTrip: what the writer writes is a layout of the table *)
From Verif Require Import Base Parser Dialect CsvLib Reader Writer SpecLayout SpecParse
  ParserFacts LayoutFacts ParserLift.

Definition value_no_nul (v : value) : Prop := no_nul (value_str v).

(** A line terminator the reader understands. *)
Definition term_eol (t : str) : option eol :=
  if str_eqb t [LF] then Some ELF else if str_eqb t [CR] then Some ECR
  else if str_eqb t [CR; LF] then Some ECRLF else None.
Lemma term_eol_render t e : term_eol t = Some e -> render_eol e = t.
Proof.
  unfold term_eol. destruct (str_eqb t [LF]) eqn:E1.
  { apply str_eqb_eq in E1 as ->. now intros [= <-]. }
  destruct (str_eqb t [CR]) eqn:E2. { apply str_eqb_eq in E2 as ->. now intros [= <-]. }
  destruct (str_eqb t [CR; LF]) eqn:E3; [|discriminate].
  apply str_eqb_eq in E3 as ->. now intros [= <-].
Qed.
Lemma term_eol_nl t e c : term_eol t = Some e -> mem_char c t = true -> is_nl c = true.
Proof.
  intros H. apply term_eol_render in H as <-. destruct e; cbn; rewrite ?orb_false_r; unfold is_nl;
    rewrite ?orb_true_iff; tauto.
Qed.
Lemma wf_same D rs e : (forall r, In r rs -> wf_row D r = true) ->
  wf_records D (map (fun r => (r, e)) rs) = true.
Proof.
  induction rs as [|r rs IH]; intros H; [reflexivity|]. cbn [map wf_records].
  rewrite (H r (or_introl eq_refl)), IH by (intros; apply H; now right).
  destruct e, rs as [|[] ?]; reflexivity.
Qed.

Section Quoting.
  Variables (w : wdialect) (q : N) (e : eol).
  Let d := wd_delim w.
  Let D := mk_chars (Some d) (Some q) (wd_escape w).
  Hypothesis WF : wf_chars D = true.
  Hypothesis Hq : wd_quote w = Some q.
  Hypothesis Hdq : wd_doublequote w = true.
  Hypothesis Hqt : wd_quoting w <> QUOTE_NONE.
  Hypothesis Ht : term_eol (wd_term w) = Some e.

  Definition esc_c (c : N) : bool := opt_is (wd_escape w) c.
  Definition out_c (c : N) : str :=
    if (c =? q)%N then [q; q] else if esc_c c then [c; c] else [c].
  Definition forces (c : N) : bool := w_special w c && negb (esc_c c).

  Lemma esc_is c : esc_c c = true -> wd_escape w = Some c.
  Proof. unfold esc_c. destruct (wd_escape w); cbn; [|discriminate]. intros H. apply N.eqb_eq in H. now subst. Qed.
  Lemma q_not_esc : esc_c q = false.
  Proof.
    unfold D, wf_chars in WF. cbn in WF. unfold esc_c. destruct (wd_escape w); [|reflexivity]. cbn in *.
    rewrite !andb_true_iff, !negb_true_iff in WF. tauto.
  Qed.

  Lemma w_char_eq b c : w_char w b c = Ok (out_c c, b || forces c).
  Proof.
    unfold w_char, out_c, forces. destruct (w_special w c) eqn:E; cbn [andb].
    - assert (G : wd_quoting w <> QUOTE_NONE) by exact Hqt.
      destruct (wd_quoting w); try congruence; (rewrite Hq; cbn [opt_is];
        destruct (c =? q)%N eqn:Eq;
        [ apply N.eqb_eq in Eq; subst c; rewrite Hdq, q_not_esc; now rewrite orb_true_r |
          fold (esc_c c); destruct (esc_c c) eqn:Ee;
          [ rewrite (esc_is _ Ee); cbn; now rewrite orb_false_r | cbn; now rewrite orb_true_r ] ]).
    - assert (esc_c c = false /\ (c =? q)%N = false) as [H1 H2].
      { unfold w_special in E. rewrite Hq in E. fold (esc_c c) in E. cbn [opt_is] in E.
        rewrite !orb_false_iff in E. tauto. }
      rewrite H1, H2. now rewrite orb_false_r.
  Qed.

  Lemma w_field_eq s : forall b, w_field w b s = Ok (concat (map out_c s), b || existsb forces s).
  Proof.
    induction s as [|c s IH]; intros b; cbn [w_field map concat existsb]; [now rewrite orb_false_r|].
    rewrite w_char_eq. cbn [bind]. rewrite IH. cbn [bind]. now rewrite orb_assoc.
  Qed.

  (** The layout of one field. *)
  Definition lay_q (c : N) : qitem :=
    if (c =? q)%N then QQuote else if esc_c c then QEsc c else QChar c.
  Definition lay_p (c : N) : piece := if esc_c c then PEsc c else PChar c.
  Definition lay (quoted : bool) (s : str) : list piece :=
    if quoted then [PQuoted (map lay_q s)] else map lay_p s.

  Definition quoted_of (v : value) : bool :=
    match value_str v with
    | [] => ((wd_delim w =? SPACE)%N && wd_skipspace w) || w_quoted w v
    | _ => w_quoted w v
    end || existsb forces (value_str v).

  Lemma render_lay quoted s : (quoted = false -> existsb forces s = false) ->
    render_cell D (lay quoted s) =
    (if quoted then [q] ++ concat (map out_c s) ++ [q] else concat (map out_c s)).
  Proof.
    intros H. unfold lay. destruct quoted.
    - unfold render_cell. cbn [map concat render_piece opt_str cq D]. rewrite app_nil_r. f_equal. f_equal.
      unfold render_qitems. rewrite map_map. f_equal. apply map_ext. intros c. unfold lay_q, out_c.
      destruct (c =? q)%N; [reflexivity|]. destruct (esc_c c) eqn:E; [|reflexivity].
      cbn. now rewrite (esc_is _ E).
    - specialize (H eq_refl). unfold render_cell. rewrite map_map. f_equal. apply map_ext_in.
      intros c Hc. unfold lay_p, out_c.
      assert (F : forces c = false).
      { destruct (forces c) eqn:E; [|reflexivity]. assert (existsb forces s = true)
          by (apply existsb_exists; eauto). congruence. }
      destruct (c =? q)%N eqn:Eq.
      + apply N.eqb_eq in Eq. subst c. unfold forces in F. rewrite q_not_esc, andb_true_r in F.
        unfold w_special in F. rewrite Hq in F. cbn [opt_is] in F. rewrite N.eqb_refl in F.
        rewrite !orb_true_r in F. discriminate.
      + destruct (esc_c c) eqn:E; [|reflexivity]. cbn. now rewrite (esc_is _ E).
  Qed.

  Lemma w_append_eq first v :
    w_append w first (w_quoted w v) (value_str v) =
    Ok ((if first then [] else [d]) ++ render_cell D (lay (quoted_of v) (value_str v))).
  Proof.
    assert (E : exists b, w_empty w (w_quoted w v) (value_str v) = Ok b /\
                quoted_of v = b || existsb forces (value_str v)).
    { unfold w_empty, quoted_of. destruct (value_str v); [|eauto].
      destruct (_ && _); cbn [orb]; [|eauto]. destruct (wd_quoting w); try congruence; eauto. }
    destruct E as (b & E1 & E2). unfold w_append. rewrite E1. cbn [bind]. rewrite w_field_eq. cbn [bind].
    rewrite render_lay.
    - rewrite E2. unfold w_quote_str. rewrite Hq. reflexivity.
    - rewrite E2. intros H. now apply orb_false_iff in H.
  Qed.

  Definition lay_row (row : list value) : list (list piece) :=
    match row with
    | [v] => match lay (quoted_of v) (value_str v) with [] => [[PQuoted []]] | ps => [ps] end
    | _ => map (fun v => lay (quoted_of v) (value_str v)) row
    end.

  Lemma w_fields_eq row first :
    w_fields w first row =
    Ok (concat (map (fun v => (if first then [] else [d]) ++ render_cell D (lay (quoted_of v) (value_str v)))
                    (firstn 1 row)) ++
        concat (map (fun v => [d] ++ render_cell D (lay (quoted_of v) (value_str v))) (skipn 1 row))).
  Proof.
    revert first. induction row as [|v row IH]; intros first; [reflexivity|].
    cbn [w_fields]. rewrite w_append_eq. cbn [bind]. rewrite IH. cbn [bind]. f_equal.
    cbn [firstn skipn map concat]. rewrite app_nil_r. f_equal.
    destruct row; [reflexivity|]. cbn [firstn skipn map concat]. now rewrite app_nil_r.
  Qed.

  Lemma join_cells cells c : join [d] (c :: cells) = c ++ concat (map (fun x => [d] ++ x) cells).
  Proof.
    revert c. induction cells as [|c' cells IH]; intros c; [cbn; now rewrite app_nil_r|].
    change (join [d] (c :: c' :: cells)) with (c ++ [d] ++ join [d] (c' :: cells)).
    rewrite IH. cbn [map concat]. now rewrite <- app_assoc.
  Qed.

  Lemma render_lay_nil v : render_cell D (lay (quoted_of v) (value_str v)) = [] ->
    lay (quoted_of v) (value_str v) = [].
  Proof.
    unfold lay. destruct (quoted_of v); [cbn; discriminate|]. destruct (value_str v) as [|c s]; [reflexivity|].
    cbn. unfold lay_p. destruct (esc_c c) eqn:E; cbn; [|discriminate]. rewrite (esc_is _ E). discriminate.
  Qed.

  Lemma writerow_eq row :
    csv_writerow w row = Ok (render_record D (lay_row row, e)).
  Proof.
    unfold csv_writerow. rewrite w_fields_eq. cbn [bind]. unfold render_record. cbn [fst snd].
    rewrite (term_eol_render _ _ Ht). unfold render_row.
    destruct row as [|v row]; [reflexivity|].
    cbn [firstn skipn map concat app]. rewrite app_nil_r.
    destruct row as [|v' row].
    - cbn [map concat lay_row]. rewrite app_nil_r.
      destruct (render_cell D (lay (quoted_of v) (value_str v))) as [|c t] eqn:E.
      + rewrite (render_lay_nil _ E). unfold w_quote_str. rewrite Hq.
        destruct (wd_quoting w); try congruence; reflexivity.
      + destruct (lay (quoted_of v) (value_str v)) eqn:L; [discriminate|].
        cbn [map join opt_str]. now rewrite E.
    - cbn [lay_row map opt_str cd D]. rewrite join_cells.
      set (t := render_cell D (lay (quoted_of v) (value_str v)) ++ _).
      assert (H : t <> []). { subst t. cbn [map concat app]. now destruct (render_cell D _). }
      replace (render_cell D (lay (quoted_of v) (value_str v)) ++ _) with t; [now destruct t|].
      subst t. f_equal. cbn [map concat]. now rewrite !map_map.
  Qed.

  Definition lay_doc (rows : list (list value)) : doc :=
    mk_doc (map (fun r => (lay_row r, e)) rows) TEnd.

  Lemma writerows_eq rows : csv_writerows w rows = (render D (lay_doc rows), None).
  Proof.
    unfold render, lay_doc. cbn [records last render_tail]. rewrite app_nil_r, map_map.
    induction rows as [|r rows IH]; [reflexivity|]. cbn [csv_writerows]. rewrite writerow_eq, IH.
    reflexivity.
  Qed.

  (** ** The layout is well formed and denotes the table *)
  Lemma forces_false c : forces c = false -> esc_c c = false ->
    (c =? d)%N = false /\ (c =? q)%N = false /\ is_nl c = false.
  Proof.
    unfold forces, w_special. intros H He. rewrite He, Hq in H. cbn [opt_is negb] in H.
    fold (esc_c c) in H. rewrite andb_true_r, !orb_false_iff in H. unfold is_nl. fold d in H.
    rewrite orb_false_iff. tauto.
  Qed.

  Lemma no_adj_map s : no_adjacent (map lay_p s) = true.
  Proof.
    induction s as [|c s IH]; [reflexivity|]. cbn [map]. unfold lay_p at 1. destruct (esc_c c); exact IH.
  Qed.

  Lemma wf_lay quoted s : no_nul s -> (quoted = false -> existsb forces s = false) ->
    wf_cell D (lay quoted s) = true.
  Proof.
    intros Hn H. unfold wf_cell, lay. destruct quoted.
    - cbn [forallb no_adjacent]. rewrite andb_true_r. cbn [wf_piece D cq is_set andb]. rewrite andb_true_r.
      apply forallb_forall. intros i Hi. apply in_map_iff in Hi as (c & <- & Hc).
      assert (c <> 0%N) by (intros ->; contradiction).
      assert (E0 : (c =? NUL)%N = false) by now apply N.eqb_neq.
      unfold lay_q. destruct (c =? q)%N eqn:Eq; [reflexivity|]. destruct (esc_c c) eqn:Ee.
      + cbn. now rewrite (esc_is _ Ee), E0.
      + cbn [wf_qitem D cq ce]. rewrite E0. cbn [is_opt]. rewrite Eq.
        unfold esc_c, opt_is in Ee. unfold is_opt. now rewrite Ee.
    - specialize (H eq_refl). rewrite no_adj_map, andb_true_r.
      apply forallb_forall. intros i Hi. apply in_map_iff in Hi as (c & <- & Hc).
      assert (c <> 0%N) by (intros ->; contradiction).
      assert (E0 : (c =? NUL)%N = false) by now apply N.eqb_neq.
      assert (F : forces c = false).
      { destruct (forces c) eqn:E; [|reflexivity]. assert (existsb forces s = true)
          by (apply existsb_exists; eauto). congruence. }
      unfold lay_p. destruct (esc_c c) eqn:Ee.
      + cbn. now rewrite (esc_is _ Ee), E0.
      + destruct (forces_false c F Ee) as (E1 & E2 & E3). cbn [wf_piece]. rewrite E0, E3.
        unfold special. cbn [D cd cq ce is_opt]. rewrite E1, E2.
        unfold esc_c, opt_is in Ee. unfold is_opt. now rewrite Ee.
  Qed.

  Lemma raw_lay quoted s :
    raw_cell D (lay quoted s) = if quoted then [q] ++ s ++ [q] else s.
  Proof.
    unfold raw_cell, lay. destruct quoted.
    - cbn [map concat piece_value opt_str D cq]. rewrite app_nil_r. f_equal. f_equal.
      unfold qitems_value. rewrite map_map. induction s as [|c s IH]; [reflexivity|].
      cbn [map concat]. rewrite IH. change (c :: s) with ([c] ++ s). f_equal.
      unfold lay_q. destruct (c =? q)%N eqn:Eq; [apply N.eqb_eq in Eq; now subst|].
      destruct (esc_c c) eqn:E; [|reflexivity]. cbn. unfold special. cbn. rewrite (esc_is _ E). cbn.
      now rewrite N.eqb_refl, orb_true_r.
    - rewrite map_map. induction s as [|c s IH]; [reflexivity|].
      cbn [map concat]. rewrite IH. change (c :: s) with ([c] ++ s). f_equal.
      unfold lay_p. destruct (esc_c c) eqn:E; [|reflexivity]. cbn. unfold special. cbn. rewrite (esc_is _ E). cbn.
      now rewrite N.eqb_refl, orb_true_r.
  Qed.

  Lemma cell_value_lay quoted s : (quoted = false -> existsb forces s = false) ->
    cell_value D (lay quoted s) = (s, quoted).
  Proof.
    intros H. unfold cell_value. rewrite raw_lay. destruct quoted.
    - unfold unquote. cbn [app]. destruct (s ++ [q]) as [|a b] eqn:E; [now destruct s|].
      cbn [enclosed tl]. unfold is_opt at 1. cbn [cq D]. rewrite N.eqb_refl. cbn [andb].
      rewrite <- E, last_last. cbn. rewrite N.eqb_refl, removelast_last. reflexivity.
    - specialize (H eq_refl). unfold unquote. destruct s as [|c [|c' s]]; try reflexivity.
      cbn [enclosed]. cbn [cq D is_opt]. destruct (c =? q)%N eqn:Eq; [|reflexivity]. exfalso.
      apply N.eqb_eq in Eq. subst c. cbn [existsb] in H. apply orb_false_iff in H as [H _].
      destruct (forces_false q H q_not_esc) as (_ & E & _). now rewrite N.eqb_refl in E.
  Qed.

  Lemma quoted_of_ok v : quoted_of v = false -> existsb forces (value_str v) = false.
  Proof. unfold quoted_of. intros H. now apply orb_false_iff in H. Qed.

  Lemma lay_row_facts row : (forall v, In v row -> no_nul (value_str v)) ->
    wf_row D (lay_row row) = true /\
    map fst (row_value D (lay_row row)) = map value_str row /\
    Forall (fun s => exists v, In v row /\ (length s <= length (value_str v) + 2)%nat)
      (map (raw_cell D) (lay_row row)).
  Proof.
    intros Hn.
    assert (G : let cells := map (fun v => lay (quoted_of v) (value_str v)) row in
      forallb (wf_cell D) cells = true /\
      map fst (row_value D cells) = map value_str row /\
      Forall (fun s => exists v, In v row /\ (length s <= length (value_str v) + 2)%nat)
        (map (raw_cell D) cells)).
    { cbn zeta. repeat split.
      - apply forallb_forall. intros ps Hps. apply in_map_iff in Hps as (v & <- & Hv).
        apply wf_lay; [now apply Hn|apply quoted_of_ok].
      - unfold row_value. rewrite !map_map. apply map_ext. intros v.
        now rewrite cell_value_lay by apply quoted_of_ok.
      - apply Forall_forall. intros s Hs. rewrite map_map in Hs. apply in_map_iff in Hs as (v & <- & Hv).
        exists v. split; [exact Hv|]. rewrite raw_lay. destruct (quoted_of v); [|lia].
        cbn. rewrite app_length. cbn. lia. }
    destruct G as (G1 & G2 & G3). unfold wf_row.
    destruct row as [|v [|v' row]]; [repeat split; constructor| |].
    - cbn [lay_row map] in *. destruct (lay (quoted_of v) (value_str v)) as [|p ps] eqn:L.
      + repeat split.
        * cbn in G2. cbn [map]. rewrite <- G2. unfold row_value, cell_value, unquote. cbn. now rewrite N.eqb_refl.
        * constructor; [|constructor]. exists v. split; [now left|cbn; lia].
      + rewrite G1. repeat split; auto.
    - split; [|split; assumption]. change (lay_row (v :: v' :: row)) with
        (map (fun v => lay (quoted_of v) (value_str v)) (v :: v' :: row)).
      rewrite G1. cbn [map andb]. now destruct (lay _ _).
  Qed.

  Lemma lay_doc_facts rows limit :
    (forall r v, In r rows -> In v r -> no_nul (value_str v) /\
       (Z.of_nat (length (value_str v)) + 2 <= limit)%Z) ->
    wf_doc D (lay_doc rows) = true /\
    map (map fst) (denote D (lay_doc rows)) = map (map value_str) rows /\
    Forall (fun s => Z.of_nat (length s) <= limit)%Z (raw_cells D (lay_doc rows)).
  Proof.
    intros H. assert (F : forall r, In r rows -> _) by
      (intros r Hr; exact (lay_row_facts r (fun v Hv => proj1 (H r v Hr Hv)))).
    repeat split.
    - unfold wf_doc, lay_doc. cbn [records last wf_tail]. rewrite andb_true_r.
      rewrite <- (map_map lay_row (fun r => (r, e))). apply wf_same.
      intros r Hr. apply in_map_iff in Hr as (x & <- & Hx). now apply F.
    - unfold denote, lay_doc. cbn [records last tail_value]. rewrite app_nil_r, !map_map.
      apply map_ext_in. intros r Hr. cbn [fst]. now apply F.
    - unfold raw_cells, lay_doc. cbn [records last]. rewrite app_nil_r, map_map. cbn [fst].
      apply Forall_concat, Forall_forall. intros l Hl. apply in_map_iff in Hl as (r & <- & Hr).
      destruct (F r Hr) as (_ & _ & G). eapply Forall_impl; [|exact G].
      intros s (v & Hv & Hl). destruct (H r v Hr Hv). lia.
  Qed.

  Theorem written_reads_back rows limit :
    (forall r v, In r rows -> In v r -> no_nul (value_str v) /\
       (Z.of_nat (length (value_str v)) + 2 <= limit)%Z) ->
    exists text, csv_writerows w rows = (text, None) /\
      parse_string limit text (simple D false) false =
        (map (map (fun v => CStr (value_str v))) rows, None).
  Proof.
    intros H. exists (render D (lay_doc rows)). split; [apply writerows_eq|].
    destruct (lay_doc_facts rows limit H) as (H1 & H2 & H3).
    rewrite parse_string_layout; auto. f_equal. unfold mk_rows.
    transitivity (map (map CStr) (map (map fst) (denote D (lay_doc rows)))).
    - rewrite map_map. apply map_ext. intros r. rewrite map_map. apply map_ext. intros [s b]. reflexivity.
    - rewrite H2, map_map. apply map_ext. intros r. now rewrite map_map.
  Qed.
End Quoting.
