(** * LayoutLimit: a layout with an oversize cell makes the parser raise *)
From Verif Require Import Base Parser ParserFacts SpecLayout SpecParse LayoutFacts.

Definition fits (L : Z) (s : str) : bool := (Z.of_nat (length s) <=? L)%Z.

Section Fail.
  Variable D : chars.
  Variable L : Z.
  Variable rq : bool.
  Hypothesis WF : wf_chars D = true.
  Let cf := conf D L false rq.
  Local Notation ob := mk_pobj (only parsing).
  Local Notation failed := ((@nil (list cell)), Raised EFieldLimit).

  Lemma add_fail st b fs dq c : fits L (b ++ [c]) = false ->
    add_char str_ops cf (ob st b fs dq) c = Err EFieldLimit.
  Proof.
    unfold fits. intros H. unfold add_char. cbn. unfold str_add. rewrite app_length in H. cbn in H.
    apply Z.leb_gt in H. destruct (_ <=? _)%Z eqn:E; [reflexivity|]. apply Z.leb_gt in E. lia.
  Qed.

  Lemma fits_ok s : fits L s = true -> (Z.of_nat (length s) <= L)%Z.
  Proof. apply Z.leb_le. Qed.
  Lemma fits_app a b : fits L (a ++ b) = true -> fits L a = true.
  Proof. unfold fits. rewrite app_length. intros H. apply Z.leb_le in H. apply Z.leb_le. lia. Qed.
  Lemma fits_app_false a b : fits L a = false -> fits L (a ++ b) = false.
  Proof. destruct (fits L (a ++ b)) eqn:E; [|reflexivity]. now rewrite (fits_app _ _ E). Qed.

  Lemma trun_err o mid c t e :
    process_char str_ops cf o c (la c t) = Err e -> c <> 0%N ->
    trun cf o mid (c :: t) = ([], Raised e).
  Proof. intros H H0. cbn [trun]. apply N.eqb_neq in H0. now rewrite H0, H. Qed.

  Lemma qitem_fail i b fs dq mid k :
    wf_qitem D i = true -> is_set (cq D) = true -> fits L (b ++ qitem_value D i) = false ->
    trun cf (ob IN_QUOTED_FIELD b fs dq) mid (render_qitem D i ++ k) = failed.
  Proof.
    intros Hw Hq HL. destruct i as [c| |c]; cbn in Hw.
    - bool_split. apply N.eqb_neq in H as H'. apply trun_err; [|assumption].
      cbn [process_char p_state]. rewrite H.
      unfold cf. rewrite (eqb_esc D L rq), (eqb_quote D L rq) by assumption. rewrite H0, H1.
      now apply add_fail.
    - destruct (cq D) as [q|] eqn:Eq; [|discriminate].
      destruct (quote_facts D WF q Eq) as (Hq0 & Hqn & _ & Hqe).
      cbn [render_qitem]. rewrite Eq. cbn [opt_str app].
      unfold cf. rewrite (trun_step D L rq _ (ob QUOTE_IN_QUOTED_FIELD b fs true)); [|
        |assumption|assumption].
      + apply trun_err; [|assumption].
        cbn [process_char p_state]. fold cf. unfold cf. rewrite (eqb_quote D L rq) by assumption.
        cbn [qitem_value] in HL. rewrite Eq in HL |- *. rewrite is_opt_refl.
        fold cf. rewrite add_fail; [reflexivity|exact HL].
      + cbn [process_char p_state]. apply N.eqb_neq in Hq0 as H'. rewrite H'.
        rewrite (eqb_esc D L rq), Hqe, (eqb_quote D L rq), Eq, is_opt_refl by assumption.
        unfold la. rewrite not_nl_brk by assumption.
        cbn. rewrite Eq. cbn. rewrite N.eqb_refl. reflexivity.
    - bool_split. apply N.eqb_neq in H0 as Hc.
      destruct (ce D) as [e|] eqn:Ee; [|discriminate].
      destruct (esc_facts D WF e Ee) as (He0 & Hen & _ & Heq).
      cbn [render_qitem]. rewrite Ee. cbn [opt_str app].
      unfold cf. rewrite (trun_step D L rq _ (ob ESCAPE_IN_QUOTED_FIELD b fs dq)); [| |assumption|assumption].
      + apply trun_err; [|assumption].
        cbn [process_char p_state].
        rewrite (eqb_esc D L rq), (eqb_delim D L rq), (eqb_quote D L rq) by assumption.
        rewrite H0. cbn [negb]. rewrite andb_true_r. fold cf.
        cbn [qitem_value] in HL. unfold special in *.
        destruct (is_opt (ce D) c) eqn:E1, (is_opt (cd D) c) eqn:E2, (is_opt (cq D) c) eqn:E3;
          cbn [negb andb orb] in *;
          try (cbn [bind]; rewrite add_fail by exact HL; reflexivity).
        rewrite Ee in HL. cbn [opt_str] in HL.
        assert (Hesc : escapechar cf = e) by (cbn; now rewrite Ee).
        rewrite Hesc.
        replace (b ++ [e] ++ [c]) with ((b ++ [e]) ++ [c]) in * by now rewrite <- app_assoc.
        destruct (fits L (b ++ [e])) eqn:Ef.
        * unfold cf. rewrite add_ok by now apply fits_ok. cbn [bind]. fold cf. now rewrite add_fail.
        * now rewrite add_fail.
      + cbn [process_char p_state]. apply N.eqb_neq in He0 as H'. rewrite H'.
        rewrite (eqb_esc D L rq), Ee, is_opt_refl by assumption. reflexivity.
  Qed.

  Lemma qitems_fail l : forall b fs dq mid k,
    forallb (wf_qitem D) l = true -> is_set (cq D) = true -> fits L b = true ->
    fits L (b ++ qitems_value D l) = false ->
    trun cf (ob IN_QUOTED_FIELD b fs dq) mid (render_qitems D l ++ k) = failed.
  Proof.
    induction l as [|i l IH]; intros b fs dq mid k Hw Hq Hb HL.
    - cbn in HL. rewrite app_nil_r in HL. congruence.
    - cbn in Hw. apply andb_true_iff in Hw as [Hi Hl].
      unfold qitems_value, render_qitems in *. cbn [map concat] in *.
      rewrite <- app_assoc.
      destruct (fits L (b ++ qitem_value D i)) eqn:E.
      + destruct (qitem_run D L rq WF i b fs dq mid (concat (map (render_qitem D) l) ++ k) Hi Hq) as [dq1 E1].
        { now apply fits_ok. }
        transitivity (trun cf (ob IN_QUOTED_FIELD (b ++ qitem_value D i) fs dq1) true
          (concat (map (render_qitem D) l) ++ k)); [exact E1|]. apply IH; auto. now rewrite <- app_assoc.
      + now apply qitem_fail.
  Qed.

  Lemma open_fail q st b fs dq mid k :
    cq D = Some q -> uq st = true -> fits L (b ++ [q]) = false ->
    trun cf (ob st b fs dq) mid (q :: k) = failed.
  Proof.
    intros Eq Hst HL. destruct (quote_facts D WF q Eq) as (Hq0 & Hqn & Hqd & Hqe).
    apply trun_err; [|assumption].
    apply N.eqb_neq in Hq0 as H'. unfold cf.
    destruct st; try discriminate; cbn [process_char p_state];
      rewrite ?H', ?Hqn; unfold do_start_field, do_in_field;
      rewrite ?Hqn, ?H'; cbn [orb];
      rewrite ?(eqb_esc D L rq), ?Hqe, ?(eqb_quote D L rq), ?Eq, ?is_opt_refl by assumption; fold cf;
      try (rewrite add_fail by assumption; reflexivity).
    change (set_state _ START_FIELD) with (ob START_FIELD b fs dq).
    rewrite add_fail by assumption. reflexivity.
  Qed.

  Lemma piece_fail p st b fs dq mid k :
    wf_piece D p = true -> uq st = true -> (is_q p = true -> nq D k = true) ->
    fits L b = true -> fits L (b ++ piece_value D p) = false ->
    trun cf (ob st b fs dq) mid (render_piece D p ++ k) = failed.
  Proof.
    intros Hw Hst Hnq Hb HL. destruct p as [c|c|l].
    - cbn in Hw. unfold special in Hw. bool_split. apply N.eqb_neq in H as Hc.
      cbn [render_piece app piece_value] in *.
      apply trun_err; [|assumption].
      assert (Hn : (c =? 0)%N = false) by assumption. unfold cf.
      destruct st; try discriminate; cbn [process_char p_state];
      rewrite ?Hn, ?H1; unfold do_start_field, do_in_field;
      rewrite ?Hn, ?H1; cbn [orb];
      rewrite ?(eqb_esc D L rq), ?(eqb_quote D L rq), ?(eqb_delim D L rq) by assumption;
      rewrite ?H0, ?H2, ?H3; fold cf;
      try (change (set_state _ START_FIELD) with (ob START_FIELD b fs dq));
      rewrite add_fail by assumption; reflexivity.
    - cbn in Hw. bool_split. apply N.eqb_neq in H0 as Hc.
      destruct (ce D) as [e|] eqn:Ee; [|discriminate].
      destruct (esc_facts D WF e Ee) as (He0 & Hen & Hed & Heq).
      cbn [render_piece app piece_value] in *. rewrite Ee in *. cbn [opt_str app] in *.
      unfold cf. rewrite (trun_step D L rq _ (ob ESCAPED_CHAR b fs dq)); [| |assumption|assumption].
      2:{ apply N.eqb_neq in He0 as H'.
          destruct st; try discriminate; cbn [process_char p_state];
          rewrite ?H', ?Hen; unfold do_start_field, do_in_field;
          rewrite ?H', ?Hen; cbn [orb];
          rewrite ?(eqb_quote D L rq), ?Heq, ?(eqb_esc D L rq), ?Ee, ?is_opt_refl by assumption; reflexivity. }
      fold cf. apply trun_err; [|assumption]. cbn [process_char p_state].
      destruct (is_nl c) eqn:En.
      + rewrite orb_true_r in *. rewrite add_fail by assumption. reflexivity.
      + rewrite orb_false_r in *.
        assert (Hn : (c =? 0)%N = false) by assumption. rewrite Hn. cbn [negb andb]. unfold cf.
        rewrite (eqb_esc D L rq), (eqb_delim D L rq), (eqb_quote D L rq) by assumption. fold cf.
        unfold special in *. rewrite Ee in *.
        destruct (is_opt (cd D) c) eqn:E1, (is_opt (Some e) c) eqn:E2, (is_opt (cq D) c) eqn:E3;
          cbn [negb andb orb] in *;
          try (cbn [bind]; rewrite add_fail by exact HL; reflexivity).
        assert (Hesc : escapechar cf = e) by (cbn; now rewrite Ee).
        rewrite Hesc.
        change (b ++ [e; c]) with (b ++ [e] ++ [c]) in *.
        rewrite app_assoc in *.
        destruct (fits L (b ++ [e])) eqn:Ef.
        * unfold cf. rewrite add_ok by now apply fits_ok. cbn [bind]. fold cf. now rewrite add_fail.
        * now rewrite add_fail.
    - cbn in Hw. bool_split. specialize (Hnq eq_refl).
      destruct (cq D) as [q|] eqn:Eq; [|discriminate].
      cbn [render_piece piece_value] in *. rewrite Eq in *. cbn [opt_str] in *.
      replace (b ++ [q] ++ qitems_value D l ++ [q])
        with (((b ++ [q]) ++ qitems_value D l) ++ [q]) in * by now rewrite <- !app_assoc.
      replace (([q] ++ render_qitems D l ++ [q]) ++ k)
        with (q :: render_qitems D l ++ q :: k) by (cbn; now rewrite <- app_assoc).
      destruct (fits L (b ++ [q])) eqn:E1; [|now apply open_fail].
      unfold cf. rewrite (open_run D L rq WF q) by (try assumption; now apply fits_ok). fold cf.
      destruct (fits L ((b ++ [q]) ++ qitems_value D l)) eqn:E2;
        [|apply qitems_fail; auto; now rewrite Eq].
      destruct (qitems_run D L rq WF l (b ++ [q]) fs dq true (q :: k)) as [dq' E]; try assumption.
      { now rewrite Eq. }
      { now apply fits_ok. }
      unfold cf. rewrite E. fold cf. apply trun_err.
      + destruct (quote_facts D WF q Eq) as (Hq0 & Hqn & Hqd & Hqe).
        apply N.eqb_neq in Hq0 as H'. unfold cf.
        cbn [process_char p_state]. rewrite H', (eqb_esc D L rq), Hqe, (eqb_quote D L rq) by assumption.
        rewrite Eq, is_opt_refl.
        assert (Hqc : quotechar cf = q) by (cbn; now rewrite Eq).
        fold cf. rewrite Hqc, (la_quote D WF q k Eq Hnq). cbn [strict cf conf].
        rewrite add_fail by assumption. reflexivity.
      + now destruct (quote_facts D WF q Eq).
  Qed.

  Lemma cell_fail ps : forall st b fs dq mid k,
    wf_cell D ps = true -> uq st = true -> (ends_quoted ps = true -> nq D k = true) ->
    fits L b = true -> fits L (b ++ raw_cell D ps) = false ->
    trun cf (ob st b fs dq) mid (render_cell D ps ++ k) = failed.
  Proof.
    induction ps as [|p ps IH]; intros st b fs dq mid k Hw Hst Hnq Hb HL.
    { cbn in HL. rewrite app_nil_r in HL. congruence. }
    unfold wf_cell in *. rewrite no_adjacent_cons in Hw. cbn [forallb] in Hw.
    apply andb_true_iff in Hw as [Hw1 Hw2].
    apply andb_true_iff in Hw1 as [Hp Hps]. apply andb_true_iff in Hw2 as [Hadj Hna].
    apply negb_true_iff in Hadj.
    rewrite ends_quoted_cons in Hnq.
    unfold raw_cell, render_cell in *. cbn [map concat] in *.
    assert (Hk : is_q p = true -> nq D (render_cell D ps ++ k) = true).
    { intros Hq. apply nq_cell; auto. destruct ps as [|p' ps]; [now apply Hnq|].
      rewrite Hq in Hadj. exact Hadj. }
    rewrite <- app_assoc. rewrite app_assoc in HL.
    destruct (fits L (b ++ piece_value D p)) eqn:E.
    - destruct (piece_run D L rq WF p st b fs dq mid (render_cell D ps ++ k) Hp Hst Hk) as [dq1 E1].
      { now apply fits_ok. }
      etransitivity; [exact E1|]. fold cf. apply IH; auto.
      + now rewrite Hps, Hna.
      + apply uq_pst.
      + destruct ps; [discriminate|exact Hnq].
    - now apply piece_fail.
  Qed.

  Hypothesis Hpos : fits L [] = true.

  (** Cells followed by the delimiter, one of them too long. *)
  Lemma cells_open_fail cells : forall st fs dq mid k,
    forallb (wf_cell D) cells = true -> is_set (cd D) = true -> uq st = true ->
    forallb (fits L) (map (raw_cell D) cells) = false ->
    trun cf (ob st [] fs dq) mid (render_cells_open D cells ++ k) = failed.
  Proof.
    induction cells as [|ps cells IH]; intros st fs dq mid k Hw Hd Hst HL; [discriminate|].
    cbn [forallb] in Hw. apply andb_true_iff in Hw as [Hw1 Hw2].
    unfold render_cells_open in *. cbn [map concat]. rewrite <- !app_assoc.
    assert (Hk : forall k', nq D (opt_str (cd D) ++ k') = true).
    { intros k'. apply nq_opt; auto. intros x Hx. now apply (delim_facts D WF). }
    cbn [map forallb] in HL.
    destruct (fits L (raw_cell D ps)) eqn:E; cbn [andb] in HL.
    - destruct (cell_run' D L rq WF ps st fs dq mid
        (opt_str (cd D) ++ concat (map (fun c => render_cell D c ++ opt_str (cd D)) cells) ++ k))
        as (dq1 & mid1 & E1 & _); auto.
      { unfold raw_ok. now apply fits_ok. }
      etransitivity; [exact E1|]. rewrite delim_run'; auto; apply uq_fold; auto.
    - apply cell_fail; auto.
  Qed.

  Lemma raw_oks l : forallb (fits L) l = true -> Forall (raw_ok L) l.
  Proof. rewrite forallb_forall, Forall_forall. intros H x Hx. now apply fits_ok, H. Qed.

  (** Open cells and then the last cell of a record. *)
  Lemma row_fail cells ps k dq :
    forallb (wf_cell D) cells = true -> wf_cell D ps = true ->
    (cells = [] \/ is_set (cd D) = true) -> (ends_quoted ps = true -> nq D k = true) ->
    forallb (fits L) (map (raw_cell D) (cells ++ [ps])) = false ->
    trun cf (fresh dq) false (render_cells_open D cells ++ render_cell D ps ++ k) = failed.
  Proof.
    intros Hw Hp Hd Hk HL. rewrite map_app, forallb_app in HL. cbn [map forallb] in HL.
    rewrite andb_true_r in HL.
    destruct (forallb (fits L) (map (raw_cell D) cells)) eqn:E; cbn [andb] in HL.
    - destruct (cells_run D L rq WF cells dq false (render_cell D ps ++ k) Hw Hd) as (dq1 & mid1 & E1 & _).
      { now apply raw_oks. }
      etransitivity; [exact E1|]. apply cell_fail; auto. apply uq_start.
    - destruct Hd as [->|Hd]; [discriminate|]. now apply cells_open_fail.
  Qed.

  Definition tail_raw (t : tail) : list str :=
    match t with
    | TEnd => []
    | TRow cells => map (raw_cell D) cells
    | TEsc cells ps => map (raw_cell D) (cells ++ [ps])
    | TOpen cells ps l =>
        map (raw_cell D) cells ++ [ raw_cell D ps ++ opt_str (cq D) ++ qitems_value D l ]
    | TOpenEsc cells ps l =>
        map (raw_cell D) cells ++
        [ raw_cell D ps ++ opt_str (cq D) ++ qitems_value D l ++ [LF] ]
    end.

  (** An unclosed quote in the last cell. *)
  Lemma open_tail_run cells ps q l x dq :
    forallb (wf_cell D) cells = true -> wf_cell D ps = true ->
    (cells = [] \/ is_set (cd D) = true) -> cq D = Some q -> ends_quoted ps = false ->
    forallb (wf_qitem D) l = true ->
    let fs := map (mk_cell rq) (map (cell_value D) cells) in
    (exists dq', trun cf (fresh dq) false
       (render_cells_open D cells ++ render_cell D ps ++ [q] ++ render_qitems D l ++ x) =
       trun cf (ob IN_QUOTED_FIELD (raw_cell D ps ++ [q] ++ qitems_value D l) fs dq') true x /\
       forallb (fits L) (map (raw_cell D) cells) = true /\
       fits L (raw_cell D ps ++ [q] ++ qitems_value D l) = true) \/
    (trun cf (fresh dq) false
       (render_cells_open D cells ++ render_cell D ps ++ [q] ++ render_qitems D l ++ x) = failed /\
     forallb (fits L) (map (raw_cell D) cells ++ [raw_cell D ps ++ [q] ++ qitems_value D l]) = false).
  Proof.
    intros Hw Hp Hd Eq He Hl fs.
    destruct (forallb (fits L) (map (raw_cell D) (cells ++ [ps]))) eqn:E.
    2:{ right. split; [apply row_fail; auto; rewrite He; discriminate|].
        rewrite map_app, forallb_app in E. cbn [map forallb] in E. rewrite forallb_app. cbn [forallb].
        destruct (forallb (fits L) (map (raw_cell D) cells)); [|reflexivity]. cbn [andb] in *.
        rewrite andb_true_r in *. now apply fits_app_false. }
    rewrite map_app, forallb_app in E. cbn [map forallb] in E. rewrite andb_true_r in E.
    apply andb_true_iff in E as [E1 E2]. rewrite forallb_app, E1. cbn [forallb andb]. rewrite andb_true_r.
    destruct (cells_run D L rq WF cells dq false (render_cell D ps ++ [q] ++ render_qitems D l ++ x) Hw Hd)
      as (dq1 & mid1 & E0 & _).
    { now apply raw_oks. }
    fold cf in E0. rewrite E0. clear E0.
    assert (Hpre : exists st dq2 mid2, uq st = true /\
        trun cf (ob (start_of cells) [] fs dq1) mid1
          (render_cell D ps ++ [q] ++ render_qitems D l ++ x) =
        trun cf (ob st (raw_cell D ps) fs dq2) mid2 ([q] ++ render_qitems D l ++ x)).
    { destruct ps as [|p ps].
      - exists (start_of cells), dq1, mid1. split; [apply uq_start|reflexivity].
      - destruct (cell_run D L rq WF (p :: ps) (start_of cells) [] fs dq1 mid1
          ([q] ++ render_qitems D l ++ x)) as (dq2 & E); auto; try discriminate.
        + apply uq_start.
        + rewrite He. discriminate.
        + now apply fits_ok.
        + eexists _, dq2, true. split; [|exact E]. apply uq_fold, uq_start. }
    destruct Hpre as (st & dq2 & mid2 & Hu & E3). fold fs. rewrite E3. cbn [app].
    replace (raw_cell D ps ++ q :: qitems_value D l) with ((raw_cell D ps ++ [q]) ++ qitems_value D l)
      by now rewrite <- app_assoc.
    destruct (fits L (raw_cell D ps ++ [q])) eqn:Ef.
    2:{ right. split; [now apply open_fail|now apply fits_app_false]. }
    unfold cf. rewrite (open_run D L rq WF q); auto; [|now apply fits_ok]. fold cf.
    destruct (fits L ((raw_cell D ps ++ [q]) ++ qitems_value D l)) eqn:Eg.
    - left. destruct (qitems_run D L rq WF l (raw_cell D ps ++ [q]) fs dq2 true x) as [dq3 E4]; auto.
      { now rewrite Eq. }
      { now apply fits_ok. }
      exists dq3. repeat split. exact E4.
    - right. split; [|reflexivity]. apply qitems_fail; auto. now rewrite Eq.
  Qed.

  Lemma tail_fail t dq : wf_tail D t = true -> forallb (fits L) (tail_raw t) = false ->
    trun cf (fresh dq) false (render_tail D t) = failed.
  Proof.
    intros Hw HL. destruct t as [|cells|cells ps|cells ps l|cells ps l]; cbn [tail_raw render_tail] in *.
    - discriminate.
    - cbn in Hw. apply andb_true_iff in Hw as [Hw Hne0].
      destruct (exists_last (l := cells)) as (cells' & ps & E); [now destruct cells|].
      subst cells. destruct (wf_row_snoc D _ _ Hw) as (Hw1 & Hw2 & Hd & Hne).
      rewrite render_row_snoc. rewrite <- (app_nil_r (render_cell D ps)).
      apply row_fail; auto.
    - cbn in Hw. unfold wf_open in Hw. bool_split.
      apply row_fail; auto.
      + destruct cells; [now left|now right].
      + intros _. rewrite <- (app_nil_r (opt_str (ce D))). apply nq_opt; [|assumption].
        intros x Hx. now apply (esc_facts D WF).
    - cbn in Hw. unfold wf_open in Hw. bool_split.
      destruct (cq D) as [q|] eqn:Eq; [|discriminate]. cbn [opt_str] in *.
      destruct (open_tail_run cells ps q l [] dq) as [(dq' & _ & K1 & K2)|[K _]]; auto.
      + destruct cells; [now left|now right].
      + rewrite forallb_app, K1 in HL. cbn [forallb andb] in HL. rewrite K2 in HL. discriminate.
      + rewrite app_nil_r in K. exact K.
    - cbn in Hw. unfold wf_open in Hw. bool_split.
      destruct (cq D) as [q|] eqn:Eq; [|discriminate]. cbn [opt_str] in *.
      destruct (ce D) as [e|] eqn:Ee; [|discriminate]. cbn [opt_str] in *.
      destruct (esc_facts D WF e Ee) as (He0 & Hen & Hed & Heq).
      destruct (open_tail_run cells ps q l [e] dq) as [(dq' & K & K1 & K2)|[K _]]; auto.
      + destruct cells; [now left|now right].
      + rewrite forallb_app, K1 in HL. cbn [forallb andb] in HL. rewrite andb_true_r in HL.
        rewrite K. unfold cf.
        rewrite (trun_step D L rq _ (ob ESCAPE_IN_QUOTED_FIELD (raw_cell D ps ++ [q] ++ qitems_value D l)
          (map (mk_cell rq) (map (cell_value D) cells)) dq')); [| |assumption|assumption].
        * cbn [trun]. unfold eol_event. cbn [process_char p_state]. change (0 =? 0)%N with true.
          cbn [negb]. rewrite andb_false_r. cbn [bind]. fold cf. rewrite add_fail; [reflexivity|].
          rewrite <- !app_assoc. exact HL.
        * cbn [process_char p_state]. apply N.eqb_neq in He0 as H'. rewrite H'.
          rewrite (eqb_esc D L rq), Ee, is_opt_refl by assumption. reflexivity.
  Qed.

  (** The records before the first one with an oversize cell. *)
  Fixpoint fitting (rs : list (list (list piece) * eol)) : list (list (list piece) * eol) :=
    match rs with
    | [] => []
    | r :: rs' => if forallb (fits L) (map (raw_cell D) (fst r)) then r :: fitting rs' else []
    end.

  Theorem parse_layout_fail d :
    wf_doc D d = true -> forallb (fits L) (raw_cells D d) = false ->
    parse_text cf (render D d) =
      (mk_rows rq (map (fun r => row_value D (fst r)) (fitting (records d))), Raised EFieldLimit).
  Proof.
    intros Hw HL. rewrite parse_text_trun. change pure_new with (fresh false).
    unfold wf_doc in Hw. apply andb_true_iff in Hw as [Hr Ht].
    destruct d as [rs t]. cbn [records last] in *.
    generalize false at 1 as dq. revert Hr HL. induction rs as [|[cells e] rs IH]; intros Hr HL dq.
    - unfold render. cbn [records last map concat app fitting]. apply tail_fail; auto.
    - cbn [wf_records] in Hr. apply andb_true_iff in Hr as [Hr Hrs].
      apply andb_true_iff in Hr as [Hrow Hcr].
      unfold raw_cells in HL. cbn [records last map concat fst] in HL.
      rewrite <- app_assoc, forallb_app in HL.
      unfold render. cbn [records last map concat]. unfold render_record at 1. cbn [fst snd].
      rewrite <- !app_assoc. cbn [fitting fst].
      destruct (forallb (fits L) (map (raw_cell D) cells)) eqn:E; cbn [andb] in HL.
      + destruct (row_run D L rq WF cells e dq (concat (map (render_record D) rs) ++ render_tail D t)) as [dq' E']; auto.
        { intros ->. destruct rs as [|[cells' e'] rs].
          - cbn. now apply tail_starts_lf.
          - cbn [map concat]. unfold render_record at 1. cbn [fst snd].
            cbn [wf_records] in Hrs. bool_split.
            destruct cells' as [|c' cells'].
            + destruct e'; try discriminate; reflexivity.
            + rewrite <- !app_assoc. apply row_starts_lf; [assumption|assumption|discriminate]. }
        { now apply raw_oks. }
        unfold cf. rewrite E'. specialize (IH Hrs HL dq'). unfold render in IH. cbn [records last] in IH.
        fold cf. rewrite IH. reflexivity.
      + destruct (exists_last (l := cells)) as (cells' & ps & Ec).
        { intros ->. discriminate. }
        subst cells. destruct (wf_row_snoc D _ _ Hrow) as (Hw1 & Hw2 & Hd & Hne).
        rewrite render_row_snoc. rewrite <- app_assoc.
        rewrite row_fail; auto. intros _. now apply nq_eol.
  Qed.
End Fail.
