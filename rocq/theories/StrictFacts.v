(** * StrictFacts: strict mode (C10) *)
From Verif Require Import Base Parser Dialect ParserFacts SpecLayout SpecParse SpecText LayoutFacts
  LayoutTotal LayoutLimit ParserLimit ParserProps ParserLift LayoutMore.

(** ** C10: strict mode *)
Section Strict.
  Variable D : chars.
  Variable L : Z.
  Variable rq : bool.
  Hypothesis WF : wf_chars D = true.
  Let cf := conf D L true rq.

  (** A run that ends in the strict-mode error, or hits the limit first. *)
  Definition bad (x : list (list cell) * ending) : Prop :=
    snd x = Raised EQuoteExpected \/ snd x = Raised EFieldLimit.
  Definition goes (P : pstate -> bool) (x : res perr (pobj str)) : Prop :=
    match x with Ok o => P (p_state o) = true | Err e => e = EFieldLimit end.

  Lemma goes_add (P : pstate -> bool) o c g :
    (forall o', p_state o' = p_state o -> goes P (g o')) ->
    goes P (bind (add_char str_ops cf o c) g).
  Proof.
    intros H. unfold add_char. cbn. destruct (str_add _ _ _) eqn:E; cbn.
    - now apply H.
    - unfold str_add in E. destruct (_ <=? _)%Z; congruence.
  Qed.
  Lemma goes_add' (P : pstate -> bool) o c : P (p_state o) = true ->
    goes P (add_char str_ops cf o c).
  Proof.
    intros H. unfold add_char. cbn. destruct (str_add _ _ _) eqn:E; cbn; [exact H|].
    unfold str_add in E. destruct (_ <=? _)%Z; congruence.
  Qed.
  Lemma state_save o t : p_state (save_field str_ops cf o t) = p_state o.
  Proof.
    unfold save_field. destruct (if quotecond _ _ then _ else _).
    now destruct (if t && _ then _ else _).
  Qed.

  Lemma step_goes (P : pstate -> bool) o mid c t :
    c <> 0%N -> brk c t = false -> goes P (process_char str_ops cf o c (la c t)) ->
    (forall o', P (p_state o') = true -> bad (trun cf o' true t)) -> bad (trun cf o mid (c :: t)).
  Proof.
    intros H0 Hb H K. cbn [trun]. apply N.eqb_neq in H0. rewrite H0.
    destruct (process_char _ _ _ _ _) as [o'|e]; cbn in H.
    - rewrite Hb. now apply K.
    - right. cbn. congruence.
  Qed.
  (** The same when the end-of-line event does not change the state. *)
  Lemma step_noop (P : pstate -> bool) o mid c t :
    c <> 0%N -> goes P (process_char str_ops cf o c (la c t)) -> (forall s, P s = true -> noop s = true) ->
    (forall o' m, P (p_state o') = true -> bad (trun cf o' m t)) -> bad (trun cf o mid (c :: t)).
  Proof.
    intros H0 H HP K. cbn [trun]. apply N.eqb_neq in H0. rewrite H0.
    destruct (process_char _ _ _ _ _) as [o'|e]; cbn in H.
    - destruct (brk c t); [|now apply K]. unfold eol_event.
      pose proof (HP _ H) as Hn. unfold process_char.
      destruct (p_state o') eqn:Es; try discriminate; cbn; rewrite Es; apply K; now rewrite Es.
    - right. cbn. congruence.
  Qed.

  Definition inq (s : pstate) : bool := match s with IN_QUOTED_FIELD => true | _ => false end.
  Definition is_st (a b : pstate) : bool :=
    match a, b with
    | ESCAPE_IN_QUOTED_FIELD, ESCAPE_IN_QUOTED_FIELD
    | QUOTE_IN_QUOTED_FIELD, QUOTE_IN_QUOTED_FIELD | ESCAPED_CHAR, ESCAPED_CHAR => true
    | _, _ => false
    end.

  Lemma eqbs c : c <> 0%N ->
    (c =? quotechar cf)%N = is_opt (cq D) c /\ (c =? escapechar cf)%N = is_opt (ce D) c /\
    (c =? delimiter cf)%N = is_opt (cd D) c /\ (c =? 0)%N = false.
  Proof.
    intros H. repeat split.
    - exact (eqb_quote D L rq c H).
    - exact (eqb_esc D L rq c H).
    - exact (eqb_delim D L rq c H).
    - now apply N.eqb_neq.
  Qed.

  (** Inside quotes: the closing quote raises. *)
  Lemma qitem_strict i o mid k :
    wf_qitem D i = true -> is_set (cq D) = true -> inq (p_state o) = true ->
    (forall o' m, inq (p_state o') = true -> bad (trun cf o' m k)) ->
    bad (trun cf o mid (render_qitem D i ++ k)).
  Proof.
    intros Hw Hq Ho K.
    assert (Es : p_state o = IN_QUOTED_FIELD) by (destruct (p_state o); try discriminate; reflexivity).
    assert (Hinq : forall s, inq s = true -> noop s = true) by (intros []; cbn; auto).
    destruct i as [c| |c]; cbn in Hw; cbn [render_qitem app].
    - bool_split. apply N.eqb_neq in H. destruct (eqbs c H) as (E1 & E2 & E3 & E4).
      apply (step_noop inq); auto. unfold process_char. rewrite Es, E4, E2, H0, E1, H1.
      apply goes_add'. now rewrite Es.
    - destruct (cq D) as [q|] eqn:Eq; [|discriminate]. cbn [opt_str app].
      destruct (quote_facts D WF q Eq) as (Hq0 & Hqn & _ & Hqe).
      destruct (eqbs q Hq0) as (E1 & E2 & E3 & E4). rewrite Eq, is_opt_refl in E1.
      apply (step_goes (is_st QUOTE_IN_QUOTED_FIELD)); [assumption|now apply not_nl_brk| |].
      + unfold process_char. rewrite Es, E4, E2, Hqe, E1. unfold la. rewrite not_nl_brk by assumption.
        rewrite E1. reflexivity.
      + intros o' Ho'. assert (Es' : p_state o' = QUOTE_IN_QUOTED_FIELD)
          by (destruct (p_state o'); try discriminate; reflexivity).
        apply (step_noop inq); auto. unfold process_char. rewrite Es', E1.
        apply goes_add. intros o'' _. reflexivity.
    - bool_split. apply N.eqb_neq in H0.
      destruct (ce D) as [e|] eqn:Ee; [|discriminate]. cbn [opt_str app].
      destruct (esc_facts D WF e Ee) as (He0 & Hen & _ & Heq).
      destruct (eqbs e He0) as (E1 & E2 & E3 & E4). rewrite Ee, is_opt_refl in E2.
      apply (step_goes (is_st ESCAPE_IN_QUOTED_FIELD)); [assumption|now apply not_nl_brk| |].
      + unfold process_char. rewrite Es, E4, E2. reflexivity.
      + intros o' Ho'. assert (Es' : p_state o' = ESCAPE_IN_QUOTED_FIELD)
          by (destruct (p_state o'); try discriminate; reflexivity).
        apply (step_noop inq); auto. unfold process_char. rewrite Es'.
        destruct (_ && _); cbn [bind].
        * apply goes_add. intros o'' _. apply goes_add. reflexivity.
        * apply goes_add. reflexivity.
  Qed.

  Lemma qitems_strict l : forall o mid k,
    forallb (wf_qitem D) l = true -> is_set (cq D) = true -> inq (p_state o) = true ->
    (forall o' m, inq (p_state o') = true -> bad (trun cf o' m k)) ->
    bad (trun cf o mid (render_qitems D l ++ k)).
  Proof.
    induction l as [|i l IH]; intros o mid k Hw Hq Ho K; [now apply K|].
    cbn in Hw. apply andb_true_iff in Hw as [Hi Hl].
    unfold render_qitems. cbn [map concat]. rewrite <- app_assoc.
    apply qitem_strict; auto.
  Qed.

  Lemma close_strict q k o mid : cq D = Some q -> nq D k = true -> inq (p_state o) = true ->
    bad (trun cf o mid (q :: k)).
  Proof.
    intros Eq Hk Ho.
    assert (Es : p_state o = IN_QUOTED_FIELD) by (destruct (p_state o); try discriminate; reflexivity).
    destruct (quote_facts D WF q Eq) as (Hq0 & Hqn & _ & Hqe).
    destruct (eqbs q Hq0) as (E1 & E2 & E3 & E4). rewrite Eq, is_opt_refl in E1.
    cbn [trun]. rewrite E4. unfold process_char. rewrite Es, E4, E2, Hqe, E1.
    assert (Eqc : quotechar cf = q) by (cbn; now rewrite Eq).
    rewrite Eqc, (la_quote D WF q k Eq Hk). now left.
  Qed.

  Lemma open_strict q k o mid : cq D = Some q -> uq (p_state o) = true ->
    (forall o' m, inq (p_state o') = true -> bad (trun cf o' m k)) ->
    bad (trun cf o mid (q :: k)).
  Proof.
    intros Eq Ho K. destruct (quote_facts D WF q Eq) as (Hq0 & Hqn & _ & Hqe).
    destruct (eqbs q Hq0) as (E1 & E2 & E3 & E4). rewrite Eq, is_opt_refl in E1.
    apply (step_noop inq); auto; [|intros []; cbn; auto].
    unfold process_char, do_start_field, do_in_field.
    destruct (p_state o); try discriminate; rewrite ?E4, ?Hqn; cbn [orb]; rewrite ?E2, ?Hqe, ?E1;
      apply goes_add; reflexivity.
  Qed.

  Lemma piece_strict p o mid k :
    wf_piece D p = true -> uq (p_state o) = true -> (is_q p = true -> nq D k = true) ->
    (is_q p = false -> forall o' m, uq (p_state o') = true -> bad (trun cf o' m k)) ->
    bad (trun cf o mid (render_piece D p ++ k)).
  Proof.
    intros Hw Ho Hnq K. destruct p as [c|c|l]; cbn [render_piece is_q] in *.
    - cbn in Hw. unfold special in Hw. bool_split. apply N.eqb_neq in H.
      destruct (eqbs c H) as (E1 & E2 & E3 & E4). cbn [app].
      apply (step_goes uq); auto; [now apply not_nl_brk|].
      unfold process_char, do_start_field, do_in_field.
      destruct (p_state o) eqn:Es; try discriminate; rewrite ?E4, ?H1; cbn [orb];
        rewrite ?E2, ?E1, ?E3, ?H0, ?H2, ?H3;
        try (apply goes_add; intros; reflexivity); apply goes_add'; now rewrite Es.
    - cbn in Hw. bool_split. apply N.eqb_neq in H0.
      destruct (ce D) as [e|] eqn:Ee; [|discriminate]. cbn [opt_str app].
      destruct (esc_facts D WF e Ee) as (He0 & Hen & _ & Heq).
      destruct (eqbs e He0) as (E1 & E2 & E3 & E4). rewrite Ee, is_opt_refl in E2.
      apply (step_goes (is_st ESCAPED_CHAR)); [assumption|now apply not_nl_brk| |].
      + unfold process_char, do_start_field, do_in_field.
        destruct (p_state o); try discriminate; rewrite ?E4, ?Hen; cbn [orb];
          rewrite ?E1, ?Heq, ?E2; reflexivity.
      + intros o' Ho'. assert (Es' : p_state o' = ESCAPED_CHAR)
          by (destruct (p_state o'); try discriminate; reflexivity).
        destruct (is_nl c) eqn:En.
        * apply (step_noop (fun s => match s with AFTER_ESCAPED_CRNL => true | _ => false end));
            auto; [|intros []; cbn; auto|].
          -- unfold process_char. rewrite Es', En. apply goes_add. reflexivity.
          -- intros o'' m Ho''. apply K; auto. destruct (p_state o''); auto; discriminate.
        * apply (step_goes uq); auto; [now apply not_nl_brk|].
          destruct (eqbs c H0) as (F1 & F2 & F3 & F4).
          unfold process_char. rewrite Es', En, F4.
          destruct (_ && _); cbn [bind]; repeat (apply goes_add; intros); reflexivity.
    - cbn in Hw. bool_split. specialize (Hnq eq_refl).
      destruct (cq D) as [q|] eqn:Eq; [|discriminate]. cbn [opt_str app].
      apply (open_strict q); auto. intros o' m Ho'. rewrite <- app_assoc.
      apply qitems_strict; auto; [now rewrite Eq|]. intros o'' m' Ho''. now apply close_strict.
  Qed.

  (** A cell with a quoted segment raises; one without can be skipped. *)
  Lemma cell_strict ps : forall o mid k,
    wf_cell D ps = true -> uq (p_state o) = true -> nq D k = true ->
    (has_quoted_cell ps = false -> forall o' m, uq (p_state o') = true -> bad (trun cf o' m k)) ->
    bad (trun cf o mid (render_cell D ps ++ k)).
  Proof.
    induction ps as [|p ps IH]; intros o mid k Hw Ho Hk K; [now apply K|].
    unfold wf_cell in *. rewrite no_adjacent_cons in Hw. cbn [forallb] in Hw.
    apply andb_true_iff in Hw as [Hw1 Hw2].
    apply andb_true_iff in Hw1 as [Hp Hps]. apply andb_true_iff in Hw2 as [Hadj Hna].
    apply negb_true_iff in Hadj.
    unfold render_cell. cbn [map concat]. rewrite <- app_assoc. fold (render_cell D ps).
    apply piece_strict; auto.
    - intros Hq. apply nq_cell; auto. destruct ps as [|p' ps]; [exact Hk|]. now rewrite Hq in Hadj.
    - intros Hq o' m Ho'. apply IH; auto; [now rewrite Hps, Hna|].
      intros Hh. apply K. unfold has_quoted_cell, no_quoted in *. cbn.
      destruct p; try discriminate; exact Hh.
  Qed.

  Lemma cell_strict_has ps : forall k o mid, wf_cell D ps = true -> has_quoted_cell ps = true ->
    (ends_quoted ps = true -> nq D k = true) -> uq (p_state o) = true ->
    bad (trun cf o mid (render_cell D ps ++ k)).
  Proof.
    induction ps as [|p ps IH]; intros k o mid Hw Hh Hk Ho; [discriminate|].
    unfold wf_cell in *. rewrite no_adjacent_cons in Hw. cbn [forallb] in Hw.
    apply andb_true_iff in Hw as [Hw1 Hw2].
    apply andb_true_iff in Hw1 as [Hp Hps]. apply andb_true_iff in Hw2 as [Hadj Hna].
    apply negb_true_iff in Hadj. rewrite ends_quoted_cons in Hk.
    unfold render_cell. cbn [map concat]. rewrite <- app_assoc. fold (render_cell D ps).
    apply piece_strict; auto.
    - intros Hq. apply nq_cell; auto. destruct ps as [|p' ps]; [now apply Hk|]. now rewrite Hq in Hadj.
    - intros Hq o' m Ho'. apply IH; auto.
      + now rewrite Hps, Hna.
      + unfold has_quoted_cell, no_quoted in *. destruct p; try discriminate; exact Hh.
      + destruct ps; [discriminate|exact Hk].
  Qed.

  Lemma goes_save_eol o u v : uq (p_state o) = true -> is_nl u = true ->
    goes (fun s => match s with EAT_CRNL => true | _ => false end) (process_char str_ops cf o u v).
  Proof.
    intros Ho Hn. assert (Hu : (u =? 0)%N = false).
    { apply is_nl_spec in Hn as [-> | ->]; reflexivity. }
    unfold process_char, do_start_field, do_in_field.
    destruct (p_state o); try discriminate; rewrite ?Hn, ?Hu; reflexivity.
  Qed.

  Lemma eol_strict e o mid k : uq (p_state o) = true -> (e = ECR -> starts_lf k = false) ->
    (forall o' m, uq (p_state o') = true -> bad (trun cf o' m k)) ->
    bad (trun cf o mid (render_eol e ++ k)).
  Proof.
    intros Ho He K.
    assert (Heat : forall o' t, match p_state o' with EAT_CRNL => true | _ => false end = true ->
      t = k -> bad (eol_event cf o' (fun o'' => trun cf o'' false t))).
    { intros o' t Ho' ->. unfold eol_event, process_char.
      destruct (p_state o') eqn:Es; try discriminate. cbn.
      pose proof (K (mk_pobj START_RECORD [] [] (p_doublequote o')) false eq_refl) as H.
      unfold bad, cons_row, parse_reset in *. cbn in *. exact H. }
    assert (Hone : forall c, is_nl c = true -> c <> 0%N -> brk c k = true -> bad (trun cf o mid (c :: k))).
    { intros c Hc H0 Hb. cbn [trun]. apply N.eqb_neq in H0. rewrite H0.
      pose proof (goes_save_eol o c (la c k) Ho Hc) as G.
      destruct (process_char _ _ _ _ _) as [o'|x]; cbn in G.
      - rewrite Hb. now apply Heat.
      - right. cbn. congruence. }
    destruct e; cbn [render_eol app].
    - apply Hone; [reflexivity|discriminate|reflexivity].
    - apply Hone; [reflexivity|discriminate|]. specialize (He eq_refl). unfold brk. cbn.
      destruct k as [|c k]; [reflexivity|]. cbn in He. now rewrite He.
    - apply (step_goes (fun s => match s with EAT_CRNL => true | _ => false end));
        [discriminate|reflexivity|now apply goes_save_eol|].
      intros o' Ho'. cbn [trun]. change (LF =? 0)%N with false. cbn [brk].
      destruct (p_state o') eqn:Es; try discriminate. unfold process_char. rewrite Es.
      change (is_nl LF) with true. cbn [brk]. change (LF =? LF)%N with true. cbn [orb].
      apply Heat; [now rewrite Es|reflexivity].
  Qed.

  Lemma delim_strict o mid k : is_set (cd D) = true -> uq (p_state o) = true ->
    (forall o' m, uq (p_state o') = true -> bad (trun cf o' m k)) ->
    bad (trun cf o mid (opt_str (cd D) ++ k)).
  Proof.
    intros Hd Ho K. destruct (cd D) as [d|] eqn:Ed; [|discriminate]. cbn [opt_str app].
    destruct (delim_facts D WF d Ed) as (Hd0 & Hdn & Hdq & Hde).
    destruct (eqbs d Hd0) as (E1 & E2 & E3 & E4). rewrite Ed, is_opt_refl in E3.
    apply (step_goes uq); auto; [now apply not_nl_brk|].
    unfold process_char, do_start_field, do_in_field.
    destruct (p_state o) eqn:Es; try discriminate; rewrite ?E4, ?Hdn; cbn [orb];
      rewrite ?E1, ?Hdq, ?E2, ?Hde, ?E3; cbn [goes]; rewrite ?state_save; cbn; rewrite ?state_save; now rewrite ?Es.
  Qed.

  Lemma cells_open_strict cells : forall o mid k,
    forallb (wf_cell D) cells = true -> (cells = [] \/ is_set (cd D) = true) -> uq (p_state o) = true ->
    (existsb has_quoted_cell cells = false ->
     forall o' m, uq (p_state o') = true -> bad (trun cf o' m k)) ->
    bad (trun cf o mid (render_cells_open D cells ++ k)).
  Proof.
    induction cells as [|ps cells IH]; intros o mid k Hw Hd Ho K; [now apply K|].
    cbn in Hw. apply andb_true_iff in Hw as [Hp Hps].
    assert (Hset : is_set (cd D) = true) by (destruct Hd; [discriminate|assumption]).
    unfold render_cells_open. cbn [map concat]. rewrite <- !app_assoc.
    apply cell_strict; auto.
    { apply nq_opt; auto. intros x Hx. now apply (delim_facts D WF). }
    intros Hh o1 m1 Ho1. apply delim_strict; auto. intros o2 m2 Ho2.
    apply IH; auto. intros Hh'. apply K. cbn. now rewrite Hh.
  Qed.

  Lemma row_strict cells o mid k :
    wf_row D cells = true -> uq (p_state o) = true -> nq D k = true ->
    (existsb has_quoted_cell cells = false ->
     forall o' m, uq (p_state o') = true -> bad (trun cf o' m k)) ->
    bad (trun cf o mid (render_row D cells ++ k)).
  Proof.
    intros Hw Ho Hk K. destruct cells as [|ps cells _] using rev_ind; [now apply K|].
    destruct (wf_row_snoc D _ _ Hw) as (Hw1 & Hw2 & Hd & Hne).
    rewrite render_row_snoc, <- app_assoc. apply cells_open_strict; auto.
    intros H1 o1 m1 Ho1. apply cell_strict; auto. intros H2. apply K.
    rewrite existsb_app, H1. cbn. now rewrite H2.
  Qed.

  Lemma tail_strict t o : wf_tail D t = true -> uq (p_state o) = true ->
    match t with
    | TEnd => false
    | TRow cells => existsb has_quoted_cell cells
    | TEsc cells ps | TOpen cells ps _ | TOpenEsc cells ps _ =>
        existsb has_quoted_cell (cells ++ [ps])
    end = true -> forall mid, bad (trun cf o mid (render_tail D t)).
  Proof.
    intros Hw Ho Hh mid.
    assert (Hopen : forall cells ps k, wf_open D cells ps = true -> (has_quoted_cell ps = true -> ends_quoted ps = true -> nq D k = true) ->
      existsb has_quoted_cell (cells ++ [ps]) = true ->
      bad (trun cf o mid (render_cells_open D cells ++ render_cell D ps ++ k))).
    { intros cells ps k H Hk He. unfold wf_open in H. bool_split.
      apply cells_open_strict; auto; [destruct cells; [now left|now right]|].
      intros H2 o1 m1 Ho1. rewrite existsb_app, H2 in He. cbn in He. rewrite orb_false_r in He.
      apply cell_strict_has; auto. }
    destruct t as [|cells|cells ps|cells ps l|cells ps l]; cbn [render_tail wf_tail] in *.
    - discriminate.
    - apply andb_true_iff in Hw as [Hw _]. rewrite <- (app_nil_r (render_row D cells)).
      apply row_strict; auto. congruence.
    - apply andb_true_iff in Hw as [Hw He]. apply Hopen; auto. intros _ _.
      rewrite <- (app_nil_r (opt_str (ce D))). apply nq_opt; auto. intros x Hx. now apply (esc_facts D WF).
    - bool_split. apply Hopen; auto. congruence.
    - bool_split. apply Hopen; auto. congruence.
  Qed.

  Lemma doc_strict d : wf_doc D d = true -> has_quoted d = true ->
    bad (trun cf pure_new false (render D d)).
  Proof.
    unfold wf_doc, has_quoted. intros Hw Hh. apply andb_true_iff in Hw as [Hr Ht].
    destruct d as [rs t]. cbn [records last] in *.
    assert (G : forall o mid, uq (p_state o) = true -> bad (trun cf o mid (render D (mk_doc rs t))));
      [|now apply G].
    induction rs as [|[cells e] rs IH]; intros o mid Ho.
    - unfold render. cbn [records last map concat app]. apply tail_strict; auto.
    - cbn [wf_records] in Hr. apply andb_true_iff in Hr as [Hr Hrs]. apply andb_true_iff in Hr as [Hrow Hcr].
      unfold render. cbn [records last map concat]. unfold render_record at 1. cbn [fst snd].
      rewrite <- !app_assoc. apply row_strict; auto; [now apply nq_eol|].
      intros Hq o1 m1 Ho1. apply eol_strict; auto.
      + intros ->. apply (records_cr D rs t); auto.
      + intros o2 m2 Ho2. apply IH; auto. cbn in Hh. rewrite Hq in Hh. exact Hh.
  Qed.
End Strict.

Theorem strict_rejects_closing_quote D d limit rq :
  wf_chars D = true -> wf_doc D d = true -> has_quoted d = true ->
  Forall (fun s => Z.of_nat (length s) <= limit)%Z (raw_cells D d) ->
  snd (parse_string limit (render D d) (simple D true) rq) = Some (CleverError EQuoteExpected).
Proof.
  intros HD Hw Hh HL. rewrite parse_string_conf. unfold py_result. cbn [snd].
  pose proof (doc_strict D limit rq HD d Hw Hh) as HB.
  rewrite <- parse_text_trun in HB.
  pose proof (parse_layout D limit rq HD d Hw HL) as HC.
  destruct (strict_cuts (opt_n (cd D)) (opt_n (cq D)) (opt_n (ce D)) rq limit
    (map ILine (univ_lines (render D d)))) as [E|(k & x & E & Hx)].
  - exfalso. unfold parse_text, conf in *. rewrite E, HC in HB. destruct HB; discriminate.
  - unfold parse_text, conf in *. rewrite E in *. cbn [snd] in *.
    destruct HB as [H|H]; cbn in H; injection H as ->; [reflexivity|]. destruct Hx; discriminate.
Qed.

(** ** Agreement on texts without quote and escape characters *)
Section Agree.
  Variables (d q e : N) (L : Z) (rq : bool).
  Let cs := mk_pconf d q e L true rq.
  Let cl := mk_pconf d q e L false rq.

  Definition calm (s : pstate) : bool :=
    match s with START_RECORD | START_FIELD | IN_FIELD | EAT_CRNL => true | _ => false end.

  Definition calmly (x y : res perr (pobj str)) : Prop :=
    x = y /\ match x with Ok o => calm (p_state o) = true | Err _ => True end.

  Lemma add_calm o c g : calm (p_state o) = true ->
    (forall o', calm (p_state o') = true -> calmly (g o') (g o')) ->
    calmly (bind (add_char str_ops cs o c) g) (bind (add_char str_ops cl o c) g).
  Proof.
    intros Ho H. unfold add_char. cbn. destruct (str_add _ _ _); cbn; [now apply H|split; auto].
  Qed.
  Lemma add_calm' o c : calm (p_state o) = true ->
    calmly (add_char str_ops cs o c) (add_char str_ops cl o c).
  Proof.
    intros Ho. unfold add_char. cbn. destruct (str_add _ _ _); cbn; split; auto.
  Qed.

  Lemma save_calm o : save_field str_ops cs o false = save_field str_ops cl o false /\
    p_state (save_field str_ops cs o false) = p_state o.
  Proof.
    split; [reflexivity|]. unfold save_field. destruct (if quotecond _ _ then _ else _).
    now destruct (if false && _ then _ else _).
  Qed.

  Lemma start_calm o c : calm (p_state o) = true ->
    c = 0%N \/ ((c =? q)%N = false /\ (c =? e)%N = false) ->
    calmly (do_start_field str_ops cs o c) (do_start_field str_ops cl o c).
  Proof.
    intros Ho Hc. destruct (save_calm o) as [S1 S2]. unfold do_start_field. rewrite <- S1. cbn [quotechar escapechar delimiter cs cl].
    destruct Hc as [->|[Hq He]].
    - cbn. split; reflexivity.
    - destruct (_ || _); [split; [reflexivity|destruct (c =? 0)%N; reflexivity]|].
      rewrite Hq, He. destruct (c =? d)%N; [split; [reflexivity|exact (eq_trans (f_equal calm S2) Ho)]|].
      apply add_calm; [exact Ho|]. intros. split; reflexivity.
  Qed.

  Lemma step_calm o c v : calm (p_state o) = true ->
    c = 0%N \/ ((c =? q)%N = false /\ (c =? e)%N = false) ->
    calmly (process_char str_ops cs o c v) (process_char str_ops cl o c v).
  Proof.
    intros Ho Hc. unfold process_char.
    destruct (save_calm o) as [S1 S2].
    destruct (p_state o) eqn:Es; try discriminate.
    - destruct (c =? 0)%N; [split; [reflexivity|now rewrite Es]|].
      destruct (is_nl c); [split; reflexivity|]. apply start_calm; auto.
    - apply start_calm; auto. now rewrite Es.
    - unfold do_in_field. rewrite <- S1. cbn [quotechar escapechar delimiter cs cl].
      destruct Hc as [->|[Hq He]].
      + cbn. split; reflexivity.
      + destruct (_ || _); [split; [reflexivity|destruct (c =? 0)%N; reflexivity]|].
        rewrite Hq, He. destruct (c =? d)%N; [split; reflexivity|].
        apply add_calm'. now rewrite Es.
    - destruct (is_nl c); [split; [reflexivity|now rewrite Es]|].
      destruct (c =? 0)%N; split; reflexivity.
  Qed.

  Lemma eof_fresh b : at_eof cs (mk_pobj START_RECORD [] [] b) = at_eof cl (mk_pobj START_RECORD [] [] b).
  Proof. reflexivity. Qed.

  Lemma eol_calm o (k k' : pobj str -> list (list cell) * ending) : calm (p_state o) = true ->
    (forall b, k (mk_pobj START_RECORD [] [] b) = k' (mk_pobj START_RECORD [] [] b)) ->
    eol_event cs o k = eol_event cl o k'.
  Proof.
    intros Ho K. unfold eol_event.
    destruct (step_calm o 0 0 Ho (or_introl eq_refl)) as [<- _].
    assert (H : match process_char str_ops cs o 0 0 with
                | Ok o' => p_state o' = START_RECORD | Err _ => False end).
    { unfold process_char, do_start_field, do_in_field. destruct (p_state o) eqn:Es; try discriminate;
        cbn; auto. }
    destruct (process_char str_ops cs o 0 0) as [o'|]; [|destruct H].
    rewrite H. unfold parse_reset. cbn. now rewrite K.
  Qed.

End Agree.

Theorem strict_agrees D t limit rq :
  (forall c, In c t -> is_opt (cq D) c = false /\ is_opt (ce D) c = false) ->
  parse_string limit t (simple D true) rq = parse_string limit t (simple D false) rq.
Proof.
  intros H. rewrite !parse_string_conf. f_equal. rewrite !parse_text_trun. unfold conf.
  assert (G : forall t, (forall c, In c t -> is_opt (cq D) c = false /\ is_opt (ce D) c = false) ->
    forall o mid, calm (p_state o) = true -> (mid = false -> exists b, o = mk_pobj START_RECORD [] [] b) ->
    trun (mk_pconf (opt_n (cd D)) (opt_n (cq D)) (opt_n (ce D)) limit true rq) o mid t =
    trun (mk_pconf (opt_n (cd D)) (opt_n (cq D)) (opt_n (ce D)) limit false rq) o mid t).
  { clear. induction t as [|c t IH]; intros H o mid Ho Hm; cbn [trun].
    - destruct mid; [apply eol_calm; auto|]. destruct (Hm eq_refl) as [b ->]. reflexivity.
    - destruct (c =? 0)%N eqn:E0; [reflexivity|].
      assert (Hc : (c =? opt_n (cq D))%N = false /\ (c =? opt_n (ce D))%N = false).
      { destruct (H c (or_introl eq_refl)) as [H1 H2].
        destruct (cq D), (ce D); cbn in *; auto. }
      destruct (step_calm (opt_n (cd D)) (opt_n (cq D)) (opt_n (ce D)) limit rq o c (la c t) Ho (or_intror Hc)) as [<- K].
      destruct (process_char str_ops _ o c (la c t)) as [o'|]; [|reflexivity].
      assert (H' : forall c, In c t -> is_opt (cq D) c = false /\ is_opt (ce D) c = false)
        by (intros x Hx; apply H; now right).
      destruct (brk c t).
      + apply eol_calm; auto. intros b. apply IH; auto. intros _. now exists b.
      + apply IH; auto. discriminate. }
  apply G; auto. intros _. now exists false.
Qed.
