(** * LayoutFacts: the parser reads a layout as it is meant *)
From Verif Require Import Base Parser ParserFacts SpecLayout SpecParse.

Ltac bool_split :=
  unfold NUL in *;
  repeat match goal with
  | H : _ && _ = true |- _ => apply andb_true_iff in H as [? ?]
  | H : negb _ = true |- _ => apply negb_true_iff in H
  | H : _ || _ = false |- _ => apply orb_false_iff in H as [? ?]
  end.

Lemma str_startswith_last (s : str) (q : N) (d : N) : s <> [] ->
  str_endswith s q = (List.last s d =? q)%N.
Proof.
  intros H. destruct (exists_last H) as (s' & a & ->).
  unfold str_endswith. rewrite rev_app_distr. cbn. now rewrite last_last.
Qed.

Section Layout.
  Variable D : chars.
  Variable L : Z.
  Variable rq : bool.
  Hypothesis WF : wf_chars D = true.
  Let cf := conf D L false rq.

  Local Notation ob := mk_pobj (only parsing).

  Lemma eqb_quote c : c <> 0%N -> (c =? quotechar cf)%N = is_opt (cq D) c.
  Proof.
    intros H. cbn. destruct (cq D); cbn; [reflexivity|]. now apply N.eqb_neq.
  Qed.
  Lemma eqb_esc c : c <> 0%N -> (c =? escapechar cf)%N = is_opt (ce D) c.
  Proof.
    intros H. cbn. destruct (ce D); cbn; [reflexivity|]. now apply N.eqb_neq.
  Qed.
  Lemma eqb_delim c : c <> 0%N -> (c =? delimiter cf)%N = is_opt (cd D) c.
  Proof.
    intros H. cbn. destruct (cd D); cbn; [reflexivity|]. now apply N.eqb_neq.
  Qed.

  (** Facts about the set characters, from [WF]. *)
  Lemma wf_facts :
    (forall x, cd D = Some x -> x <> 0%N /\ is_nl x = false /\
       is_opt (cq D) x = false /\ is_opt (ce D) x = false) /\
    (forall x, cq D = Some x -> x <> 0%N /\ is_nl x = false /\
       is_opt (cd D) x = false /\ is_opt (ce D) x = false) /\
    (forall x, ce D = Some x -> x <> 0%N /\ is_nl x = false /\
       is_opt (cd D) x = false /\ is_opt (cq D) x = false).
  Proof.
    clear cf.
    unfold wf_chars in WF. unfold char_ok, distinct_opt, NUL in WF. bool_split.
    repeat split; intros; subst;
      repeat match goal with
      | H : ?a = Some _ |- _ => rewrite H in *; clear H
      end; bool_split;
      try (now apply N.eqb_neq); try assumption;
      unfold is_opt;
      repeat match goal with
      | |- context [match ?o with Some _ => _ | None => _ end] => destruct o; [|reflexivity]
      end; bool_split; try assumption; rewrite N.eqb_sym; assumption.
  Qed.

  Lemma delim_facts x : cd D = Some x -> x <> 0%N /\ is_nl x = false /\
       is_opt (cq D) x = false /\ is_opt (ce D) x = false.
  Proof. apply wf_facts. Qed.
  Lemma quote_facts x : cq D = Some x -> x <> 0%N /\ is_nl x = false /\
       is_opt (cd D) x = false /\ is_opt (ce D) x = false.
  Proof. apply wf_facts. Qed.
  Lemma esc_facts x : ce D = Some x -> x <> 0%N /\ is_nl x = false /\
       is_opt (cd D) x = false /\ is_opt (cq D) x = false.
  Proof. apply wf_facts. Qed.

  Lemma is_opt_some o c : is_opt o c = true -> o = Some c.
  Proof. destruct o; cbn; [|discriminate]. intros E. apply N.eqb_eq in E. now subst. Qed.
  Lemma is_opt_refl c : is_opt (Some c) c = true.
  Proof. cbn. apply N.eqb_refl. Qed.

  (** Saving a field. *)
  Lemma quotecond_enclosed b : quotecond b (quotechar cf) = enclosed D b.
  Proof.
    unfold quotecond, enclosed. cbn [quotechar cf conf].
    destruct (cq D) as [q|] eqn:Eq; cbn [opt_n].
    - destruct (quote_facts q Eq) as (Hq & _). apply N.eqb_neq in Hq. rewrite Hq.
      destruct b as [|c [|c' b]]; try reflexivity.
      cbn [length Nat.leb]. cbn [is_opt].
      rewrite (str_startswith_last _ _ 0%N) by discriminate.
      cbn [str_startswith]. f_equal.
    - cbn. destruct b as [|c [|c' b]]; reflexivity.
  Qed.

  Lemma save_false st b fs dq :
    save_field str_ops cf (ob st b fs dq) false =
    ob st [] (fs ++ [mk_cell rq (unquote D b)]) dq.
  Proof.
    unfold save_field. cbn [b_str str_ops p_buf]. rewrite quotecond_enclosed.
    unfold unquote. destruct (enclosed D b); reflexivity.
  Qed.

  Lemma save_true st b fs dq : ~ In 0%N b ->
    save_field str_ops cf (ob st b fs dq) true =
    ob st [] (fs ++ [mk_cell rq (unquote_at_end D b)]) dq.
  Proof.
    intros Hn. unfold save_field. cbn [b_str str_ops p_buf]. rewrite quotecond_enclosed.
    unfold unquote_at_end, unquote. unfold strip_back, strip_front.
    assert (Hs : forall s, ~ In 0%N s ->
      str_startswith s (quotechar cf) = match s with c :: _ => is_opt (cq D) c | [] => false end).
    { intros [|c s] H; [reflexivity|]. cbn [str_startswith]. rewrite eqb_quote; [reflexivity|].
      intros ->. apply H. now left. }
    destruct (enclosed D b); cbn [andb].
    - rewrite Hs.
      + destruct (removelast (tl b)) as [|c r]; [reflexivity|].
        destruct (is_opt (cq D) c); reflexivity.
      + intros Hi. apply Hn. destruct b as [|c b]; [destruct Hi|]. right.
        cbn in Hi. clear -Hi. revert Hi. induction b as [|x b IH]; [intros []|].
        destruct b as [|y b]; [intros []|]. intros [->|H]; [now left|right; now apply IH].
    - rewrite Hs by assumption.
      destruct b as [|c r]; [reflexivity|].
      destruct (is_opt (cq D) c); reflexivity.
  Qed.

  Lemma add_ok st b fs dq c : (Z.of_nat (length (b ++ [c])) <= L)%Z ->
    add_char str_ops cf (ob st b fs dq) c = Ok (ob st (b ++ [c]) fs dq).
  Proof.
    intros H. unfold add_char. cbn. unfold str_add. rewrite app_length in H. cbn in H.
    destruct (_ <=? _)%Z eqn:E; [apply Z.leb_le in E; lia|]. reflexivity.
  Qed.

  (** Unquoted states. *)
  Definition uq (st : pstate) : bool :=
    match st with START_RECORD | START_FIELD | IN_FIELD | AFTER_ESCAPED_CRNL => true
    | _ => false end.

  Definition pst (st : pstate) (p : piece) : pstate :=
    match p with
    | PChar _ => match st with AFTER_ESCAPED_CRNL => AFTER_ESCAPED_CRNL | _ => IN_FIELD end
    | PEsc c => if is_nl c then AFTER_ESCAPED_CRNL else IN_FIELD
    | PQuoted _ => IN_FIELD
    end.

  Lemma not_nl_brk c t : is_nl c = false -> brk c t = false.
  Proof.
    unfold is_nl, brk. intros H. apply orb_false_iff in H as [-> ->]. reflexivity.
  Qed.

  Lemma trun_step o o' mid c t :
    process_char str_ops cf o c (la c t) = Ok o' -> is_nl c = false -> c <> 0%N ->
    trun cf o mid (c :: t) = trun cf o' true t.
  Proof.
    intros H Hn H0. cbn [trun]. apply N.eqb_neq in H0. rewrite H0, H, (not_nl_brk c t Hn).
    reflexivity.
  Qed.

  (** States on which the end-of-line event does nothing. *)
  Definition noop (st : pstate) : bool :=
    match st with AFTER_ESCAPED_CRNL | IN_QUOTED_FIELD => true | _ => false end.

  Lemma eol_noop st b fs dq k : noop st = true ->
    eol_event cf (ob st b fs dq) k = k (ob st b fs dq).
  Proof. intros H. unfold eol_event. destruct st; try discriminate; reflexivity. Qed.

  Lemma trun_mid st b fs dq k : noop st = true ->
    trun cf (ob st b fs dq) false k = trun cf (ob st b fs dq) true k.
  Proof.
    intros H. destruct k; [|reflexivity]. cbn [trun]. now rewrite eol_noop.
  Qed.

  (** A character after which the state is a no-op state. *)
  Lemma trun_noop o st b fs dq mid c t :
    process_char str_ops cf o c (la c t) = Ok (ob st b fs dq) -> noop st = true -> c <> 0%N ->
    trun cf o mid (c :: t) = trun cf (ob st b fs dq) true t.
  Proof.
    intros H Hn H0. cbn [trun]. apply N.eqb_neq in H0. rewrite H0, H. destruct (brk c t); [|reflexivity].
    rewrite eol_noop by assumption. now apply trun_mid.
  Qed.

  Lemma len_app_le {A} (a b : list A) x :
    (Z.of_nat (length (a ++ b)) <= x)%Z -> (Z.of_nat (length a) <= x)%Z.
  Proof. rewrite app_length. lia. Qed.

  (** ** Inside quotes *)
  Lemma qitem_run i b fs dq mid k :
    wf_qitem D i = true -> is_set (cq D) = true ->
    (Z.of_nat (length (b ++ qitem_value D i)) <= L)%Z ->
    exists dq', trun cf (ob IN_QUOTED_FIELD b fs dq) mid (render_qitem D i ++ k) =
      trun cf (ob IN_QUOTED_FIELD (b ++ qitem_value D i) fs dq') true k.
  Proof.
    intros Hw Hq HL. destruct i as [c| |c]; cbn in Hw.
    - bool_split. apply N.eqb_neq in H. exists dq. apply trun_noop; [|reflexivity|assumption].
      cbn [process_char p_state]. apply N.eqb_neq in H as H'. rewrite H'.
      rewrite eqb_esc, eqb_quote by assumption. rewrite H0, H1.
      now apply add_ok.
    - destruct (cq D) as [q|] eqn:Eq; [|discriminate].
      destruct (quote_facts q Eq) as (Hq0 & Hqn & _ & Hqe).
      exists true. cbn [render_qitem]. rewrite Eq. cbn [opt_str app].
      rewrite (trun_step _ (ob QUOTE_IN_QUOTED_FIELD b fs true)); [|
        |assumption|assumption].
      + apply trun_noop; [|reflexivity|assumption].
        cbn [process_char p_state]. rewrite eqb_quote by assumption.
        cbn [qitem_value] in HL |- *. rewrite Eq in HL |- *. rewrite is_opt_refl.
        rewrite add_ok; [reflexivity|exact HL].
      + cbn [process_char p_state]. apply N.eqb_neq in Hq0 as H'. rewrite H'.
        rewrite eqb_esc, Hqe, eqb_quote, Eq, is_opt_refl by assumption.
        unfold la. rewrite not_nl_brk by assumption.
        cbn. rewrite Eq. cbn. rewrite N.eqb_refl. reflexivity.
    - bool_split. apply N.eqb_neq in H0.
      destruct (ce D) as [e|] eqn:Ee; [|discriminate].
      destruct (esc_facts e Ee) as (He0 & Hen & _ & Heq).
      exists dq. cbn [render_qitem]. rewrite Ee. cbn [opt_str app].
      rewrite (trun_step _ (ob ESCAPE_IN_QUOTED_FIELD b fs dq)); [| |assumption|assumption].
      + apply trun_noop; [|reflexivity|assumption].
        cbn [process_char p_state].
        rewrite eqb_esc, eqb_delim, eqb_quote by assumption.
        apply N.eqb_neq in H0 as H'. rewrite H'. cbn [negb]. rewrite andb_true_r.
        cbn [qitem_value] in HL |- *. unfold special in *.
        destruct (is_opt (ce D) c) eqn:E1, (is_opt (cd D) c) eqn:E2, (is_opt (cq D) c) eqn:E3;
          cbn [negb andb orb] in *;
          try (cbn [bind]; rewrite add_ok by exact HL; reflexivity).
        rewrite Ee in HL |- *. cbn [opt_str] in HL |- *.
        assert (Hesc : escapechar cf = e) by (cbn; now rewrite Ee).
        rewrite Hesc.
        replace (b ++ [e] ++ [c]) with ((b ++ [e]) ++ [c]) in * by now rewrite <- app_assoc.
        rewrite add_ok by (eapply len_app_le; exact HL). cbn [bind].
        now rewrite add_ok.
      + cbn [process_char p_state]. apply N.eqb_neq in He0 as H'. rewrite H'.
        rewrite eqb_esc, Ee, is_opt_refl by assumption. reflexivity.
  Qed.

  Lemma qitems_run l : forall b fs dq mid k,
    forallb (wf_qitem D) l = true -> is_set (cq D) = true ->
    (Z.of_nat (length (b ++ qitems_value D l)) <= L)%Z ->
    exists dq', trun cf (ob IN_QUOTED_FIELD b fs dq) mid (render_qitems D l ++ k) =
      trun cf (ob IN_QUOTED_FIELD (b ++ qitems_value D l) fs dq') true k.
  Proof.
    induction l as [|i l IH]; intros b fs dq mid k Hw Hq HL.
    - exists dq. cbn. rewrite app_nil_r. destruct mid; [reflexivity|].
      now apply trun_mid.
    - cbn in Hw. apply andb_true_iff in Hw as [Hi Hl].
      unfold qitems_value, render_qitems in *. cbn [map concat] in *.
      rewrite !app_assoc in *. 
      destruct (qitem_run i b fs dq mid (concat (map (render_qitem D) l) ++ k) Hi Hq) as [dq1 E1].
      { eapply len_app_le; exact HL. }
      rewrite <- app_assoc, E1.
      destruct (IH (b ++ qitem_value D i) fs dq1 true k Hl Hq HL) as [dq2 E2].
      exists dq2. exact E2.
  Qed.

  (** The next character is not a quote. *)
  Definition nq (k : str) : bool :=
    match k with c :: _ => negb (is_opt (cq D) c) | [] => true end.

  Lemma la_quote q k : cq D = Some q -> nq k = true -> (la q k =? q)%N = false.
  Proof.
    intros Eq Hk. destruct (quote_facts q Eq) as (Hq0 & Hqn & _).
    unfold la. rewrite not_nl_brk by assumption.
    destruct k as [|c k].
    - apply N.eqb_neq. congruence.
    - cbn in Hk. rewrite Eq in Hk. cbn in Hk. now apply negb_true_iff in Hk.
  Qed.

  Lemma open_run q st b fs dq mid k :
    cq D = Some q -> uq st = true -> (Z.of_nat (length (b ++ [q])) <= L)%Z ->
    trun cf (ob st b fs dq) mid (q :: k) = trun cf (ob IN_QUOTED_FIELD (b ++ [q]) fs dq) true k.
  Proof.
    intros Eq Hst HL. destruct (quote_facts q Eq) as (Hq0 & Hqn & Hqd & Hqe).
    apply trun_noop; [|reflexivity|assumption].
    apply N.eqb_neq in Hq0 as H'.
    destruct st; try discriminate; cbn [process_char p_state];
      rewrite ?H', ?Hqn; unfold do_start_field, do_in_field;
      rewrite ?Hqn, ?H'; cbn [orb];
      rewrite ?eqb_esc, ?Hqe, ?eqb_quote, ?Eq, ?is_opt_refl by assumption;
      try (rewrite add_ok by assumption; reflexivity).
    change (set_state _ START_FIELD) with (ob START_FIELD b fs dq).
    rewrite add_ok by assumption. reflexivity.
  Qed.

  Lemma close_run q b fs dq mid k :
    cq D = Some q -> nq k = true -> (Z.of_nat (length (b ++ [q])) <= L)%Z ->
    trun cf (ob IN_QUOTED_FIELD b fs dq) mid (q :: k) =
    trun cf (ob IN_FIELD (b ++ [q]) fs dq) true k.
  Proof.
    intros Eq Hk HL. destruct (quote_facts q Eq) as (Hq0 & Hqn & Hqd & Hqe).
    apply trun_step; [|assumption|assumption].
    apply N.eqb_neq in Hq0 as H'.
    cbn [process_char p_state]. rewrite H', eqb_esc, Hqe, eqb_quote by assumption.
    rewrite Eq, is_opt_refl.
    assert (Hqc : quotechar cf = q) by (cbn; now rewrite Eq).
    rewrite Hqc, (la_quote q k Eq Hk). cbn [strict cf conf].
    rewrite add_ok by assumption. reflexivity.
  Qed.

  Definition is_q (p : piece) : bool := match p with PQuoted _ => true | _ => false end.

  Lemma piece_run p st b fs dq mid k :
    wf_piece D p = true -> uq st = true -> (is_q p = true -> nq k = true) ->
    (Z.of_nat (length (b ++ piece_value D p)) <= L)%Z ->
    exists dq', trun cf (ob st b fs dq) mid (render_piece D p ++ k) =
      trun cf (ob (pst st p) (b ++ piece_value D p) fs dq') true k.
  Proof.
    intros Hw Hst Hnq HL. destruct p as [c|c|l].
    - cbn in Hw. unfold special in Hw. bool_split. apply N.eqb_neq in H as Hc.
      exists dq. cbn [render_piece app piece_value] in *.
      apply trun_step; [|assumption|assumption].
      assert (Hn : (c =? 0)%N = false) by assumption.
      destruct st; try discriminate; cbn [process_char p_state];
      rewrite ?Hn, ?H1; unfold do_start_field, do_in_field;
      rewrite ?Hn, ?H1; cbn [orb];
      rewrite ?eqb_esc, ?eqb_quote, ?eqb_delim by assumption;
      rewrite ?H0, ?H2, ?H3;
      try (change (set_state _ START_FIELD) with (ob START_FIELD b fs dq));
      rewrite add_ok by assumption; reflexivity.
    - cbn in Hw. bool_split. apply N.eqb_neq in H0 as Hc.
      destruct (ce D) as [e|] eqn:Ee; [|discriminate].
      destruct (esc_facts e Ee) as (He0 & Hen & Hed & Heq).
      exists dq. cbn [render_piece app piece_value] in *. rewrite Ee in *. cbn [opt_str app] in *.
      rewrite (trun_step _ (ob ESCAPED_CHAR b fs dq)); [| |assumption|assumption].
      2:{ apply N.eqb_neq in He0 as H'.
          destruct st; try discriminate; cbn [process_char p_state];
          rewrite ?H', ?Hen; unfold do_start_field, do_in_field;
          rewrite ?H', ?Hen; cbn [orb];
          rewrite ?eqb_quote, ?Heq, ?eqb_esc, ?Ee, ?is_opt_refl by assumption; reflexivity. }
      cbn [pst]. destruct (is_nl c) eqn:En.
      + rewrite orb_true_r in *.
        apply trun_noop; [|reflexivity|assumption].
        cbn [process_char p_state]. rewrite En. rewrite add_ok by assumption. reflexivity.
      + rewrite orb_false_r in *.
        apply trun_step; [|assumption|assumption].
        cbn [process_char p_state]. rewrite En.
        assert (Hn : (c =? 0)%N = false) by assumption. rewrite Hn. cbn [negb andb].
        rewrite eqb_esc, eqb_delim, eqb_quote by assumption.
        unfold special in *. rewrite Ee in *.
        destruct (is_opt (cd D) c) eqn:E1, (is_opt (Some e) c) eqn:E2, (is_opt (cq D) c) eqn:E3;
          cbn [negb andb orb] in *;
          try (cbn [bind]; rewrite add_ok by exact HL; reflexivity).
        assert (Hesc : escapechar cf = e) by (cbn; now rewrite Ee).
        rewrite Hesc.
        change (b ++ [e; c]) with (b ++ [e] ++ [c]) in *.
        rewrite app_assoc in *.
        rewrite add_ok by (eapply len_app_le; exact HL). cbn [bind].
        rewrite add_ok by assumption. reflexivity.
    - cbn in Hw. bool_split. specialize (Hnq eq_refl).
      destruct (cq D) as [q|] eqn:Eq; [|discriminate].
      cbn [render_piece piece_value pst] in *. rewrite Eq in *. cbn [opt_str] in *.
      replace (b ++ [q] ++ qitems_value D l ++ [q])
        with (((b ++ [q]) ++ qitems_value D l) ++ [q]) in * by now rewrite <- !app_assoc.
      replace (([q] ++ render_qitems D l ++ [q]) ++ k)
        with (q :: render_qitems D l ++ q :: k) by (cbn; now rewrite <- app_assoc).
      rewrite (open_run q) by (try assumption; do 2 (eapply len_app_le; try exact HL)).
      destruct (qitems_run l (b ++ [q]) fs dq true (q :: k)) as [dq' E]; try assumption.
      { now rewrite Eq. }
      { eapply len_app_le; exact HL. }
      exists dq'. rewrite E. now apply close_run.
  Qed.

  Lemma uq_pst st p : uq (pst st p) = true.
  Proof. destruct p as [c|c|l]; cbn; [destruct st|destruct (is_nl c)|]; reflexivity. Qed.

  Lemma ends_quoted_cons p ps :
    ends_quoted (p :: ps) = match ps with [] => is_q p | _ => ends_quoted ps end.
  Proof.
    unfold ends_quoted. cbn [rev]. destruct ps as [|p' ps]; [destruct p; reflexivity|].
    destruct (rev (p' :: ps)) eqn:E.
    { apply (f_equal (@length _)) in E. rewrite rev_length in E. discriminate. }
    reflexivity.
  Qed.

  Lemma no_adjacent_cons p ps :
    no_adjacent (p :: ps) = negb (is_q p && match ps with p' :: _ => is_q p' | [] => false end)
                            && no_adjacent ps.
  Proof. destruct p as [c|c|l], ps as [|[c'|c'|l'] ps]; reflexivity. Qed.

  Lemma nq_cell ps k :
    match ps with p :: _ => is_q p = false | [] => nq k = true end ->
    forallb (wf_piece D) ps = true ->
    nq (render_cell D ps ++ k) = true.
  Proof.
    intros H Hw. destruct ps as [|p ps]; [exact H|].
    cbn in Hw. apply andb_true_iff in Hw as [Hp _].
    unfold render_cell. cbn [map concat]. rewrite <- app_assoc.
    destruct p as [c|c|l]; try discriminate; cbn in *.
    - unfold special in Hp. bool_split.
      match goal with H : is_opt (cq D) c = false |- _ => now rewrite H end.
    - bool_split. destruct (ce D) as [e|] eqn:Ee; [|discriminate]. cbn.
      destruct (esc_facts e Ee) as (_ & _ & _ & ->). reflexivity.
  Qed.

  Lemma cell_run ps : forall st b fs dq mid k,
    wf_cell D ps = true -> uq st = true ->
    (ends_quoted ps = true -> nq k = true) -> ps <> [] ->
    (Z.of_nat (length (b ++ raw_cell D ps)) <= L)%Z ->
    exists dq', trun cf (ob st b fs dq) mid (render_cell D ps ++ k) =
      trun cf (ob (fold_left pst ps st) (b ++ raw_cell D ps) fs dq') true k.
  Proof.
    induction ps as [|p ps IH]; intros st b fs dq mid k Hw Hst Hnq Hne HL; [congruence|].
    unfold wf_cell in *. rewrite no_adjacent_cons in Hw. cbn [forallb] in Hw.
    apply andb_true_iff in Hw as [Hw1 Hw2].
    apply andb_true_iff in Hw1 as [Hp Hps]. apply andb_true_iff in Hw2 as [Hadj Hna].
    apply negb_true_iff in Hadj.
    rewrite ends_quoted_cons in Hnq.
    unfold raw_cell, render_cell in *. cbn [map concat fold_left] in *.
    rewrite app_assoc in HL |- *.
    destruct (piece_run p st b fs dq mid (render_cell D ps ++ k) Hp Hst) as [dq1 E1].
    { intros Hq. apply nq_cell; [|assumption]. destruct ps as [|p' ps]; [now apply Hnq|].
      rewrite Hq in Hadj. exact Hadj. }
    { eapply len_app_le. exact HL. }
    rewrite <- app_assoc.
    unfold render_cell in E1. rewrite E1.
    destruct ps as [|p' ps].
    - exists dq1. cbn. now rewrite app_nil_r.
    - destruct (IH (pst st p) (b ++ piece_value D p) fs dq1 true k) as [dq2 E2]; auto.
      + now rewrite Hps, Hna.
      + apply uq_pst.
      + discriminate.
      + exists dq2. exact E2.
  Qed.

  Lemma uq_fold ps : forall st, uq st = true -> uq (fold_left pst ps st) = true.
  Proof. induction ps as [|p ps IH]; intros st H; [exact H|]. cbn. apply IH, uq_pst. Qed.

  Lemma fold_pst_field ps st : uq st = true -> ps <> [] ->
    fold_left pst ps st =
    if after_esc_nl (match st with AFTER_ESCAPED_CRNL => true | _ => false end) ps
    then AFTER_ESCAPED_CRNL else IN_FIELD.
  Proof.
    revert st. induction ps as [|p ps IH]; intros st Hst Hne; [congruence|].
    cbn [fold_left]. destruct ps as [|p' ps].
    - destruct p as [c|c|l]; cbn; [destruct st|destruct (is_nl c)|]; try reflexivity; discriminate.
    - rewrite IH; [|apply uq_pst|discriminate].
      destruct p as [c|c|l]; cbn [pst after_esc_nl].
      + destruct st; try discriminate; reflexivity.
      + destruct (is_nl c); reflexivity.
      + reflexivity.
  Qed.

  (** ** The end of a cell *)
  Lemma delim_run d st b fs dq mid k :
    cd D = Some d -> uq st = true ->
    trun cf (ob st b fs dq) mid (d :: k) =
    trun cf (ob START_FIELD [] (fs ++ [mk_cell rq (unquote D b)]) dq) true k.
  Proof.
    intros Ed Hst. destruct (delim_facts d Ed) as (Hd0 & Hdn & Hdq & Hde).
    apply trun_step; [|assumption|assumption].
    apply N.eqb_neq in Hd0 as H'.
    destruct st; try discriminate; cbn [process_char p_state];
      rewrite ?H', ?Hdn; unfold do_start_field, do_in_field;
      rewrite ?Hdn, ?H'; cbn [orb];
      rewrite ?eqb_esc, ?Hde, ?eqb_quote, ?Hdq, ?eqb_delim, ?Ed, ?is_opt_refl by assumption;
      unfold set_state; cbn [p_state p_buf p_fields p_doublequote];
      rewrite save_false; reflexivity.
  Qed.

  Lemma delim_run' st b fs dq mid k :
    is_set (cd D) = true -> uq st = true ->
    trun cf (ob st b fs dq) mid (opt_str (cd D) ++ k) =
    trun cf (ob START_FIELD [] (fs ++ [mk_cell rq (unquote D b)]) dq) true k.
  Proof.
    intros Hd Hst. destruct (cd D) as [d|] eqn:Ed; [|discriminate].
    now apply delim_run.
  Qed.

  Definition starts_lf (k : str) : bool :=
    match k with c :: _ => (c =? LF)%N | [] => false end.

  Definition fresh (dq : bool) : pobj str := ob START_RECORD [] [] dq.

  (** Row fields when the terminator arrives. *)
  Definition at_eol (st : pstate) (b : str) (fs : list cell) : list cell :=
    match st with START_RECORD => fs | _ => fs ++ [mk_cell rq (unquote D b)] end.

  Lemma eol_run e st b fs dq mid k :
    uq st = true -> (e = ECR -> starts_lf k = false) ->
    trun cf (ob st b fs dq) mid (render_eol e ++ k) =
    cons_row (at_eol st b fs) (trun cf (fresh dq) false k).
  Proof.
    intros Hst He.
    assert (Hnl : forall c v, is_nl c = true -> c <> 0%N ->
      exists b', process_char str_ops cf (ob st b fs dq) c v = Ok (ob EAT_CRNL b' (at_eol st b fs) dq)).
    { intros c v Hc Hc0. apply N.eqb_neq in Hc0.
      destruct st; try discriminate; cbn [process_char p_state];
        rewrite ?Hc0, ?Hc; unfold do_start_field, do_in_field;
        rewrite ?Hc, ?Hc0; cbn [orb];
        unfold set_state; cbn [p_state p_buf p_fields p_doublequote];
        try (rewrite save_false); eexists; reflexivity. }
    assert (Heat : forall b' fs' k', eol_event cf (ob EAT_CRNL b' fs' dq) k' =
      cons_row fs' (k' (fresh dq))).
    { intros. unfold eol_event. cbn. reflexivity. }
    destruct e; cbn [render_eol app].
    - cbn [trun]. change (LF =? 0)%N with false. cbv iota. destruct (Hnl LF (la LF k)) as [b' ->]; [reflexivity|discriminate|].
      cbn [brk]. change (brk LF k) with true. cbv iota. apply Heat.
    - cbn [trun]. change (CR =? 0)%N with false. cbv iota. destruct (Hnl CR (la CR k)) as [b' ->]; [reflexivity|discriminate|].
      specialize (He eq_refl).
      assert (Hb : brk CR k = true).
      { unfold brk. destruct k as [|c k]; [reflexivity|]. cbn in He. rewrite He. reflexivity. }
      rewrite Hb. apply Heat.
    - cbn [trun]. change (CR =? 0)%N with false. cbv iota. destruct (Hnl CR (la CR (LF :: k))) as [b' ->]; [reflexivity|discriminate|].
      change (brk CR (LF :: k)) with false. cbv iota.
      change (LF =? 0)%N with false. cbv iota.
      cbn [process_char p_state]. change (is_nl LF) with true. cbv iota.
      change (brk LF k) with true. cbv iota. apply Heat.
  Qed.

  (** ** Rows *)
  Definition raw_ok (s : str) : Prop := (Z.of_nat (length s) <= L)%Z.

  (** A cell, possibly empty, before a character that is no quote. *)
  Lemma cell_run' ps st fs dq mid k :
    wf_cell D ps = true -> uq st = true -> nq k = true -> raw_ok (raw_cell D ps) ->
    exists dq' mid', trun cf (ob st [] fs dq) mid (render_cell D ps ++ k) =
      trun cf (ob (fold_left pst ps st) (raw_cell D ps) fs dq') mid' k /\
      (ps = [] -> mid' = mid) /\ (ps <> [] -> mid' = true).
  Proof.
    intros Hw Hst Hk HL. destruct ps as [|p ps].
    - exists dq, mid. cbn. repeat split; congruence.
    - destruct (cell_run (p :: ps) st [] fs dq mid k) as [dq' E]; auto; try discriminate.
      exists dq', true. split; [exact E|]. split; [discriminate|reflexivity].
  Qed.

  Lemma render_row_cons ps ps' cells :
    render_row D (ps :: ps' :: cells) =
    render_cell D ps ++ opt_str (cd D) ++ render_row D (ps' :: cells).
  Proof. reflexivity. Qed.

  Lemma nq_opt o k : (forall x, o = Some x -> is_opt (cq D) x = false) ->
    is_set o = true -> nq (opt_str o ++ k) = true.
  Proof.
    intros H Hs. destruct o as [x|]; [|discriminate]. cbn. now rewrite (H x eq_refl).
  Qed.

  Lemma nq_eol e k : nq (render_eol e ++ k) = true.
  Proof.
    assert (H : forall c, is_nl c = true -> negb (is_opt (cq D) c) = true).
    { intros c Hc. destruct (is_opt (cq D) c) eqn:E; [|reflexivity].
      apply is_opt_some in E. destruct (quote_facts c E) as (_ & Hn & _). congruence. }
    destruct e; apply H; reflexivity.
  Qed.

  (** All cells followed by a delimiter. *)
  Lemma cells_open_run cells : forall st fs dq mid k,
    forallb (wf_cell D) cells = true -> is_set (cd D) = true -> uq st = true -> cells <> [] ->
    Forall raw_ok (map (raw_cell D) cells) ->
    exists dq', trun cf (ob st [] fs dq) mid (render_cells_open D cells ++ k) =
      trun cf (ob START_FIELD [] (fs ++ map (mk_cell rq) (map (cell_value D) cells)) dq') true k.
  Proof.
    induction cells as [|ps cells IH]; intros st fs dq mid k Hw Hd Hst Hne HL; [congruence|].
    cbn in Hw. apply andb_true_iff in Hw as [Hps Hcs].
    cbn [map] in HL. inversion HL as [|? ? HL1 HL2]; subst.
    unfold render_cells_open. cbn [map concat]. rewrite <- !app_assoc.
    destruct (cell_run' ps st fs dq mid (opt_str (cd D) ++ render_cells_open D cells ++ k))
      as (dq1 & mid1 & E1 & _); auto.
    { apply nq_opt; [|assumption]. intros x Hx. now apply delim_facts. }
    unfold render_cells_open in E1. rewrite E1.
    rewrite delim_run' by (try assumption; now apply uq_fold).
    destruct cells as [|ps' cells].
    - exists dq1. reflexivity.
    - destruct (IH START_FIELD (fs ++ [mk_cell rq (unquote D (raw_cell D ps))]) dq1 true k)
        as [dq2 E2]; auto; try discriminate.
      exists dq2. unfold render_cells_open in E2. rewrite E2.
      rewrite <- app_assoc. reflexivity.
  Qed.

  Lemma render_row_snoc cells ps :
    render_row D (cells ++ [ps]) = render_cells_open D cells ++ render_cell D ps.
  Proof.
    induction cells as [|c cells IH]; [reflexivity|].
    cbn [app]. destruct (cells ++ [ps]) as [|c' cs] eqn:E; [now destruct cells|].
    rewrite render_row_cons, IH. unfold render_cells_open. cbn [map concat].
    now rewrite <- !app_assoc.
  Qed.

  (** Cells before the last one, and the state in which the last one starts. *)
  Definition start_of (cells : list (list piece)) : pstate :=
    match cells with [] => START_RECORD | _ => START_FIELD end.

  Lemma cells_run cells dq mid k :
    forallb (wf_cell D) cells = true -> (cells = [] \/ is_set (cd D) = true) ->
    Forall raw_ok (map (raw_cell D) cells) ->
    exists dq' mid', trun cf (fresh dq) mid (render_cells_open D cells ++ k) =
      trun cf (ob (start_of cells) [] (map (mk_cell rq) (map (cell_value D) cells)) dq') mid' k
      /\ (cells = [] -> mid' = mid) /\ (cells <> [] -> mid' = true).
  Proof.
    intros Hw Hd HL. destruct cells as [|ps cells].
    - exists dq, mid. cbn. repeat split; congruence.
    - destruct Hd as [Hd|Hd]; [discriminate|].
      destruct (cells_open_run (ps :: cells) START_RECORD [] dq mid k) as [dq' E]; auto; try discriminate.
      exists dq', true. split; [exact E|]. split; congruence.
  Qed.

  Lemma uq_start cells : uq (start_of cells) = true.
  Proof. destruct cells; reflexivity. Qed.

  Lemma wf_row_snoc cells ps : wf_row D (cells ++ [ps]) = true ->
    forallb (wf_cell D) cells = true /\ wf_cell D ps = true /\
    (cells = [] \/ is_set (cd D) = true) /\ (cells = [] -> ps <> []).
  Proof.
    unfold wf_row. intros H. apply andb_true_iff in H as [H1 H2].
    rewrite forallb_app in H1. apply andb_true_iff in H1 as [H1 H3].
    cbn in H3. apply andb_true_iff in H3 as [H3 _].
    repeat split; try assumption.
    - destruct cells as [|c cells]; [now left|]. right.
      cbn [app] in H2. destruct c, (cells ++ [ps]) eqn:E; try assumption;
        try (now destruct cells).
    - intros ->. cbn in H2. intros ->. discriminate.
  Qed.

  Lemma row_run cells e dq k :
    wf_row D cells = true -> (e = ECR -> starts_lf k = false) ->
    Forall raw_ok (map (raw_cell D) cells) ->
    exists dq', trun cf (fresh dq) false (render_row D cells ++ render_eol e ++ k) =
      cons_row (map (mk_cell rq) (row_value D cells)) (trun cf (fresh dq') false k).
  Proof.
    intros Hw He HL. destruct cells as [|c0 cells0] eqn:Ec.
    - exists dq. cbn [render_row map join app]. unfold fresh at 1. rewrite eol_run; auto.
    - rewrite <- Ec in *.
      destruct (exists_last (l := cells)) as (cells' & ps & E); [subst; discriminate|].
      subst cells. rewrite E in *. clear c0 cells0 E.
      destruct (wf_row_snoc _ _ Hw) as (Hw1 & Hw2 & Hd & Hne).
      rewrite render_row_snoc. rewrite <- app_assoc.
      rewrite map_app in HL. apply Forall_app in HL as [HL1 HL2]. inversion HL2; subst.
      destruct (cells_run cells' dq false (render_cell D ps ++ render_eol e ++ k) Hw1 Hd HL1)
        as (dq1 & mid1 & -> & _).
      destruct (cell_run' ps (start_of cells') (map (mk_cell rq) (map (cell_value D) cells')) dq1 mid1
        (render_eol e ++ k)) as (dq2 & mid2 & -> & _); auto.
      { apply uq_start. }
      { apply nq_eol. }
      exists dq2. rewrite eol_run; auto; [|apply uq_fold, uq_start].
      f_equal. unfold row_value. rewrite !map_app. cbn [map].
      unfold at_eol.
      destruct (fold_left pst ps (start_of cells')) eqn:Ef; try reflexivity.
      destruct ps as [|p ps].
      + destruct cells'; [tauto|]. discriminate.
      + rewrite fold_pst_field in Ef; [|apply uq_start|discriminate].
        destruct (after_esc_nl _ _); discriminate.
  Qed.

  (** ** Ends of the text *)
  Lemma piece_value_nonul p : wf_piece D p = true -> ~ In 0%N (piece_value D p).
  Proof.
    intros Hw. destruct p as [c|c|l]; cbn in *.
    - bool_split. apply N.eqb_neq in H. intros [E|[]]; congruence.
    - bool_split. apply N.eqb_neq in H0.
      destruct (special D c || is_nl c); [intros [E|[]]; congruence|].
      destruct (ce D) as [e|] eqn:Ee; [|discriminate].
      destruct (esc_facts e Ee) as [He _]. intros [E|[E|[]]]; congruence.
    - bool_split. destruct (cq D) as [q|] eqn:Eq; [|discriminate].
      destruct (quote_facts q Eq) as [Hq _]. cbn. intros [E|E]; [congruence|].
      apply in_app_or in E as [E|[E|[]]]; [|congruence].
      revert E. rename H0 into Hl. unfold qitems_value. rewrite in_concat.
      intros (x & Hx & Hi). apply in_map_iff in Hx as (i & <- & Hin).
      rewrite forallb_forall in Hl. specialize (Hl i Hin).
      destruct i as [c| |c]; cbn in *.
      + bool_split. apply N.eqb_neq in H0. destruct Hi as [E|[]]; congruence.
      + rewrite Eq in Hi. destruct Hi as [E|[]]; congruence.
      + bool_split. apply N.eqb_neq in H1.
        destruct (special D c); [destruct Hi as [E|[]]; congruence|].
        destruct (ce D) as [e|] eqn:Ee; [|discriminate].
        destruct (esc_facts e Ee) as [He _]. destruct Hi as [E|[E|[]]]; congruence.
  Qed.

  Lemma raw_nonul ps : wf_cell D ps = true -> ~ In 0%N (raw_cell D ps).
  Proof.
    unfold wf_cell, raw_cell. intros H. apply andb_true_iff in H as [H _].
    rewrite in_concat. intros (x & Hx & Hi). apply in_map_iff in Hx as (p & <- & Hin).
    rewrite forallb_forall in H. exact (piece_value_nonul p (H p Hin) Hi).
  Qed.

  Lemma qitems_nonul l : is_set (cq D) = true -> forallb (wf_qitem D) l = true ->
    ~ In 0%N (qitems_value D l).
  Proof.
    intros Hq Hl Hi. apply (piece_value_nonul (PQuoted l)).
    - cbn. now rewrite Hq, Hl.
    - cbn. apply in_or_app. right. apply in_or_app. now left.
  Qed.

  Lemma raw_cell_nil ps : wf_cell D ps = true -> raw_cell D ps = [] -> ps = [].
  Proof.
    intros Hw H. destruct ps as [|p ps]; [reflexivity|exfalso].
    unfold wf_cell in Hw. apply andb_true_iff in Hw as [Hw _]. cbn in Hw.
    apply andb_true_iff in Hw as [Hp _].
    unfold raw_cell in H. cbn in H. apply app_eq_nil in H as [H _].
    destruct p as [c|c|l]; cbn in *.
    - discriminate.
    - destruct (special D c || is_nl c); [discriminate|]. now destruct (opt_str (ce D)).
    - bool_split. destruct (cq D); discriminate.
  Qed.

  (** At the end of the input with something in the buffer, or in quotes. *)
  Lemma eof_trailing st b fs dq : ~ In 0%N b -> (b <> [] \/ st = IN_QUOTED_FIELD) ->
    at_eof cf (ob st b fs dq) = ([fs ++ [mk_cell rq (unquote_at_end D b)]], Done).
  Proof.
    intros Hn Hb. unfold at_eof. cbn [iternext_loop].
    cbn [b_str str_ops p_buf p_state].
    assert (E : negb (length b =? 0)%nat
      || match st with IN_QUOTED_FIELD => true | _ => false end = true).
    { destruct Hb as [Hb| ->]; [destruct b; [congruence|reflexivity]|apply orb_true_r]. }
    rewrite E. cbn [strict cf conf]. rewrite save_true by assumption. reflexivity.
  Qed.

  Lemma eol_save st b fs dq k : st = START_FIELD \/ st = IN_FIELD ->
    eol_event cf (ob st b fs dq) k =
    cons_row (fs ++ [mk_cell rq (unquote D b)]) (k (fresh dq)).
  Proof.
    intros H. unfold eol_event.
    assert (E : process_char str_ops cf (ob st b fs dq) 0 0 =
      Ok (set_state (save_field str_ops cf (ob st b fs dq) false) START_RECORD)).
    { destruct H as [-> | ->]; reflexivity. }
    rewrite E, save_false. reflexivity.
  Qed.

  Lemma eol_escaped b fs dq k :
    eol_event cf (ob ESCAPED_CHAR b fs dq) k = k (ob IN_FIELD b fs dq).
  Proof. reflexivity. Qed.

  Lemma tail_run t dq :
    wf_tail D t = true ->
    Forall raw_ok (match t with
      | TEnd => []
      | TRow cells => map (raw_cell D) cells
      | TEsc cells ps => map (raw_cell D) (cells ++ [ps])
      | TOpen cells ps l =>
          map (raw_cell D) cells ++ [ raw_cell D ps ++ opt_str (cq D) ++ qitems_value D l ]
      | TOpenEsc cells ps l =>
          map (raw_cell D) cells ++
          [ raw_cell D ps ++ opt_str (cq D) ++ qitems_value D l ++ [LF] ]
      end) ->
    trun cf (fresh dq) false (render_tail D t) = (mk_rows rq (tail_value D t), Done).
  Proof.
    intros Hw HL. destruct t as [|cells|cells ps|cells ps l|cells ps l].
    - reflexivity.
    - cbn in Hw. apply andb_true_iff in Hw as [Hw Hne0].
      destruct (exists_last (l := cells)) as (cells' & ps & E); [now destruct cells|].
      subst cells. destruct (wf_row_snoc _ _ Hw) as (Hw1 & Hw2 & Hd & Hne).
      cbn [render_tail tail_value]. rewrite removelast_last, last_last.
      rewrite render_row_snoc.
      rewrite map_app in HL. apply Forall_app in HL as [HL1 HL2]. inversion HL2; subst.
      destruct (cells_run cells' dq false (render_cell D ps) Hw1 Hd HL1)
        as (dq1 & mid1 & -> & Hm1 & Hm2).
      replace (render_cell D ps) with (render_cell D ps ++ []) by apply app_nil_r.
      destruct (cell_run' ps (start_of cells') (map (mk_cell rq) (map (cell_value D) cells')) dq1 mid1 [])
        as (dq2 & mid2 & -> & Hm3 & Hm4); auto.
      { apply uq_start. }
      assert (Hmid : mid2 = true).
      { destruct ps as [|p ps]; [|apply Hm4; discriminate].
        rewrite Hm3 by reflexivity. apply Hm2. intros E; now apply (Hne E). }
      rewrite Hmid. cbn [trun].
      unfold mk_rows. cbn [map]. rewrite map_app. cbn [map].
      destruct ps as [|p ps].
      + cbn [fold_left after_esc_nl]. destruct cells' as [|c' cells']; [now destruct Hne|].
        cbn [start_of]. rewrite eol_save by now left. reflexivity.
      + rewrite fold_pst_field; [|apply uq_start|discriminate].
        replace (match start_of cells' with AFTER_ESCAPED_CRNL => true | _ => false end) with false
          by (destruct cells'; reflexivity).
        destruct (after_esc_nl false (p :: ps)).
        * rewrite eol_noop by reflexivity. rewrite eof_trailing; [reflexivity| |].
          -- now apply raw_nonul.
          -- left. intros E. apply raw_cell_nil in E; [discriminate|assumption].
        * rewrite eol_save by now right. reflexivity.
    - cbn in Hw. unfold wf_open in Hw. bool_split. rename H0 into Hset.
      cbn [render_tail tail_value].
      rewrite map_app in HL. apply Forall_app in HL as [HL1 HL2]. inversion HL2; subst.
      destruct (cells_run cells dq false (render_cell D ps ++ opt_str (ce D))) as (dq1 & mid1 & -> & _); auto.
      { destruct cells; [now left|now right]. }
      destruct (cell_run' ps (start_of cells) (map (mk_cell rq) (map (cell_value D) cells)) dq1 mid1 (opt_str (ce D)))
        as (dq2 & mid2 & -> & _); auto.
      { apply uq_start. }
      { rewrite <- (app_nil_r (opt_str (ce D))). apply nq_opt; [|assumption]. intros x Hx. now apply esc_facts. }
      destruct (ce D) as [e|] eqn:Ee; [|discriminate]. cbn [opt_str].
      destruct (esc_facts e Ee) as (He0 & Hen & Hed & Heq).
      rewrite (trun_step _ (ob ESCAPED_CHAR (raw_cell D ps) (map (mk_cell rq) (map (cell_value D) cells)) dq2)); [| |assumption|assumption].
      + cbn [trun]. rewrite eol_escaped.
        destruct (raw_cell D ps) as [|c s] eqn:Er; [reflexivity|].
        rewrite eof_trailing; [| |left; discriminate].
        * unfold mk_rows. cbn [map]. rewrite map_app. reflexivity.
        * rewrite <- Er. now apply raw_nonul.
      + pose proof (uq_fold ps (start_of cells) (uq_start cells)) as Hu.
        apply N.eqb_neq in He0 as H'.
        destruct (fold_left pst ps (start_of cells)); try discriminate; cbn [process_char p_state];
          rewrite ?H', ?Hen; unfold do_start_field, do_in_field;
          rewrite ?H', ?Hen; cbn [orb];
          rewrite ?eqb_quote, ?Heq, ?eqb_esc, ?Ee, ?is_opt_refl by assumption; reflexivity.
    - cbn in Hw. unfold wf_open in Hw. bool_split. rename H0 into Hl. rename H1 into Hnq. rename H2 into Hq.
      cbn [render_tail tail_value].
      apply Forall_app in HL as [HL1 HL2]. inversion HL2 as [|? ? HL3 _]; subst.
      destruct (cells_run cells dq false (render_cell D ps ++ opt_str (cq D) ++ render_qitems D l)) as (dq1 & mid1 & -> & _); auto.
      { destruct cells; [now left|now right]. }
      destruct (cq D) as [q|] eqn:Eq; [|discriminate]. cbn [opt_str] in *.
      assert (HL4 : raw_ok (raw_cell D ps)) by (eapply len_app_le; exact HL3).
      assert (Hpre : exists st dq2 mid2, uq st = true /\
        trun cf (ob (start_of cells) [] (map (mk_cell rq) (map (cell_value D) cells)) dq1) mid1
          (render_cell D ps ++ [q] ++ render_qitems D l) =
        trun cf (ob st (raw_cell D ps) (map (mk_cell rq) (map (cell_value D) cells)) dq2) mid2
          ([q] ++ render_qitems D l)).
      { destruct ps as [|p ps].
        - exists (start_of cells), dq1, mid1. split; [apply uq_start|reflexivity].
        - destruct (cell_run (p :: ps) (start_of cells) [] (map (mk_cell rq) (map (cell_value D) cells)) dq1 mid1
            ([q] ++ render_qitems D l)) as (dq2 & E); auto; try discriminate.
          + apply uq_start.
          + rewrite Hnq. discriminate.
          + eexists _, dq2, true. split; [|exact E]. apply uq_fold, uq_start. }
      destruct Hpre as (st & dq2 & mid2 & Hu & ->). cbn [app].
      rewrite app_assoc in HL3.
      rewrite (open_run q); auto; [|eapply len_app_le; exact HL3].
      destruct (qitems_run l (raw_cell D ps ++ [q]) (map (mk_cell rq) (map (cell_value D) cells)) dq2 true []) as [dq3 E3]; auto.
      { now rewrite Eq. }
      rewrite app_nil_r in E3. rewrite E3. cbn [trun]. rewrite eol_noop by reflexivity.
      rewrite eof_trailing; [| |now right].
      + unfold mk_rows. cbn [map]. rewrite map_app. cbn [map]. do 5 f_equal. rewrite <- app_assoc. reflexivity.
      + rewrite !in_app_iff. intros [[Hi|[Hi|[]]]|Hi].
        * now apply raw_nonul in Hi.
        * destruct (quote_facts q Eq). congruence.
        * apply qitems_nonul in Hi; auto. now rewrite Eq.
    - cbn in Hw. unfold wf_open in Hw. bool_split. rename H0 into Hset. rename H1 into Hl. rename H2 into Hnq. rename H3 into Hq.
      cbn [render_tail tail_value].
      apply Forall_app in HL as [HL1 HL2]. inversion HL2 as [|? ? HL3 _]; subst.
      destruct (cells_run cells dq false (render_cell D ps ++ opt_str (cq D) ++ render_qitems D l ++ opt_str (ce D))) as (dq1 & mid1 & -> & _); auto.
      { destruct cells; [now left|now right]. }
      destruct (cq D) as [q|] eqn:Eq; [|discriminate]. cbn [opt_str] in *.
      destruct (ce D) as [e|] eqn:Ee; [|discriminate]. cbn [opt_str] in *.
      destruct (esc_facts e Ee) as (He0 & Hen & Hed & Heq).
      assert (HL4 : raw_ok (raw_cell D ps)) by (eapply len_app_le; exact HL3).
      assert (Hpre : exists st dq2 mid2, uq st = true /\
        trun cf (ob (start_of cells) [] (map (mk_cell rq) (map (cell_value D) cells)) dq1) mid1
          (render_cell D ps ++ [q] ++ render_qitems D l ++ [e]) =
        trun cf (ob st (raw_cell D ps) (map (mk_cell rq) (map (cell_value D) cells)) dq2) mid2
          ([q] ++ render_qitems D l ++ [e])).
      { destruct ps as [|p ps].
        - exists (start_of cells), dq1, mid1. split; [apply uq_start|reflexivity].
        - destruct (cell_run (p :: ps) (start_of cells) [] (map (mk_cell rq) (map (cell_value D) cells)) dq1 mid1
            ([q] ++ render_qitems D l ++ [e])) as (dq2 & E); auto; try discriminate.
          + apply uq_start.
          + rewrite Hnq. discriminate.
          + eexists _, dq2, true. split; [|exact E]. apply uq_fold, uq_start. }
      destruct Hpre as (st & dq2 & mid2 & Hu & ->). cbn [app].
      change (raw_cell D ps ++ [q] ++ qitems_value D l ++ [LF]) with
        (raw_cell D ps ++ [q] ++ (qitems_value D l ++ [LF])) in *.
      rewrite !app_assoc in HL3.
      rewrite (open_run q); auto; [|do 2 (eapply len_app_le; try exact HL3)].
      destruct (qitems_run l (raw_cell D ps ++ [q]) (map (mk_cell rq) (map (cell_value D) cells)) dq2 true [e]) as [dq3 E3]; auto.
      { now rewrite Eq. }
      { eapply len_app_le; exact HL3. }
      rewrite E3.
      rewrite (trun_step _ (ob ESCAPE_IN_QUOTED_FIELD ((raw_cell D ps ++ [q]) ++ qitems_value D l) (map (mk_cell rq) (map (cell_value D) cells)) dq3)); [| |assumption|assumption].
      + cbn [trun]. unfold eol_event.
        assert (Hp : process_char str_ops cf (ob ESCAPE_IN_QUOTED_FIELD ((raw_cell D ps ++ [q]) ++ qitems_value D l) (map (mk_cell rq) (map (cell_value D) cells)) dq3) 0 0
          = Ok (ob IN_QUOTED_FIELD (((raw_cell D ps ++ [q]) ++ qitems_value D l) ++ [LF]) (map (mk_cell rq) (map (cell_value D) cells)) dq3)).
        { cbn [process_char p_state]. change (0 =? 0)%N with true. cbn [negb]. rewrite andb_false_r. cbn [bind].
          rewrite add_ok by exact HL3. reflexivity. }
        rewrite Hp. cbn [p_state].
        rewrite eof_trailing; [| |now right].
        * unfold mk_rows. cbn [map]. rewrite map_app. cbn [map]. do 5 f_equal. rewrite <- !app_assoc. reflexivity.
        * rewrite !in_app_iff. intros [[[Hi|[Hi|[]]]|Hi]|[Hi|[]]].
          -- now apply raw_nonul in Hi.
          -- destruct (quote_facts q Eq). congruence.
          -- apply qitems_nonul in Hi; auto. now rewrite Eq.
          -- discriminate.
      + cbn [process_char p_state]. apply N.eqb_neq in He0 as H'. rewrite H'.
        rewrite eqb_esc, Ee, is_opt_refl by assumption. reflexivity.
  Qed.

  (** ** Documents *)
  Lemma row_starts_lf cells k : wf_row D cells = true -> cells <> [] ->
    starts_lf (render_row D cells ++ k) = false.
  Proof.
    intros Hw Hne. 
    assert (Hc : forall ps k', wf_cell D ps = true -> starts_lf k' = false ->
      starts_lf (render_cell D ps ++ k') = false).
    { intros ps k' Hp Hk'. destruct ps as [|p ps]; [exact Hk'|].
      unfold wf_cell in Hp. apply andb_true_iff in Hp as [Hp _]. cbn in Hp.
      apply andb_true_iff in Hp as [Hp _].
      destruct p as [c|c|l]; cbn in *; bool_split.
      - apply is_nl_false in H1 as [_ H1]. now apply N.eqb_neq.
      - destruct (ce D) as [e|] eqn:Ee; [|discriminate]. cbn.
        destruct (esc_facts e Ee) as (_ & Hn & _). apply is_nl_false in Hn as [_ Hn]. now apply N.eqb_neq.
      - destruct (cq D) as [e|] eqn:Ee; [|discriminate]. cbn.
        destruct (quote_facts e Ee) as (_ & Hn & _). apply is_nl_false in Hn as [_ Hn]. now apply N.eqb_neq. }
    destruct cells as [|ps [|ps' cells]]; [congruence| |].
    - unfold wf_row in Hw. apply andb_true_iff in Hw as [Hw Hn]. cbn in Hw. rewrite andb_true_r in Hw.
      destruct ps as [|p ps]; [discriminate|].
      unfold render_row. cbn [map join].
      assert (Hx := Hc (p :: ps) [] Hw eq_refl). rewrite app_nil_r in Hx.
      destruct (render_cell D (p :: ps)) eqn:E; [|exact Hx].
      exfalso. unfold render_cell in E. cbn in E. apply app_eq_nil in E as [E _].
      unfold wf_cell in Hw. cbn in Hw. bool_split.
      destruct p as [c|c|l]; cbn in *.
      + discriminate.
      + bool_split. destruct (ce D); discriminate.
      + bool_split. destruct (cq D); discriminate.
    - unfold wf_row in Hw. apply andb_true_iff in Hw as [Hw Hn].
      assert (Hd : is_set (cd D) = true) by (destruct ps; exact Hn).
      cbn [forallb] in Hw. apply andb_true_iff in Hw as [Hw _].
      rewrite render_row_cons, <- !app_assoc. apply Hc; [assumption|].
      destruct (cd D) as [d|] eqn:Ed; [|discriminate]. cbn.
      destruct (delim_facts d Ed) as (_ & Hdn & _). apply is_nl_false in Hdn as [_ Hdn]. now apply N.eqb_neq.
  Qed.

  Lemma cells_open_starts_lf cells ps k : wf_open D cells ps = true ->
    starts_lf k = false ->
    starts_lf (render_cells_open D cells ++ render_cell D ps ++ k) = false.
  Proof.
    intros Hw Hk. unfold wf_open in Hw. bool_split.
    assert (Hc : forall ps k', wf_cell D ps = true -> starts_lf k' = false ->
      starts_lf (render_cell D ps ++ k') = false).
    { clear -WF. intros ps k' Hp Hk'. destruct ps as [|p ps]; [exact Hk'|].
      unfold wf_cell in Hp. apply andb_true_iff in Hp as [Hp _]. cbn in Hp.
      apply andb_true_iff in Hp as [Hp _].
      destruct p as [c|c|l]; cbn in *; bool_split.
      - apply is_nl_false in H1 as [_ H1]. now apply N.eqb_neq.
      - destruct (ce D) as [e|] eqn:Ee; [|discriminate]. cbn.
        destruct (esc_facts e Ee) as (_ & Hn & _). apply is_nl_false in Hn as [_ Hn]. now apply N.eqb_neq.
      - destruct (cq D) as [e|] eqn:Ee; [|discriminate]. cbn.
        destruct (quote_facts e Ee) as (_ & Hn & _). apply is_nl_false in Hn as [_ Hn]. now apply N.eqb_neq. }
    destruct cells as [|c cells]; [now apply Hc|].
    unfold render_cells_open. cbn [map concat]. rewrite <- !app_assoc.
    cbn in H. bool_split. apply Hc; [assumption|].
    destruct (cd D) as [d|] eqn:Ed; [|discriminate]. cbn.
    destruct (delim_facts d Ed) as (_ & Hdn & _). apply is_nl_false in Hdn as [_ Hdn]. now apply N.eqb_neq.
  Qed.

  Lemma tail_starts_lf t : wf_tail D t = true -> starts_lf (render_tail D t) = false.
  Proof.
    assert (He : is_set (ce D) = true -> starts_lf (opt_str (ce D)) = false).
    { destruct (ce D) as [d|] eqn:Ed; [|discriminate]. intros _. cbn.
      destruct (esc_facts d Ed) as (_ & Hdn & _). apply is_nl_false in Hdn as [_ Hdn]. now apply N.eqb_neq. }
    assert (Hq : forall k, is_set (cq D) = true -> starts_lf (opt_str (cq D) ++ k) = false).
    { intros k. destruct (cq D) as [d|] eqn:Ed; [|discriminate]. intros _. cbn.
      destruct (quote_facts d Ed) as (_ & Hdn & _). apply is_nl_false in Hdn as [_ Hdn]. now apply N.eqb_neq. }
    intros Hw. destruct t as [|cells|cells ps|cells ps l|cells ps l]; cbn [render_tail wf_tail] in *.
    - reflexivity.
    - apply andb_true_iff in Hw as [Hw Hne]. rewrite <- (app_nil_r (render_row D cells)).
      apply row_starts_lf; [assumption|]. destruct cells; [discriminate|congruence].
    - bool_split. apply cells_open_starts_lf; auto.
    - bool_split. apply cells_open_starts_lf; auto.
    - bool_split. apply cells_open_starts_lf; auto.
  Qed.

  Lemma records_run rs : forall dq t,
    wf_records D rs = true -> wf_tail D t = true ->
    Forall raw_ok (raw_cells D (mk_doc rs t)) ->
    trun cf (fresh dq) false (render D (mk_doc rs t)) = (mk_rows rq (denote D (mk_doc rs t)), Done).
  Proof.
    induction rs as [|[cells e] rs IH]; intros dq t Hw Ht HL.
    - unfold render, denote. cbn. apply tail_run; assumption.
    - cbn [wf_records] in Hw. apply andb_true_iff in Hw as [Hw Hrs].
      apply andb_true_iff in Hw as [Hrow Hcr].
      unfold raw_cells in HL. cbn [records last map concat fst] in HL.
      rewrite <- app_assoc in HL. apply Forall_app in HL as [HL1 HL2].
      unfold render. cbn [records last map concat]. unfold render_record at 1. cbn [fst snd].
      rewrite <- !app_assoc.
      destruct (row_run cells e dq (concat (map (render_record D) rs) ++ render_tail D t)) as [dq' E]; auto.
      { intros ->. destruct rs as [|[cells' e'] rs].
        - cbn. now apply tail_starts_lf.
        - cbn [map concat]. unfold render_record at 1. cbn [fst snd].
          cbn [wf_records] in Hrs. bool_split.
          destruct cells' as [|c' cells'].
          + destruct e'; try discriminate; reflexivity.
          + rewrite <- !app_assoc. apply row_starts_lf; [assumption|discriminate]. }
      rewrite E. specialize (IH dq' t Hrs Ht HL2). unfold render in IH. cbn [records last] in IH.
      rewrite IH. reflexivity.
  Qed.

  (** The text of a layout contains no NUL. *)
  Lemma piece_nonul p : wf_piece D p = true -> no_nul (render_piece D p).
  Proof.
    unfold no_nul, NUL. intros Hw. destruct p as [c|c|l]; cbn in *.
    - bool_split. apply N.eqb_neq in H. intros [E|[]]; congruence.
    - bool_split. apply N.eqb_neq in H0.
      destruct (ce D) as [e|] eqn:Ee; [|discriminate].
      destruct (esc_facts e Ee) as [He _]. intros [E|[E|[]]]; congruence.
    - bool_split. destruct (cq D) as [q|] eqn:Eq; [|discriminate].
      destruct (quote_facts q Eq) as [Hq _]. cbn. intros [E|E]; [congruence|].
      apply in_app_or in E as [E|[E|[]]]; [|congruence].
      revert E. rename H0 into Hl. unfold render_qitems. rewrite in_concat.
      intros (x & Hx & Hi). apply in_map_iff in Hx as (i & <- & Hin).
      rewrite forallb_forall in Hl. specialize (Hl i Hin).
      destruct i as [c| |c]; cbn in *.
      + bool_split. apply N.eqb_neq in H0. destruct Hi as [E|[]]; congruence.
      + rewrite Eq in Hi. destruct Hi as [E|[E|[]]]; congruence.
      + bool_split. apply N.eqb_neq in H1.
        destruct (ce D) as [e|] eqn:Ee; [|discriminate].
        destruct (esc_facts e Ee) as [He _]. destruct Hi as [E|[E|[]]]; congruence.
  Qed.

  Lemma opt_nonul o : (forall x, o = Some x -> x <> 0%N) -> no_nul (opt_str o).
  Proof. intros H. destruct o as [x|]; [|intros []]. intros [E|[]]. now apply (H x). Qed.

  Lemma cell_nonul ps : wf_cell D ps = true -> no_nul (render_cell D ps).
  Proof.
    unfold wf_cell, render_cell. intros H. apply andb_true_iff in H as [H _].
    unfold no_nul. rewrite in_concat. intros (x & Hx & Hi). apply in_map_iff in Hx as (p & <- & Hin).
    rewrite forallb_forall in H. exact (piece_nonul p (H p Hin) Hi).
  Qed.

  Lemma no_nul_app a b : no_nul a -> no_nul b -> no_nul (a ++ b).
  Proof. unfold no_nul. rewrite in_app_iff. tauto. Qed.

  Lemma delim_nonul : no_nul (opt_str (cd D)).
  Proof. apply opt_nonul. intros x Hx. now apply delim_facts. Qed.
  Lemma quote_nonul : no_nul (opt_str (cq D)).
  Proof. apply opt_nonul. intros x Hx. now apply quote_facts. Qed.
  Lemma esc_nonul : no_nul (opt_str (ce D)).
  Proof. apply opt_nonul. intros x Hx. now apply esc_facts. Qed.

  Lemma cells_open_nonul cells : forallb (wf_cell D) cells = true -> no_nul (render_cells_open D cells).
  Proof.
    induction cells as [|c cells IH]; cbn; [intros _ []|].
    intros H. bool_split. unfold render_cells_open. cbn. apply no_nul_app; [|now apply IH].
    apply no_nul_app; [now apply cell_nonul|apply delim_nonul].
  Qed.

  Lemma row_nonul cells : forallb (wf_cell D) cells = true -> no_nul (render_row D cells).
  Proof.
    induction cells as [|c cells IH]; cbn [forallb]; [intros _ []|].
    intros H. bool_split. destruct cells as [|c' cells].
    - unfold render_row. cbn [map join]. now apply cell_nonul.
    - rewrite render_row_cons. apply no_nul_app; [now apply cell_nonul|].
      apply no_nul_app; [apply delim_nonul|now apply IH].
  Qed.

  Lemma qitems_render_nonul l : is_set (cq D) = true -> forallb (wf_qitem D) l = true ->
    no_nul (render_qitems D l).
  Proof.
    intros Hq Hl Hi. apply (piece_nonul (PQuoted l)).
    - cbn. now rewrite Hq, Hl.
    - cbn. apply in_or_app. right. apply in_or_app. now left.
  Qed.

  Lemma render_nonul d : wf_doc D d = true -> no_nul (render D d).
  Proof.
    unfold wf_doc, render. intros H. apply andb_true_iff in H as [Hr Ht].
    apply no_nul_app.
    - induction (records d) as [|[cells e] rs IH]; [intros []|].
      cbn [wf_records] in Hr. bool_split. cbn [map concat]. apply no_nul_app; [|now apply IH].
      unfold render_record. cbn. unfold wf_row in H. bool_split. apply no_nul_app; [now apply row_nonul|].
      destruct e; cbn; unfold no_nul, NUL, LF, CR; cbn; intuition discriminate.
    - destruct (last d) as [|cells|cells ps|cells ps l|cells ps l]; cbn in Ht; cbn [render_tail].
      + intros [].
      + unfold wf_row in Ht. bool_split. now apply row_nonul.
      + unfold wf_open in Ht. bool_split. repeat apply no_nul_app; auto using cells_open_nonul, cell_nonul, esc_nonul.
      + unfold wf_open in Ht. bool_split. repeat apply no_nul_app; auto using cells_open_nonul, cell_nonul, quote_nonul, qitems_render_nonul.
      + unfold wf_open in Ht. bool_split. repeat apply no_nul_app; auto using cells_open_nonul, cell_nonul, quote_nonul, esc_nonul, qitems_render_nonul.
  Qed.

  Lemma no_nul_Forall t : no_nul t -> Forall (fun c => c <> 0%N) t.
  Proof. intros H. apply Forall_forall. intros c Hi ->. now apply H. Qed.

  Theorem parse_layout d :
    wf_doc D d = true -> Forall raw_ok (raw_cells D d) ->
    parse_text cf (render D d) = (mk_rows rq (denote D d), Done).
  Proof.
    intros Hw HL. rewrite parse_text_trun.
    unfold wf_doc in Hw. apply andb_true_iff in Hw as [Hr Ht].
    destruct d as [rs t]. now apply records_run.
  Qed.
End Layout.
