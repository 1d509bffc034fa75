(** * LayoutTotal: every text without NUL is the text of some layout *)
From Verif Require Import Base SpecLayout SpecParse Parser ParserFacts LayoutFacts.

Section Total.
  Variable D : chars.
  Hypothesis WF : wf_chars D = true.

  Lemma wf_cell_snoc ps p :
    wf_cell D ps = true -> wf_piece D p = true ->
    (is_q p = true -> ends_quoted ps = false) -> wf_cell D (ps ++ [p]) = true.
  Proof.
    unfold wf_cell. intros H Hp Hq. apply andb_true_iff in H as [H1 H2].
    rewrite forallb_app. cbn. rewrite H1, Hp. cbn.
    induction ps as [|a ps IH]; [destruct p; reflexivity|].
    cbn [app]. rewrite no_adjacent_cons in *. rewrite ends_quoted_cons in Hq.
    cbn [forallb] in H1. apply andb_true_iff in H1 as [Ha H1].
    apply andb_true_iff in H2 as [H2 H3].
    destruct ps as [|b ps].
    - cbn [app]. destruct a, p; try reflexivity. specialize (Hq eq_refl). discriminate.
    - cbn [app] in *. rewrite H2. cbn. apply IH; auto.
  Qed.

  Lemma wf_records_snoc rs r e :
    wf_records D rs = true -> wf_row D r = true ->
    (r = [] -> e = ELF -> match rev rs with (_, ECR) :: _ => False | _ => True end) ->
    wf_records D (rs ++ [(r, e)]) = true.
  Proof.
    induction rs as [|[r0 e0] rs IH]; intros H Hr Hc.
    - cbn. rewrite Hr. destruct e; reflexivity.
    - cbn [wf_records app] in *. apply andb_true_iff in H as [H H3].
      apply andb_true_iff in H as [H1 H2].
      rewrite H1. cbn. rewrite IH; auto.
      + rewrite andb_true_r. destruct rs as [|[r1 e1] rs].
        * cbn in *. destruct e0; try reflexivity.
          destruct r; [|reflexivity]. destruct e; try reflexivity.
          exfalso. now apply Hc.
        * exact H2.
      + intros E1 E2. specialize (Hc E1 E2). cbn [rev] in Hc.
        destruct rs as [|r1 rs] using rev_ind; [exact I|].
        rewrite rev_app_distr in *. exact Hc.
  Qed.

  Definition crs := list (list (list piece) * eol).

  (** The row under construction. *)
  Definition cur_row (cs : list (list piece)) (ps : list piece) : list (list piece) :=
    match cs, ps with [], [] => [] | _, _ => cs ++ [ps] end.

  Definition okS (rs : crs) (cs : list (list piece)) (ps : list piece) : Prop :=
    wf_records D rs = true /\ wf_open D cs ps = true.

  Definition txt (rs : crs) (cs : list (list piece)) (ps : list piece) : str :=
    concat (map (render_record D) rs) ++ render_cells_open D cs ++ render_cell D ps.

  Lemma render_cell_snoc ps p : render_cell D (ps ++ [p]) = render_cell D ps ++ render_piece D p.
  Proof. unfold render_cell. rewrite map_app, concat_app. cbn. now rewrite app_nil_r. Qed.
  Lemma render_open_snoc cs ps :
    render_cells_open D (cs ++ [ps]) = render_cells_open D cs ++ render_cell D ps ++ opt_str (cd D).
  Proof. unfold render_cells_open. rewrite map_app, concat_app. cbn. now rewrite app_nil_r. Qed.
  Lemma render_qitems_snoc l i : render_qitems D (l ++ [i]) = render_qitems D l ++ render_qitem D i.
  Proof. unfold render_qitems. rewrite map_app, concat_app. cbn. now rewrite app_nil_r. Qed.
  Lemma render_records_snoc rs r :
    concat (map (render_record D) (rs ++ [r])) = concat (map (render_record D) rs) ++ render_record D r.
  Proof. rewrite map_app, concat_app. cbn. now rewrite app_nil_r. Qed.

  Lemma wf_cur_row cs ps : wf_open D cs ps = true -> wf_row D (cur_row cs ps) = true.
  Proof.
    unfold wf_open, wf_row, cur_row. intros H. bool_split.
    destruct cs as [|c cs].
    - destruct ps as [|p ps]; [reflexivity|]. cbn [app]. cbn [forallb].
      rewrite H1. reflexivity.
    - rewrite forallb_app, H. cbn [forallb]. rewrite H1. cbn [andb].
      cbn [app]. destruct c as [|]; destruct (cs ++ [ps]) eqn:E; try assumption; now destruct cs.
  Qed.

  Lemma render_cur_row cs ps : render_row D (cur_row cs ps) = render_cells_open D cs ++ render_cell D ps.
  Proof.
    unfold cur_row. destruct cs as [|c cs].
    - destruct ps as [|p ps]; [reflexivity|]. apply (render_row_snoc D []).
    - destruct ps; apply render_row_snoc.
  Qed.

  Definition ends_cr (rs : crs) : bool :=
    match rev rs with (_, ECR) :: _ => true | _ => false end.

  Lemma total_gen n : forall t, (length t <= n)%nat -> no_nul t ->
    (forall rs cs ps, okS rs cs ps ->
      (ends_quoted ps = true -> nq D t = true) ->
      (ends_cr rs = true -> cs = [] -> ps = [] -> starts_lf t = false) ->
      exists d, wf_doc D d = true /\ render D d = txt rs cs ps ++ t) /\
    (forall rs cs ps l, okS rs cs ps -> is_set (cq D) = true -> ends_quoted ps = false ->
      forallb (wf_qitem D) l = true ->
      exists d, wf_doc D d = true /\
        render D d = txt rs cs ps ++ opt_str (cq D) ++ render_qitems D l ++ t).
  Proof.
    induction n as [|n IH]; intros t Hlen Hn.
    { destruct t; [|cbn in Hlen; lia]. split.
      - intros rs cs ps [Hrs Hop] _ _.
        exists (mk_doc rs (match cur_row cs ps with [] => TEnd | r => TRow r end)).
        pose proof (wf_cur_row cs ps Hop) as Hw. pose proof (render_cur_row cs ps) as Hr.
        unfold wf_doc, render, txt. cbn [records last]. rewrite Hrs, app_nil_r.
        destruct (cur_row cs ps) as [|c r] eqn:Ec.
        + split; [reflexivity|]. cbn in Hr. rewrite <- Hr. reflexivity.
        + split; [cbn [wf_tail]; now rewrite Hw|]. cbn [render_tail]. now rewrite Hr.
      - intros rs cs ps l [Hrs Hop] Hq Heq Hl.
        exists (mk_doc rs (TOpen cs ps l)).
        unfold wf_doc, render, txt. cbn [records last wf_tail render_tail].
        rewrite Hrs, Hop, Hq, Heq, Hl. split; [reflexivity|]. now rewrite app_nil_r, <- !app_assoc. }
    destruct t as [|c t].
    { apply IH; [cbn; lia|assumption]. }
    assert (Hc : c <> 0%N) by (intros ->; apply Hn; now left).
    assert (Hn' : no_nul t) by (intros H; apply Hn; now right).
    cbn in Hlen. assert (Hlen' : (length t <= n)%nat) by lia.
    destruct (IH t Hlen' Hn') as [IH1 IH2].
    split.
    - intros rs cs ps [Hrs Hop] Hnq Hcr.
      pose proof (wf_cur_row cs ps Hop) as Hw. pose proof (render_cur_row cs ps) as Hr.
      assert (Hfin : forall e k, length k <= n -> no_nul k ->
        (e = ECR -> starts_lf k = false) ->
        (e = ELF -> cur_row cs ps = [] -> ends_cr rs = false) ->
        exists d, wf_doc D d = true /\ render D d = txt rs cs ps ++ render_eol e ++ k).
      { intros e k Hk Hnk Hek Hel. destruct (IH k Hk Hnk) as [IHk _].
        destruct (IHk (rs ++ [(cur_row cs ps, e)]) [] []) as (d & Hd & Hrd).
        - split; [|reflexivity]. apply wf_records_snoc; auto.
          intros E1 E2. specialize (Hel E2 E1). unfold ends_cr in Hel.
          destruct (rev rs) as [|[r0 []] ?]; auto; discriminate.
        - discriminate.
        - unfold ends_cr. rewrite rev_app_distr. cbn. intros E _ _. apply Hek.
          destruct e; congruence.
        - exists d. split; [assumption|]. rewrite Hrd. unfold txt.
          rewrite render_records_snoc. unfold render_record. cbn [fst snd]. rewrite Hr.
          cbn. now rewrite !app_nil_r, <- !app_assoc. }
      destruct (c =? LF)%N eqn:E1.
      { apply N.eqb_eq in E1. subst c. apply (Hfin ELF t); auto; try discriminate.
        intros _ Hcur. unfold cur_row in Hcur. destruct (ends_cr rs) eqn:Ecr; [|reflexivity].
        exfalso. destruct cs as [|c0 cs].
        - destruct ps; [|discriminate]. specialize (Hcr eq_refl eq_refl eq_refl). discriminate.
        - destruct ps; destruct cs; discriminate. }
      destruct (c =? CR)%N eqn:E2.
      { apply N.eqb_eq in E2. subst c. destruct t as [|c t].
        - apply (Hfin ECR []); auto; discriminate.
        - destruct (c =? LF)%N eqn:E3.
          + apply N.eqb_eq in E3. subst c. apply (Hfin ECRLF t); try discriminate.
            * cbn in Hlen'. lia.
            * intros H; apply Hn'; now right.
          + apply (Hfin ECR (c :: t)); auto; discriminate. }
      clear Hfin.
      assert (Hnl : is_nl c = false) by (unfold is_nl; now rewrite E1, E2).
      assert (Hsf : starts_lf (c :: t) = false) by exact E1.
      destruct (is_opt (cq D) c) eqn:Eq.
      { apply is_opt_some in Eq.
        destruct (IH2 rs cs ps []) as (d & Hd & Hrd).
        - now split.
        - now rewrite Eq.
        - destruct (ends_quoted ps); [|reflexivity]. specialize (Hnq eq_refl). cbn in Hnq.
          rewrite Eq, is_opt_refl in Hnq. discriminate.
        - reflexivity.
        - exists d. split; [assumption|]. rewrite Hrd, Eq. reflexivity. }
      assert (Hopen : exists Hcells : forallb (wf_cell D) cs = true, wf_cell D ps = true /\
        match cs with [] => true | _ => is_set (cd D) end = true).
      { unfold wf_open in Hop. bool_split. eauto. }
      destruct Hopen as (Hcells & Hps & Hcd).
      destruct (is_opt (ce D) c) eqn:Ee.
      { apply is_opt_some in Ee. destruct t as [|c' t].
        - exists (mk_doc rs (TEsc cs ps)).
          unfold wf_doc, render, txt. cbn [records last wf_tail render_tail].
          rewrite Hrs, Hop, Ee. split; [reflexivity|]. now rewrite <- !app_assoc.
        - assert (Hc' : c' <> 0%N) by (intros ->; apply Hn'; now left).
          destruct (IH t) as [IHt _]; [cbn in Hlen'; lia|intros H; apply Hn'; now right|].
          destruct (IHt rs cs (ps ++ [PEsc c'])) as (d & Hd & Hrd).
          + split; [assumption|]. unfold wf_open. rewrite Hcells, Hcd, wf_cell_snoc; auto.
            * cbn. rewrite Ee. cbn. now apply negb_true_iff, N.eqb_neq.
            * discriminate.
          + unfold ends_quoted. rewrite rev_app_distr. discriminate.
          + intros _ _ E. now destruct ps.
          + exists d. split; [assumption|]. rewrite Hrd. unfold txt. rewrite render_cell_snoc.
            cbn. rewrite Ee. now rewrite <- !app_assoc. }
      destruct (is_opt (cd D) c) eqn:Ed.
      { apply is_opt_some in Ed.
        destruct (IH1 rs (cs ++ [ps]) []) as (d & Hd & Hrd).
        - split; [assumption|]. unfold wf_open. rewrite forallb_app. cbn [forallb].
          rewrite Hcells, Hps, Ed. cbn. now destruct (cs ++ [ps]).
        - discriminate.
        - intros _ E. now destruct cs.
        - exists d. split; [assumption|]. rewrite Hrd. unfold txt. rewrite render_open_snoc, Ed.
          cbn. now rewrite !app_nil_r, <- !app_assoc. }
      destruct (IH1 rs cs (ps ++ [PChar c])) as (d & Hd & Hrd).
      + split; [assumption|]. unfold wf_open. rewrite Hcells, Hcd, wf_cell_snoc; auto.
        * cbn. unfold special. rewrite Hnl, Eq, Ee, Ed. cbn.
          rewrite !andb_true_r. now apply negb_true_iff, N.eqb_neq.
        * discriminate.
      + unfold ends_quoted. rewrite rev_app_distr. discriminate.
      + intros _ _ E. now destruct ps.
      + exists d. split; [assumption|]. rewrite Hrd. unfold txt. rewrite render_cell_snoc.
        cbn. now rewrite <- !app_assoc.
    - intros rs cs ps l [Hrs Hop] Hq Heq Hl.
      assert (Hopen : exists Hcells : forallb (wf_cell D) cs = true, wf_cell D ps = true /\
        match cs with [] => true | _ => is_set (cd D) end = true).
      { unfold wf_open in Hop. bool_split. eauto. }
      destruct Hopen as (Hcells & Hps & Hcd).
      destruct (is_opt (cq D) c) eqn:Eq.
      { apply is_opt_some in Eq.
        assert (Hclose : nq D t = true ->
          exists d, wf_doc D d = true /\ render D d = txt rs cs ps ++ opt_str (cq D) ++ render_qitems D l ++ c :: t).
        { intros Hnqt.
          destruct (IH1 rs cs (ps ++ [PQuoted l])) as (d & Hd & Hrd).
          - split; [assumption|]. unfold wf_open. rewrite Hcells, Hcd, wf_cell_snoc; auto.
            cbn. now rewrite Hq, Hl.
          - auto.
          - intros _ _ E. now destruct ps.
          - exists d. split; [assumption|]. rewrite Hrd. unfold txt. rewrite render_cell_snoc.
            cbn [render_piece]. rewrite Eq. cbn. rewrite <- !app_assoc. cbn. now rewrite <- !app_assoc. }
        destruct t as [|c' t]; [now apply Hclose|].
        destruct (is_opt (cq D) c') eqn:Eq'; [|apply Hclose; cbn; now rewrite Eq'].
        apply is_opt_some in Eq'. assert (c' = c) by congruence. subst c'.
        destruct (IH t) as [_ IHt]; [cbn in Hlen'; lia|intros H; apply Hn'; now right|].
        destruct (IHt rs cs ps (l ++ [QQuote])) as (d & Hd & Hrd); auto.
        - now split.
        - rewrite forallb_app, Hl. reflexivity.
        - exists d. split; [assumption|]. rewrite Hrd, render_qitems_snoc. cbn. rewrite Eq.
          now rewrite <- !app_assoc. }
      destruct (is_opt (ce D) c) eqn:Ee.
      { apply is_opt_some in Ee. destruct t as [|c' t].
        - exists (mk_doc rs (TOpenEsc cs ps l)).
          unfold wf_doc, render, txt. cbn [records last wf_tail render_tail].
          rewrite Hrs, Hop, Hq, Heq, Hl, Ee. split; [reflexivity|]. now rewrite <- !app_assoc.
        - assert (Hc' : c' <> 0%N) by (intros ->; apply Hn'; now left).
          destruct (IH t) as [_ IHt]; [cbn in Hlen'; lia|intros H; apply Hn'; now right|].
          destruct (IHt rs cs ps (l ++ [QEsc c'])) as (d & Hd & Hrd); auto.
          + now split.
          + rewrite forallb_app, Hl. cbn. rewrite Ee. cbn. rewrite andb_true_r.
            now apply negb_true_iff, N.eqb_neq.
          + exists d. split; [assumption|]. rewrite Hrd, render_qitems_snoc. cbn. rewrite Ee.
            now rewrite <- !app_assoc. }
      destruct (IH2 rs cs ps (l ++ [QChar c])) as (d & Hd & Hrd); auto.
      + now split.
      + rewrite forallb_app, Hl. cbn. rewrite Eq, Ee. cbn.
        rewrite !andb_true_r. now apply negb_true_iff, N.eqb_neq.
      + exists d. split; [assumption|]. rewrite Hrd, render_qitems_snoc. cbn.
        now rewrite <- !app_assoc.
  Qed.

  Theorem layout_total t : no_nul t -> exists d, wf_doc D d = true /\ render D d = t.
  Proof.
    intros Hn. destruct (total_gen (length t) t (le_n _) Hn) as [H _].
    destruct (H [] [] []) as (d & Hd & Hr); try discriminate.
    - split; reflexivity.
    - exists d. split; [assumption|]. exact Hr.
  Qed.
End Total.
