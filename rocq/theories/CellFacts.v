(** * CellFacts: which characters cells can contain *)
From Verif Require Import Base Parser Dialect SpecLayout SpecParse ParserFacts ParserProps.

Section Chars.
  Variables (cf : pconf) (P : N -> Prop).
  Hypothesis P_lf : P LF.

  Definition good (s : str) : Prop := forall c, In c s -> P c.
  Definition good_cells (r : list cell) : Prop := forall x, In x r -> good (cell_str x).
  Definition stinv (s : pstate) : Prop :=
    match s with
    | ESCAPED_CHAR => P (escapechar cf)
    | ESCAPE_IN_QUOTED_FIELD => P (escapechar cf) /\ quotechar cf <> 0%N
    | QUOTE_IN_QUOTED_FIELD | IN_QUOTED_FIELD => quotechar cf <> 0%N
    | _ => True
    end.
  Definition ginv (o : pobj str) : Prop :=
    good (p_buf o) /\ good_cells (p_fields o) /\
    stinv (p_state o).
  (** After a step whose final state is set explicitly. *)
  Definition gdata (o : pobj str) : Prop := good (p_buf o) /\ good_cells (p_fields o).
  Definition rg (Q : pobj str -> Prop) (x : res perr (pobj str)) : Prop :=
    match x with Ok o => Q o | Err _ => True end.

  Lemma rg_bind Q R x g : rg Q x -> (forall o, Q o -> rg R (g o)) -> rg R (bind x g).
  Proof. destruct x; cbn; auto. Qed.
  Lemma ginv_data o : ginv o -> gdata o.
  Proof. intros (A & B & _). now split. Qed.
  Lemma add_st o c (R : pobj str -> Prop) : gdata o -> P c ->
    (forall b, good b -> R (mk_pobj (p_state o) b (p_fields o) (p_doublequote o))) ->
    rg R (add_char str_ops cf o c).
  Proof.
    intros [A B] HP H. unfold add_char. cbn. unfold str_add. destruct (_ <=? _)%Z; cbn; [exact I|].
    apply H. intros x Hx. apply in_app_or in Hx as [Hx|[<-|[]]]; auto.
  Qed.
  Lemma good_tl s : good s -> good (tl s).
  Proof. intros H x Hx. apply H. destruct s; [destruct Hx|now right]. Qed.
  Lemma in_removelast {A} (x : A) s : In x (removelast s) -> In x s.
  Proof. induction s as [|a [|b s] IH]; cbn in *; try tauto. Qed.
  Lemma good_rl s : good s -> good (removelast s).
  Proof. intros H x Hx. apply H. now apply in_removelast. Qed.
  Lemma save_data o tr : gdata o -> gdata (save_field str_ops cf o tr).
  Proof.
    intros [A B]. unfold save_field. cbn [b_str str_ops].
    destruct (if quotecond _ _ then _ else _) as [f1 q1] eqn:E1.
    destruct (if tr && _ then _ else _) as [f2 q2] eqn:E2.
    assert (G1 : good f1).
    { destruct (quotecond _ _); injection E1 as <- <-; [|exact A].
      unfold strip_back, strip_front. now apply good_rl, good_tl. }
    assert (G2 : good f2).
    { destruct (tr && _); injection E2 as <- <-; [|exact G1]. now apply good_tl. }
    split; cbn; [intros ? []|]. intros x Hx. apply in_app_or in Hx as [Hx|[<-|[]]]; [now apply B|].
    destruct (return_quoted cf); exact G2.
  Qed.
  Lemma set_inv o s : gdata o ->
    stinv s -> ginv (set_state o s).
  Proof. intros [A B] H. split; [exact A|]. split; [exact B|exact H]. Qed.

  Definition okc (u : N) : Prop := u <> 0%N -> P u.

  Lemma add_set o c s : gdata o -> P c ->
    stinv s -> rg ginv (bind (add_char str_ops cf o c) (fun o => Ok (set_state o s))).
  Proof.
    intros H Hc Hs. apply rg_bind with gdata.
    - apply add_st; auto. intros b Hb. split; [exact Hb|exact (proj2 H)].
    - intros o' H'. now apply set_inv.
  Qed.

  Lemma start_ok o u : gdata o -> p_state o = START_FIELD -> okc u -> rg ginv (do_start_field str_ops cf o u).
  Proof.
    intros H Hs Hu. unfold do_start_field.
    destruct (is_nl u || (u =? 0)%N) eqn:E.
    { apply set_inv; [now apply save_data|]. destruct (u =? 0)%N; exact I. }
    apply orb_false_iff in E as [_ E0]. apply N.eqb_neq in E0.
    destruct (u =? quotechar cf)%N eqn:Eq.
    { apply N.eqb_eq in Eq. apply add_set; auto. cbn. congruence. }
    destruct (u =? escapechar cf)%N eqn:Ee.
    { apply N.eqb_eq in Ee. apply set_inv; auto. cbn. rewrite <- Ee. auto. }
    destruct (u =? delimiter cf)%N.
    { pose proof (save_data o false H) as [A B]. split; [exact A|]. split; [exact B|].
      unfold save_field. destruct (if quotecond _ _ then _ else _). destruct (if false && _ then _ else _).
      cbn. rewrite Hs. exact I. }
    apply add_set; auto. exact I.
  Qed.
  Lemma in_ok o u : gdata o -> (p_state o = IN_FIELD \/ p_state o = AFTER_ESCAPED_CRNL) -> okc u ->
    rg ginv (do_in_field str_ops cf o u).
  Proof.
    intros H Hs Hu. unfold do_in_field.
    destruct (is_nl u || (u =? 0)%N) eqn:E.
    { apply set_inv; [now apply save_data|]. destruct (u =? 0)%N; exact I. }
    apply orb_false_iff in E as [_ E0]. apply N.eqb_neq in E0.
    destruct (u =? escapechar cf)%N eqn:Ee.
    { apply N.eqb_eq in Ee. apply set_inv; auto. cbn. rewrite <- Ee. auto. }
    destruct (u =? quotechar cf)%N eqn:Eq.
    { apply N.eqb_eq in Eq. apply add_set; auto. cbn. congruence. }
    destruct (u =? delimiter cf)%N.
    { apply set_inv; [now apply save_data|exact I]. }
    apply add_st; auto. intros b Hb. split; [exact Hb|]. split; [exact (proj2 H)|].
    cbn. destruct Hs as [-> | ->]; exact I.
  Qed.
  Lemma process_ok o u v : ginv o -> okc u -> rg ginv (process_char str_ops cf o u v).
  Proof.
    intros H Hu. pose proof (ginv_data o H) as Hd. destruct H as (A & B & C).
    unfold process_char. destruct (p_state o) eqn:Es.
    - destruct (u =? 0)%N; [split; [exact A|split; [exact B|now rewrite Es]]|].
      destruct (is_nl u); [now apply set_inv|]. apply start_ok; auto.
    - now apply start_ok.
    - destruct (is_nl u) eqn:En.
      { apply is_nl_spec in En. apply add_set; auto; [|exact I]. apply Hu. destruct En; subst; discriminate. }
      apply rg_bind with gdata.
      { destruct (_ && _); [|exact Hd]. apply add_st; auto. intros b Hb. split; [exact Hb|exact B]. }
      intros o' Hd'. apply rg_bind with gdata; [|intros o2 H2; now apply set_inv].
      destruct (u =? 0)%N eqn:E0; [exact Hd'|]. apply N.eqb_neq in E0.
      apply add_st; auto. intros b Hb. split; [exact Hb|exact (proj2 Hd')].
    - apply in_ok; auto.
    - destruct (u =? 0)%N eqn:E0; [split; [exact A|split; [exact B|now rewrite Es]]|]. apply N.eqb_neq in E0.
      destruct (u =? escapechar cf)%N eqn:Ee.
      { apply N.eqb_eq in Ee. apply set_inv; auto. cbn. rewrite <- Ee. auto. }
      destruct (u =? quotechar cf)%N eqn:Eq.
      + destruct (v =? quotechar cf)%N; [now apply set_inv|].
        destruct (strict cf); [exact I|]. apply add_set; auto. exact I.
      + apply add_st; auto. intros b Hb. split; [exact Hb|split; [exact B|cbn; now rewrite Es]].
    - destruct C as [C1 C2]. apply rg_bind with gdata.
      { destruct (_ && _); [|exact Hd]. apply add_st; auto. intros b Hb. split; [exact Hb|exact B]. }
      intros o' Hd'. apply add_set; auto. destruct (u =? 0)%N eqn:E0; [exact P_lf|].
      apply N.eqb_neq in E0. auto.
    - destruct (u =? quotechar cf)%N eqn:Eq.
      { apply N.eqb_eq in Eq. apply add_set; auto. apply Hu. cbn in C. congruence. }
      destruct (u =? delimiter cf)%N. { apply set_inv; [now apply save_data|exact I]. }
      destruct (is_nl u || (u =? 0)%N) eqn:E.
      { apply set_inv; [now apply save_data|]. destruct (u =? 0)%N; exact I. }
      apply orb_false_iff in E as [_ E0]. apply N.eqb_neq in E0.
      destruct (negb (strict cf)); [|exact I]. apply add_set; auto. exact I.
    - destruct (is_nl u); [split; [exact A|split; [exact B|now rewrite Es]]|].
      destruct (u =? 0)%N; [now apply set_inv|exact I].
    - destruct (u =? 0)%N; [split; [exact A|split; [exact B|now rewrite Es]]|]. apply in_ok; auto.
  Qed.

  Lemma chars_ok line : (forall c, In c line -> okc c) -> forall o v, ginv o ->
    (v = 0%N \/ exists rest, line = v :: rest) ->
    rg ginv (process_chars str_ops cf o v line).
  Proof.
    induction line as [|x line IH]; intros Hl o v H Hv; cbn; [exact H|].
    assert (Hx : (if negb (v =? 0)%N then v else x) = x).
    { destruct Hv as [->|[rest [= -> _]]]; [reflexivity|]. now destruct (v =? 0)%N eqn:E; cbn; rewrite ?E. }
    rewrite Hx. destruct (x =? 0)%N eqn:E0; [exact I|].
    apply rg_bind with ginv; [apply process_ok; auto; apply Hl; now left|].
    intros o' H'. apply IH; auto. { intros c Hc. apply Hl. now right. }
    destruct line as [|y line]; [now left|right; now exists line].
  Qed.
  Lemma line_ok o line : (forall c, In c line -> okc c) -> ginv o -> rg ginv (process_line str_ops cf o line).
  Proof.
    intros Hl H. unfold process_line. apply rg_bind with ginv.
    - apply chars_ok; auto.
    - intros o' H'. apply process_ok; auto. intros E. now elim E.
  Qed.

  Definition okitems (input : list item) : Prop :=
    forall l c, In (ILine l) input -> In c l -> okc c.
  Lemma iternext_ok input : okitems input -> forall o r o' rest, ginv o ->
    iternext_loop str_ops cf o input = (r, o', rest) ->
    okitems rest /\ (forall row, r = Row row -> good_cells row).
  Proof.
    induction input as [|i input IH]; intros Hi o r o' rest H; cbn.
    - destruct (_ || _); [|intros [= <- <- <-]; split; [exact Hi|discriminate]].
      destruct (strict cf); intros [= <- <- <-]; (split; [exact Hi|]); [discriminate|].
      intros row [= <-]. apply save_data. now apply ginv_data.
    - assert (Hi' : okitems input) by (intros l c H1 H2; apply (Hi l c); [now right|exact H2]).
      destruct i as [line| |]; [|intros [= <- <- <-]; split; [exact Hi'|discriminate]..].
      assert (Hl : forall c, In c line -> okc c) by (intros c Hc; apply (Hi line c); [now left|exact Hc]).
      pose proof (line_ok o line Hl H) as K.
      destruct (process_line str_ops cf o line) as [o1|e].
      2: { intros [= <- <- <-]. split; [exact Hi'|discriminate]. }
      cbn in K. destruct (p_state o1) eqn:Es; try (now apply IH).
      intros [= <- <- <-]. split; [exact Hi'|]. intros row [= <-]. exact (proj1 (proj2 K)).
  Qed.
  Lemma drain_ok fuel : forall o input r, okitems input ->
    In r (fst (drain str_ops fuel cf o input)) -> good_cells r.
  Proof.
    induction fuel as [|n IH]; intros o input r Hi H; cbn in H; [destruct H|].
    unfold iternext in H.
    destruct (iternext_loop str_ops cf (parse_reset str_ops o) input) as [[x o'] rest] eqn:E.
    apply iternext_ok in E as [E1 E2]; auto.
    2: { repeat split; cbn; try (intros ? []). }
    destruct x; cbn in H; try (destruct H).
    specialize (IH o' rest r E1). destruct (drain str_ops n cf o' rest). cbn in *.
    destruct H as [<-|H]; auto.
  Qed.
  Theorem rows_chars input r : okitems input -> In r (fst (parse_items cf input)) -> good_cells r.
  Proof. rewrite parse_items_pure. apply drain_ok. Qed.
End Chars.

(** Every character of a cell occurs in the input, except that a line feed can
    be added; no cell contains NUL. *)
Theorem cell_chars_from_input cf input row x c :
  In row (fst (parse_items cf input)) -> In x row -> In c (cell_str x) ->
  c <> 0%N /\ (c = LF \/ exists l, In (ILine l) input /\ In c l).
Proof.
  intros Hr Hx Hc.
  apply (rows_chars cf (fun c => c <> 0%N /\ (c = LF \/ exists l, In (ILine l) input /\ In c l)))
    with (input := input) (r := row) (x := x); auto.
  - split; [discriminate|now left].
  - intros l y Hl Hy H0. split; [exact H0|]. right. now exists l.
Qed.
