(** * ShapeFacts: the abstraction of a layout *)
From Verif Require Import Base Parser Dialect SpecLayout SpecParse Abstraction SpecAbstraction
  AbstractionFacts FillFacts.

(** ** Joining the parts of base_abstraction *)
Definition besc1 (d q e : N) (esc : bool) (c : N) : bool := snd (bstep d q e None esc c).
Definition besc (d q e : N) (esc : bool) (s : str) : bool := fold_left (besc1 d q e) s esc.
Lemma bstep_esc d q e l esc c : snd (bstep d q e l esc c) = besc1 d q e esc c.
Proof.
  unfold besc1, bstep. destruct (is_nl c), (c =? d)%N, (c =? q)%N, (c =? e)%N, esc; reflexivity.
Qed.
Lemma bfun_app d q e s t : forall l esc,
  bfun d q e l esc (s ++ t) =
  bfun d q e l esc s ++ bfun d q e (lastl l (bfun d q e l esc s)) (besc d q e esc s) t.
Proof.
  induction s as [|c s IH]; intros l esc; [reflexivity|].
  cbn [app bfun besc fold_left]. rewrite <- (bstep_esc d q e l esc c).
  destruct (bstep d q e l esc c) as [w esc']. cbn [snd]. rewrite IH, lastl_app, app_assoc. reflexivity.
Qed.
Lemma besc_app d q e esc s t : besc d q e esc (s ++ t) = besc d q e (besc d q e esc s) t.
Proof. unfold besc. apply fold_left_app. Qed.

(** ** Letters *)
Definition letter (c : N) : Prop := c = chC \/ c = chD \/ c = chR \/ c = chQ.
Lemma bstep_letters d q e l esc c : Forall letter (fst (bstep d q e l esc c)).
Proof.
  unfold bstep, letter.
  destruct (is_nl c), (c =? d)%N, (c =? q)%N, (c =? e)%N, esc, (opt_is l chR), (opt_is l chC);
    cbn [fst]; repeat (apply Forall_cons || apply Forall_nil); auto.
Qed.
Lemma bfun_letters d q e s : forall l esc, Forall letter (bfun d q e l esc s).
Proof.
  induction s as [|c s IH]; intros l esc; [constructor|]. cbn [bfun].
  pose proof (bstep_letters d q e l esc c) as H. destruct (bstep d q e l esc c). apply Forall_app. auto.
Qed.
Lemma letter_mod c : letter c -> (c mod 256)%N = c.
Proof. intros [->|[->|[->| ->]]]; reflexivity. Qed.

Lemma mg_letters : forall n s acc, length s <= n -> Forall letter s ->
  match acc with Some a => Forall (fun c => letter c \/ c = NUL) a | None => True end ->
  Forall (fun c => letter c \/ c = NUL) (mg acc s).
Proof.
  assert (R : forall k, Forall (fun c => letter c \/ c = NUL) (repeat chC k)).
  { intros k. apply Forall_forall. intros x Hx. apply repeat_spec in Hx. left. now left. }
  assert (LQ : letter chQ) by (right; right; now right).
  assert (R1 : forall a, Forall (fun c => letter c \/ c = NUL) (rev a) <-> Forall (fun c => letter c \/ c = NUL) a).
  { intros a. rewrite !Forall_forall. split; intros H x Hx; apply H; [now apply in_rev in Hx|now apply in_rev]. }
  induction n as [|n IH]; intros s acc Hn Hs Ha.
  - destruct s; [|cbn in Hn; lia]. cbn. destruct acc as [a|]; [now apply R1|constructor].
  - destruct s as [|c s]; [cbn; destruct acc as [a|]; [now apply R1|constructor]|].
    cbn in Hn. inversion Hs as [|? ? Hc Hs']; subst. cbn [mg]. rewrite (letter_mod c Hc).
    destruct acc as [a|].
    + destruct (c =? chQ)%N.
      * destruct s as [|c' s'].
        -- apply Forall_app. split; [apply R|constructor].
        -- inversion Hs'; subst. destruct (c' =? chQ)%N.
           ++ apply IH; [cbn in Hn; lia|assumption|]. constructor; [now right|constructor; [now left|assumption]].
           ++ apply Forall_app. split; [apply R|]. apply IH; [lia|assumption|exact I].
      * apply IH; [lia|assumption|]. constructor; [now left|assumption].
    + destruct (c =? chQ)%N.
      * apply IH; [lia|assumption|]. constructor; [now left|constructor].
      * constructor; [now left|]. apply IH; [lia|assumption|exact I].
Qed.
Lemma mg_no_q s : Forall letter s -> ~ In chQ s -> mg None s = s.
Proof.
  induction s as [|c s IH]; intros Hs Hq; [reflexivity|]. inversion Hs; subst. cbn [mg].
  destruct (N.eqb_spec c chQ) as [->|]; [exfalso; apply Hq; now left|].
  rewrite letter_mod by assumption. f_equal. apply IH; [assumption|]. intros X. apply Hq. now right.
Qed.

(** ** make_abstraction in terms of the list functions *)
Lemma strip_no_r (s : str) : exists n, s = strip_trailing s ++ repeat chR n.
Proof.
  unfold strip_trailing, rstrip_by.
  assert (H : forall r, exists n, r = repeat chR n ++ lstrip_by (fun c => (c =? chR)%N) r).
  { induction r as [|c r [n IH]]; [now exists 0|]. cbn [lstrip_by]. destruct (N.eqb_spec c chR) as [->|].
    - exists (S n). cbn. now rewrite <- IH.
    - now exists 0. }
  destruct (H (rev s)) as [n E]. exists n. apply (f_equal (@rev N)) in E.
  rewrite rev_involutive, rev_app_distr in E. rewrite E at 1. f_equal.
  clear. induction n; [reflexivity|]. cbn [repeat rev]. rewrite IHn. clear.
  induction n; [reflexivity|]. cbn. now rewrite IHn.
Qed.
Lemma strip_in c s : c <> chR -> In c (strip_trailing s) <-> In c s.
Proof.
  intros Hc. destruct (strip_no_r s) as [n E]. rewrite E at 2. rewrite in_app_iff. split; [auto|].
  intros [H|H]; [exact H|]. apply repeat_spec in H. contradiction.
Qed.
Lemma strip_app_r s : strip_trailing (s ++ [chR]) = strip_trailing s.
Proof. unfold strip_trailing, rstrip_by. rewrite rev_app_distr. reflexivity. Qed.
Lemma strip_last s c : c <> chR -> strip_trailing (s ++ [c]) = s ++ [c].
Proof.
  intros H. unfold strip_trailing, rstrip_by. rewrite rev_app_distr. cbn [rev app lstrip_by].
  destruct (N.eqb_spec c chR); [contradiction|]. cbn [rev]. now rewrite rev_involutive.
Qed.

Lemma canonical_in c s : c <> chC -> In c (canonical s) <-> In c s.
Proof.
  intros Hc. pose proof (canonical_letters s) as H.
  assert (F : forall t, In c t <-> In c (filter not_c t)).
  { intros t. rewrite filter_In. unfold not_c. apply N.eqb_neq in Hc. rewrite Hc. cbn. tauto. }
  now rewrite (F (canonical s)), (F s), H.
Qed.

Lemma make_abstraction_dq t dl d q e :
  set_char (sd_delimiter dl) = Ok d -> set_char (sd_quotechar dl) = Ok q -> set_char (sd_escapechar dl) = Ok e ->
  make_abstraction t dl = Ok (strip_trailing (canonical (mg None (bfun d q e None false t)))).
Proof.
  intros Hd Hq He. unfold make_abstraction, base_abstraction. rewrite Hd, Hq, He.
  rewrite base_sized_ok by (unfold stack_size0; lia). cbn [bind]. rewrite merge_ok. cbn [bind].
  now rewrite fill_canonical.
Qed.
Lemma set_char_opt o : set_char (Some (opt_str o)) = Ok (opt_n o).
Proof. destruct o; reflexivity. Qed.
Lemma make_abstraction_simple t D strict :
  make_abstraction t (simple D strict) =
  Ok (strip_trailing (canonical (mg None (bfun (opt_n (cd D)) (opt_n (cq D)) (opt_n (ce D)) None false t)))).
Proof. apply make_abstraction_dq; apply set_char_opt. Qed.

Lemma canonical_forall (P : N -> Prop) s : P chC -> Forall P s -> Forall P (canonical s).
Proof.
  intros HC Hs. rewrite Forall_forall in *. intros c Hc. destruct (N.eq_dec c chC) as [->|n]; [exact HC|].
  apply Hs. now apply (canonical_in c s n).
Qed.
Lemma strip_forall (P : N -> Prop) s : Forall P s -> Forall P (strip_trailing s).
Proof.
  intros Hs. destruct (strip_no_r s) as [n E]. rewrite E in Hs. apply Forall_app in Hs. tauto.
Qed.
Lemma abstraction_letters t D strict : exists a, make_abstraction t (simple D strict) = Ok a /\
  Forall (fun c => letter c \/ c = NUL) a.
Proof.
  rewrite make_abstraction_simple. eexists. split; [reflexivity|].
  apply strip_forall, canonical_forall; [left; now left|].
  eapply mg_letters; [reflexivity|apply bfun_letters|exact I].
Qed.

(** ** Characters of a well-formed layout *)
Section Shape.
  Variable D : chars.
  Hypothesis Hwf : wf_chars D = true.
  Let d := opt_n (cd D).
  Let q := opt_n (cq D).
  Let e := opt_n (ce D).
  Notation B l s := (bfun d q e l false s).
  Notation E0 s := (besc d q e false s).

  Lemma eqb_opt o c : (c =? NUL)%N = false -> (c =? opt_n o)%N = is_opt o c.
  Proof. intros H. destruct o; [reflexivity|exact H]. Qed.

  Lemma wf_facts :
    (forall c, is_opt (cd D) c = true -> is_nl c = false /\ is_opt (cq D) c = false /\ is_opt (ce D) c = false /\ (c =? NUL)%N = false) /\
    (forall c, is_opt (cq D) c = true -> is_nl c = false /\ is_opt (cd D) c = false /\ is_opt (ce D) c = false /\ (c =? NUL)%N = false) /\
    (forall c, is_opt (ce D) c = true -> is_nl c = false /\ is_opt (cd D) c = false /\ is_opt (cq D) c = false /\ (c =? NUL)%N = false).
  Proof.
    pose proof Hwf as W. unfold wf_chars in W. rewrite !andb_true_iff in W.
    destruct W as [[[[[W1 W2] W3] W4] W5] W6].
    assert (K : forall o c, char_ok o = true -> is_opt o c = true -> is_nl c = false /\ (c =? NUL)%N = false).
    { intros [x|] c H1 H2; [|discriminate]. cbn in H2. apply N.eqb_eq in H2. subst x.
      unfold char_ok in H1. apply andb_true_iff in H1 as [A C]. split; now apply negb_true_iff. }
    assert (T : forall o o' c, distinct_opt o o' = true -> is_opt o c = true -> is_opt o' c = false).
    { intros [x|] [y|] c H1 H2; try discriminate; [|reflexivity]. cbn in *. apply N.eqb_eq in H2. subst x.
      now apply negb_true_iff. }
    assert (S : forall o o', distinct_opt o o' = distinct_opt o' o).
    { intros [x|] [y|]; try reflexivity. cbn. now rewrite N.eqb_sym. }
    split; [|split]; intros c Hc.
    - destruct (K _ _ W1 Hc). pose proof (T _ _ _ W4 Hc). pose proof (T _ _ _ W5 Hc). auto.
    - destruct (K _ _ W2 Hc). rewrite S in W4. pose proof (T _ _ _ W4 Hc). pose proof (T _ _ _ W6 Hc). auto.
    - destruct (K _ _ W3 Hc). rewrite S in W5, W6. pose proof (T _ _ _ W5 Hc). pose proof (T _ _ _ W6 Hc). auto.
  Qed.

  Definition maybe (l : option N) (x : N) : list N := if opt_is l x then [] else [x].

  (** A delimiter, a quote, a line terminator, a plain character. *)
  Lemma step_delim l c : is_opt (cd D) c = true -> bstep d q e l false c = ([chD], false).
  Proof.
    intros H. destruct (proj1 wf_facts c H) as (H1 & H2 & H3 & H4). unfold bstep, d, q, e.
    rewrite H1, !eqb_opt, H by exact H4. reflexivity.
  Qed.
  Lemma step_quote l c : is_opt (cq D) c = true -> bstep d q e l false c = ([chQ], false).
  Proof.
    intros H. destruct (proj1 (proj2 wf_facts) c H) as (H1 & H2 & H3 & H4). unfold bstep, d, q, e.
    rewrite H1, !eqb_opt, H, H2 by exact H4. reflexivity.
  Qed.
  Lemma step_esc l c : is_opt (ce D) c = true -> bstep d q e l false c = ([], true).
  Proof.
    intros H. destruct (proj2 (proj2 wf_facts) c H) as (H1 & H2 & H3 & H4). unfold bstep, d, q, e.
    rewrite H1, !eqb_opt, H, H2, H3 by exact H4. reflexivity.
  Qed.
  Lemma step_nl l esc c : is_nl c = true -> bstep d q e l esc c = (maybe l chR, esc).
  Proof. intros H. unfold bstep. rewrite H. reflexivity. Qed.
  Lemma step_plain l c : (c =? NUL)%N = false -> is_nl c = false -> special D c = false ->
    bstep d q e l false c = (maybe l chC, false).
  Proof.
    intros H H1 H2. unfold special in H2. apply orb_false_iff in H2 as [H2 H4]. apply orb_false_iff in H2 as [H2 H3].
    unfold bstep, d, q, e. rewrite H1, !eqb_opt, H2, H3, H4 by exact H. reflexivity.
  Qed.
  (** An escaped character other than a line terminator. *)
  Lemma step_escaped l c : is_nl c = false ->
    exists w, bstep d q e l true c = (w, false) /\ (w = [chC] \/ w = [] /\ opt_is l chC = true).
  Proof.
    intros H1. unfold bstep. rewrite H1.
    destruct (c =? d)%N; [eauto|]. destruct (c =? q)%N; [eauto|].
    destruct (c =? e)%N, (opt_is l chC); eauto.
  Qed.

  Lemma opt_str_is o : is_set o = true -> exists c, opt_str o = [c] /\ is_opt o c = true.
  Proof. destruct o as [c|]; [|discriminate]. intros _. exists c. cbn. now rewrite N.eqb_refl. Qed.

  Lemma bfun1 l esc c : bfun d q e l esc [c] = fst (bstep d q e l esc c).
  Proof. cbn [bfun]. destruct (bstep d q e l esc c). apply app_nil_r. Qed.
  Lemma besc_1 l esc c : besc d q e esc [c] = snd (bstep d q e l esc c).
  Proof. cbn. now rewrite <- (bstep_esc d q e l). Qed.

  Lemma render_esc l c : is_set (ce D) = true -> is_nl c = false ->
    exists w, B l (opt_str (ce D) ++ [c]) = w /\ E0 (opt_str (ce D) ++ [c]) = false /\
      (w = [chC] \/ w = [] /\ opt_is l chC = true).
  Proof.
    intros Hs Hc. destruct (opt_str_is _ Hs) as (x & -> & Hx).
    destruct (step_escaped l c Hc) as (w & Hw & Hor). exists w.
    rewrite bfun_app, besc_app, bfun1, (besc_1 l), (step_esc l x Hx). cbn [fst snd lastl fold_left app].
    rewrite bfun1, (besc_1 l), Hw. auto.
  Qed.

  (** ** Inside a quoted segment *)
  Lemma mg_in a w rest : Forall letter w -> ~ In chQ w ->
    mg (Some a) (w ++ rest) = mg (Some (rev w ++ a)) rest.
  Proof.
    revert a. induction w as [|c w IH]; intros a Hw Hq; [reflexivity|]. inversion Hw; subst. cbn [app mg].
    destruct (N.eqb_spec c chQ) as [->|]; [exfalso; apply Hq; now left|].
    rewrite letter_mod by assumption. rewrite IH; [|assumption|intros X; apply Hq; now right].
    cbn [rev]. now rewrite <- app_assoc.
  Qed.
  Lemma qitem_shape i l : wf_qitem D i = true -> match i with QEsc c => negb (is_nl c) | _ => true end = true ->
    i = QQuote \/ is_set (cq D) = true ->
    (i = QQuote -> is_set (cq D) = true) ->
    E0 (render_qitem D i) = false /\
    forall a rest, exists a', mg (Some a) (B l (render_qitem D i) ++ rest) = mg (Some a') rest /\
      (In NUL a' <-> In NUL a \/ i = QQuote).
  Proof.
    intros Hw He Hor Hq.
    assert (K : forall w, Forall letter w -> ~ In chQ w -> i <> QQuote ->
      forall a rest, exists a', mg (Some a) (w ++ rest) = mg (Some a') rest /\ (In NUL a' <-> In NUL a \/ i = QQuote)).
    { intros w Hl Hn Hi a rest. exists (rev w ++ a). split; [now apply mg_in|].
      rewrite in_app_iff, <- in_rev. split; [|tauto]. intros [X|X]; [|tauto].
      rewrite Forall_forall in Hl. destruct (Hl _ X) as [Y|[Y|[Y|Y]]]; discriminate. }
    destruct i as [c| |c]; cbn [render_qitem wf_qitem] in *.
    - rewrite !andb_true_iff, !negb_true_iff in Hw. destruct Hw as [[H1 H2] H3].
      assert (P : bstep d q e l false c = (fst (bstep d q e l false c), false) /\ ~ In chQ (fst (bstep d q e l false c))).
      { destruct (is_nl c) eqn:En.
        { rewrite step_nl by exact En. split; [reflexivity|]. unfold maybe. destruct (opt_is l chR); cbn; intuition discriminate. }
        destruct (is_opt (cd D) c) eqn:Ed.
        { rewrite step_delim by exact Ed. split; [reflexivity|]. cbn. intuition discriminate. }
        rewrite step_plain; [|exact H1|exact En|unfold special; now rewrite Ed, H2, H3].
        split; [reflexivity|]. unfold maybe. destruct (opt_is l chC); cbn; intuition discriminate. }
      destruct P as [P1 P2]. split; [rewrite (besc_1 l), P1; reflexivity|].
      apply K; [rewrite bfun1; apply bstep_letters|now rewrite bfun1|discriminate].
    - destruct (opt_str_is _ (Hq eq_refl)) as (x & -> & Hx). split.
      + rewrite besc_app. rewrite (besc_1 l false), step_quote by exact Hx. cbn [snd]. 
        rewrite (besc_1 l false), step_quote by exact Hx. reflexivity.
      + intros a rest. exists (NUL :: chQ :: a). split.
        * rewrite bfun_app, bfun1, (besc_1 l false), step_quote by exact Hx. cbn [fst snd].
          rewrite bfun1, step_quote by exact Hx. reflexivity.
        * cbn. split; [tauto|]. intros [X|_]; auto.
    - apply andb_true_iff in Hw as [H1 H2]. apply negb_true_iff in He.
      destruct (render_esc l c H1 He) as (w & -> & E & Hw'). split; [exact E|].
      apply K; [|destruct Hw' as [->|[-> _]]; cbn; intuition discriminate|discriminate].
      destruct Hw' as [->|[-> _]]; repeat constructor.
  Qed.
  Lemma qitems_shape items : is_set (cq D) = true -> forallb (wf_qitem D) items = true -> esc_ok_items items = true ->
    forall l, E0 (render_qitems D items) = false /\
    forall a rest, exists a', mg (Some a) (B l (render_qitems D items) ++ rest) = mg (Some a') rest /\
      (In NUL a' <-> In NUL a \/ In QQuote items).
  Proof.
    intros Hq. induction items as [|i items IH]; intros Hw He l.
    - split; [reflexivity|]. intros a rest. exists a. split; [reflexivity|]. cbn. tauto.
    - cbn in Hw, He. apply andb_true_iff in Hw as [Hw1 Hw2]. apply andb_true_iff in He as [He1 He2].
      destruct (qitem_shape i l Hw1 He1 (or_intror Hq) (fun _ => Hq)) as [E1 K1].
      change (render_qitems D (i :: items)) with (render_qitem D i ++ render_qitems D items).
      destruct (IH Hw2 He2 l) as [E2 _]. rewrite besc_app, E1. split; [exact E2|].
      intros a rest. rewrite bfun_app, E1, <- app_assoc.
      destruct (K1 a (B (lastl l (B l (render_qitem D i))) (render_qitems D items) ++ rest)) as (a1 & M1 & N1).
      rewrite M1. destruct (proj2 (IH Hw2 He2 (lastl l (B l (render_qitem D i)))) a1 rest) as (a2 & M2 & N2).
      exists a2. split; [exact M2|]. rewrite N2, N1. cbn. tauto.
  Qed.

  (** ** A cell becomes a run of C *)
  Definition not_q (rest : list N) : Prop := opt_is (hd_error rest) chQ = false.
  Definition quoted_first (ps : list piece) : bool := match ps with PQuoted _ :: _ => true | _ => false end.

  Lemma ends_quoted_cons p ps : ps <> [] -> ends_quoted (p :: ps) = ends_quoted ps.
  Proof.
    intros H. unfold ends_quoted. cbn [rev]. destruct (rev ps) as [|x r] eqn:E; [|reflexivity].
    exfalso. apply H. now rewrite <- (rev_involutive ps), E.
  Qed.
  (** After a quoted segment the next piece starts with C. *)
  Lemma cell_hd ps l : forallb (wf_piece D) ps = true -> esc_ok_cell ps = true -> ps <> [] ->
    quoted_first ps = false -> opt_is l chC = false -> hd_error (B l (render_cell D ps)) = Some chC.
  Proof.
    destruct ps as [|p ps]; [contradiction|]. intros Hw He _ Hq Hl. cbn in Hw, He.
    apply andb_true_iff in Hw as [Hw _]. apply andb_true_iff in He as [He _].
    change (render_cell D (p :: ps)) with (render_piece D p ++ render_cell D ps). rewrite bfun_app.
    destruct p as [c|c|items]; cbn [wf_piece render_piece esc_ok_piece] in *; [| |discriminate].
    - rewrite !andb_true_iff, !negb_true_iff in Hw. destruct Hw as [[H1 H2] H3].
      rewrite bfun1, step_plain by assumption. unfold maybe. cbn [fst]. now rewrite Hl.
    - apply andb_true_iff in Hw as [H1 H2]. apply negb_true_iff in He.
      destruct (render_esc l c H1 He) as (w & -> & _ & [->|[_ X]]); [reflexivity|congruence].
  Qed.

  Lemma cell_shape ps : forallb (wf_piece D) ps = true -> no_adjacent ps = true -> esc_ok_cell ps = true ->
    forall l rest, (ends_quoted ps = true -> not_q rest) ->
    E0 (render_cell D ps) = false /\
    (ps <> [] -> opt_is (lastl l (B l (render_cell D ps))) chC = true \/ opt_is (lastl l (B l (render_cell D ps))) chQ = true) /\
    exists k, mg None (B l (render_cell D ps) ++ rest) = repeat chC k ++ mg None rest /\
      (ps = [] -> k = 0) /\ (ps <> [] -> 1 <= k \/ opt_is l chC = true).
  Proof.
    induction ps as [|p ps IH]; intros Hw Hn He l rest Hr.
    - split; [reflexivity|]. split; [contradiction|]. exists 0. split; [reflexivity|]. split; [reflexivity|contradiction].
    - cbn in Hw, He. apply andb_true_iff in Hw as [Hw1 Hw2]. apply andb_true_iff in He as [He1 He2].
      assert (Hn2 : no_adjacent ps = true).
      { destruct p; try exact Hn. cbn in Hn. destruct ps as [|[| |] ps]; auto; discriminate. }
      change (render_cell D (p :: ps)) with (render_piece D p ++ render_cell D ps).
      assert (Hr2 : ends_quoted ps = true -> not_q rest).
      { intros H. apply Hr. rewrite ends_quoted_cons; [exact H|]. intros ->. discriminate. }
      specialize (IH Hw2 Hn2 He2).
      (* one plain or escaped character *)
      assert (K : forall w, B l (render_piece D p) = w -> E0 (render_piece D p) = false ->
        (w = [chC] \/ w = [] /\ opt_is l chC = true) -> 
        E0 (render_piece D p ++ render_cell D ps) = false /\
        (p :: ps <> [] -> opt_is (lastl l (B l (render_piece D p ++ render_cell D ps))) chC = true \/
                          opt_is (lastl l (B l (render_piece D p ++ render_cell D ps))) chQ = true) /\
        exists k, mg None (B l (render_piece D p ++ render_cell D ps) ++ rest) = repeat chC k ++ mg None rest /\
          (p :: ps = [] -> k = 0) /\ (p :: ps <> [] -> 1 <= k \/ opt_is l chC = true)).
      { intros w Ew Ee Hor. rewrite besc_app, bfun_app, Ew, Ee.
        destruct (IH (lastl l w) rest Hr2) as (I1 & I2 & k & I3 & I4 & I5). split; [exact I1|].
        assert (Hlc : opt_is (lastl l w) chC = true).
        { destruct Hor as [->|[-> H]]; [reflexivity|exact H]. }
        split.
        - intros _. rewrite lastl_app. destruct ps as [|p' ps']; [left; exact Hlc|]. apply I2. discriminate.
        - rewrite <- app_assoc. destruct Hor as [->|[-> H]].
          + exists (S k). split; [|split; [discriminate|intros _; left; lia]].
            cbn [app mg repeat]. cbn [N.eqb chC chQ]. rewrite I3. reflexivity.
          + exists k. cbn [app]. split; [exact I3|]. split; [discriminate|]. intros _. now right. }
      destruct p as [c|c|items]; cbn [wf_piece esc_ok_piece] in *.
      + rewrite !andb_true_iff, !negb_true_iff in Hw1. destruct Hw1 as [[H1 H2] H3].
        apply (K (maybe l chC)); cbn [render_piece].
        * rewrite bfun1, step_plain by assumption. reflexivity.
        * rewrite (besc_1 l), step_plain by assumption. reflexivity.
        * unfold maybe. destruct (opt_is l chC); auto.
      + apply andb_true_iff in Hw1 as [H1 H2]. apply negb_true_iff in He1.
        destruct (render_esc l c H1 He1) as (w & Ew & Ee & Hor). exact (K w Ew Ee Hor).
      + apply andb_true_iff in Hw1 as [H1 H2]. clear K.
        destruct (opt_str_is _ H1) as (x & Ex & Hx). cbn [render_piece]. rewrite Ex.
        set (w := B (Some chQ) (render_qitems D items)).
        assert (Eb : B l ([x] ++ render_qitems D items ++ [x]) = [chQ] ++ w ++ [chQ]).
        { rewrite bfun_app, bfun1, (besc_1 l false), step_quote by exact Hx. cbn [fst snd lastl fold_left].
          rewrite bfun_app. fold w. rewrite (proj1 (qitems_shape items H1 H2 He1 None)).
          now rewrite bfun1, step_quote by exact Hx. }
        assert (Ee : E0 ([x] ++ render_qitems D items ++ [x]) = false).
        { rewrite besc_app, (besc_1 l false), step_quote by exact Hx. cbn [snd].
          rewrite besc_app, (proj1 (qitems_shape items H1 H2 He1 None)), (besc_1 l false), step_quote by exact Hx. reflexivity. }
        rewrite besc_app, bfun_app, Eb, Ee. rewrite !lastl_app. cbn [lastl fold_left]. fold (lastl (Some chQ) w).
        destruct (IH (Some chQ) rest Hr2) as (I1 & I2 & k & I3 & I4 & I5). split; [exact I1|]. split.
        * intros _. destruct ps as [|p' ps']; [right; reflexivity|]. apply I2. discriminate.
        * (* the opening quote, the items, the closing quote *)
          cbn [app]. rewrite <- !app_assoc. cbn [mg]. cbn [N.eqb chQ Pos.eqb].
          destruct (proj2 (qitems_shape items H1 H2 He1 (Some chQ)) [chQ] ([chQ] ++ B (Some chQ) (render_cell D ps) ++ rest))
            as (a' & M & _). fold w in M. change 81%N with chQ. rewrite M.
          assert (Hh : not_q (B (Some chQ) (render_cell D ps) ++ rest)).
          { destruct ps as [|p' ps'].
            - cbn [render_cell map concat bfun app]. apply Hr. reflexivity.
            - unfold not_q. pose proof (cell_hd (p' :: ps') (Some chQ) Hw2 He2) as Hhd.
              destruct (B (Some chQ) (render_cell D (p' :: ps'))) as [|y yl]; [|cbn [app hd_error] in *].
              + discriminate Hhd; [discriminate|destruct p'; [reflexivity|reflexivity|discriminate]|reflexivity].
              + rewrite Hhd; [reflexivity|discriminate|destruct p'; [reflexivity|reflexivity|discriminate]|reflexivity]. }
          exists (S (length a') + k). split; [|split; [discriminate|intros _; left; lia]].
          rewrite repeat_app, <- app_assoc, <- I3. cbn [app mg]. rewrite N.eqb_refl.
          destruct (B (Some chQ) (render_cell D ps) ++ rest) as [|y yl]; [reflexivity|].
          unfold not_q in Hh. cbn in Hh. rewrite Hh. reflexivity.
  Qed.

  (** ** Rows *)
  Definition rowpat (ks : list nat) : str := join [chD] (map (repeat chC) ks).
  (** [k] letters for the cell [ps]. *)
  Definition counts (ks : list nat) (cells : list (list piece)) : Prop :=
    Forall2 (fun k ps => k = 0 <-> ps = []) ks cells.
  Definition cell_ok (ps : list piece) : Prop := wf_cell D ps = true /\ esc_ok_cell ps = true.

  Lemma row_shape cells : Forall cell_ok cells -> (match cells with _ :: _ :: _ => is_set (cd D) = true | _ => True end) ->
    forall l rest, opt_is l chC = false -> not_q rest ->
    E0 (render_row D cells) = false /\
    (cells <> [] -> cells <> [[]] -> opt_is (lastl l (B l (render_row D cells))) chR = false) /\
    exists ks, counts ks cells /\ mg None (B l (render_row D cells) ++ rest) = rowpat ks ++ mg None rest.
  Proof.
    induction cells as [|ps cells IH]; intros Hc Hs l rest Hl Hr.
    - split; [reflexivity|]. split; [contradiction|]. exists []. split; [constructor|reflexivity].
    - inversion Hc as [|? ? [Hw He] Hc']; subst. unfold wf_cell in Hw. apply andb_true_iff in Hw as [Hw Hn].
      destruct cells as [|ps' cells].
      + unfold render_row. cbn [map join].
        destruct (cell_shape ps Hw Hn He l rest (fun _ => Hr)) as (I1 & I2 & k & I3 & I4 & I5).
        split; [exact I1|]. split.
        * intros _ Hne. destruct I2 as [I2|I2]; [intros ->; now apply Hne| |];
            destruct (lastl l _) as [y|]; try discriminate; cbn in I2 |- *; apply N.eqb_eq in I2; subst y; reflexivity.
        * exists [k]. split.
          -- constructor; [|constructor]. split; [|exact I4]. intros ->. destruct ps; [reflexivity|].
             exfalso. destruct I5 as [X|X]; [discriminate|lia|congruence].
          -- exact I3.
      + destruct (opt_str_is _ Hs) as (x & Ex & Hx).
        assert (Er : render_row D (ps :: ps' :: cells) = render_cell D ps ++ [x] ++ render_row D (ps' :: cells)).
        { unfold render_row. rewrite <- Ex. reflexivity. }
        rewrite Er. clear Er.
        assert (Hs' : match ps' :: cells with _ :: _ :: _ => is_set (cd D) = true | _ => True end)
          by (destruct cells; [exact I|exact Hs]).
        destruct (IH Hc' Hs' (Some chD) rest eq_refl Hr) as (J1 & J2 & ks & J3 & J4).
        destruct (cell_shape ps Hw Hn He l ([chD] ++ B (Some chD) (render_row D (ps' :: cells)) ++ rest) (fun _ => eq_refl))
          as (I1 & I2 & k & I3 & I4 & I5).
        rewrite !besc_app, I1, (besc_1 l false), step_delim by exact Hx. cbn [snd]. split; [exact J1|].
        rewrite !bfun_app, I1, bfun1, (besc_1 l false), !step_delim by exact Hx. cbn [fst snd].
        rewrite !lastl_app. cbn [lastl fold_left]. fold (lastl (Some chD) (B (Some chD) (render_row D (ps' :: cells)))).
        split.
        * intros _ _. destruct cells as [|ps'' cells].
          -- destruct ps' as [|p ps'].
             ++ reflexivity.
             ++ apply J2; discriminate.
          -- apply J2; discriminate.
        * exists (k :: ks). split.
          -- constructor; [|exact J3]. split; [|exact I4]. intros ->. destruct ps; [reflexivity|].
             exfalso. destruct I5 as [X|X]; [discriminate|lia|congruence].
          -- rewrite <- !app_assoc. rewrite I3. cbn [app mg].
             change ((chD =? chQ)%N) with false. cbv iota. change ((chD mod 256)%N) with chD. rewrite J4.
             unfold rowpat. inversion J3; subst. cbn [map join]. rewrite <- !app_assoc. reflexivity.
  Qed.

  (** ** Line terminators *)
  Lemma eol_shape l t : B l (render_eol t) = maybe l chR /\ E0 (render_eol t) = false /\
    lastl l (B l (render_eol t)) = (if opt_is l chR then l else Some chR).
  Proof.
    assert (H : B l (render_eol t) = maybe l chR).
    { unfold maybe. destruct t; cbn [render_eol]; unfold bfun, bstep; cbn; destruct (opt_is l chR) eqn:El; cbn;
        rewrite ?El; reflexivity. }
    split; [exact H|]. split; [destruct t; reflexivity|]. rewrite H. unfold maybe. destruct (opt_is l chR); reflexivity.
  Qed.
End Shape.

(** ** Canonical patterns of rows *)
Definition row_end (rest : str) : Prop := rest = [] \/ exists t, rest = chR :: t.
Lemma canon_run k rest : 1 <= k -> is_letter chC (hd_error rest) = false ->
  canon_from (repeat chC k ++ rest) = chC :: canon_from rest.
Proof.
  intros Hk Hr. destruct k as [|k]; [lia|]. clear Hk.
  induction k as [|k IH].
  - cbn [repeat app canon_from]. rewrite Hr, andb_false_r.
    assert (needs chC (hd_error rest) = false) as -> by reflexivity. reflexivity.
  - cbn [repeat app] in *. rewrite <- IH. reflexivity.
Qed.
Lemma shape_cons n : 1 <= n -> shape (S n) = chC :: chD :: shape n.
Proof. destruct n; [lia|]. reflexivity. Qed.
Lemma row_after_d ks : ks <> [] -> forall rest, row_end rest ->
  (if needs chD (hd_error (rowpat ks ++ rest)) then [chC] else []) ++ canon_from (rowpat ks ++ rest) =
  shape (length ks) ++ canon_from rest.
Proof.
  induction ks as [|k ks IH]; intros Hne rest Hr; [contradiction|].
  destruct ks as [|k' ks].
  - unfold rowpat. cbn [map join length]. change (shape 1) with [chC].
    destruct k as [|k].
    + cbn [repeat app]. assert (needs chD (hd_error rest) = true) as ->; [|reflexivity].
      destruct Hr as [->|[t ->]]; reflexivity.
    + rewrite canon_run; [reflexivity|lia|]. destruct Hr as [->|[t ->]]; reflexivity.
  - assert (E : rowpat (k :: k' :: ks) = repeat chC k ++ chD :: rowpat (k' :: ks)) by reflexivity.
    rewrite E, <- app_assoc. cbn [app].
    assert (Hd : canon_from (chD :: rowpat (k' :: ks) ++ rest) = chD :: shape (length (k' :: ks)) ++ canon_from rest).
    { cbn [canon_from]. change ((chD =? chC)%N) with false. cbn [andb]. f_equal. apply IH; [discriminate|exact Hr]. }
    change (length (k :: k' :: ks)) with (S (length (k' :: ks))). rewrite shape_cons by (cbn; lia).
    destruct k as [|k].
    + cbn [repeat app]. change (needs chD (hd_error (chD :: rowpat (k' :: ks) ++ rest))) with true. cbn [app].
      rewrite Hd. reflexivity.
    + rewrite canon_run; [|lia|reflexivity]. rewrite Hd. reflexivity.
Qed.
Lemma row_canonical ks rest : ks <> [] -> ks <> [0] -> row_end rest ->
  canonical (rowpat ks ++ rest) = shape (length ks) ++ canon_from rest.
Proof.
  intros H1 H2 Hr. unfold canonical. rewrite <- (row_after_d ks H1 rest Hr). f_equal.
  destruct ks as [|[|k] [|k' ks]]; try contradiction; try reflexivity.
Qed.
Lemma canon_from_r t : canon_from (chR :: t) = chR :: canonical t.
Proof.
  unfold canonical. cbn [canon_from]. change ((chR =? chC)%N) with false. cbn [andb]. reflexivity.
Qed.
Lemma canonical_r t : canonical (chR :: t) = chR :: canonical t.
Proof. unfold canonical at 1. cbn [hd_error is_letter]. change ((chR =? chD)%N) with false. cbn [app]. apply canon_from_r. Qed.

(** ** Whole layouts *)
Lemma counts_length ks cells : counts ks cells -> length ks = length cells.
Proof. intros H. induction H; cbn; congruence. Qed.
Lemma counts_blank ks cells : counts ks cells -> cells <> [] -> cells <> [[]] -> ks <> [] /\ ks <> [0].
Proof.
  intros H H1 H2. split; intros ->.
  - inversion H; subst. contradiction.
  - inversion H as [|? ps ? ? Hk Hf]; subst. inversion Hf; subst. apply H2. now rewrite (proj1 Hk eq_refl).
Qed.

(** The expected pattern: [after] tells whether an R precedes. *)
Fixpoint expected (after : bool) (rows : list (list (list piece))) (t : list (list (list piece))) : str :=
  match rows with
  | [] => match t with [] => [] | cells :: _ => shape (length cells) end
  | [] :: rows' => if after then expected true rows' t else chR :: expected true rows' t
  | cells :: rows' => shape (length cells) ++ chR :: expected true rows' t
  end.
Definition tail_rows (t : tail) : list (list (list piece)) := match t with TRow cells => [cells] | _ => [] end.

Lemma doc_shape D : wf_chars D = true -> forall rs t l,
  wf_records D rs = true -> wf_tail D t = true -> closed (mk_doc rs t) = true -> esc_ok (mk_doc rs t) = true ->
  (l = None \/ l = Some chR) ->
  canonical (mg None (bfun (opt_n (cd D)) (opt_n (cq D)) (opt_n (ce D)) l false
                       (concat (map (render_record D) rs) ++ render_tail D t))) =
  expected (opt_is l chR) (map fst rs) (tail_rows t).
Proof.
  intros Hwf. induction rs as [|[cells eo] rs IH]; intros t l Hw Ht Hcl He Hl.
  - cbn [map concat app expected]. destruct t as [|cells| | |]; try discriminate.
    + reflexivity.
    + cbn [render_tail tail_rows]. cbn [wf_tail] in Ht. apply andb_true_iff in Ht as [Ht Hne].
      unfold wf_row in Ht. apply andb_true_iff in Ht as [Ht1 Ht2].
      unfold esc_ok in He. cbn in He.
      destruct (row_shape D Hwf cells) with (l := l) (rest := @nil N) as (_ & _ & ks & K1 & K2).
      * rewrite forallb_forall in Ht1, He. apply Forall_forall. intros ps Hps. split; [now apply Ht1|now apply He].
      * destruct cells as [|[|] [|]]; auto.
      * destruct Hl as [->| ->]; reflexivity.
      * reflexivity.
      * rewrite app_nil_r in K2. rewrite K2. cbn [mg]. 
        destruct (counts_blank ks cells K1) as [N1 N2]; [intros ->; discriminate|intros ->; discriminate|].
        rewrite row_canonical; [|assumption|assumption|now left]. cbn. rewrite app_nil_r.
        now rewrite (counts_length _ _ K1).
  - cbn [wf_records] in Hw. rewrite !andb_true_iff in Hw. destruct Hw as [[Hw1 _] Hw2].
    unfold esc_ok in He. cbn [records last forallb fst] in He. rewrite !andb_true_iff in He. destruct He as [[He1 He2] He3].
    assert (He' : esc_ok (mk_doc rs t) = true) by (unfold esc_ok; cbn [records last]; rewrite He2; exact He3).
    cbn [map concat fst]. unfold render_record at 1. cbn [fst snd]. rewrite <- !app_assoc.
    rewrite (bfun_app _ _ _ (render_row D cells)).
    destruct cells as [|ps cells].
    + (* a blank line *)
      change (render_row D []) with (@nil N). cbn [bfun app lastl fold_left besc].
      rewrite bfun_app. destruct (eol_shape D l eo) as (E1 & E2 & E3). rewrite E3, E2, E1. cbn [expected].
      unfold maybe. destruct (opt_is l chR) eqn:Elr.
      * cbn [app]. specialize (IH t l Hw2 Ht Hcl He' Hl). rewrite Elr in IH. exact IH.
      * cbn [app mg]. change ((chR =? chQ)%N) with false. cbv iota. change ((chR mod 256)%N) with chR.
        rewrite canonical_r. f_equal. exact (IH t (Some chR) Hw2 Ht Hcl He' (or_intror eq_refl)).
    + unfold wf_row in Hw1. apply andb_true_iff in Hw1 as [Hw1 Hw3].
      set (w := bfun _ _ _ l false (render_row D (ps :: cells))).
      assert (Hok : Forall (cell_ok D) (ps :: cells)).
      { rewrite forallb_forall in Hw1, He1. apply Forall_forall. intros x Hx. split; [now apply Hw1|now apply He1]. }
      assert (Hset : match ps :: cells with _ :: _ :: _ => is_set (cd D) = true | _ => True end).
      { destruct ps, cells; auto. }
      assert (Hlc : opt_is l chC = false) by (destruct Hl as [->| ->]; reflexivity).
      destruct (row_shape D Hwf _ Hok Hset l [] Hlc eq_refl) as (J1 & J2 & _).
      assert (Hlast : opt_is (lastl l w) chR = false).
      { apply J2; [discriminate|]. intros [= -> ->]. discriminate. }
      rewrite J1, bfun_app. destruct (eol_shape D (lastl l w) eo) as (E1 & E2 & E3).
      rewrite E3, E2, E1. unfold maybe. rewrite Hlast. cbn [app].
      set (rest := chR :: _).
      destruct (row_shape D Hwf _ Hok Hset l rest Hlc eq_refl) as (_ & _ & ks & K1 & K2). fold w in K2. rewrite K2.
      destruct (counts_blank ks _ K1) as [N1 N2]; [discriminate|intros [= -> ->]; discriminate|].
      unfold rest. cbn [mg]. change ((chR =? chQ)%N) with false. cbv iota. change ((chR mod 256)%N) with chR.
      rewrite row_canonical; [|assumption|assumption|right; eauto]. rewrite canon_from_r.
      rewrite (counts_length _ _ K1). change (expected _ ((ps :: cells) :: map fst rs) (tail_rows t)) with
        (shape (length (ps :: cells)) ++ chR :: expected true (map fst rs) (tail_rows t)).
      f_equal. f_equal. exact (IH t (Some chR) Hw2 Ht Hcl He' (or_intror eq_refl)).
Qed.

(** ** The pattern as a function of the table *)
Lemma shape_end n : 1 <= n -> exists x, shape n = x ++ [chC].
Proof.
  induction n as [|n IH]; [lia|]. intros _. destruct n as [|n]; [now exists []|].
  destruct IH as [x Hx]; [lia|]. rewrite shape_cons, Hx by lia. now exists (chC :: chD :: x).
Qed.
Lemma join_end {A} (full : list (list A)) : full <> [] -> Forall (fun r => r <> []) full ->
  exists x, join [chR] (map (fun r => shape (length r)) full) = x ++ [chC].
Proof.
  induction full as [|r full IH]; [contradiction|]. intros _ H. inversion H; subst.
  destruct full as [|r' full].
  - cbn [map join]. apply shape_end. destruct r; [contradiction|cbn; lia].
  - destruct IH as [x Hx]; [discriminate|assumption|].
    change (join [chR] (map (fun r => shape (length r)) (r :: r' :: full))) with
      (shape (length r) ++ [chR] ++ join [chR] (map (fun r => shape (length r)) (r' :: full))).
    rewrite Hx. exists (shape (length r) ++ [chR] ++ x). now rewrite <- !app_assoc.
Qed.
Lemma expected_true rows t : (t = [] \/ exists c, t = [c] /\ c <> []) -> exists n,
  let full := filter not_empty (rows ++ t) in
  expected true rows t = join [chR] (map (fun r => shape (length r)) full) ++ repeat chR n /\ (full = [] -> n = 0).
Proof.
  intros Ht. induction rows as [|r rows IH]; cbn [app expected filter].
  - destruct Ht as [->|(c & -> & Hc)]; [now exists 0|]. destruct c as [|x c]; [contradiction|].
    exists 0. cbn [filter not_empty map join repeat]. rewrite app_nil_r. split; [reflexivity|discriminate].
  - destruct r as [|x r]; cbn [not_empty]; [exact IH|]. destruct IH as (n & E & H0).
    destruct (filter not_empty (rows ++ t)) as [|y full] eqn:Ef.
    + exists 1. rewrite E, (H0 eq_refl). cbn [map join repeat app]. split; [reflexivity|discriminate].
    + exists n. rewrite E. split; [|discriminate].
      change (join [chR] (map (fun r0 => shape (length r0)) ((x :: r) :: y :: full))) with
        (shape (length (x :: r)) ++ [chR] ++ join [chR] (map (fun r0 => shape (length r0)) (y :: full))).
      now rewrite <- !app_assoc.
Qed.
Lemma strip_repeat s n : strip_trailing (s ++ repeat chR n) = strip_trailing s.
Proof.
  induction n as [|n IH]; [now rewrite app_nil_r|].
  assert (repeat chR (S n) = repeat chR n ++ [chR]) as ->.
  { clear. induction n; [reflexivity|]. cbn. now f_equal. }
  now rewrite app_assoc, strip_app_r.
Qed.
Lemma expected_strip rows t : (t = [] \/ exists c, t = [c] /\ c <> []) ->
  strip_trailing (expected false rows t) = table_shape (rows ++ t).
Proof.
  intros Ht. destruct (expected_true rows t Ht) as (n & E & H0).
  assert (Hl : expected false rows t = match rows with [] :: _ => [chR] | _ => [] end ++ expected true rows t).
  { destruct rows as [|[|x r] rows]; reflexivity. }
  rewrite Hl, E. unfold table_shape.
  assert (Hfull : Forall (fun r : list (list piece) => r <> []) (filter not_empty (rows ++ t))).
  { apply Forall_forall. intros r Hr. apply filter_In in Hr as [_ Hr]. intros ->. discriminate. }
  destruct (filter not_empty (rows ++ t)) as [|y full] eqn:Ef.
  - rewrite (H0 eq_refl). cbn [map join repeat app]. destruct rows as [|[|x r] rows]; reflexivity.
  - assert (Hm : match rows ++ t with [] :: _ => [chR] | _ => [] end = match rows with [] :: _ => [chR] | _ => [] end).
    { destruct rows; [|reflexivity]. destruct Ht as [->|(c & -> & Hc)]; [reflexivity|]. destruct c; [contradiction|reflexivity]. }
    rewrite Hm. destruct (join_end (y :: full)) as [x Hx]; [discriminate|exact Hfull|]. rewrite Hx.
    rewrite app_assoc, strip_repeat, app_assoc. apply strip_last. discriminate.
Qed.

Lemma table_shape_len {A B} (r1 : list (list A)) (r2 : list (list B)) :
  map (@length A) r1 = map (@length B) r2 -> table_shape r1 = table_shape r2.
Proof.
  intros H. unfold table_shape.
  assert (F : map (@length A) (filter not_empty r1) = map (@length B) (filter not_empty r2)).
  { revert r2 H. induction r1 as [|a r1 IH]; intros [|b r2] H; try discriminate; [reflexivity|].
    injection H as H1 H2. cbn. destruct a, b; try discriminate; cbn [not_empty]; [now apply IH|].
    cbn [map]. rewrite (IH _ H2). now f_equal. }
  assert (G : map (fun r => shape (length r)) (filter not_empty r1) = map (fun r => shape (length r)) (filter not_empty r2)).
  { rewrite <- (map_map (@length A) shape), <- (map_map (@length B) shape). now rewrite F. }
  assert (K : (match r1 with [] :: _ => [chR] | _ => [] end) = (match r2 with [] :: _ => [chR] | _ => [] end)).
  { destruct r1 as [|[|] ], r2 as [|[|] ]; try discriminate; reflexivity. }
  destruct (filter not_empty r1), (filter not_empty r2); try discriminate; [reflexivity|].
  rewrite K. f_equal. exact (f_equal (join [chR]) G).
Qed.

Theorem abstraction_layout D d strict :
  wf_chars D = true -> wf_doc D d = true -> closed d = true -> esc_ok d = true ->
  make_abstraction (render D d) (simple D strict) = Ok (table_shape (denote D d)).
Proof.
  intros Hwf Hd Hc He. rewrite make_abstraction_simple. f_equal.
  destruct d as [rs t]. unfold wf_doc in Hd. cbn [records last] in Hd. apply andb_true_iff in Hd as [Hr Ht].
  unfold render. cbn [records last]. rewrite doc_shape by (auto). cbn [opt_is].
  rewrite expected_strip.
  - apply table_shape_len. unfold denote. cbn [records last]. rewrite !map_app, !map_map. f_equal.
    + apply map_ext. intros r. unfold row_value. now rewrite map_length.
    + destruct t as [|cells| | |]; try discriminate; [reflexivity|]. cbn [tail_rows tail_value map length].
      rewrite app_length, map_length. cbn [length]. cbn [wf_tail] in Ht.
      destruct cells as [|c cells]; [rewrite andb_false_r in Ht; discriminate|].
      rewrite (app_removelast_last (l := c :: cells) []) at 1 by discriminate.
      now rewrite app_length.
  - destruct t as [|cells| | |]; try discriminate; [now left|]. right. exists cells. split; [reflexivity|].
    cbn in Ht. intros ->. rewrite andb_false_r in Ht. discriminate.
Qed.

(** ** Quotes left open *)
Section Open.
  Variable D : chars.
  Hypothesis Hwf : wf_chars D = true.
  Notation d := (opt_n (cd D)).
  Notation q := (opt_n (cq D)).
  Notation e := (opt_n (ce D)).
  Notation B l s := (bfun d q e l false s).
  Notation E0 s := (besc d q e false s).

  Definition clean (u : list N) : Prop := ~ In NUL u.
  Lemma clean_run k : clean (repeat chC k).
  Proof. intros H. apply repeat_spec in H. discriminate. Qed.
  Lemma clean_rowpat ks : clean (rowpat ks).
  Proof.
    induction ks as [|k ks IH]; [intros []|]. destruct ks as [|k' ks]; [apply clean_run|].
    unfold clean. change (rowpat (k :: k' :: ks)) with (repeat chC k ++ chD :: rowpat (k' :: ks)).
    rewrite in_app_iff. intros [H|[H|H]]; [now apply clean_run in H|discriminate|now apply IH].
  Qed.

  Lemma records_clean rs : wf_records D rs = true -> forallb (fun r => forallb esc_ok_cell (fst r)) rs = true ->
    forall l, opt_is l chC = false ->
    E0 (concat (map (render_record D) rs)) = false /\
    opt_is (lastl l (B l (concat (map (render_record D) rs)))) chC = false /\
    forall rest, exists u, mg None (B l (concat (map (render_record D) rs)) ++ rest) = u ++ mg None rest /\ clean u.
  Proof.
    induction rs as [|[cells eo] rs IH]; intros Hw He l Hl.
    - split; [reflexivity|]. split; [exact Hl|]. intros rest. exists []. split; [reflexivity|intros []].
    - cbn [wf_records] in Hw. rewrite !andb_true_iff in Hw. destruct Hw as [[Hw1 _] Hw2].
      cbn [forallb fst] in He. apply andb_true_iff in He as [He1 He2].
      cbn [map concat]. unfold render_record at 1 3 5. cbn [fst snd]. rewrite <- !app_assoc.
      unfold wf_row in Hw1. apply andb_true_iff in Hw1 as [Hw1 Hw3].
      assert (Hok : Forall (cell_ok D) cells).
      { rewrite forallb_forall in Hw1, He1. apply Forall_forall. intros x Hx. split; [now apply Hw1|now apply He1]. }
      assert (Hset : match cells with _ :: _ :: _ => is_set (cd D) = true | _ => True end).
      { destruct cells as [|[|] [|]]; auto. }
      destruct (row_shape D Hwf _ Hok Hset l [] Hl eq_refl) as (J1 & J2 & _).
      rewrite !(besc_app _ _ _ false (render_row D cells)), J1.
      rewrite !(bfun_app _ _ _ (render_row D cells)), J1.
      set (w := B l (render_row D cells)) in *.
      destruct (eol_shape D (lastl l w) eo) as (E1 & E2 & E3).
      rewrite !(besc_app _ _ _ false (render_eol eo)), !(bfun_app _ _ _ (render_eol eo)), E2.
      rewrite !lastl_app, !E3.
      set (l2 := if opt_is (lastl l w) chR then lastl l w else Some chR).
      assert (Hl2 : opt_is l2 chC = false).
      { unfold l2. destruct (lastl l w) as [y|]; [|reflexivity]. cbn. destruct (N.eqb_spec y chR) as [->|]; reflexivity. }
      destruct (IH Hw2 He2 l2 Hl2) as (I1 & I2 & I3). split; [exact I1|]. split; [exact I2|].
      intros rest. rewrite E1, <- !app_assoc. unfold maybe.
      destruct (opt_is (lastl l w) chR) eqn:Elr.
      + (* only a blank line follows an R *)
        assert (cells = []) as ->.
        { destruct cells as [|c cells]; [reflexivity|]. exfalso.
          assert (X1 : c :: cells <> []) by discriminate.
          assert (X2 : c :: cells <> [[]]) by (intros X; injection X as X X'; rewrite X, X' in Hw3; discriminate Hw3).
          specialize (J2 X1 X2). discriminate J2. }
        unfold w. change (render_row D []) with (@nil N). cbn [bfun app]. apply I3.
      + destruct (I3 rest) as (u & U1 & U2).
        destruct (row_shape D Hwf _ Hok Hset l ([chR] ++ B l2 (concat (map (render_record D) rs)) ++ rest) Hl eq_refl)
          as (_ & _ & ks & _ & K2). fold w in K2. rewrite K2.
        exists (rowpat ks ++ chR :: u). split.
        * cbn [app mg]. change ((chR =? chQ)%N) with false. cbv iota. change ((chR mod 256)%N) with chR.
          rewrite U1, <- app_assoc. reflexivity.
        * unfold clean. rewrite in_app_iff. intros [H|[H|H]]; [now apply clean_rowpat in H|discriminate|now apply U2].
  Qed.

  Lemma cells_open_clean cells : Forall (cell_ok D) cells -> (cells <> [] -> is_set (cd D) = true) ->
    forall l, opt_is l chC = false ->
    E0 (render_cells_open D cells) = false /\ 
    opt_is (lastl l (B l (render_cells_open D cells))) chC = false /\
    forall rest, exists u, mg None (B l (render_cells_open D cells) ++ rest) = u ++ mg None rest /\ clean u.
  Proof.
    induction cells as [|ps cells IH]; intros Hc Hs l Hl.
    - split; [reflexivity|]. split; [exact Hl|]. intros rest. exists []. split; [reflexivity|intros []].
    - inversion Hc as [|? ? [Hw He] Hc']; subst. unfold wf_cell in Hw. apply andb_true_iff in Hw as [Hw Hn].
      destruct (opt_str_is _ (Hs ltac:(discriminate))) as (x & Ex & Hx).
      unfold render_cells_open. cbn [map concat]. fold (render_cells_open D cells). rewrite Ex, <- app_assoc.
      destruct (IH Hc' (fun _ => Hs ltac:(discriminate)) (Some chD) eq_refl) as (J1 & J2 & J3).
      destruct (cell_shape D Hwf ps Hw Hn He l [chD] (fun _ => eq_refl)) as (I1 & _ & _).
      rewrite !besc_app, I1, (besc_1 D l false), step_delim by assumption. split; [exact J1|].
      rewrite !bfun_app, I1, bfun1, (besc_1 D l false), !step_delim by assumption. cbn [fst snd].
      rewrite !lastl_app. cbn [lastl fold_left]. fold (lastl (Some chD) (B (Some chD) (render_cells_open D cells))).
      split; [exact J2|]. intros rest.
      destruct (J3 rest) as (u & U1 & U2).
      destruct (cell_shape D Hwf ps Hw Hn He l ([chD] ++ B (Some chD) (render_cells_open D cells) ++ rest) (fun _ => eq_refl))
        as (_ & _ & k & K & _).
      exists (repeat chC k ++ chD :: u). split.
      + rewrite <- !app_assoc. rewrite K. cbn [app mg]. change ((chD =? chQ)%N) with false. cbv iota.
        change ((chD mod 256)%N) with chD. now rewrite U1.
      + unfold clean. rewrite in_app_iff. intros [H|[H|H]]; [now apply clean_run in H|discriminate|now apply U2].
  Qed.

  Definition open_doubled (t : tail) : Prop :=
    match t with TOpen _ _ l | TOpenEsc _ _ l => In QQuote l | _ => False end.

  Lemma tail_nul t : wf_tail D t = true -> esc_ok (mk_doc [] t) = true -> forall l, opt_is l chC = false ->
    In NUL (mg None (B l (render_tail D t))) <-> open_doubled t.
  Proof.
    intros Hw He l Hl. unfold esc_ok in He. cbn [records last forallb andb] in He.
    (* cells, then the pieces of an unfinished cell *)
    assert (K : forall cells ps rest, wf_open D cells ps = true -> forallb esc_ok_cell (ps :: cells) = true ->
       (forall l', ends_quoted ps = true -> not_q (B l' rest)) ->
       exists u l', mg None (B l (render_cells_open D cells ++ render_cell D ps ++ rest)) = u ++ mg None (B l' rest) /\ clean u).
    { intros cells ps rest Ho He' Hr. unfold wf_open in Ho. rewrite !andb_true_iff in Ho. destruct Ho as [[O1 O2] O3].
      cbn [forallb] in He'. apply andb_true_iff in He' as [E1 E2].
      unfold wf_cell in O2. apply andb_true_iff in O2 as [O2 O4].
      destruct (cells_open_clean cells) with (l := l) as (C1 & C2 & C3).
      - rewrite forallb_forall in O1, E2. apply Forall_forall. intros x Hx. split; [now apply O1|now apply E2].
      - destruct cells; [contradiction|auto].
      - exact Hl.
      - rewrite bfun_app, C1. set (l1 := lastl l _) in *. rewrite bfun_app.
        destruct (cell_shape D Hwf ps O2 O4 E1 l1 (B (lastl l1 (B l1 (render_cell D ps))) rest) (fun H => Hr _ H)) as (I1 & _ & k & I3 & _).
        rewrite I1. destruct (C3 (B l1 (render_cell D ps) ++ B (lastl l1 (B l1 (render_cell D ps))) rest)) as (u & U1 & U2).
        exists (u ++ repeat chC k), (lastl l1 (B l1 (render_cell D ps))). rewrite U1, I3, app_assoc. split; [reflexivity|].
        unfold clean. rewrite in_app_iff. intros [H|H]; [now apply U2|now apply clean_run in H]. }
    (* an open quoted segment *)
    assert (Q : forall l' items rest, is_set (cq D) = true -> forallb (wf_qitem D) items = true -> esc_ok_items items = true ->
       (forall l'', B l'' rest = []) ->
       In NUL (mg None (B l' (opt_str (cq D) ++ render_qitems D items ++ rest))) <-> In QQuote items).
    { intros l' items rest Hq Hi Hei Hr. destruct (opt_str_is _ Hq) as (x & -> & Hx).
      rewrite bfun_app, bfun1, (besc_1 D l' false), step_quote by assumption. cbn [fst snd lastl fold_left].
      rewrite bfun_app. destruct (qitems_shape D Hwf items Hq Hi Hei (Some chQ)) as [F1 F2]. rewrite F1, Hr.
      destruct (F2 [chQ] []) as (a' & A1 & A2). cbn [app mg]. change ((chQ =? chQ)%N) with true. cbv iota.
      rewrite A1. cbn [mg]. rewrite <- in_rev, A2. cbn. split; [intros [[H|[]]|H]; [discriminate|exact H]|auto]. }
    assert (Er : forall l', is_set (ce D) = true -> B l' (opt_str (ce D)) = []).
    { intros l' Hs. destruct (opt_str_is _ Hs) as (x & -> & Hx). rewrite bfun1, step_esc by assumption. reflexivity. }
    destruct t as [|cells|cells ps|cells ps items|cells ps items]; cbn [render_tail wf_tail open_doubled] in *.
    - cbn. tauto.
    - split; [|contradiction]. apply andb_true_iff in Hw as [Hw _]. unfold wf_row in Hw.
      apply andb_true_iff in Hw as [W1 W2].
      destruct (row_shape D Hwf cells) with (l := l) (rest := @nil N) as (_ & _ & ks & _ & K2).
      + rewrite forallb_forall in W1, He. apply Forall_forall. intros x Hx. split; [now apply W1|now apply He].
      + destruct cells as [|[|] [|]]; auto.
      + exact Hl.
      + reflexivity.
      + rewrite app_nil_r in K2. rewrite K2. cbn [mg]. rewrite app_nil_r. apply clean_rowpat.
    - apply andb_true_iff in Hw as [W1 W2]. split; [|contradiction].
      destruct (K cells ps (opt_str (ce D)) W1 He) as (u & l' & U1 & U2).
      + intros l' _. rewrite Er by exact W2. reflexivity.
      + rewrite U1, Er by exact W2. cbn [mg]. rewrite app_nil_r. exact U2.
    - rewrite !andb_true_iff in Hw. destruct Hw as [[[W1 W2] W3] W4]. apply negb_true_iff in W3.
      apply andb_true_iff in He as [He1 He2].
      destruct (K cells ps (opt_str (cq D) ++ render_qitems D items) W1 He1) as (u & l' & U1 & U2); [congruence|].
      rewrite U1, in_app_iff. specialize (Q l' items [] W2 W4 He2 (fun _ => eq_refl)). rewrite app_nil_r in Q.
      rewrite Q. unfold clean in U2. tauto.
    - rewrite !andb_true_iff in Hw. destruct Hw as [[[[W1 W2] W3] W4] W5]. apply negb_true_iff in W3.
      apply andb_true_iff in He as [He1 He2].
      destruct (K cells ps (opt_str (cq D) ++ render_qitems D items ++ opt_str (ce D)) W1 He1) as (u & l' & U1 & U2); [congruence|].
      rewrite U1, in_app_iff. rewrite (Q l' items _ W2 W4 He2 (fun l'' => Er l'' W5)). unfold clean in U2. tauto.
  Qed.
End Open.

Theorem abstraction_nul D d strict a :
  wf_chars D = true -> wf_doc D d = true -> esc_ok d = true ->
  make_abstraction (render D d) (simple D strict) = Ok a ->
  (In NUL a <-> open_doubled (last d)).
Proof.
  intros Hwf Hd He Ha. rewrite make_abstraction_simple in Ha. injection Ha as <-.
  rewrite strip_in, canonical_in by discriminate.
  destruct d as [rs t]. unfold wf_doc in Hd. cbn [records last] in Hd. apply andb_true_iff in Hd as [Hr Ht].
  unfold render. cbn [records last].
  unfold esc_ok in He. cbn [records last] in He. apply andb_true_iff in He as [He1 He2].
  destruct (records_clean D Hwf rs Hr He1 None eq_refl) as (R1 & R2 & R3).
  rewrite bfun_app, R1. destruct (R3 (bfun (opt_n (cd D)) (opt_n (cq D)) (opt_n (ce D))
     (lastl None (bfun (opt_n (cd D)) (opt_n (cq D)) (opt_n (ce D)) None false (concat (map (render_record D) rs))))
     false (render_tail D t))) as (u & U1 & U2). rewrite U1, in_app_iff.
  rewrite (tail_nul D Hwf t Ht He2 _ R2). unfold clean in U2. tauto.
Qed.

Lemma mk_rows_shape rq rows : table_shape (mk_rows rq rows) = table_shape rows.
Proof.
  apply table_shape_len. unfold mk_rows. rewrite map_map. apply map_ext. intros r. apply map_length.
Qed.
Lemma table_shape_letters {A} (rows : list (list A)) : Forall (fun c => c = chC \/ c = chD \/ c = chR) (table_shape rows).
Proof.
  assert (J : forall sep l, (sep = chC \/ sep = chD \/ sep = chR) -> Forall (Forall (fun c => c = chC \/ c = chD \/ c = chR)) l ->
    Forall (fun c => c = chC \/ c = chD \/ c = chR) (join [sep] l)).
  { intros sep l Hs. induction l as [|x l IH]; intros H; [constructor|]. inversion H; subst.
    destruct l as [|y l]; [assumption|]. change (join [sep] (x :: y :: l)) with (x ++ [sep] ++ join [sep] (y :: l)).
    apply Forall_app. split; [assumption|]. apply Forall_app. split; [now constructor|now apply IH]. }
  unfold table_shape. destruct (filter not_empty rows) as [|r full]; [constructor|].
  apply Forall_app. split.
  - destruct rows as [|[|] ]; try apply Forall_nil. apply Forall_cons; [auto|apply Forall_nil].
  - apply J; [auto|]. apply Forall_forall. intros x Hx. apply in_map_iff in Hx as (r' & <- & _).
    apply J; [auto|]. apply Forall_forall. intros y Hy. apply repeat_spec in Hy. subst y. repeat constructor.
Qed.

Lemma escaped_newline_mismatch :
  exists D d, wf_chars D = true /\ wf_doc D d = true /\ closed d = true /\
    make_abstraction (render D d) (simple D false) <> Ok (table_shape (denote D d)).
Proof.
  exists (mk_chars (Some COMMA) (Some DQ) (Some BACKSLASH)).
  exists (mk_doc [] (TRow [[PChar 97%N; PEsc LF; PChar 98%N]])).
  repeat split. rewrite make_abstraction_simple. vm_compute. discriminate.
Qed.
