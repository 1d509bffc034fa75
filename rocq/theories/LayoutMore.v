(** * LayoutMore: consequences of the layout theorem *)
From Verif Require Import Base Parser Dialect ParserFacts SpecLayout SpecParse SpecText LayoutFacts
  LayoutTotal LayoutLimit ParserProps ParserLift.

(** ** C04: terminators do not matter *)
Theorem terminators_irrelevant D d1 d2 limit rq :
  wf_chars D = true -> wf_doc D d1 = true -> wf_doc D d2 = true ->
  map fst (records d1) = map fst (records d2) -> last d1 = last d2 -> (0 <= limit)%Z ->
  parse_string limit (render D d1) (simple D false) rq =
  parse_string limit (render D d2) (simple D false) rq.
Proof.
  intros HD H1 H2 Hr Ht HL.
  assert (Hraw : raw_cells D d1 = raw_cells D d2).
  { unfold raw_cells. rewrite Ht. f_equal. f_equal.
    rewrite <- (map_map fst (map (raw_cell D)) (records d1)), Hr, map_map. reflexivity. }
  assert (Hrows : forall A (f : list (list piece) -> A),
    map (fun r => f (fst r)) (records d1) = map (fun r : list (list piece) * eol => f (fst r)) (records d2)).
  { intros A f. rewrite <- (map_map fst f (records d1)), Hr, map_map. reflexivity. }
  rewrite !parse_string_conf.
  destruct (forallb (fits limit) (raw_cells D d1)) eqn:E.
  - rewrite !parse_layout; auto; try (apply raw_oks; congruence).
    unfold denote. now rewrite Hrows, Ht.
  - rewrite !parse_layout_fail; auto; try congruence; try (now apply Z.leb_le).
    f_equal. f_equal. f_equal.
    assert (Hf : map fst (fitting D limit (records d1)) = map fst (fitting D limit (records d2))).
    { clear -Hr. revert Hr. generalize (records d2). induction (records d1) as [|[c e] rs IH]; intros [|[c' e'] rs'] H;
        try discriminate; [reflexivity|]. cbn in H |- *. injection H as -> H.
      destruct (forallb _ _); [|reflexivity]. cbn. f_equal. now apply IH. }
    rewrite <- (map_map fst (row_value D) (fitting D limit (records d1))), Hf, map_map. reflexivity.
Qed.

(** ** C03: no quoting, no escaping *)
Definition plain_D (d : option N) := mk_chars d None None.

Lemma plain_piece d p : wf_piece (plain_D d) p = true ->
  exists c, p = PChar c /\ c <> 0%N /\ is_nl c = false /\ is_opt d c = false.
Proof.
  destruct p as [c|c|l]; cbn; try discriminate. unfold special. cbn. intros H. bool_split.
  exists c. repeat split; auto. now apply N.eqb_neq.
Qed.

Lemma plain_cell d ps : wf_cell (plain_D d) ps = true ->
  exists s, ps = map PChar s /\ render_cell (plain_D d) ps = s /\ raw_cell (plain_D d) ps = s /\
    Forall (fun c => is_nl c = false /\ is_opt d c = false) s.
Proof.
  unfold wf_cell. intros H. apply andb_true_iff in H as [H _].
  induction ps as [|p ps IH]; [exists []; repeat split; constructor|].
  cbn in H. apply andb_true_iff in H as [Hp Hps].
  destruct (plain_piece d p Hp) as (c & -> & _ & Hn & Ho).
  destruct (IH Hps) as (s & -> & E2 & E3 & E4).
  exists (c :: s). cbn. unfold render_cell, raw_cell in *. cbn. rewrite E2, E3.
  repeat split. constructor; auto.
Qed.

Lemma unquote_plain d s : unquote (plain_D d) s = (s, false).
Proof. unfold unquote, enclosed. destruct s as [|c [|c' s]]; reflexivity. Qed.
Lemma unquote_end_plain d s : unquote_at_end (plain_D d) s = (s, false).
Proof. unfold unquote_at_end. rewrite unquote_plain. destruct s; reflexivity. Qed.

Lemma split_at_app d s : forall cur k, Forall (fun c => (c =? d)%N = false) s ->
  split_at d cur (s ++ d :: k) = (cur ++ s) :: split_at d [] k.
Proof.
  induction s as [|c s IH]; intros cur k H; cbn.
  - rewrite N.eqb_refl, app_nil_r. reflexivity.
  - inversion H; subst. rewrite H2, IH by assumption. now rewrite <- app_assoc.
Qed.
Lemma split_at_end d s : forall cur, Forall (fun c => (c =? d)%N = false) s ->
  split_at d cur s = [cur ++ s].
Proof.
  induction s as [|c s IH]; intros cur H; cbn; [now rewrite app_nil_r|].
  inversion H; subst. rewrite H2, IH by assumption. now rewrite <- app_assoc.
Qed.

Lemma plain_cells d cells : forallb (wf_cell (plain_D d)) cells = true ->
  exists ss, map (render_cell (plain_D d)) cells = ss /\ map (raw_cell (plain_D d)) cells = ss /\
    Forall (Forall (fun c => is_nl c = false /\ is_opt d c = false)) ss.
Proof.
  induction cells as [|ps cells IH]; intros H; [exists []; repeat split; constructor|].
  cbn in H. apply andb_true_iff in H as [H1 H2].
  destruct (plain_cell d ps H1) as (s & _ & E1 & E2 & E3). destruct (IH H2) as (ss & F1 & F2 & F3).
  exists (s :: ss). cbn. rewrite E1, E2, F1, F2. repeat split. now constructor.
Qed.

Lemma split_join d ss : ss <> [] -> Forall (Forall (fun c => (c =? d)%N = false)) ss ->
  split_at d [] (join [d] ss) = ss.
Proof.
  induction ss as [|s [|s' ss] IH]; intros Hne H; [congruence| |]; inversion H as [|? ? H1 H2]; subst.
  - cbn. now apply split_at_end.
  - change (join [d] (s :: s' :: ss)) with (s ++ d :: join [d] (s' :: ss)).
    rewrite split_at_app by assumption. cbn [app]. f_equal. apply IH; [discriminate|assumption].
Qed.

Lemma plain_row d cells : char_ok d = true -> wf_row (plain_D d) cells = true ->
  Forall (fun c => is_nl c = false) (render_row (plain_D d) cells) /\
  split_row_plain d (render_row (plain_D d) cells) = map (raw_cell (plain_D d)) cells /\
  (cells <> [] -> render_row (plain_D d) cells <> []).
Proof.
  unfold wf_row. intros Hd H. apply andb_true_iff in H as [Hw Hs].
  destruct (plain_cells d cells Hw) as (ss & E1 & E2 & E3).
  unfold render_row. cbn [cd plain_D]. rewrite E1, E2.
  assert (Hlen : length cells = length ss) by (rewrite <- E1; now rewrite map_length).
  destruct ss as [|s ss].
  { destruct cells; [|discriminate]. repeat split; [constructor|congruence]. }
  assert (Hne0 : (exists x, d = Some x /\ ss <> []) \/ (ss = [] /\ s <> [])).
  { destruct cells as [|c0 [|c1 cells]]; cbn in Hlen; try discriminate.
    - destruct ss; [|discriminate]. right. split; [reflexivity|]. cbn in E1. injection E1 as E1.
      destruct (plain_cell d c0) as (s' & -> & E & _); [cbn in Hw; bool_split; assumption|].
      rewrite E in E1. subst s'. destruct s; cbn in Hs; congruence.
    - left. assert (Hs' : is_set d = true) by (destruct c0; exact Hs).
      destruct d as [x|]; [|discriminate Hs']. exists x. split; [reflexivity|].
      destruct ss; cbn in *; congruence. }
  destruct Hne0 as [(x & -> & Hss)|[-> Hs0]].
  - cbn [opt_str is_opt] in *.
    assert (Hj : join [x] (s :: ss) <> []).
    { destruct ss; [congruence|]. cbn. destruct s; discriminate. }
    repeat split; auto.
    + cbn in Hd. bool_split. clear -E3 H0. induction E3 as [|a l Ha _ IH]; [constructor|].
      assert (Ha' : Forall (fun c => is_nl c = false) a)
        by (eapply Forall_impl; [|exact Ha]; cbn; tauto).
      destruct l as [|b l]; [exact Ha'|].
      change (join [x] (a :: b :: l)) with (a ++ [x] ++ join [x] (b :: l)).
      repeat (apply Forall_app; split); auto.
    + unfold split_row_plain. destruct (join [x] (s :: ss)) eqn:E; [congruence|]. rewrite <- E.
      apply split_join; [discriminate|].
      eapply Forall_impl; [|exact E3]. intros a Ha. eapply Forall_impl; [|exact Ha]. cbn. tauto.
  - cbn [join]. inversion E3 as [|? ? E4 _]; subst. repeat split; auto.
    + eapply Forall_impl; [|exact E4]. cbn. tauto.
    + unfold split_row_plain. destruct s as [|c s]; [congruence|].
      destruct d as [x|]; [|reflexivity]. rewrite split_at_end; [reflexivity|].
      eapply Forall_impl; [|exact E4]. cbn. tauto.
Qed.

Lemma nl_facts c : is_nl c = false -> (c =? LF)%N = false /\ (c =? CR)%N = false.
Proof. unfold is_nl. intros H. apply orb_false_iff in H. tauto. Qed.

Lemma phys_line e s : forall cur k, Forall (fun c => is_nl c = false) s ->
  (e = ECR -> starts_lf k = false) ->
  phys_lines_aux cur (s ++ render_eol e ++ k) = (cur ++ s) :: phys_lines_aux [] k.
Proof.
  induction s as [|c s IH]; intros cur k H He; cbn [app].
  - rewrite app_nil_r. destruct e; cbn; [reflexivity| |reflexivity].
    specialize (He eq_refl). destruct k as [|c k]; [reflexivity|]. cbn in He. now rewrite He.
  - inversion H; subst. destruct (nl_facts c H2) as [E1 E2]. cbn. rewrite E1, E2, IH by assumption.
    now rewrite <- app_assoc.
Qed.
Lemma phys_last s : forall cur, Forall (fun c => is_nl c = false) s -> cur ++ s <> [] ->
  phys_lines_aux cur s = [cur ++ s].
Proof.
  induction s as [|c s IH]; intros cur H Hne; cbn.
  - rewrite app_nil_r in *. destruct cur; [now destruct Hne|reflexivity].
  - inversion H; subst. destruct (nl_facts c H2) as [E1 E2]. rewrite E1, E2, IH by
      (try assumption; rewrite <- app_assoc; exact Hne). now rewrite <- app_assoc.
Qed.

Lemma records_cr D rs t : wf_chars D = true ->
  match rs with ([], ELF) :: _ => false | _ => true end = true ->
  wf_records D rs = true -> wf_tail D t = true ->
  starts_lf (render D (mk_doc rs t)) = false.
Proof.
  intros HD Hcr Hrs Ht. destruct rs as [|[cells' e'] rs].
  - cbn. now apply tail_starts_lf.
  - unfold render. cbn [records last map concat]. unfold render_record at 1. cbn [fst snd].
    cbn [wf_records] in Hrs. bool_split.
    destruct cells' as [|c' cells'].
    + destruct e'; try discriminate; reflexivity.
    + rewrite <- !app_assoc. apply row_starts_lf; [assumption|assumption|discriminate].
Qed.

Lemma plain_doc d dc : char_ok d = true -> wf_doc (plain_D d) dc = true ->
  map (map (fun s => (s, false))) (split_table d (render (plain_D d) dc)) = denote (plain_D d) dc /\
  concat (split_table d (render (plain_D d) dc)) = raw_cells (plain_D d) dc.
Proof.
  intros Hd Hw. unfold wf_doc in Hw. apply andb_true_iff in Hw as [Hr Ht].
  assert (HD : wf_chars (plain_D d) = true).
  { unfold wf_chars. cbn. rewrite Hd. now destruct d. }
  destruct dc as [rs t]. cbn [records last] in *.
  induction rs as [|[cells e] rs IH].
  - unfold render, denote, raw_cells. cbn [records last map concat app].
    destruct t as [|cells|cells ps|cells ps l|cells ps l]; cbn in Ht; try (rewrite !andb_false_r in Ht; discriminate).
    + split; reflexivity.
    + apply andb_true_iff in Ht as [Ht Hne].
      destruct (plain_row d cells Hd Ht) as (H1 & H2 & H3).
      assert (Hc : cells <> []) by (destruct cells; [discriminate|discriminate]).
      unfold split_table, phys_lines. cbn [render_tail].
      rewrite phys_last by (auto; apply H3; auto). cbn [map app concat].
      rewrite H2. cbn [tail_value]. split; [|apply app_nil_r].
      f_equal. destruct (exists_last Hc) as (cells' & ps & ->).
      rewrite removelast_last, last_last, !map_app. cbn [map].
      f_equal.
      * rewrite map_map. apply map_ext. intros x. unfold cell_value. now rewrite unquote_plain.
      * destruct (after_esc_nl false ps); [now rewrite unquote_end_plain|].
        unfold cell_value. now rewrite unquote_plain.
  - cbn [wf_records] in Hr. apply andb_true_iff in Hr as [Hr Hrs]. apply andb_true_iff in Hr as [Hrow Hcr].
    destruct (IH Hrs) as [I1 I2].
    destruct (plain_row d cells Hd Hrow) as (H1 & H2 & H3).
    unfold render, denote, raw_cells in *. cbn [records last map concat] in *.
    unfold render_record at 1 3. cbn [fst snd]. rewrite <- !app_assoc.
    unfold split_table, phys_lines in *.
    rewrite phys_line.
    + cbn [app map concat]. rewrite I1, I2, H2. split; [|reflexivity]. cbn [app]. f_equal.
      unfold row_value. rewrite map_map. apply map_ext. intros x. unfold cell_value. now rewrite unquote_plain.
    + assumption.
    + intros ->. apply (records_cr (plain_D d) rs t); auto.
Qed.

Theorem parse_plain d t limit rq :
  char_ok d = true -> no_nul t ->
  Forall (fun s => Z.of_nat (length s) <= limit)%Z (concat (split_table d t)) ->
  parse_string limit t (simple (plain_D d) false) rq =
    (mk_rows rq (map (map (fun s => (s, false))) (split_table d t)), None).
Proof.
  intros Hd Hn HL. destruct (layout_total (plain_D d) t Hn) as (dc & Hw & <-).
  assert (HD : wf_chars (plain_D d) = true).
  { unfold wf_chars. cbn. rewrite Hd. now destruct d. }
  destruct (plain_doc d dc Hd Hw) as [E1 E2]. rewrite E1. apply parse_string_layout; auto.
  now rewrite <- E2.
Qed.

(** ** Text is neither lost nor invented (C08, C11) *)
Lemma subseq_refl a : subseq a a.
Proof. induction a; constructor; auto. Qed.
Lemma subseq_app a b c d : subseq a b -> subseq c d -> subseq (a ++ c) (b ++ d).
Proof.
  induction 1 as [b|x a b H IH|x a b H IH]; intros K; cbn.
  - induction b as [|x b IHb]; [exact K|]. now constructor.
  - constructor. auto.
  - constructor. auto.
Qed.
Lemma subseq_trans b c : subseq b c -> forall a, subseq a b -> subseq a c.
Proof.
  induction 1 as [c|x b c H IH|x b c H IH]; intros a K.
  - inversion K. constructor.
  - inversion K; subst; constructor; auto.
  - constructor. auto.
Qed.
Lemma subseq_app_l a b c : subseq a b -> subseq a (b ++ c).
Proof. intros H. rewrite <- (app_nil_r a). apply subseq_app; [exact H|constructor]. Qed.
Lemma subseq_app_r a b c : subseq a c -> subseq a (b ++ c).
Proof. intros H. change a with ([] ++ a). apply subseq_app; [constructor|exact H]. Qed.
Lemma subseq_tl a : subseq (tl a) a.
Proof. destruct a; constructor. apply subseq_refl. Qed.
Lemma subseq_removelast a : subseq (removelast a) a.
Proof.
  induction a as [|x [|y a] IH]; [constructor|cbn; constructor|].
  change (removelast (x :: y :: a)) with (x :: removelast (y :: a)). now constructor.
Qed.
Lemma subseq_concat {A} (f g : A -> str) l : (forall x, In x l -> subseq (f x) (g x)) ->
  subseq (concat (map f l)) (concat (map g l)).
Proof.
  induction l as [|x l IH]; intros H; cbn; [constructor|].
  apply subseq_app; [apply H; now left|]. apply IH. intros y Hy. apply H. now right.
Qed.

(** Two ways of comparing a value with its text: by deletion, and by what
    remains of the ordinary characters. *)
Definition keeps (D : chars) (a b : str) : Prop :=
  subseq a b /\ filter (ordinary D) a = filter (ordinary D) b.

Lemma keeps_refl D a : keeps D a a.
Proof. split; [apply subseq_refl|reflexivity]. Qed.
Lemma keeps_app D a b c d : keeps D a b -> keeps D c d -> keeps D (a ++ c) (b ++ d).
Proof. intros [H1 H2] [K1 K2]. split; [now apply subseq_app|]. rewrite !filter_app. congruence. Qed.
Lemma keeps_trans D a b c : keeps D a b -> keeps D b c -> keeps D a c.
Proof. intros [H1 H2] [K1 K2]. split; [eapply subseq_trans; eassumption|congruence]. Qed.
Lemma keeps_concat D {A} (f g : A -> str) l : (forall x, In x l -> keeps D (f x) (g x)) ->
  keeps D (concat (map f l)) (concat (map g l)).
Proof.
  induction l as [|x l IH]; intros H; cbn; [apply keeps_refl|].
  apply keeps_app; [apply H; now left|]. apply IH. intros y Hy. apply H. now right.
Qed.
Lemma keeps_drop D a b : filter (ordinary D) b = [] -> keeps D a (a ++ b).
Proof.
  intros H. split; [apply subseq_app_l, subseq_refl|]. now rewrite filter_app, H, app_nil_r.
Qed.
Lemma keeps_drop_front D a b : filter (ordinary D) b = [] -> keeps D a (b ++ a).
Proof.
  intros H. split; [apply subseq_app_r, subseq_refl|]. now rewrite filter_app, H.
Qed.

Lemma ord_opt D o : o = cd D \/ o = cq D \/ o = ce D -> filter (ordinary D) (opt_str o) = [].
Proof.
  intros H. destruct o as [x|]; [|reflexivity]. cbn.
  replace (ordinary D x) with false; [reflexivity|]. unfold ordinary, special.
  destruct H as [<-|[<-|<-]]; cbn; rewrite N.eqb_refl, ?orb_true_r; reflexivity.
Qed.
Lemma ord_eol D e : filter (ordinary D) (render_eol e) = [].
Proof.
  unfold ordinary. destruct e; cbn; rewrite ?andb_false_r; reflexivity.
Qed.

Lemma keeps_qitem D i : keeps D (qitem_value D i) (render_qitem D i).
Proof.
  destruct i as [c| |c]; cbn; [apply keeps_refl| |].
  - apply keeps_drop, ord_opt; auto.
  - destruct (special D c); [|apply keeps_refl]. apply keeps_drop_front, ord_opt; auto.
Qed.
Lemma keeps_qitems D l : keeps D (qitems_value D l) (render_qitems D l).
Proof. apply keeps_concat. intros. apply keeps_qitem. Qed.
Lemma keeps_piece D p : keeps D (piece_value D p) (render_piece D p).
Proof.
  destruct p as [c|c|l]; cbn; [apply keeps_refl| |].
  - destruct (_ || _); [|apply keeps_refl]. apply keeps_drop_front, ord_opt; auto.
  - repeat apply keeps_app; try apply keeps_refl. apply keeps_qitems.
Qed.
Lemma keeps_cell D ps : keeps D (raw_cell D ps) (render_cell D ps).
Proof. apply keeps_concat. intros. apply keeps_piece. Qed.

Lemma keeps_cons_quote D c s : is_opt (cq D) c = true -> keeps D s (c :: s).
Proof.
  intros H. change (c :: s) with ([c] ++ s). apply keeps_drop_front. cbn.
  unfold ordinary, special. now rewrite H, orb_true_r.
Qed.
Lemma keeps_unquote D s : keeps D (fst (unquote D s)) s.
Proof.
  unfold unquote. destruct (enclosed D s) eqn:E; [|apply keeps_refl]. cbn [fst].
  unfold enclosed in E. destruct s as [|c [|c' s]]; try discriminate.
  apply andb_true_iff in E as [E1 E2]. cbn [tl].
  eapply keeps_trans; [|now apply keeps_cons_quote].
  destruct (exists_last (l := c' :: s)) as (s' & a & Es); [discriminate|].
  rewrite Es in E2 |- *. rewrite last_last in E2. rewrite removelast_last. apply keeps_drop.
  cbn. unfold ordinary, special. now rewrite E2, orb_true_r.
Qed.
Lemma keeps_unquote_end D s : keeps D (fst (unquote_at_end D s)) s.
Proof.
  unfold unquote_at_end. pose proof (keeps_unquote D s) as H.
  destruct (unquote D s) as [s' q]. cbn [fst] in H. destruct s' as [|c r]; [exact H|].
  destruct (is_opt (cq D) c) eqn:E; [|exact H]. cbn [fst].
  eapply keeps_trans; [|exact H]. now apply keeps_cons_quote.
Qed.
Lemma keeps_cell_value D ps : keeps D (fst (cell_value D ps)) (render_cell D ps).
Proof. eapply keeps_trans; [apply keeps_unquote|apply keeps_cell]. Qed.

Lemma keeps_cells_open D cells :
  keeps D (concat (map fst (map (cell_value D) cells))) (render_cells_open D cells).
Proof.
  unfold render_cells_open. rewrite map_map. apply keeps_concat. intros ps _.
  eapply keeps_trans; [apply keeps_cell_value|]. apply keeps_drop, ord_opt; auto.
Qed.
Lemma keeps_row D cells :
  keeps D (concat (map fst (map (cell_value D) cells))) (render_row D cells).
Proof.
  destruct cells as [|c0 cells] using rev_ind; [apply keeps_refl|].
  rewrite render_row_snoc. rewrite !map_app, concat_app. cbn [map concat]. rewrite app_nil_r.
  apply keeps_app; [apply keeps_cells_open|apply keeps_cell_value].
Qed.

(** The record is dropped at the end of the text: a dangling escape character
    in an empty cell. *)
Definition loses_record (D : chars) (t : tail) : bool :=
  match t with TEsc _ ps => match raw_cell D ps with [] => true | _ => false end | _ => false end.
(** A line feed is added: a dangling escape character inside open quotes. *)
Definition adds_lf (t : tail) : bool := match t with TOpenEsc _ _ _ => true | _ => false end.

Lemma keeps_tail D t : loses_record D t = false ->
  keeps D (table_text (tail_value D t)) (render_tail D t ++ if adds_lf t then [LF] else []).
Proof.
  unfold table_text. intros Hl. destruct t as [|cells|cells ps|cells ps l|cells ps l];
    cbn [tail_value render_tail adds_lf]; rewrite ?app_nil_r.
  - apply keeps_refl.
  - cbn [concat map]. rewrite app_nil_r.
    destruct cells as [|ps cells _] using rev_ind; [cbn; split; [constructor|reflexivity]|].
    rewrite removelast_last, last_last, render_row_snoc, map_app, concat_app. cbn [map concat].
    rewrite app_nil_r. apply keeps_app; [apply keeps_cells_open|].
    destruct (after_esc_nl false ps); [|apply keeps_cell_value].
    eapply keeps_trans; [apply keeps_unquote_end|apply keeps_cell].
  - cbn in Hl. destruct (raw_cell D ps) as [|c s] eqn:E; [discriminate|]. rewrite <- E.
    cbn [concat map]. rewrite app_nil_r, map_app, concat_app. cbn [map concat]. rewrite app_nil_r.
    apply keeps_app; [apply keeps_cells_open|].
    eapply keeps_trans; [apply keeps_unquote_end|]. eapply keeps_trans; [apply keeps_cell|].
    apply keeps_drop, ord_opt; auto.
  - cbn [concat map]. rewrite app_nil_r, map_app, concat_app. cbn [map concat]. rewrite app_nil_r.
    apply keeps_app; [apply keeps_cells_open|].
    eapply keeps_trans; [apply keeps_unquote_end|].
    repeat apply keeps_app; try apply keeps_refl; [apply keeps_cell|apply keeps_qitems].
  - cbn [concat map]. rewrite app_nil_r, map_app, concat_app. cbn [map concat]. rewrite app_nil_r.
    rewrite <- !app_assoc. apply keeps_app; [apply keeps_cells_open|].
    eapply keeps_trans; [apply keeps_unquote_end|].
    repeat apply keeps_app; try apply keeps_refl; [apply keeps_cell|apply keeps_qitems|].
    apply keeps_drop_front, ord_opt; auto.
Qed.

Lemma keeps_doc D d : loses_record D (last d) = false ->
  keeps D (table_text (denote D d)) (render D d ++ if adds_lf (last d) then [LF] else []).
Proof.
  intros H. unfold denote, render, table_text. rewrite concat_app, map_app, concat_app, <- app_assoc.
  apply keeps_app; [|now apply keeps_tail].
  induction (records d) as [|[cells e] rs IH]; [apply keeps_refl|].
  cbn [map concat]. rewrite map_app, concat_app. apply keeps_app; [|exact IH].
  cbn [fst]. unfold render_record. cbn [fst snd].
  eapply keeps_trans; [apply keeps_row|]. apply keeps_drop, ord_eol.
Qed.

(** Subsequence also holds when the record is lost. *)
Lemma subseq_doc D d :
  subseq (table_text (denote D d)) (render D d ++ if adds_lf (last d) then [LF] else []).
Proof.
  destruct (loses_record D (last d)) eqn:E; [|now apply keeps_doc].
  assert (H : denote D d = denote D (mk_doc (records d) TEnd)).
  { unfold denote. cbn [records last]. f_equal. destruct (last d); try discriminate.
    cbn in *. destruct (raw_cell D ps); [reflexivity|discriminate]. }
  rewrite H. eapply subseq_trans.
  2:{ apply (keeps_doc D (mk_doc (records d) TEnd)). reflexivity. }
  unfold render. cbn [records last render_tail adds_lf]. rewrite !app_nil_r, <- app_assoc.
  apply subseq_app_l, subseq_refl.
Qed.

Definition opt_cells (x : list (list cell) * option pyexc) : str :=
  concat (map cell_str (concat (fst x))).

Lemma mk_rows_text rq rows : concat (map cell_str (concat (mk_rows rq rows))) = table_text rows.
Proof.
  unfold mk_rows, table_text. f_equal. rewrite <- concat_map, map_map.
  apply map_ext. intros [s q]. unfold mk_cell. now destruct rq.
Qed.

(** With a large enough limit a layout's raw cells fit. *)
Lemma subseq_length a b : subseq a b -> (length a <= length b)%nat.
Proof. induction 1; cbn; lia. Qed.
Lemma In_concat_length (x : str) l : In x l -> (length x <= length (concat l))%nat.
Proof.
  induction l as [|y l IH]; [intros []|]. intros [->|H]; cbn; rewrite app_length; [lia|].
  specialize (IH H). lia.
Qed.
Lemma raw_cells_bound D d x : In x (raw_cells D d) -> (length x <= length (render D d) + 1)%nat.
Proof.
  assert (Hopen : forall cells x, In x (map (raw_cell D) cells) ->
            (length x <= length (render_cells_open D cells))%nat).
  { intros cells y Hy. etransitivity; [apply In_concat_length, Hy|]. apply subseq_length.
    apply subseq_concat. intros ps _. apply subseq_app_l, keeps_cell. }
  assert (Hrow : forall cells x, In x (map (raw_cell D) cells) ->
            (length x <= length (render_row D cells))%nat).
  { intros cells y Hy. destruct cells as [|ps cells _] using rev_ind; [destruct Hy|].
    rewrite render_row_snoc, app_length. rewrite map_app in Hy. apply in_app_or in Hy as [Hy|[<-|[]]].
    - apply Hopen in Hy. lia.
    - pose proof (subseq_length _ _ (proj1 (keeps_cell D ps))). lia. }
  unfold raw_cells, render. intros H. rewrite app_length. apply in_app_or in H as [H|H].
  - apply in_concat in H as (l & Hl & Hx). apply in_map_iff in Hl as (r & <- & Hr).
    apply Hrow in Hx.
    assert (K : (length (render_record D r) <= length (concat (map (render_record D) (records d))))%nat).
    { apply In_concat_length, in_map, Hr. }
    unfold render_record in K at 1. rewrite app_length in K. lia.
  - pose proof (fun ps => subseq_length _ _ (proj1 (keeps_cell D ps))) as Kc.
    pose proof (fun l => subseq_length _ _ (proj1 (keeps_qitems D l))) as Kq.
    destruct (last d) as [|cells|cells ps|cells ps l|cells ps l]; cbn [render_tail].
    + destruct H.
    + apply Hrow in H. lia.
    + rewrite map_app in H. rewrite !app_length. apply in_app_or in H as [H|[<-|[]]].
      * apply Hopen in H. lia.
      * specialize (Kc ps). lia.
    + rewrite !app_length. apply in_app_or in H as [H|[<-|[]]].
      * apply Hopen in H. lia.
      * specialize (Kc ps). specialize (Kq l). rewrite !app_length. lia.
    + rewrite !app_length. apply in_app_or in H as [H|[<-|[]]].
      * apply Hopen in H. lia.
      * specialize (Kc ps). specialize (Kq l). rewrite !app_length. cbn. lia.
Qed.

(** Every text that is short enough parses to what its layout denotes. *)
Theorem parse_any D t limit rq : wf_chars D = true -> no_nul t ->
  (Z.of_nat (length t) < limit)%Z ->
  exists d, wf_doc D d = true /\ render D d = t /\
    parse_string limit t (simple D false) rq = (mk_rows rq (denote D d), None).
Proof.
  intros HD Hn HL. destruct (layout_total D t Hn) as (d & Hw & <-). exists d.
  repeat split; auto. apply parse_string_layout; auto.
  apply Forall_forall. intros x Hx. apply raw_cells_bound in Hx. lia.
Qed.

(** C11 *)
Theorem cells_from_text D t limit rq : wf_chars D = true -> no_nul t ->
  (Z.of_nat (length t) < limit)%Z ->
  let cells := concat (map cell_str (concat (fst (parse_string limit t (simple D false) rq)))) in
  subseq cells (t ++ [LF]) /\ (ce D = None -> subseq cells t).
Proof.
  intros HD Hn HL. destruct (parse_any D t limit rq HD Hn HL) as (d & Hw & <- & ->).
  cbn zeta. cbn [fst]. rewrite mk_rows_text. pose proof (subseq_doc D d) as H. split.
  - destruct (adds_lf (last d)); [exact H|]. rewrite app_nil_r in H. now apply subseq_app_l.
  - intros He. destruct (adds_lf (last d)) eqn:E; [|now rewrite app_nil_r in H].
    destruct (last d) eqn:Et; try discriminate. unfold wf_doc in Hw. rewrite Et in Hw. cbn in Hw.
    rewrite He in Hw. cbn in Hw. rewrite !andb_false_r in Hw. discriminate.
Qed.

(** C08 *)
Theorem no_text_lost D t limit rq : wf_chars D = true -> no_nul t ->
  (Z.of_nat (length t) < limit)%Z -> ce D = None ->
  let rows := fst (parse_string limit t (simple D false) rq) in
  filter (ordinary D) (concat (map cell_str (concat rows))) = filter (ordinary D) t /\
  (t <> [] -> rows <> []).
Proof.
  intros HD Hn HL He. destruct (parse_any D t limit rq HD Hn HL) as (d & Hw & <- & ->).
  cbn zeta. cbn [fst]. rewrite mk_rows_text.
  unfold wf_doc in Hw. apply andb_true_iff in Hw as [Hr Ht].
  assert (Hl : loses_record D (last d) = false /\ adds_lf (last d) = false).
  { destruct (last d); cbn in Ht |- *; auto; rewrite He in Ht; cbn in Ht; rewrite !andb_false_r in Ht; discriminate. }
  destruct Hl as [Hl1 Hl2]. pose proof (keeps_doc D d Hl1) as [_ H]. rewrite Hl2, app_nil_r in H.
  split; [exact H|]. intros Hne E. apply map_eq_nil in E. unfold denote in E.
  apply app_eq_nil in E as [E1 E2]. apply map_eq_nil in E1. apply Hne. unfold render. rewrite E1. cbn.
  destruct (last d); cbn in E2; try discriminate; [reflexivity|].
  cbn in Hl1. destruct (raw_cell D ps); [discriminate|]. destruct cells; discriminate.
Qed.

(** ** C09: escaped quotes *)
Lemma literal_raw D ps : no_quoted ps = true -> raw_cell D ps = literal D ps.
Proof.
  unfold raw_cell, literal. intros H. f_equal. apply map_ext_in. intros p Hp.
  unfold no_quoted in H. rewrite forallb_forall in H. specialize (H p Hp).
  destruct p; [reflexivity|reflexivity|discriminate].
Qed.

Theorem escaped_cell_literal D ps limit rq :
  wf_chars D = true -> wf_cell D ps = true -> no_quoted ps = true -> ps <> [] ->
  (Z.of_nat (length (literal D ps)) <= limit)%Z ->
  parse_string limit (render_cell D ps ++ [LF]) (simple D false) rq =
    (mk_rows rq [[ if enclosed D (literal D ps)
                   then (removelast (tl (literal D ps)), true)
                   else (literal D ps, false) ]], None).
Proof.
  intros HD Hw Hq Hne HL.
  pose proof (parse_string_layout D (mk_doc [([ps], ELF)] TEnd) limit rq HD) as H.
  replace (render D (mk_doc [([ps], ELF)] TEnd)) with (render_cell D ps ++ [LF]) in H
    by (unfold render, render_record, render_row; cbn; now rewrite !app_nil_r).
  rewrite H.
  - unfold denote. cbn. unfold cell_value, unquote. now rewrite literal_raw.
  - unfold wf_doc. cbn. unfold wf_row. cbn. rewrite Hw. cbn. destruct ps; [congruence|reflexivity].
  - cbn. rewrite literal_raw by assumption. constructor; [exact HL|constructor].
Qed.

(** ** Cell values in the two standard forms (C01) *)
Lemma cell_value_plain D s : Forall (fun c => special D c = false) s ->
  cell_value D (map PChar s) = (s, false).
Proof.
  intros H. unfold cell_value.
  assert (E : raw_cell D (map PChar s) = s).
  { clear H. unfold raw_cell. induction s as [|c s IH]; [reflexivity|]. cbn in *. now rewrite IH. }
  rewrite E. unfold unquote, enclosed. destruct s as [|c [|c' s]]; try reflexivity.
  inversion H; subst. unfold special in H2. destruct (is_opt (cq D) c); [rewrite orb_true_r in H2; discriminate|].
  reflexivity.
Qed.
Lemma cell_value_quoted D l : is_set (cq D) = true ->
  cell_value D [PQuoted l] = (qitems_value D l, true).
Proof.
  intros H. destruct (cq D) as [q|] eqn:E; [|discriminate].
  unfold cell_value, raw_cell. cbn. rewrite E. cbn [opt_str app]. rewrite app_nil_r.
  unfold unquote, enclosed. rewrite E.
  destruct (qitems_value D l ++ [q]) as [|c s] eqn:Es; [now destruct (qitems_value D l)|].
  rewrite <- Es, last_last. cbn [is_opt tl]. rewrite N.eqb_refl. cbn [andb]. now rewrite removelast_last.
Qed.
