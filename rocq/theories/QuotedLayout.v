(** * QuotedLayout: the layouts of a table with quoted cells, one for every delimiter *)
From Coq Require Import String Reals Lra SpecFloat.
From Flocq Require Import Core.
From Verif Require Import Base Parser Dialect SpecLayout SpecParse SpecAbstraction LayoutLimit LayoutTotal LayoutMore ParserLift NormalForms NormalFacts NormalParse Potential SpecPotential
  Floats FloatFacts Consistency SpecConsistency ScoreFacts TableScores TypeFacts DetectFacts SpecTypes Types SpecTables TablesFacts SpecQuoted QuotedScores.
Open Scope N_scope.
Local Notation len := List.length.

(** ** Documents without escape characters *)
Definition pieces_doc (rows : list (list (list piece) * eol)) (final : option (list (list piece))) : doc :=
  mk_doc rows (match final with Some r => TRow r | None => TEnd end).
Definition no_esc (p : piece) : Prop :=
  match p with PChar _ => True | PEsc _ => False | PQuoted l => Forall (fun i => exists c, i = QChar c) l end.
Definition prow_ok (D : chars) (r : list (list piece)) : Prop :=
  r <> [] /\ wf_row D r = true /\ Forall (Forall no_esc) r.
Lemma pieces_doc_wf D rows final : Forall (prow_ok D) (table_of rows final) -> wf_doc D (pieces_doc rows final) = true.
Proof.
  intros H. unfold table_of in H. apply Forall_app in H as (H1 & H2). unfold wf_doc, pieces_doc. cbn [records SpecLayout.last]. apply andb_true_iff. split.
  - induction rows as [|[r e] rows IH]; [reflexivity|]. cbn [map fst snd] in *. inversion H1 as [|? ? Hr Hrs]; subst.
    cbn [wf_records]. destruct Hr as (Hn & Hw & _). rewrite Hw, IH by exact Hrs. rewrite andb_true_r. cbn [andb].
    destruct e; try reflexivity. destruct rows as [|[[|? ?] e'] rows]; try reflexivity. inversion Hrs as [|? ? (Hn' & _) _]. now destruct Hn'.
  - destruct final as [r|]; [|reflexivity]. inversion H2 as [|? ? (Hn & Hw & _) _]; subst. cbn [wf_tail]. rewrite Hw.
    destruct r; [congruence|reflexivity].
Qed.
Lemma pieces_doc_closed rows final : closed (pieces_doc rows final) = true.
Proof. destruct final; reflexivity. Qed.
Lemma no_esc_ok r : Forall (Forall no_esc) r -> forallb esc_ok_cell r = true.
Proof.
  intros H. rewrite forallb_forall. intros ps Hp. rewrite Forall_forall in H. specialize (H ps Hp). unfold esc_ok_cell. rewrite forallb_forall.
  intros p Hi. rewrite Forall_forall in H. specialize (H p Hi). destruct p as [x|x|l]; [reflexivity|destruct H|]. cbn in *. rewrite forallb_forall.
  intros i Hl. rewrite Forall_forall in H. destruct (H i Hl) as (x & ->). reflexivity.
Qed.
Lemma pieces_doc_esc D rows final : Forall (prow_ok D) (table_of rows final) -> esc_ok (pieces_doc rows final) = true.
Proof.
  intros H. unfold table_of in H. apply Forall_app in H as (H1 & H2). unfold esc_ok, pieces_doc. cbn [records SpecLayout.last]. apply andb_true_iff. split.
  - rewrite forallb_forall. intros r Hr. rewrite Forall_forall in H1. apply no_esc_ok. apply (H1 (fst r)). now apply in_map.
  - destruct final as [r|]; [|reflexivity]. inversion H2 as [|? ? (_ & _ & He) _]; subst. now apply no_esc_ok.
Qed.
Lemma pieces_doc_denote D rows final : Forall (prow_ok D) (table_of rows final) ->
  denote D (pieces_doc rows final) = map (map (cell_value D)) (table_of rows final).
Proof.
  intros H. unfold denote, pieces_doc, table_of in *. cbn [records SpecLayout.last]. rewrite map_app, map_map. f_equal.
  destruct final as [r|]; [|reflexivity]. apply Forall_app in H as (_ & H). inversion H as [|? ? (Hn & _ & He) _]; subst.
  cbn [tail_value map]. assert (E : after_esc_nl false (List.last r []) = false).
  { pose proof (last_in _ [] Hn) as Hi. rewrite Forall_forall in He. specialize (He _ Hi). clear Hi.
    induction He as [|p ps Hp He IH]; [reflexivity|]. destruct p; [exact IH|destruct Hp|exact IH]. }
  rewrite E. f_equal. rewrite (app_removelast_last [] Hn) at 3. now rewrite map_app.
Qed.
Lemma pieces_doc_scores kb D rows final : wf_chars D = true -> Forall (prow_ok D) (table_of rows final) -> table_of rows final <> [] ->
  let text := render D (pieces_doc rows final) in
  pattern_score text (simple D false) = Ok (table_score (map (@List.length (list piece)) (table_of rows final))) /\
  type_score (total_known kb) (Z.of_nat (len text) + 1) text (simple D false) =
    Ok (type_share kb (List.concat (map (map (cell_value D)) (table_of rows final)))) /\
  (len (List.concat (table_of rows final)) <= 2 * len text + 2)%nat.
Proof.
  intros HD HR Hn text. pose proof (pieces_doc_wf D rows final HR) as Hwf. pose proof (pieces_doc_denote D rows final HR) as Hd.
  assert (Hne : Forall (fun r => r <> []) (table_of rows final)) by (eapply Forall_impl; [|exact HR]; intros r (H & _); exact H).
  assert (HL : Forall (fun s => Z.of_nat (len s) <= Z.of_nat (len text) + 1)%Z (raw_cells D (pieces_doc rows final))).
  { apply Forall_forall. intros x Hx. apply raw_cells_bound in Hx. fold text in Hx. lia. }
  split; [|split].
  - unfold text. rewrite pattern_score_table by (eauto using pieces_doc_closed, pieces_doc_esc). rewrite Hd, kinds_of.
    + rewrite map_map. do 2 f_equal. apply map_ext. intros r. apply map_length.
    + intros E. apply map_eq_nil in E. contradiction.
    + apply Forall_map. eapply Forall_impl; [|exact Hne]. intros r Hr E. apply map_eq_nil in E. contradiction.
  - unfold text at 2. rewrite type_score_layout; [now rewrite Hd|exact HD|exact Hwf|exact HL].
  - pose proof (cells_bound (Z.of_nat (len text) + 1) text (simple D false) true) as HB. unfold text at 2 in HB.
    rewrite parse_string_layout in HB by assumption. cbn [fst] in HB. rewrite concat_mk_rows, map_length, Hd, <- concat_map, map_length in HB. apply HB.
    destruct D as [[?|] [?|] [?|]]; reflexivity.
Qed.

(** ** Rows as pieces *)
Definition cell_pieces (x : qcell) : list piece := if fst x then [PQuoted (map QChar (snd x))] else map PChar (snd x).
Fixpoint row_pieces (c : N) (r : list qcell) : list piece :=
  match r with
  | [] => []
  | x :: r' => match r' with [] => cell_pieces x | _ => cell_pieces x ++ PChar c :: row_pieces c r' end
  end.
Definition cuts (d : option N) (p : piece) : bool := match p with PChar y => is_opt d y | _ => false end.
Definition push (p : piece) (l : list (list piece)) : list (list piece) :=
  match l with h :: t => (p :: h) :: t | [] => [[p]] end.
Fixpoint cut_at (d : option N) (ps : list piece) : list (list piece) :=
  match ps with
  | [] => [[]]
  | p :: ps' => if cuts d p then [] :: cut_at d ps' else push p (cut_at d ps')
  end.
Lemma cut_some d ps : exists h t, cut_at d ps = h :: t.
Proof. destruct ps as [|p ps]; cbn; [eauto|]. destruct (cuts d p); [eauto|]. unfold push. destruct (cut_at d ps); eauto. Qed.
Lemma cut_render D ps : render_row D (cut_at (cd D) ps) = render_cell D ps.
Proof.
  induction ps as [|p ps IH]; [reflexivity|]. cbn [cut_at]. destruct (cut_some (cd D) ps) as (h & t & E). rewrite E in *.
  destruct (cuts (cd D) p) eqn:Ec.
  - destruct p as [y|y|l]; try discriminate. cbn [cuts] in Ec. unfold is_opt in Ec. destruct (cd D) as [x|] eqn:Ed; [|discriminate]. apply N.eqb_eq in Ec as ->.
    unfold render_row in *. rewrite Ed in *. cbn [map] in *. cbn [opt_str] in *. change (render_cell D (PChar x :: ps)) with (x :: render_cell D ps). rewrite <- IH. reflexivity.
  - cbn [push]. change (render_cell D (p :: ps)) with (render_piece D p ++ render_cell D ps). rewrite <- IH. unfold render_row. cbn [map].
    change (render_cell D (p :: h)) with (render_piece D p ++ render_cell D h). destruct t as [|g t]; [reflexivity|]. cbn [map].
    change (join (opt_str (cd D)) ((render_piece D p ++ render_cell D h) :: render_cell D g :: map (render_cell D) t)) with
      ((render_piece D p ++ render_cell D h) ++ opt_str (cd D) ++ join (opt_str (cd D)) (render_cell D g :: map (render_cell D) t)).
    change (join (opt_str (cd D)) (render_cell D h :: render_cell D g :: map (render_cell D) t)) with
      (render_cell D h ++ opt_str (cd D) ++ join (opt_str (cd D)) (render_cell D g :: map (render_cell D) t)).
    now rewrite <- app_assoc.
Qed.
Lemma cut_pieces d ps : forall cell p, In cell (cut_at d ps) -> In p cell -> In p ps /\ cuts d p = false.
Proof.
  induction ps as [|a ps IH]; intros cell p Hc Hp.
  - destruct Hc as [<-|[]]. destruct Hp.
  - cbn [cut_at] in Hc. destruct (cuts d a) eqn:E.
    + destruct Hc as [<-|Hc]; [destruct Hp|]. destruct (IH cell p Hc Hp). split; [now right|assumption].
    + destruct (cut_some d ps) as (h & t & Eh). rewrite Eh in *. cbn [push] in Hc. destruct Hc as [<-|Hc].
      * destruct Hp as [<-|Hp]; [split; [now left|exact E]|]. destruct (IH h p (or_introl eq_refl) Hp). split; [now right|assumption].
      * destruct (IH cell p (or_intror Hc) Hp). split; [now right|assumption].
Qed.
Lemma cut_head d ps h t : cut_at d ps = h :: t -> match h with p :: _ => hd_error ps = Some p | [] => True end.
Proof.
  destruct ps as [|p ps]; cbn [cut_at]; [intros [= <- <-]; exact I|]. destruct (cuts d p); [intros [= <- <-]; exact I|].
  destruct (cut_some d ps) as (h' & t' & E). rewrite E. cbn [push]. intros [= <- <-]. reflexivity.
Qed.
Lemma no_adjacent_cons p ps : no_adjacent (p :: ps) = true -> no_adjacent ps = true.
Proof. destruct p; cbn [no_adjacent]; [tauto|tauto|]. destruct ps as [|[ | | ] ps]; try tauto; discriminate. Qed.
Lemma cut_adjacent d ps : no_adjacent ps = true -> forall cell, In cell (cut_at d ps) -> no_adjacent cell = true.
Proof.
  induction ps as [|p ps IH]; intros Hn cell Hc.
  - destruct Hc as [<-|[]]. reflexivity.
  - pose proof (no_adjacent_cons p ps Hn) as Hn'. specialize (IH Hn'). cbn [cut_at] in Hc. destruct (cuts d p).
    + destruct Hc as [<-|Hc]; [reflexivity|now apply IH].
    + destruct (cut_some d ps) as (h & t & E). pose proof (cut_head d ps h t E) as Hh. rewrite E in *. cbn [push] in Hc.
      destruct Hc as [<-|Hc]; [|apply IH; now right]. specialize (IH h (or_introl eq_refl)).
      destruct p as [x|x|l]; [exact IH|exact IH|]. destruct h as [|[x|x|l'] h]; [reflexivity|exact IH|exact IH|].
      destruct ps as [|p' ps]; [discriminate|]. cbn in Hh. injection Hh as ->. cbn in Hn. discriminate.
Qed.
Lemma cut_length d ps : len (cut_at d ps) = S (len (filter (cuts d) ps)).
Proof.
  induction ps as [|p ps IH]; [reflexivity|]. cbn [cut_at filter]. destruct (cuts d p); cbn [List.length]; [now rewrite IH|].
  destruct (cut_some d ps) as (h & t & E). rewrite E in *. exact IH.
Qed.
Lemma cut_none ps : cut_at None ps = [ps].
Proof. induction ps as [|p ps IH]; [reflexivity|]. cbn [cut_at]. rewrite IH. destruct p; reflexivity. Qed.
Lemma cut_app d a p b : Forall (fun x => cuts d x = false) a -> cuts d p = true -> cut_at d (a ++ p :: b) = a :: cut_at d b.
Proof.
  intros Ha Hp. induction Ha as [|x a Hx Ha IH]; cbn [app cut_at]; [now rewrite Hp|]. rewrite Hx, IH. reflexivity.
Qed.
Lemma cut_all d a : Forall (fun x => cuts d x = false) a -> cut_at d a = [a].
Proof. induction 1 as [|x a Hx Ha IH]; cbn [cut_at]; [reflexivity|]. now rewrite Hx, IH. Qed.
Lemma cell_not_cut c (x : qcell) : ~ In c (if fst x then [] else snd x) -> Forall (fun p => cuts (Some c) p = false) (cell_pieces x).
Proof.
  unfold cell_pieces. destruct x as [[|] s]; cbn [fst snd]; intros H; [repeat constructor|].
  apply Forall_map, Forall_forall. intros y Hy. cbn. apply N.eqb_neq. intros ->. contradiction.
Qed.
Lemma cut_cells c (r : list qcell) : r <> [] -> Forall (fun x : qcell => ~ In c (if fst x then [] else snd x)) r -> cut_at (Some c) (row_pieces c r) = map cell_pieces r.
Proof.
  induction r as [|x [|y r] IH]; intros Hn H; [congruence| |].
  - inversion H; subst. cbn. now apply cut_all, cell_not_cut.
  - inversion H; subst. change (row_pieces c (x :: y :: r)) with (cell_pieces x ++ PChar c :: row_pieces c (y :: r)).
    rewrite cut_app; [|now apply cell_not_cut|cbn; apply N.eqb_refl]. cbn [map]. f_equal. apply IH; [discriminate|assumption].
Qed.
Lemma row_pieces_In c r p : In p (row_pieces c r) -> p = PChar c \/ exists x, In x r /\ In p (cell_pieces x).
Proof.
  induction r as [|x [|y r] IH]; [intros []|cbn [row_pieces]; intros H; right; exists x; split; [now left|exact H]|].
  change (row_pieces c (x :: y :: r)) with (cell_pieces x ++ PChar c :: row_pieces c (y :: r)). rewrite in_app_iff. intros [H|[<-|H]].
  - right. exists x. split; [now left|exact H].
  - now left.
  - destruct (IH H) as [->|(z & Hz & Hp)]; [now left|]. right. exists z. split; [now right|exact Hp].
Qed.
Lemma no_adjacent_chars s ps : no_adjacent (map PChar s ++ ps) = no_adjacent ps.
Proof. induction s as [|x s IH]; [reflexivity|exact IH]. Qed.
Lemma row_adjacent c r : no_adjacent (row_pieces c r) = true.
Proof.
  assert (A : forall x, no_adjacent (cell_pieces x) = true).
  { intros [[|] s]; cbn [cell_pieces fst snd]; [reflexivity|]. rewrite <- (app_nil_r (map PChar s)). apply no_adjacent_chars. }
  induction r as [|x [|y r] IH]; [reflexivity|apply A|].
  change (row_pieces c (x :: y :: r)) with (cell_pieces x ++ PChar c :: row_pieces c (y :: r)).
  destruct x as [[|] s]; cbn [cell_pieces fst snd]; [exact IH|]. rewrite no_adjacent_chars. exact IH.
Qed.
Lemma qitems_render D s : render_qitems D (map QChar s) = s.
Proof. unfold render_qitems. induction s as [|x s IH]; [reflexivity|]. cbn in *. now rewrite IH. Qed.
Lemma qitems_value_plain D s : qitems_value D (map QChar s) = s.
Proof. unfold qitems_value. induction s as [|x s IH]; [reflexivity|]. cbn in *. now rewrite IH. Qed.
Lemma cell_render D q x : cq D = Some q -> render_cell D (cell_pieces x) = cell_text q x.
Proof.
  intros Hq. destruct x as [[|] s]; cbn [cell_pieces cell_text fst snd]; [|apply render_plain].
  unfold render_cell. cbn [map List.concat]. rewrite app_nil_r. cbn [render_piece]. rewrite qitems_render, Hq. reflexivity.
Qed.
Lemma row_pieces_render D q c r : cq D = Some q -> render_cell D (row_pieces c r) = join [c] (map (cell_text q) r).
Proof.
  intros Hq. induction r as [|x [|y r] IH]; [reflexivity|cbn; apply cell_render, Hq|].
  change (row_pieces c (x :: y :: r)) with (cell_pieces x ++ PChar c :: row_pieces c (y :: r)).
  unfold render_cell in *. rewrite map_app, concat_app. cbn [map List.concat render_piece]. fold (render_cell D (cell_pieces x)).
  rewrite (cell_render D q x Hq), IH. reflexivity.
Qed.
Lemma filter_cuts_cell d (x : qcell) : d <> 0 -> len (filter (cuts (Some d)) (cell_pieces x)) = occurrences d (if fst x then [] else snd x).
Proof.
  intros _. destruct x as [[|] s]; cbn [cell_pieces fst snd]; [reflexivity|]. unfold occurrences.
  induction s as [|y s IH]; [reflexivity|]. cbn [map filter count_occ]. cbn [cuts is_opt]. destruct (N.eq_dec y d) as [->|Hn].
  - rewrite N.eqb_refl. cbn [List.length]. now rewrite IH.
  - apply N.eqb_neq in Hn. rewrite Hn. exact IH.
Qed.
Lemma filter_cuts_row d c r : d <> 0 -> d <> c ->
  len (filter (cuts (Some d)) (row_pieces c r)) = list_sum (map (fun x : qcell => occurrences d (if fst x then [] else snd x)) r).
Proof.
  intros H0 Hd. induction r as [|x [|y r] IH]; [reflexivity|cbn [row_pieces map list_sum fold_right]; rewrite filter_cuts_cell by exact H0; lia|].
  change (row_pieces c (x :: y :: r)) with (cell_pieces x ++ PChar c :: row_pieces c (y :: r)). rewrite filter_app, app_length, filter_cuts_cell by exact H0.
  cbn [filter cuts is_opt]. assert (E : (c =? d) = false) by (apply N.eqb_neq; congruence). rewrite E, IH. reflexivity.
Qed.
Lemma cell_pieces_value D q (x : qcell) : cq D = Some q -> ~ In q (snd x) -> cell_value D (cell_pieces x) = (snd x, fst x).
Proof.
  intros Hq Hn. unfold cell_value. destruct x as [[|] s]; cbn [cell_pieces fst snd] in *.
  - assert (E : raw_cell D [PQuoted (map QChar s)] = q :: s ++ [q]).
    { unfold raw_cell. cbn [map List.concat]. rewrite app_nil_r. cbn [piece_value]. rewrite qitems_value_plain, Hq. reflexivity. }
    rewrite E. unfold unquote, enclosed. rewrite Hq.
    assert (Es : exists z t, s ++ [q] = z :: t) by (destruct s; cbn; eauto). destruct Es as (z & t & Es).
    rewrite Es. rewrite <- Es. rewrite last_last. cbn [is_opt]. rewrite N.eqb_refl. cbn [andb tl]. now rewrite removelast_last.
  - assert (E : raw_cell D (map PChar s) = s).
    { unfold raw_cell. clear Hn. induction s as [|c s IH]; [reflexivity|]. cbn in *. now rewrite IH. }
    rewrite E. unfold unquote, enclosed. rewrite Hq. destruct s as [|a [|b s]]; try reflexivity. cbn [is_opt].
    assert (Ea : (a =? q) = false) by (apply N.eqb_neq; intros ->; apply Hn; now left). now rewrite Ea.
Qed.

(** ** The text of a quoted table, cut at any delimiter *)
Definition qdoc (d : option N) (c : N) (rows : list (list qcell * eol)) (final : option (list qcell)) : doc :=
  pieces_doc (map (fun r => (cut_at d (row_pieces c (fst r)), snd r)) rows) (option_map (fun r => cut_at d (row_pieces c r)) final).
Lemma qdoc_render D q c rows final : cq D = Some q -> render D (qdoc (cd D) c rows final) = quoted_text c q rows final.
Proof.
  intros Hq. unfold render, qdoc, pieces_doc, quoted_text, table_text. cbn [records SpecLayout.last]. rewrite !map_map. f_equal.
  - f_equal. apply map_ext. intros [r e]. unfold render_record. cbn [fst snd]. now rewrite cut_render, (row_pieces_render D q).
  - destruct final as [r|]; [|reflexivity]. cbn [option_map render_tail]. now rewrite cut_render, (row_pieces_render D q).
Qed.
Lemma qdoc_table d c rows final :
  table_of (map (fun r => (cut_at d (row_pieces c (fst r)), snd r)) rows) (option_map (fun r => cut_at d (row_pieces c r)) final) =
  map (fun r : list qcell => cut_at d (row_pieces c r)) (table_of rows final).
Proof. unfold table_of. rewrite map_app, !map_map. f_equal. now destruct final. Qed.
Lemma quoted_table q (rows : list (list qcell * eol)) final :
  table_of (map (fun r => (map (cell_text q) (fst r), snd r)) rows) (option_map (map (cell_text q)) final) = map (map (cell_text q)) (table_of rows final).
Proof. unfold table_of. rewrite map_app, !map_map. f_equal. now destruct final. Qed.
