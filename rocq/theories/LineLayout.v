(** * LineLayout: reading texts of balanced lines does not depend on the line ends *)
From Coq Require Import String.
From Verif Require Import Base Parser Dialect SpecLayout SpecParse ParserLift LayoutMore LayoutTotal SpecAbstraction Abstraction AbstractionFacts ShapeFacts
  Potential SpecPotential SpecConsistency Consistency ScoreFacts SpecColumn SpecLines.
Open Scope N_scope.
Local Notation len := List.length.

(** ** The layout of one line *)
Section Line.
Variable D : chars.
Variable cat : N -> str.
Variable user : option (list str).
Hypothesis HD : wf_chars D = true.
Hypothesis Hq : forall q, cq D = Some q -> In q [34; 39].
Hypothesis He : forall e, ce D = Some e -> escape_like cat e.

Definition even_q (q : N) (s : str) : Prop := Nat.even (occurrences q s) = true.
Lemma occ_app q s t : occurrences q (s ++ t) = (occurrences q s + occurrences q t)%nat.
Proof. apply count_occ_app. Qed.
Lemma even_app q s t : even_q q s -> (even_q q (s ++ t) <-> even_q q t).
Proof. unfold even_q. rewrite occ_app, Nat.even_add. intros ->. now destruct (Nat.even (occurrences q t)). Qed.
Lemma occ_other q c : c <> q -> occurrences q [c] = 0%nat.
Proof. intros H. unfold occurrences. cbn. now destruct (N.eq_dec c q). Qed.
Lemma occ_same q : occurrences q [q] = 1%nat.
Proof. unfold occurrences. cbn. now destruct (N.eq_dec q q). Qed.

(** What follows an escape character in a balanced line is no quote. *)
Definition apart (s : str) : Prop := forall e c, ce D = Some e -> before e c s -> ~ In c [34; 39].
Lemma apart_l s t : apart (s ++ t) -> apart s.
Proof. intros H e c E (a & b & ->). apply (H e c E). exists a, (b ++ t). now rewrite <- app_assoc. Qed.
Lemma apart_r s t : apart (s ++ t) -> apart t.
Proof. intros H e c E (a & b & ->). apply (H e c E). exists (s ++ a), b. now rewrite <- app_assoc. Qed.

Lemma quote_not_delim q : cq D = Some q -> forall d, cd D = Some d -> d <> q.
Proof.
  intros E d Ed ->. unfold wf_chars in HD. rewrite E, Ed in HD. cbn [distinct_opt] in HD. rewrite N.eqb_refl in HD. cbn [negb] in HD.
  rewrite !andb_false_r in HD. cbn in HD. discriminate.
Qed.
Lemma quote_not_escape q : cq D = Some q -> forall e, ce D = Some e -> e <> q.
Proof.
  intros E d Ed ->. unfold wf_chars in HD. rewrite E, Ed in HD. cbn [distinct_opt] in HD. rewrite N.eqb_refl in HD. cbn [negb] in HD.
  rewrite !andb_false_r in HD. discriminate.
Qed.

Lemma even_qitem q i : cq D = Some q -> wf_qitem D i = true -> apart (render_qitem D i) -> even_q q (render_qitem D i).
Proof.
  intros E H HA. destruct i as [c| |c]; cbn [render_qitem wf_qitem] in *.
  - rewrite !andb_true_iff in H. destruct H as ((_ & H) & _). rewrite E in H. cbn in H. unfold even_q. rewrite occ_other; [reflexivity|].
    intros ->. now rewrite N.eqb_refl in H.
  - rewrite E. cbn [opt_str]. unfold even_q. rewrite occ_app, occ_same. reflexivity.
  - destruct (ce D) as [e|] eqn:Ee; [|discriminate]. cbn [opt_str] in *. unfold even_q. rewrite occ_app, occ_other, occ_other; [reflexivity| |].
    + intros ->. apply (HA e q Ee); [|now apply Hq]. now exists [], [].
    + now apply quote_not_escape.
Qed.
Lemma even_qitems q l : cq D = Some q -> forallb (wf_qitem D) l = true -> apart (render_qitems D l) -> even_q q (render_qitems D l).
Proof.
  intros E. induction l as [|i l IH]; [reflexivity|]. cbn [forallb]. intros H HA. apply andb_true_iff in H as (H1 & H2).
  change (render_qitems D (i :: l)) with (render_qitem D i ++ render_qitems D l) in *. apply even_app.
  - apply even_qitem; [exact E|exact H1|now apply apart_l in HA].
  - apply IH; [exact H2|now apply apart_r in HA].
Qed.
Lemma even_piece q p : cq D = Some q -> wf_piece D p = true -> apart (render_piece D p) -> even_q q (render_piece D p).
Proof.
  intros E H HA. destruct p as [c|c|l]; cbn [render_piece wf_piece] in *.
  - rewrite !andb_true_iff in H. destruct H as (_ & H). unfold special in H. rewrite E in H. cbn [is_opt] in H. unfold even_q. rewrite occ_other; [reflexivity|].
    intros ->. rewrite N.eqb_refl, orb_true_r in H. discriminate.
  - destruct (ce D) as [e|] eqn:Ee; [|discriminate]. cbn [opt_str] in *. unfold even_q. rewrite occ_app, occ_other, occ_other; [reflexivity| |].
    + intros ->. apply (HA e q Ee); [|now apply Hq]. now exists [], [].
    + now apply quote_not_escape.
  - rewrite E in H, HA |- *. cbn [is_set opt_str andb] in H, HA |- *. unfold even_q. rewrite !occ_app, occ_same, !Nat.even_add.
    pose proof (even_qitems q l E H (apart_l _ _ (apart_r _ _ HA))) as K. unfold even_q in K. rewrite K. reflexivity.
Qed.
Lemma even_cell q ps : cq D = Some q -> forallb (wf_piece D) ps = true -> apart (render_cell D ps) -> even_q q (render_cell D ps).
Proof.
  intros E. induction ps as [|p ps IH]; [reflexivity|]. cbn [forallb]. intros H HA. apply andb_true_iff in H as (H1 & H2).
  change (render_cell D (p :: ps)) with (render_piece D p ++ render_cell D ps) in *. apply even_app.
  - apply even_piece; [exact E|exact H1|now apply apart_l in HA].
  - apply IH; [exact H2|now apply apart_r in HA].
Qed.
Lemma even_open q cells : cq D = Some q -> forallb (wf_cell D) cells = true -> apart (render_cells_open D cells) -> even_q q (render_cells_open D cells).
Proof.
  intros E. induction cells as [|ps cells IH]; [reflexivity|]. cbn [forallb]. intros H HA. apply andb_true_iff in H as (H1 & H2).
  apply andb_true_iff in H1 as (H1 & _).
  change (render_cells_open D (ps :: cells)) with ((render_cell D ps ++ opt_str (cd D)) ++ render_cells_open D cells) in *. apply even_app.
  - apply even_app; [apply even_cell; [exact E|exact H1|now apply apart_l, apart_l in HA]|]. destruct (cd D) as [d|] eqn:Ed; [|reflexivity].
    unfold even_q. cbn [opt_str]. rewrite occ_other; [reflexivity|]. now apply quote_not_delim.
  - apply IH; [exact H2|now apply apart_r in HA].
Qed.

(** No piece of the line holds an escaped line end. *)
Definition flat (s : str) : Prop := forall c, In c s -> is_nl c = false.
Lemma flat_l s t : flat (s ++ t) -> flat s.
Proof. intros H c Hc. apply H, in_or_app. now left. Qed.
Lemma flat_r s t : flat (s ++ t) -> flat t.
Proof. intros H c Hc. apply H, in_or_app. now right. Qed.
Lemma flat_in ls s : flat (concat ls) -> In s ls -> flat s.
Proof. intros H Hs c Hc. apply H, in_concat. eauto. Qed.
Lemma flat_esc_items l : flat (render_qitems D l) -> esc_ok_items l = true.
Proof.
  intros H. unfold esc_ok_items. apply forallb_forall. intros i Hi. apply (in_map (render_qitem D)) in Hi. pose proof (flat_in _ _ H Hi) as K.
  destruct i as [c| |c]; try reflexivity. apply negb_true_iff, K. apply in_or_app. right. now left.
Qed.
Lemma flat_esc_cell ps : flat (render_cell D ps) -> esc_ok_cell ps = true.
Proof.
  intros H. unfold esc_ok_cell. apply forallb_forall. intros p Hp. apply (in_map (render_piece D)) in Hp. pose proof (flat_in _ _ H Hp) as K.
  destruct p as [c|c|l]; try reflexivity; cbn [render_piece esc_ok_piece] in *.
  - apply negb_true_iff, K. apply in_or_app. right. now left.
  - apply flat_esc_items. now apply flat_r, flat_l in K.
Qed.
Lemma in_render_row cells ps c : In ps cells -> In c (render_cell D ps) -> In c (render_row D cells).
Proof.
  unfold render_row. induction cells as [|x cells IH]; [intros []|]. cbn [map join]. intros H Hc. destruct cells as [|y cells].
  - cbn [map]. destruct H as [->|[]]. exact Hc.
  - cbn [map] in *. destruct H as [->|H]; [apply in_or_app; now left|]. apply in_or_app. right. apply in_or_app. right. now apply IH.
Qed.
Lemma flat_esc_row cells : flat (render_row D cells) -> forallb esc_ok_cell cells = true.
Proof.
  intros H. apply forallb_forall. intros ps Hps. apply flat_esc_cell. intros c Hc. apply H. now apply (in_render_row cells ps).
Qed.
Lemma esc_after ps : esc_ok_cell ps = true -> after_esc_nl false ps = false.
Proof.
  assert (K : forall b, b = false -> esc_ok_cell ps = true -> after_esc_nl b ps = false); [|exact (K false eq_refl)].
  induction ps as [|p ps IH]; intros b Hb H; [exact Hb|]. cbn [esc_ok_cell forallb] in H. apply andb_true_iff in H as (H1 & H2).
  destruct p as [c|c|l]; cbn [after_esc_nl]; apply IH; try assumption; [|reflexivity]. now apply negb_true_iff in H1.
Qed.

(** A balanced line is one row of cells. *)
Definition line_row (l : str) (cells : list (list piece)) : Prop :=
  wf_row D cells = true /\ render_row D cells = l /\ forallb esc_ok_cell cells = true.
Lemma row_nil cells : wf_row D cells = true -> render_row D cells = [] -> cells = [].
Proof.
  intros H E. destruct cells as [|x [|y cells]]; [reflexivity| |].
  - unfold wf_row in H. apply andb_true_iff in H as (HC & H). unfold render_row in E. cbn [map join] in E.
    destruct x as [|p x]; [discriminate|]. exfalso.
    cbn [render_cell map concat] in E. apply app_eq_nil in E as (E & _). cbn [forallb] in HC. apply andb_true_iff in HC as (HC & _). apply andb_true_iff in HC as (HC & _). cbn [forallb] in HC. apply andb_true_iff in HC as (HC & _).
    destruct p as [c|c|li]; cbn [render_piece wf_piece] in E, HC; [discriminate| |].
    + apply app_eq_nil in E as (_ & E). discriminate.
    + destruct (cq D) as [q|]; [discriminate|]. discriminate.
  - unfold wf_row in H. apply andb_true_iff in H as (_ & H). assert (HS : is_set (cd D) = true) by (destruct x; exact H). unfold render_row in E. destruct (cd D) as [d|]; [|discriminate]. cbn [map join opt_str] in E.
    apply app_eq_nil in E as (_ & E). discriminate E.
Qed.
Lemma balanced_row l : balanced_line cat user l -> exists cells, line_row l cells.
Proof.
  intros (HN & HE & HX). assert (HF : flat l).
  { intros c Hc. apply is_nl_false. split; intros ->; [apply (HN CR)|apply (HN LF)]; cbn; tauto. }
  assert (HA : apart l).
  { intros e c E (a & b & El). destruct (HX a e (c :: b) El (He e E)) as (v & b' & [= <- <-] & _ & K). exact K. }
  destruct (layout_total D l) as (d & Hw & El).
  { apply HN. now left. }
  unfold wf_doc in Hw. apply andb_true_iff in Hw as (_ & Hw). unfold render in El.
  destruct (records d) as [|[r e] rs] eqn:ER.
  2:{ exfalso. cbn [map concat] in El. unfold render_record at 1 in El. cbn [fst snd] in El.
      assert (K : forall c, In c (render_eol e) -> In c l).
      { intros c Hc. rewrite <- El. apply in_or_app. left. apply in_or_app. left. apply in_or_app. now right. }
      destruct e; [specialize (HF LF (K LF (or_introl eq_refl)))|specialize (HF CR (K CR (or_introl eq_refl)))|specialize (HF CR (K CR (or_introl eq_refl)))]; discriminate. }
  cbn [map concat app] in El. clear ER. destruct (last d) as [|cells|cells ps|cells ps li|cells ps li] eqn:EL; cbn [render_tail wf_tail] in El, Hw.
  - exists []. repeat split. exact El.
  - apply andb_true_iff in Hw as (Hw & _). exists cells. repeat split; [exact Hw|exact El|]. apply flat_esc_row. now rewrite El.
  - exfalso. apply andb_true_iff in Hw as (_ & Hw). destruct (ce D) as [e|] eqn:Ee; [|discriminate]. cbn [opt_str] in El.
    destruct (HX (render_cells_open D cells ++ render_cell D ps) e []) as (v & b' & E & _); [now rewrite <- El, <- app_assoc|now apply He|discriminate].
  - exfalso. rewrite !andb_true_iff in Hw. destruct Hw as (((Hw & Hq1) & _) & Hi). assert (exists q, cq D = Some q) as (q & Eq) by (clear - Hq1; destruct (cq D); [eauto|discriminate]). rewrite Eq in El. cbn [opt_str] in El.
    unfold wf_open in Hw. rewrite !andb_true_iff in Hw. destruct Hw as ((Hc & Hp) & _). apply andb_true_iff in Hp as (Hp & _).
    specialize (HE q (Hq q Eq)). rewrite <- El in HA, HE. rewrite !occ_app, occ_same, !Nat.even_add in HE.
    pose proof (even_open q cells Eq Hc (apart_l _ _ HA)) as K1. pose proof (even_cell q ps Eq Hp (apart_l _ _ (apart_r _ _ HA))) as K2.
    pose proof (even_qitems q li Eq Hi (apart_r _ _ (apart_r _ _ (apart_r _ _ HA)))) as K3. unfold even_q in K1, K2, K3. rewrite K1, K2, K3 in HE. discriminate.
  - exfalso. apply andb_true_iff in Hw as (_ & Hw). destruct (ce D) as [e|] eqn:Ee; [|discriminate]. cbn [opt_str] in El.
    destruct (HX (render_cells_open D cells ++ render_cell D ps ++ opt_str (cq D) ++ render_qitems D li) e []) as (v & b' & E & _); [now rewrite <- El, <- !app_assoc|now apply He|discriminate].
Qed.

(** ** The layout of the text *)
Lemma balanced_rows ls : (forall l, In l ls -> balanced_line cat user l) -> exists cs, Forall2 line_row ls cs.
Proof.
  induction ls as [|l ls IH]; intros H; [exists []; constructor|]. destruct (balanced_row l) as (c & Hc); [apply H; now left|].
  destruct IH as (cs & Hcs); [intros x Hx; apply H; now right|]. exists (c :: cs). now constructor.
Qed.
Lemma clear_tail r rows final : clear_ends (r :: rows) final -> clear_ends rows final.
Proof. intros (H1 & H2). split; [|exact H2]. intros a s b ->. now apply (H1 (r :: a) s b). Qed.
Lemma row_value_last cells : cells <> [] -> forallb esc_ok_cell cells = true -> tail_value D (TRow cells) = [row_value D cells].
Proof.
  intros Hn H. destruct cells as [|ps cells _] using rev_ind; [congruence|]. rewrite forallb_app in H. apply andb_true_iff in H as (_ & H). cbn [forallb] in H.
  apply andb_true_iff in H as (H & _). unfold tail_value. rewrite last_last, removelast_last, (esc_after ps H). unfold row_value. now rewrite map_app.
Qed.
Lemma lines_layout rows final cs : clear_ends rows final -> Forall2 line_row (column_of rows final) cs ->
  exists d, wf_doc D d = true /\ render D d = column_text rows final /\ closed d = true /\ esc_ok d = true /\
    denote D d = map (row_value D) cs /\
    forall r e rs, records d = (r, e) :: rs -> exists s rows', rows = (s, e) :: rows' /\ render_row D r = s.
Proof.
  revert cs. induction rows as [|[s e] rows IH]; intros cs HC HF.
  - destruct final as [s|]; cbn in HF.
    + inversion HF as [|? c ? cs' (H1 & H2 & H3) HF']; subst. inversion HF'; subst. exists (mk_doc [] (TRow c)).
      assert (Hc : c <> []) by (intros ->; destruct HC as (_ & HC); now apply HC).
      repeat split.
      * unfold wf_doc. cbn. rewrite H1. destruct c; [congruence|reflexivity].
      * unfold esc_ok. cbn. exact H3.
      * unfold denote. cbn [records last map app]. now rewrite row_value_last.
      * intros r e rs E. discriminate.
    + inversion HF; subst. exists (mk_doc [] TEnd). repeat split. intros r e rs E. discriminate.
  - cbn in HF. inversion HF as [|? c ? cs' (H1 & H2 & H3) HF']; subst. destruct (IH cs' (clear_tail _ _ _ HC) HF') as (d & W1 & W2 & W3 & W4 & W5 & W6).
    exists (mk_doc ((c, e) :: records d) (last d)). repeat split.
    + unfold wf_doc in *. apply andb_true_iff in W1 as (W1 & W1'). cbn [records last wf_records]. rewrite H1, W1, W1'. cbn [andb]. rewrite !andb_true_r.
      destruct e; try reflexivity. destruct (records d) as [|[r e'] rs] eqn:ER; [reflexivity|]. destruct r; [|reflexivity]. destruct e'; try reflexivity.
      destruct (W6 _ _ _ eq_refl) as (s' & rows' & -> & <-). destruct HC as (HC & _). now destruct (HC [] (render_row D c) rows').
    + unfold render in *. cbn [records last map concat]. unfold render_record at 1. cbn [fst snd]. unfold column_text in *. cbn [map concat fst snd]. rewrite <- !app_assoc. f_equal. f_equal. exact W2.
    + exact W3.
    + unfold esc_ok in *. cbn [records last]. apply andb_true_iff in W4 as (W4 & W4'). apply andb_true_iff. split; [|exact W4']. cbn [forallb]. apply andb_true_iff. split; [exact H3|exact W4].
    + unfold denote in *. cbn [records last map fst app]. f_equal. exact W5.
    + intros r e' rs E. cbn [records] in E. injection E as <- <- _. now exists (render_row D c), rows.
Qed.

(** Every row of cells has the same values, whatever the line ends. *)
Theorem lines_read rows final cs : clear_ends rows final -> Forall2 line_row (column_of rows final) cs ->
  pattern_score (column_text rows final) (simple D false) = Ok (table_score (row_kinds (map (row_value D) cs))) /\
  forall limit rq, (Z.of_nat (len (column_text rows final)) + 1 <= limit)%Z ->
    parse_string limit (column_text rows final) (simple D false) rq = (mk_rows rq (map (row_value D) cs), None).
Proof.
  intros HC HF. destruct (lines_layout rows final cs HC HF) as (d & W1 & W2 & W3 & W4 & W5 & _). rewrite <- W2, <- W5. split.
  - now apply pattern_score_table.
  - intros limit rq HL. apply parse_string_layout; [exact HD|exact W1|]. apply Forall_forall. intros x Hx. apply raw_cells_bound in Hx. lia.
Qed.
End Line.
