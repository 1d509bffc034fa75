(** * TypesNumber: what counts as a number *)
From Coq Require Import String.
From Verif Require Import Base Parser Dialect Json SpecNormal NormalFacts Regex RegexFacts Types SpecTypes TypesFacts TypesText.
Open Scope N_scope.
Local Notation len := List.length.

Section Number.
Variable U : unidata.
Local Notation cat := (u_cat U).
Local Notation strip := (strip U).
Hypothesis sane : sane_categories cat.

Definition digit_before (b : str) : Prop := exists c b', b = c :: b' /\ digit cat c.

Lemma word_yes_dot f : word (Seq (star (D U)) (opt (Seq (star (D U)) (exponent U)))) f <->
  exists ds x, f = ds ++ x /\ digits cat ds /\ (x = [] \/ expo cat x).
Proof.
  rewrite word_seq. split.
  - intros (u & v & -> & Hu & Hv). apply word_Ds in Hu as (Hu & _). apply word_opt in Hv as [->|(_ & d & x & -> & Hd & Hx)].
    + exists u, []. auto.
    + apply word_Ds in Hd as (Hd & _). apply word_expo in Hx. exists (u ++ d), x. rewrite app_assoc. repeat split; auto. now apply Forall_app.
  - intros (ds & x & -> & Hd & Hx). exists ds, x. split; [reflexivity|split; [apply word_Ds; repeat split; auto; lia|]].
    apply word_opt. destruct Hx as [->|Hx]; [now left|right]. split; [destruct Hx as (? & ? & ? & -> & _); easy|].
    exists [], x. repeat split; [apply word_Ds; repeat split; try constructor|now apply word_expo].
Qed.
Lemma word_yes_comma f : word (Seq (plus (D U)) (opt (Seq (plus (D U)) (exponent U)))) f <->
  exists ds x, f = ds ++ x /\ digits cat ds /\ ds <> [] /\ (x = [] \/ ((2 <= len ds)%nat /\ expo cat x)).
Proof.
  rewrite word_seq. unfold plus. split.
  - intros (u & v & -> & Hu & Hv). apply word_Ds in Hu as (Hu & Lu & _). apply word_opt in Hv as [->|(_ & d & x & -> & Hd & Hx)].
    + exists u, []. repeat split; auto. intros ->. cbn in Lu. lia.
    + apply word_Ds in Hd as (Hd & Ld & _). apply word_expo in Hx. exists (u ++ d), x. rewrite app_assoc. split; [reflexivity|].
      split; [now apply Forall_app|split; [destruct u; [cbn in Lu; lia|easy]|]]. right. split; [rewrite app_length; lia|exact Hx].
  - intros (ds & x & -> & Hd & Hn & Hx). destruct Hx as [->|(Hl & Hx)].
    + exists ds, []. split; [reflexivity|split; [apply word_Ds; split; [exact Hd|split; [destruct ds; [easy|cbn; lia]|exact I]]|]]. apply word_opt. now left.
    + destruct ds as [|d ds]; [easy|]. exists [d], (ds ++ x). inversion Hd; subst. split; [reflexivity|split].
      * apply word_Ds. repeat split; [now constructor|cbn; lia].
      * apply word_opt. right. split; [destruct Hx as (? & ? & ? & -> & _); now destruct ds|].
        exists ds, x. split; [reflexivity|split; [apply word_Ds; repeat split; auto; cbn in Hl; lia|now apply word_expo]].
Qed.

Lemma m_no_part b r b' s' e e' :
  In (b', s', e') (m (opt (Seq (Behind (nd U)) (exponent U))) (b, r, e)) <->
  (b' = b /\ s' = r /\ e' = e) \/ (digit_before b /\ exists x, r = x ++ s' /\ b' = rev x ++ b /\ e' = e /\ expo cat x).
Proof.
  rewrite m_opt. split.
  - intros [[= -> -> ->]|(H & _)]; [left; auto|right]. apply m_seq in H as (st & H & H'). apply m_behind in H as (-> & c & b0 & -> & Hc).
    apply m_pure in H' as (x & s2 & -> & [= -> -> ->] & Hx); [|reflexivity]. split; [exists c, b0; split; [reflexivity|now apply nd_iff]|].
    exists x. repeat split. now apply word_expo.
  - intros [(-> & -> & ->)|((c & b0 & -> & Hc) & x & -> & -> & -> & Hx)]; [now left|right]. split.
    + apply m_seq. eexists. split; [apply m_behind; split; [reflexivity|exists c, b0; split; [reflexivity|now apply nd_iff]]|].
      apply m_pure; [reflexivity|]. exists x, s'. repeat split. now apply word_expo.
    + cbn [fst snd]. rewrite app_length. destruct Hx as (? & ? & ? & -> & _). cbn. lia.
Qed.

Definition tail_at (b r : str) : Prop :=
  r = [] \/ (digit_before b /\ expo cat r) \/
  (exists f, r = dot :: f /\ (digit_before b \/ exists c t, f = c :: t /\ digit cat c) /\
     exists ds x, f = ds ++ x /\ digits cat ds /\ (x = [] \/ expo cat x)) \/
  (exists f, r = COMMA :: f /\ exists ds x, f = ds ++ x /\ digits cat ds /\ ds <> [] /\ (x = [] \/ ((2 <= len ds)%nat /\ expo cat x))).

Definition dot_part : re := Alt (Seq (Behind (nd U)) (is 46)) (Seq (is 46) (Look (D U))).
Lemma m_is c b s e st' : In st' (m (is c) (b, s, e)) <-> exists s', s = c :: s' /\ st' = (c :: b, s', e).
Proof.
  unfold is. rewrite m_chr. split.
  - intros (d & s' & -> & E & ->). apply N.eqb_eq in E as <-. eauto.
  - intros (s' & -> & ->). exists c, s'. now rewrite N.eqb_refl.
Qed.
Lemma m_dot b r e st' : In st' (m dot_part (b, r, e)) <->
  exists f, r = dot :: f /\ (digit_before b \/ exists c t, f = c :: t /\ digit cat c) /\ st' = (dot :: b, f, e).
Proof.
  unfold dot_part. rewrite m_alt, !m_seq. split.
  - intros [(st & H & H')|(st & H & H')].
    + apply m_behind in H as (-> & c & b0 & -> & Hc). apply m_is in H' as (s' & -> & ->). exists s'. repeat split. left.
      exists c, b0. split; [reflexivity|now apply nd_iff].
    + apply m_is in H as (s' & -> & ->). apply m_look in H' as (-> & x & Hx). apply m_chr in Hx as (c & t & -> & Hc & _).
      exists (c :: t). repeat split. right. exists c, t. split; [reflexivity|now apply nd_iff].
  - intros (f & -> & [(c & b0 & -> & Hc)|(c & t & -> & Hc)] & ->); [left|right].
    + eexists. split; [apply m_behind; split; [reflexivity|exists c, b0; split; [reflexivity|now apply nd_iff]]|]. apply m_is. eauto.
    + eexists. split; [apply m_is; eauto|]. apply m_look. split; [reflexivity|]. eexists. apply m_chr. exists c, t. repeat split. now apply nd_iff.
Qed.
Lemma m_tail b r : (exists b' e', In (b', [], e')
    (m (Alt (Seq (opt (Grp 0 dot_part)) (IfGrp 0 (Seq (star (D U)) (opt (Seq (star (D U)) (exponent U)))) (opt (Seq (Behind (nd U)) (exponent U)))))
            (Seq (opt (Grp 1 (is 44))) (IfGrp 1 (Seq (plus (D U)) (opt (Seq (plus (D U)) (exponent U)))) (opt (Seq (Behind (nd U)) (exponent U))))))
       (b, r, []))) <-> tail_at b r.
Proof.
  unfold tail_at. split.
  - intros (b' & e' & H). apply m_alt in H as [H|H]; apply m_seq in H as ([[b1 s1] e1] & H & H'); apply m_opt in H as [[= -> -> ->]|(H & _)];
      try (apply m_ifgrp in H'; cbn [group find option_map] in H'; apply m_no_part in H' as [(_ & <- & _)|(Hb & x & -> & _ & _ & Hx)];
           [now left|right; left; rewrite app_nil_r; auto]); right; right.
    + left. apply m_grp in H as (b2 & s2 & e2 & H & [= -> -> ->]). apply m_dot in H as (f & -> & Hf & [= -> -> ->]).
      apply m_ifgrp in H'. rewrite group_head in H'. apply m_pure in H' as (w & s' & -> & [= -> <- _] & Hw); [|reflexivity].
      rewrite app_nil_r in *. exists w. repeat split; auto. now apply word_yes_dot.
    + right. apply m_grp in H as (b2 & s2 & e2 & H & [= -> -> ->]). apply m_is in H as (f & -> & [= -> -> ->]).
      apply m_ifgrp in H'. rewrite group_head in H'. apply m_pure in H' as (w & s' & -> & [= -> <- _] & Hw); [|reflexivity].
      rewrite app_nil_r in *. exists w. repeat split; auto. now apply word_yes_comma.
  - intros [->|[(Hb & Hx)|[(f & -> & Hb & Hf)|(f & -> & Hf)]]].
    + exists b, []. apply m_alt. left. apply m_seq. exists (b, [], []). split; [apply m_opt; now left|]. apply m_ifgrp. cbn [group find option_map].
      apply m_no_part. left. auto.
    + exists (rev r ++ b), []. apply m_alt. left. apply m_seq. exists (b, r, []). split; [apply m_opt; now left|]. apply m_ifgrp. cbn [group find option_map].
      apply m_no_part. right. split; [exact Hb|]. exists r. rewrite app_nil_r. auto.
    + do 2 eexists. apply m_alt. left. apply m_seq. eexists. split.
      * apply m_opt. right. split; [apply m_grp; do 3 eexists; split; [apply m_dot; exists f; repeat split; exact Hb|reflexivity]|cbn; lia].
      * apply m_ifgrp. rewrite group_head. apply m_pure; [reflexivity|]. exists f, []. rewrite app_nil_r. repeat split. now apply word_yes_dot.
    + do 2 eexists. apply m_alt. right. apply m_seq. eexists. split.
      * apply m_opt. right. split; [apply m_grp; do 3 eexists; split; [apply m_is; exists f; split; reflexivity|reflexivity]|cbn; lia].
      * apply m_ifgrp. rewrite group_head. apply m_pure; [reflexivity|]. exists f, []. rewrite app_nil_r. repeat split. now apply word_yes_comma.
Qed.

Lemma not_digit c : c < 128 -> ~ ascii_digit c -> ~ digit cat c.
Proof. intros H1 H2 H3. apply H2. now apply sane. Qed.
Lemma whole_digits w : whole cat w -> w <> [] /\ digits cat w.
Proof.
  intros [->|(c & t & -> & Hc & Ht)]; (split; [easy|]).
  - constructor; [apply sane; unfold ascii_digit; cbn; lia|constructor].
  - constructor; [apply sane; unfold ascii_digit; lia|exact Ht].
Qed.
Lemma before_whole w sg : a_sign sg -> w = [] \/ whole cat w -> (digit_before (rev w ++ rev sg ++ []) <-> w <> []).
Proof.
  intros Hs Hw. split.
  - intros (c & b & E & Hc) ->. cbn in E. destruct Hs as [->|[->| ->]]; cbn in E; [discriminate| |]; injection E as <- _;
      revert Hc; apply not_digit; unfold ascii_digit; lia.
  - intros Hn. destruct Hw as [->|Hw]; [easy|]. apply whole_digits in Hw as (_ & Hd).
    destruct (exists_last Hn) as (t & c & ->). rewrite rev_app_distr. cbn. exists c. eexists. split; [reflexivity|].
    apply Forall_app in Hd as (_ & Hd). now inversion Hd.
Qed.
Lemma tail_iff w sg r : a_sign sg -> w = [] \/ whole cat w -> (tail_at (rev w ++ rev sg ++ []) r <-> number_tail cat w r).
Proof.
  intros Hs Hw. unfold tail_at, number_tail. setoid_rewrite (before_whole w sg Hs Hw). split.
  - intros [->|[H|[(f & -> & Hb & ds & x & -> & Hd & Hx)|(f & -> & ds & x & -> & Hd & Hn & Hx)]]]; [now left|right; now left|right; right; left|right; right; right].
    + exists ds, x. repeat split; auto. destruct Hb as [Hb|(c & t & E & Hc)]; [now left|right]. intros ->. cbn in E.
      destruct Hx as [->|(y & s1 & s2 & -> & Hy & _)]; [discriminate|]. injection E as -> _.
      revert Hc. cbn in Hy. destruct Hy as [<-|[<-|[]]]; apply not_digit; unfold ascii_digit; lia.
    + exists ds, x. auto.
  - intros [->|[H|[(f & x & -> & Hd & Hb & Hx)|(f & x & -> & Hd & Hn & Hx)]]]; [now left|right; now left|right; right; left|right; right; right].
    + exists (f ++ x). repeat split; [|exists f, x; auto]. destruct Hb as [Hb|Hb]; [now left|right]. destruct f as [|c f]; [easy|].
      inversion Hd. cbn. eauto.
    + exists (f ++ x). repeat split. exists f, x. auto.
Qed.

Lemma word_whole w : word (opt (Alt (is 48) (Seq (range 49 57) (star (D U))))) w <-> w = [] \/ whole cat w.
Proof.
  rewrite word_opt, word_alt, word_is, word_seq. unfold whole. split.
  - intros [->|(_ & [->|(u & t & -> & Hu & Ht)])]; [now left|right; now left|right; right].
    apply word_range in Hu as (c & -> & Hc). apply word_Ds in Ht as (Ht & _). exists c, t. auto.
  - intros [->|[->|(c & t & -> & Hc & Ht)]]; [now left|right..]; (split; [easy|]); [now left|right].
    exists [c], t. repeat split; [apply word_range; eauto|apply word_Ds; repeat split; auto; lia].
Qed.

Theorem fullmatch_number_1 s : fullmatches (re_number_1 U) s = true <-> plain_number cat s.
Proof.
  rewrite fullmatches_iff. unfold re_number_1, plain_number. cbn [seqs]. fold dot_part. split.
  - intros (b & e & H). apply m_seq in H as (st0 & H & H'). apply m_bol in H as (_ & ->).
    apply m_seq in H' as (st1 & H & H'). apply m_look in H as (-> & x & Hx). apply m_chr in Hx as (c0 & t0 & E0 & _).
    apply m_seq in H' as (st2 & H & H'). apply m_pure in H as (sg & r1 & -> & -> & Hs); [|reflexivity]. apply word_sign in Hs.
    apply m_seq in H' as (st3 & H & H'). apply m_pure in H as (w & r & -> & -> & Hw); [|reflexivity]. apply word_whole in Hw.
    apply m_seq in H' as ([[b4 s4] e4] & H & H'). apply m_eol_end in H' as (-> & -> & ->).
    split; [rewrite E0; easy|]. exists sg, w, r. repeat split; auto. apply (tail_iff w sg); auto. apply m_tail. eauto.
  - intros (Hn & sg & w & r & -> & Hs & Hw & Ht). apply (tail_iff w sg r Hs Hw) in Ht as Hr. apply m_tail in Hr as (b' & e' & Hm).
    exists b', e'. apply m_seq. eexists. split; [apply m_bol; split; reflexivity|].
    apply m_seq. eexists. split.
    { apply m_look. split; [reflexivity|].
      assert (HL : exists c t, sg ++ w ++ r = c :: t /\ (in_range 43 46 c || nd U c)%bool = true).
      { destruct Hs as [->|[->| ->]]; [cbn [app]|cbn; eauto..]. destruct Hw as [->|Hw].
        - cbn [app] in *. destruct Ht as [->|[(Hf & _)|[(f & x & -> & _)|(f & x & -> & _)]]]; [easy|easy|eauto..].
        - apply whole_digits in Hw as (Hne & Hd). destruct w as [|c w]; [easy|]. inversion Hd as [|? ? Hc _]; subst. cbn. exists c. eexists. split; [reflexivity|].
          apply nd_iff in Hc. rewrite Hc. apply orb_true_r. }
      destruct HL as (c & t & -> & Hc). eexists. apply m_chr. eauto. }
    apply m_seq. eexists. split; [apply m_pure; [reflexivity|]; exists sg, (w ++ r); repeat split; now apply word_sign|].
    apply m_seq. eexists. split; [apply m_pure; [reflexivity|]; exists w, r; repeat split; now apply word_whole|].
    apply m_seq. eexists. split; [exact Hm|]. apply m_eol_end. auto.
Qed.

Lemma number_not_empty s : a_number cat s -> s <> [].
Proof.
  intros [(Hn & _)|[(sg & c & t & gs & f & -> & _)|(sg & c & t & gs & f & -> & _)]]; [exact Hn| |];
    intros E; apply app_eq_nil in E as (_ & E); discriminate.
Qed.
Theorem is_number_iff cell : is_number U cell = true <-> a_number cat (strip cell).
Proof.
  unfold is_number, run_regex. rewrite andb_true_iff, !orb_true_iff, fullmatch_number_1.
  rewrite !fullmatches_pure by reflexivity. unfold re_number_2, re_number_3. rewrite !word_grouped.
  split; [intros (_ & [[H|H]|H]); [left|right; left|right; right]; exact H|].
  intros H. split; [|unfold a_number in H; tauto]. apply number_not_empty in H. destruct cell; [easy|reflexivity].
Qed.

(** ** Percentages *)
Lemma repeat_last (c : N) n : repeat c (S n) = repeat c n ++ [c].
Proof. induction n as [|n IH]; [reflexivity|]. cbn [repeat app] in *. now rewrite <- IH. Qed.
Lemma same_tail c k : forall k' p p', no_end c p -> no_end c p' -> p ++ repeat c k = p' ++ repeat c k' -> p = p'.
Proof.
  induction k as [|k IH]; intros [|k'] p p' Hp Hp' E.
  - cbn in E. now rewrite !app_nil_r in E.
  - rewrite repeat_last, app_assoc in E. cbn [repeat] in E. rewrite app_nil_r in E. now apply Hp in E.
  - rewrite repeat_last, app_assoc in E. cbn [repeat] in E. rewrite app_nil_r in E. symmetry in E. now apply Hp' in E.
  - rewrite !repeat_last, !app_assoc in E. apply app_inj_tail in E as (E & _). eauto.
Qed.
Theorem is_percentage_iff cell : is_percentage U cell = true <-> a_percentage cat strip cell.
Proof.
  unfold is_percentage, a_percentage. rewrite andb_true_iff, is_number_iff. change (s2l "%") with [percent]. rewrite ends_with_one.
  destruct (rstrip_spec percent cell) as (k & E & Hk). change 37 with percent. set (p := rstrip_by (N.eqb percent) cell) in *. split.
  - intros ((t & Et) & Hn). destruct k as [|k].
    + cbn [repeat] in E. rewrite app_nil_r in E. rewrite <- E in Hk. now apply Hk in Et.
    + exists p, k. split; [exact E|]. split; [|exact Hn]. intros (q & Hq). now apply Hk in Hq.
  - intros (p' & k' & E' & Hp & Hn). assert (p' = p) as ->.
    { apply (same_tail percent (S k') k); [intros q Hq; apply Hp; eauto|exact Hk|congruence]. }
    split; [|exact Hn]. exists (p ++ repeat percent k'). now rewrite E', <- app_assoc, <- repeat_last.
Qed.

(** ** Amounts *)
Lemma star_no_lf w : word (star (Chr (fun c => negb (c =? LF)))) w <-> ~ In LF w.
Proof.
  rewrite word_star_chr, Forall_forall. split.
  - intros H Hi. apply H in Hi. discriminate.
  - intros H c Hc. destruct (N.eqb_spec c LF) as [->|]; [contradiction|reflexivity].
Qed.
Theorem is_currency_iff cell : is_currency U cell = true <-> an_amount cat strip (u_ws U) cell.
Proof.
  unfold is_currency, an_amount, fullmatch, re_currency. cbn [seqs].
  set (any := Chr (fun c => negb (c =? LF))).
  (* all ways to read the text behind a currency sign *)
  assert (HM : forall b s b' e', In (b', [], e') (m (Grp 1 (star any)) (b, s, [])) <-> ~ In LF s /\ b' = rev s ++ b /\ e' = [(1%nat, s)]).
  { intros b s b' e'. rewrite m_grp. split.
    - intros (b1 & s1 & e1 & H & [= -> <- ->]). apply m_pure in H as (w & s2 & -> & [= -> <- ->] & Hw); [|reflexivity].
      apply star_no_lf in Hw. rewrite app_nil_r, Nat.sub_0_r, firstn_all. auto.
    - intros (H & -> & ->). exists (rev s ++ b), [], []. split; [|now rewrite Nat.sub_0_r, firstn_all].
      apply m_pure; [reflexivity|]. exists s, []. rewrite app_nil_r. repeat split. now apply star_no_lf. }
  destruct cell as [|c s].
  { cbn. split; [easy|]. intros (c & w & g & [=] & _). }
  cbn [m]. destruct (sc U c) eqn:Ec.
  2:{ cbn. split; [easy|]. intros (c' & w & g & [= -> _] & Hc & _). apply sc_iff in Hc. congruence. }
  cbn [flat_map]. rewrite app_nil_r.
  (* the remaining states, in order *)
  set (fin := fun st : mstate => match snd (fst st) with [] => true | _ => false end).
  assert (HF : forall b s, find fin (m (Grp 1 (star any)) (b, s, [])) = if mem_char LF s then None else Some (rev s ++ b, [], [(1%nat, s)])).
  { intros b t. destruct (find fin (m (Grp 1 (star any)) (b, t, []))) as [[[b' s'] e']|] eqn:E.
    - apply find_some in E as (Hi & Hf). destruct s' as [|]; [|discriminate]. apply HM in Hi as (Hn & -> & ->).
      apply mem_char_false in Hn. now rewrite Hn.
    - destruct (mem_char LF t) eqn:El; [reflexivity|]. exfalso. apply mem_char_false in El.
      assert (Hi : In (rev t ++ b, [], [(1%nat, t)]) (m (Grp 1 (star any)) (b, t, []))) by (apply HM; auto).
      eapply find_none in E; [|exact Hi]. discriminate. }
  assert (Happ : forall l1 l2, find fin (l1 ++ l2) = match find fin l1 with Some x => Some x | None => find fin l2 end).
  { induction l1 as [|x l1 IH]; intros l2; cbn; [reflexivity|]. destruct (fin x); [reflexivity|apply IH]. }
  assert (HO : m (opt (Chr (u_ws U))) ([c], s, []) =
    match s with x :: t => if u_ws U x then [([x; c], t, []); ([c], s, [])] else [([c], s, [])] | [] => [([c], s, [])] end).
  { destruct s as [|x t]; [reflexivity|]. unfold opt. cbn [m List.length reps Nat.eqb option_map pred].
    destruct (u_ws U x); [|reflexivity]. cbn [flat_map fst snd]. 
    match goal with |- context [if ?x then _ else _] => replace x with true by (symmetry; apply Nat.ltb_lt; cbn; lia) end.
    destruct (List.length t); reflexivity. }
  change (flat_map _ _) with (flat_map (m (Grp 1 (star any))) (m (opt (Chr (u_ws U))) ([c], s, []))). rewrite HO. clear HO.
  split.
  - intros H. destruct s as [|x t].
    + cbn [flat_map] in H. rewrite app_nil_r in H. change (find _ _) with (find fin (m (Grp 1 (star any)) ([c], [], []))) in H. rewrite HF in H. cbn in H. discriminate.
    + destruct (u_ws U x) eqn:Ex.
      * cbn [flat_map] in H. rewrite app_nil_r in H. change (find _ _) with (find fin (m (Grp 1 (star any)) ([x; c], t, []) ++ m (Grp 1 (star any)) ([c], x :: t, []))) in H.
        rewrite Happ, !HF in H. destruct (mem_char LF t) eqn:El.
        { replace (mem_char LF (x :: t)) with true in H by (symmetry; apply mem_char_In; right; now apply mem_char_In). easy. }
        cbn [group find fst snd option_map Nat.eqb] in H. apply is_number_iff in H. apply mem_char_false in El.
        exists c, [x], t. repeat split; auto; [now apply sc_iff|]. left. eauto.
      * cbn [flat_map] in H. rewrite app_nil_r in H. change (find _ _) with (find fin (m (Grp 1 (star any)) ([c], x :: t, []))) in H.
        rewrite HF in H. destruct (mem_char LF (x :: t)) eqn:El; [easy|].
        cbn [group find fst snd option_map Nat.eqb] in H. apply is_number_iff in H. apply mem_char_false in El.
        exists c, [], (x :: t). repeat split; auto; [now apply sc_iff|]. right. split; [reflexivity|]. intros ? ? [= <- <-]. exact Ex.
  - intros (c' & w & g & [= <- E] & Hc & Hw & Hl & Hn). apply is_number_iff in Hn. apply mem_char_false in Hl.
    destruct Hw as [(x & -> & Hx)|(-> & Hg)].
    + cbn [app] in E. subst s. rewrite Hx. cbn [flat_map]. rewrite app_nil_r.
      change (find _ _) with (find fin (m (Grp 1 (star any)) ([x; c], g, []) ++ m (Grp 1 (star any)) ([c], x :: g, []))).
      rewrite Happ, HF, Hl. exact Hn.
    + cbn [app] in E. subst s. destruct g as [|x t]; [discriminate Hn|]. rewrite (Hg x t eq_refl). cbn [flat_map]. rewrite app_nil_r.
      change (find _ _) with (find fin (m (Grp 1 (star any)) ([c], x :: t, []))). rewrite HF, Hl. exact Hn.
Qed.
End Number.
