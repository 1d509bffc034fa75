(** * TypesText: text, paths, addresses, amounts and times *)
From Coq Require Import String.
From Verif Require Import Base Parser Dialect Json SpecTies TieRules SpecNormal NormalFacts Regex RegexFacts Types SpecTypes TypesFacts.
Open Scope N_scope.
Local Notation len := List.length.

(** ** Stripping *)
Lemma lstrip_idem f s : lstrip_by f (lstrip_by f s) = lstrip_by f s.
Proof. induction s as [|c s IH]; cbn; [reflexivity|]. destruct (f c) eqn:E; [exact IH|]. cbn. now rewrite E. Qed.
Lemma lstrip_suffix f s : exists t, s = t ++ lstrip_by f s.
Proof.
  induction s as [|c s (t & IH)]; cbn; [now exists []|]. destruct (f c); [exists (c :: t); cbn; congruence|now exists []].
Qed.
Lemma rstrip_prefix f s : exists t, s = rstrip_by f s ++ t.
Proof.
  unfold rstrip_by. destruct (lstrip_suffix f (rev s)) as (t & E). exists (rev t).
  rewrite <- rev_app_distr, <- E. now rewrite rev_involutive.
Qed.
Lemma rstrip_idem f s : rstrip_by f (rstrip_by f s) = rstrip_by f s.
Proof. unfold rstrip_by. now rewrite rev_involutive, lstrip_idem. Qed.
Lemma lstrip_fixed f c s : f c = false -> lstrip_by f (c :: s) = c :: s.
Proof. intros E. cbn. now rewrite E. Qed.
Lemma lstrip_head f s c t : lstrip_by f s = c :: t -> f c = false.
Proof. induction s as [|d s IH]; cbn; [easy|]. destruct (f d) eqn:E; [exact IH|]. now intros [= -> _]. Qed.
Lemma strip_idem f s : strip_by f (strip_by f s) = strip_by f s.
Proof.
  unfold strip_by. destruct (rstrip_by f (lstrip_by f s)) as [|c t] eqn:E; [reflexivity|].
  destruct (rstrip_prefix f (lstrip_by f s)) as (x & Ex). rewrite E in Ex. cbn in Ex.
  rewrite lstrip_fixed by (eapply lstrip_head; exact Ex). rewrite <- E. apply rstrip_idem.
Qed.
Lemma strip_head f s c t : strip_by f s = c :: t -> f c = false.
Proof.
  unfold strip_by. intros E. destruct (rstrip_prefix f (lstrip_by f s)) as (x & Ex). rewrite E in Ex.
  eapply lstrip_head. exact Ex.
Qed.
(** If the first character stays, it is the first of the stripped string. *)
Lemma strip_first f c s : f c = false -> exists t, strip_by f (c :: s) = c :: t.
Proof.
  intros E. unfold strip_by. rewrite lstrip_fixed by exact E. unfold rstrip_by. cbn [rev].
  assert (H : forall l, exists x, lstrip_by f (l ++ [c]) = x ++ [c]).
  { induction l as [|d l IH]; cbn; [rewrite E; now exists []|]. destruct (f d); [exact IH|now exists (d :: l)]. }
  destruct (H (rev s)) as (x & ->). rewrite rev_app_distr. cbn. eauto.
Qed.

(** ** Splitting at a character *)
Lemma split_first c s : (~ In c s /\ py_split [c] s = [s]) \/
  exists a r, s = a ++ c :: r /\ ~ In c a /\ py_split [c] s = a :: py_split [c] r.
Proof.
  assert (H : forall s cur, (~ In c s /\ py_split_aux [c] 0 cur s = [cur ++ s]) \/
    exists a r, s = a ++ c :: r /\ ~ In c a /\ py_split_aux [c] 0 cur s = (cur ++ a) :: py_split [c] r).
  { clear s. induction s as [|x s IH]; intros cur.
    - left. cbn. now rewrite app_nil_r.
    - destruct (N.eqb_spec c x) as [->|Hx].
      + right. exists [], s. rewrite app_nil_r. repeat split; [easy|]. cbn. now rewrite N.eqb_refl.
      + assert (E : py_split_aux [c] 0 cur (x :: s) = py_split_aux [c] 0 (cur ++ [x]) s).
        { cbn. destruct (N.eqb_spec c x); [easy|reflexivity]. }
        rewrite E. destruct (IH (cur ++ [x])) as [(Hn & ->)|(a & r & -> & Ha & ->)].
        * left. rewrite <- app_assoc. split; [cbn; intuition congruence|reflexivity].
        * right. exists (x :: a), r. rewrite <- app_assoc. repeat split. cbn. intuition congruence. }
  destruct (H s []) as [(Hn & E)|(a & r & E1 & Ha & E)]; [left|right; exists a, r]; auto.
Qed.
Lemma unique_cut (c : N) (x r a b : str) : ~ In c x -> ~ In c a -> x ++ c :: r = a ++ c :: b -> x = a /\ r = b.
Proof.
  revert a. induction x as [|d x IH]; intros [|d' a] Hx Ha E; cbn in E; inversion E; subst.
  - auto.
  - destruct Ha. now left.
  - destruct Hx. now left.
  - destruct (IH a) as (-> & ->); auto; intros H; [apply Hx|apply Ha]; now right.
Qed.
Lemma split_two c s a b : py_split [c] s = [a; b] <-> s = a ++ c :: b /\ ~ In c a /\ ~ In c b.
Proof.
  split.
  - intros E. destruct (split_first c s) as [(_ & E')|(x & r & -> & Hx & E')]; [congruence|]. rewrite E in E'. injection E' as <- E'.
    destruct (split_first c r) as [(Hr & E2)|(y & r' & -> & Hy & E2)]; [|].
    + rewrite E2 in E'. injection E' as ->. auto.
    + rewrite E2 in E'. injection E' as _ E'. destruct (split_first c r') as [(_ & E3)|(? & ? & _ & _ & E3)]; rewrite E3 in E'; discriminate.
  - intros (-> & Ha & Hb). destruct (split_first c (a ++ c :: b)) as [(Hn & _)|(x & r & E & Hx & ->)].
    + destruct Hn. apply in_or_app. right. now left.
    + destruct (unique_cut c x r a b Hx Ha (eq_sym E)) as (-> & ->).
      destruct (split_first c b) as [(_ & ->)|(? & ? & -> & _ & _)]; [reflexivity|]. destruct Hb. apply in_or_app. right. now left.
Qed.
(** The first two parts. *)
Lemma split_more c s (P : str -> str -> Prop) :
  (exists a b l, py_split [c] s = a :: b :: l /\ P a b) <->
  exists a b rest, s = a ++ c :: b ++ rest /\ ~ In c a /\ ~ In c b /\ (rest = [] \/ exists r, rest = c :: r) /\ P a b.
Proof.
  split.
  - intros (a & b & l & E & HP). destruct (split_first c s) as [(_ & E')|(x & r & -> & Hx & E')]; [congruence|].
    rewrite E in E'. injection E' as <- E'. destruct (split_first c r) as [(Hr & E2)|(y & r' & -> & Hy & E2)]; rewrite E2 in E'.
    + injection E' as -> _. exists a, r, []. rewrite app_nil_r. repeat split; auto.
    + injection E' as -> _. exists a, y, (c :: r'). repeat split; eauto.
  - intros (a & b & rest & -> & Ha & Hb & Hr & HP). exists a, b.
    assert (H : forall x t, ~ In c x -> py_split [c] (x ++ c :: t) = x :: py_split [c] t).
    { clear. intros x t Hx. destruct (split_first c (x ++ c :: t)) as [(Hn & _)|(y & r & E & Hy & ->)].
      - destruct Hn. apply in_or_app. right. now left.
      - now destruct (unique_cut c y r x t Hy Hx (eq_sym E)) as (-> & ->). }
    destruct Hr as [->|(r & ->)].
    + rewrite app_nil_r, H by exact Ha. destruct (split_first c b) as [(_ & ->)|(? & ? & -> & _ & _)]; [eauto|].
      destruct Hb. apply in_or_app. right. now left.
    + rewrite H, H by assumption. eauto.
Qed.
Lemma ends_with_one c s : ends_with [c] s = true <-> exists t, s = t ++ [c].
Proof.
  unfold ends_with. cbn [rev app]. rewrite starts_with_iff. split; intros (t & E).
  - exists (rev t). rewrite <- (rev_involutive s), E. reflexivity.
  - exists (rev t). now rewrite E, rev_app_distr.
Qed.

Section Text.
Variable U : unidata.
Local Notation cat := (u_cat U).
Local Notation strip := (strip U).
Lemma strip_strip s : strip (strip s) = strip s.
Proof. apply strip_idem. Qed.
Lemma run_strip r s : run_regex U r (strip s) = run_regex U r s.
Proof. unfold run_regex. now rewrite strip_strip. Qed.

(** ** Text *)
Lemma text_class q c :
  (numeral U c || letter U c || (c =? 32) ||
   one_of (if q : bool then SPECIALS_ALLOWED ++ QUOTED_SPECIALS_ALLOWED else SPECIALS_ALLOWED) c)%bool = true <-> text_char cat q c.
Proof.
  rewrite !orb_true_iff, numeral_iff, letter_iff, N.eqb_eq, one_of_iff. unfold text_char.
  assert (HS : In c SPECIALS_ALLOWED <-> In c text_marks).
  { unfold SPECIALS_ALLOWED, text_marks. cbn [In]. tauto. }
  change QUOTED_SPECIALS_ALLOWED with text_commas. destruct q; rewrite ?in_app_iff, HS; intuition congruence.
Qed.
Lemma word_text sp w : word (re_alphanum_of U sp) w <->
  w <> [] /\ Forall (fun c => (numeral U c || letter U c || (c =? 32) || one_of sp c)%bool = true) w.
Proof.
  unfold re_alphanum_of. cbn [seqs]. rewrite word_alt. split.
  - intros [(u & v & -> & Hu & l & t & -> & Hl & Ht)|(u & v & -> & Hu & Hv)].
    + apply word_plus_chr in Hl as (Hn & Hl). apply word_star_chr in Ht. apply word_opt in Hu. split.
      { intros E. apply app_eq_nil in E as (_ & E). apply app_eq_nil in E as (E & _). contradiction. }
      apply Forall_app. split; [|apply Forall_app; split; [|exact Ht]].
      * destruct Hu as [->|(_ & c & -> & E)]; constructor; [|constructor]. now rewrite E.
      * eapply Forall_impl; [|exact Hl]. intros c E. cbn beta in E. rewrite E. now rewrite orb_true_r.
    + apply word_plus_chr in Hv as (Hn & Hv). apply word_opt in Hu. split; [intros E; apply app_eq_nil in E as (_ & E); contradiction|].
      apply Forall_app. split; [|exact Hv]. destruct Hu as [->|(_ & c & -> & E)]; constructor; [|constructor]. rewrite E. now rewrite orb_true_r.
  - intros (Hn & Hw). right. exists [], w. split; [reflexivity|split; [apply word_opt; now left|]]. now apply word_plus_chr.
Qed.
Lemma is_text_iff cell q : is_unicode_alphanum U cell q = true <-> a_text cat q (strip cell).
Proof.
  unfold is_unicode_alphanum, run_regex, re_alphanum, re_alphanum_quoted, a_text. destruct q.
  - rewrite fullmatches_pure by reflexivity. rewrite word_text. apply and_iff_compat_l. apply Forall_iff. intros c. apply (text_class true).
  - rewrite fullmatches_pure by reflexivity. rewrite word_text. apply and_iff_compat_l. apply Forall_iff. intros c. apply (text_class false).
Qed.

(** ** Paths *)
Lemma word_segment w :
  word (Seq (is 47) (plus (Chr (fun c => alnum c || one_of (s2l ".-_") c)%bool))) w <->
  exists g, w = slash :: g /\ g <> [] /\ Forall (fun x => ascii_alnum x \/ In x (s2l ".-_")) g.
Proof.
  assert (HF : forall v, Forall (fun c => (alnum c || one_of (s2l ".-_") c)%bool = true) v <->
                         Forall (fun x => ascii_alnum x \/ In x (s2l ".-_")) v).
  { intros v. apply Forall_iff. intros x. now rewrite orb_true_iff, alnum_iff, one_of_iff. }
  rewrite word_seq. split.
  - intros (u & v & -> & Hu & Hv). apply word_is in Hu as ->. apply word_plus_chr in Hv as (Hn & Hv). exists v. repeat split; auto. now apply HF.
  - intros (g & -> & Hn & Hg). exists [slash], g. split; [reflexivity|split; [now apply word_is|]]. apply word_plus_chr. split; [exact Hn|]. now apply HF.
Qed.
Lemma word_path w : word re_unix_path w <-> a_path w.
Proof.
  unfold re_unix_path, a_path. cbn [seqs]. rewrite word_seq. split.
  - intros (h & v & -> & Hh & sg & e & -> & Hs & He). apply word_opt in Hh, He. destruct Hs as (ws & -> & Hw & Hb & _).
    assert (H : exists segs, ws = map (cons slash) segs /\ Forall (fun g => g <> [] /\ Forall (fun x => ascii_alnum x \/ In x (s2l ".-_")) g) segs).
    { clear Hb. induction Hw as [|x ws (_ & Hx) Hw IH]; [exists []; auto|]. destruct IH as (segs & -> & Hs).
      apply word_segment in Hx as (g & -> & Hg). exists (g :: segs). auto. }
    destruct H as (segs & -> & Hs). exists h, segs, e. repeat split; auto.
    + destruct Hh as [->|(_ & Hh)]; [now left|right]. apply word_any_of in Hh as (c & Hc & ->). cbn in Hc. destruct Hc as [<-|[<-|[]]]; [left|right]; reflexivity.
    + intros ->. cbn in Hb. lia.
    + destruct He as [->|(_ & He)]; [now left|right]. now apply word_is in He.
  - intros (h & segs & e & -> & Hh & Hn & Hs & He). exists h, (concat (map (cons slash) segs) ++ e). split; [reflexivity|split].
    { apply word_opt. destruct Hh as [->|[->| ->]]; [now left|right..]; (split; [easy|]); apply word_any_of; eexists; (split; [|reflexivity]); cbn; auto. }
    exists (concat (map (cons slash) segs)), e. split; [reflexivity|split].
    + exists (map (cons slash) segs). split; [reflexivity|split; [|split; [|exact I]]].
      * apply Forall_map. eapply Forall_impl; [|exact Hs]. intros g (H1 & H2). split; [easy|]. apply word_segment. eauto.
      * rewrite map_length. destruct segs; [easy|cbn; lia].
    + apply word_opt. destruct He as [->| ->]; [now left|right]. split; [easy|]. now apply word_is.
Qed.
Lemma is_path_iff cell : is_unix_path U cell = true <-> a_path (strip cell).
Proof. unfold is_unix_path, run_regex. rewrite fullmatches_pure by reflexivity. apply word_path. Qed.

(** ** E-mail *)
Lemma Forall_class (P : N -> Prop) p v : (forall c, p c = true <-> P c) -> (word (plus (Chr p)) v <-> v <> [] /\ Forall P v).
Proof. intros H. rewrite word_plus_chr. apply and_iff_compat_l, Forall_iff, H. Qed.
Lemma fullmatch_email s : fullmatches re_email s = true <-> an_email s.
Proof.
  rewrite fullmatches_iff. unfold re_email, an_email. cbn [seqs].
  assert (H1 : forall c, (alnum c || one_of (s2l "_.+-") c)%bool = true <-> ascii_alnum c \/ In c (s2l "_.+-"))
    by (intros c; now rewrite orb_true_iff, alnum_iff, one_of_iff).
  assert (H2 : forall c, (alnum c || (c =? 45))%bool = true <-> ascii_alnum c \/ c = hyphen)
    by (intros c; now rewrite orb_true_iff, alnum_iff, N.eqb_eq).
  assert (H3 : forall c, (alnum c || one_of (s2l "-.") c)%bool = true <-> ascii_alnum c \/ In c (s2l "-."))
    by (intros c; now rewrite orb_true_iff, alnum_iff, one_of_iff).
  split.
  - intros (b & e & H). apply m_seq in H as (st0 & H & H'). apply m_bol in H as (_ & ->).
    apply m_seq in H' as (st1 & H & H'). apply m_pure in H as (u1 & r1 & -> & -> & W1); [|reflexivity].
    apply m_seq in H' as (st2 & H & H'). apply m_pure in H as (u2 & r2 & -> & -> & W2); [|reflexivity].
    apply m_seq in H' as (st3 & H & H'). apply m_pure in H as (u3 & r3 & -> & -> & W3); [|reflexivity].
    apply m_seq in H' as (st4 & H & H'). apply m_pure in H as (u4 & r4 & -> & -> & W4); [|reflexivity].
    apply m_seq in H' as (st5 & H & H'). apply m_pure in H as (u5 & r5 & -> & -> & W5); [|reflexivity].
    apply m_eol_end in H' as (_ & -> & _). apply word_is in W2 as ->. apply word_is in W4 as ->.
    exists u1, u3, u5. rewrite app_nil_r. split; [reflexivity|]. split; [now apply (Forall_class _ _ _ H1)|]. split; [now apply (Forall_class _ _ _ H2)|now apply (Forall_class _ _ _ H3)].
  - intros (u1 & u3 & u5 & -> & W1 & W3 & W5). do 2 eexists.
    apply m_seq. eexists. split; [apply m_bol; split; reflexivity|].
    apply m_seq. eexists. split; [apply m_pure; [reflexivity|]; do 2 eexists; split; [reflexivity|split; [reflexivity|now apply (Forall_class _ _ _ H1)]]|].
    apply m_seq. eexists. split; [apply m_pure; [reflexivity|]; exists [64]; eexists; split; [reflexivity|split; [reflexivity|now apply word_is]]|].
    apply m_seq. eexists. split; [apply m_pure; [reflexivity|]; do 2 eexists; split; [reflexivity|split; [reflexivity|now apply (Forall_class _ _ _ H2)]]|].
    apply m_seq. eexists. split; [apply m_pure; [reflexivity|]; exists [dot]; eexists; split; [reflexivity|split; [reflexivity|now apply word_is]]|].
    apply m_seq. eexists. split; [apply m_pure; [reflexivity|]; exists u5, []; split; [now rewrite app_nil_r|split; [reflexivity|now apply (Forall_class _ _ _ H3)]]|].
    apply m_eol_end. auto.
Qed.
Lemma is_email_iff cell : is_email U cell = true <-> an_email (strip cell).
Proof. apply fullmatch_email. Qed.

(** ** Times *)
Hypothesis sane : sane_categories cat.
Hypothesis isdigit_ok : forall c, digit cat c -> u_isdigit U c = true.

Lemma below_first n w : below n w -> exists c t, w = c :: t /\ ascii_digit c.
Proof. intros (v & (a & b & -> & Ha & _) & _). eauto. Qed.
Lemma time_first s : a_time s -> exists c t, s = c :: t /\ ascii_digit c.
Proof.
  intros [(h & mi & -> & [(c & -> & Hc)|Hh] & _)|[(h & mi & se & -> & Hh & _)|(h & mi & se & sg & zh & zm & -> & Hh & _)]];
    [cbn; eauto| | |]; apply below_first in Hh as (c & t & -> & Hc); cbn; eauto.
Qed.
Lemma is_time_iff cell : is_time U cell = true <-> a_time (strip cell).
Proof.
  unfold is_time. cbn zeta. rewrite !run_strip. unfold run_regex. rewrite andb_true_iff, !orb_true_iff, !fullmatches_pure by reflexivity.
  rewrite <- time_words. split; [tauto|]. intros H. split; [|tauto]. apply time_words in H. apply time_first in H as (c & t & -> & Hc).
  cbn. apply isdigit_ok, sane, Hc.
Qed.
Lemma run_HHMM_iff cell : run_regex U re_time_HHMM cell = true <-> hhmm (strip cell).
Proof. unfold run_regex. rewrite fullmatches_pure by reflexivity. apply word_HHMM. Qed.
End Text.
