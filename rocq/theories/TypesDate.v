(** * TypesDate: what counts as a date *)
From Coq Require Import String.
From Verif Require Import Base Parser Dialect Json NormalFacts Regex RegexFacts Types SpecTypes TypesFacts TypesText.
Open Scope N_scope.
Local Notation len := List.length.

(** ** A match that reads everything, from any state *)
Definition ends (r : re) (st : mstate) : Prop := exists b e, In (b, [], e) (m r st).
Lemma ends_alt x y st : ends (Alt x y) st <-> ends x st \/ ends y st.
Proof. unfold ends. setoid_rewrite m_alt. firstorder. Qed.
Lemma ends_seq x y b s e : pure x = true ->
  (ends (Seq x y) (b, s, e) <-> exists u v, s = u ++ v /\ word x u /\ ends y (rev u ++ b, v, e)).
Proof.
  intros Hp. unfold ends. split.
  - intros (b' & e' & H). apply m_seq in H as (st & H & H'). apply (m_pure _ Hp) in H as (u & v & -> & -> & Hu). eauto 8.
  - intros (u & v & -> & Hu & b' & e' & H). exists b', e'. apply m_seq. eexists. split; [apply (m_pure _ Hp); eauto|exact H].
Qed.
Lemma ends_pure r b s e : pure r = true -> (ends r (b, s, e) <-> word r s).
Proof.
  intros Hp. unfold ends. split.
  - intros (b' & e' & H). apply (m_pure _ Hp) in H as (w & s' & -> & [= _ <- _] & Hw). now rewrite app_nil_r.
  - intros H. do 2 eexists. apply (m_pure _ Hp). exists s, []. rewrite app_nil_r. eauto.
Qed.
(** A separator, something, the same separator, something. *)
Lemma ends_sep n A B b s e : pure A = true -> pure B = true ->
  (ends (seqs [Grp n sep_chr; A; Back n; B]) (b, s, e) <->
   exists sep y z, s = sep :: y ++ sep :: z /\ In sep (s2l "-/. ") /\ word A y /\ word B z).
Proof.
  intros HA HB. cbn [seqs]. unfold ends. split.
  - intros (b' & e' & H). apply m_seq in H as (st & H & H').
    apply m_grp in H as (b1 & s1 & e1 & H & ->). apply m_pure in H as (w & s2 & -> & [= -> -> ->] & Hw); [|reflexivity].
    apply word_any_of in Hw as (sep & Hsep & ->). cbn [app List.length] in H'.
    rewrite Nat.sub_succ_l, Nat.sub_diag in H' by lia. cbn [firstn] in H'.
    apply m_seq in H' as (st & H & H'). apply (m_pure _ HA) in H as (y & s3 & -> & -> & Hy).
    apply m_seq in H' as (st & H & H'). apply m_back in H as (w & s4 & Hg & -> & ->). rewrite group_head in Hg. injection Hg as <-.
    apply (m_pure _ HB) in H' as (z & s5 & -> & [= _ <- _] & Hz). exists sep, y, z. rewrite app_nil_r. auto.
  - intros (sep & y & z & -> & Hsep & Hy & Hz). do 2 eexists. apply m_seq. eexists. split.
    { apply m_grp. do 3 eexists. split; [|reflexivity]. apply m_pure; [reflexivity|]. exists [sep]. eexists. split; [reflexivity|split; [reflexivity|]]. apply word_any_of. eauto. }
    cbn [app List.length]. rewrite Nat.sub_succ_l, Nat.sub_diag by lia. cbn [firstn].
    apply m_seq. eexists. split; [apply (m_pure _ HA); do 2 eexists; split; [reflexivity|split; [reflexivity|exact Hy]]|].
    apply m_seq. eexists. split; [apply m_back; do 2 eexists; rewrite group_head; split; [reflexivity|split; [reflexivity|reflexivity]]|].
    apply (m_pure _ HB). exists z, []. rewrite app_nil_r. split; [reflexivity|split; [reflexivity|exact Hz]].
Qed.

Section Date.
Variable U : unidata.
Local Notation cat := (u_cat U).
Local Notation strip := (strip U).
Hypothesis sane : sane_categories cat.
Hypothesis isdigit_ok : forall c, digit cat c -> u_isdigit U c = true.

Lemma word_pair a p w : word (Seq (is a) (Chr p)) w <-> exists b, w = [a; b] /\ p b = true.
Proof.
  rewrite word_seq. split.
  - intros (u & v & -> & Hu & b & -> & Hb). apply word_is in Hu as ->. exists b. auto.
  - intros (b & -> & Hb). exists [a], [b]. repeat split; [now apply word_is|]. exists b. auto.
Qed.
Lemma one_two c : 49 <= c <= 50 <-> In c (s2l "12").
Proof. change (s2l "12") with [49; 50]. cbn [In]. lia. Qed.
Lemma word_month2 w : word Types.month2 w <-> month2 w.
Proof.
  unfold Types.month2, range. rewrite word_alt, !word_pair. unfold month2, two_digits, ascii_digit. setoid_rewrite range_iff. split.
  - intros [(b & -> & Hb)|(b & -> & Hb)]; eexists; (split; [do 2 eexists; split; [reflexivity|split; [lia|split; [lia|reflexivity]]]|lia]).
  - intros (v & (a & b & -> & Ha & Hb & ->) & Hv). assert (Ha' : a = 48 \/ a = 49) by lia. destruct Ha' as [-> | ->]; [left|right]; exists b; (split; [reflexivity|lia]).
Qed.
Lemma word_one a b w : word (range a b) w <-> exists c, w = [c] /\ a <= c <= b.
Proof. apply word_range. Qed.
Lemma word_month w : word month w <-> a_month w.
Proof.
  unfold month, a_month. rewrite word_alt, <- word_month2. unfold Types.month2. rewrite word_alt, word_seq. split.
  - intros [(u & v & -> & Hu & Hv)|H]; [|left; now right]. apply word_opt in Hu as [->|(_ & Hu)].
    + right. now apply word_range in Hv.
    + left. left. exists u, v. auto.
  - intros [[(u & v & -> & Hu & Hv)|H]|(c & -> & Hc)]; [|now right|].
    + left. exists u, v. repeat split; auto. apply word_opt. right. split; [|exact Hu]. apply word_is in Hu as ->. easy.
    + left. exists [], [c]. repeat split; [apply word_opt; now left|apply word_range; eauto].
Qed.
Lemma word_teens w : word (Seq (range 49 50) (D U)) w <-> exists a b, w = [a; b] /\ In a (s2l "12") /\ digit cat b.
Proof.
  rewrite word_seq. split.
  - intros (u & v & -> & Hu & Hv). apply word_range in Hu as (a & -> & Ha). apply word_D in Hv as (b & -> & Hb). exists a, b. repeat split; auto. now apply one_two.
  - intros (a & b & -> & Ha & Hb). exists [a], [b]. repeat split; [apply word_range; exists a; split; [reflexivity|now apply one_two]|apply word_D; eauto].
Qed.
Lemma word_day2 w : word (Types.day2 U) w <-> day2 cat w.
Proof.
  unfold Types.day2. cbn [alts]. rewrite !word_alt, word_teens. unfold range. rewrite !word_pair. setoid_rewrite range_iff. unfold day2, two_digits. split.
  - intros [(b & -> & Hb)|[H|(b & -> & Hb)]]; [left|now right|left]; eexists; (split; [do 2 eexists; split; [reflexivity|unfold ascii_digit; split; [lia|split; [lia|reflexivity]]]|lia]).
  - intros [(v & (a & b & -> & Ha & Hb & ->) & Hv)|H]; [|right; now left]. unfold ascii_digit in Ha, Hb.
    assert (Ha' : a = 48 \/ 49 <= a <= 50 \/ a = 51) by lia. destruct Ha' as [->|[Ha'| ->]].
    + left. exists b. split; [reflexivity|lia].
    + right. left. exists a, b. repeat split; [now apply one_two|]. apply sane. exact Hb.
    + right. right. exists b. split; [reflexivity|lia].
Qed.
Lemma word_day w : word (day U) w <-> a_day cat w.
Proof.
  unfold day, a_day. rewrite <- word_day2. unfold Types.day2. cbn [alts]. rewrite !word_alt, (word_seq (opt (is 48))). split.
  - intros [(u & v & -> & Hu & Hv)|H]; [|left; now right]. apply word_opt in Hu as [->|(_ & Hu)].
    + right. now apply word_range in Hv.
    + left. left. exists u, v. auto.
  - intros [[(u & v & -> & Hu & Hv)|H]|(c & -> & Hc)]; [|now right|].
    + left. exists u, v. repeat split; auto. apply word_opt. right. split; [|exact Hu]. apply word_is in Hu as ->. easy.
    + left. exists [], [c]. repeat split; [apply word_opt; now left|apply word_range; eauto].
Qed.
Lemma word_year w : word (year U) w <-> a_year cat w.
Proof.
  unfold year, a_year. cbn [seqs]. rewrite word_alt. split.
  - intros [(u & v & -> & Hu & x & v1 & -> & Hx & y & z & -> & Hy & Hz)|(x & y & -> & Hx & Hy)].
    + apply word_range in Hu as (a & -> & Ha). apply word_D in Hx as (x' & -> & Hx), Hy as (y' & -> & Hy), Hz as (z' & -> & Hz). split.
      * repeat constructor; auto. apply sane. unfold ascii_digit. lia.
      * right. split; [reflexivity|]. exists a. eexists. split; [reflexivity|now apply one_two].
    + apply word_D in Hx as (x' & -> & Hx), Hy as (y' & -> & Hy). split; [repeat constructor; auto|now left].
  - intros (Hd & [Hl|(Hl & a & t & -> & Ha)]).
    + destruct w as [|x [|y [|]]]; try discriminate Hl. inversion Hd as [|? ? Hx Hd1]; subst. inversion Hd1 as [|? ? Hy _]; subst.
      right. exists [x], [y]. repeat split; apply word_D; eauto.
    + destruct t as [|x [|y [|z [|]]]]; try discriminate Hl. inversion Hd as [|? ? _ Hd0]; subst. inversion Hd0 as [|? ? Hx Hd1]; subst.
      inversion Hd1 as [|? ? Hy Hd2]; subst. inversion Hd2 as [|? ? Hz _]; subst.
      left. exists [a], [x; y; z]. repeat split; [apply word_range; exists a; split; [reflexivity|now apply one_two]|].
      exists [x], [y; z]. repeat split; [apply word_D; eauto|]. exists [y], [z]. repeat split; apply word_D; eauto.
Qed.

(** month and day without a leading zero *)
Lemma word_month1 w : word (Alt (range 49 57) (Seq (is 49) (range 48 50))) w -> a_month w.
Proof.
  rewrite word_alt. intros [H|H]; [right; now apply word_range in H|left]. apply word_month2. now right.
Qed.
Lemma word_day1 w : word (alts [range 49 57; Seq (range 49 50) (D U); Seq (is 51) (range 48 49)]) w -> a_day cat w.
Proof.
  cbn [alts]. rewrite word_alt. intros [H|H]; [right; now apply word_range in H|left]. apply word_day2. now right.
Qed.

Lemma word_cjk a b c v : word (seqs [is a; month; is b; day U; is c]) v <-> exists y z, v = a :: y ++ b :: z ++ [c] /\ a_month y /\ a_day cat z.
Proof.
  change (seqs _) with (Seq (is a) (Seq month (Seq (is b) (Seq (day U) (is c))))). split.
  - intros (u1 & v1 & -> & H1 & y & v2 & -> & Hy & u2 & v3 & -> & H2 & z & u3 & -> & Hz & H3).
    apply word_is in H1 as ->. apply word_is in H2 as ->. apply word_is in H3 as ->. exists y, z. repeat split; [now apply word_month|now apply word_day].
  - intros (y & z & -> & Hy & Hz). exists [a], (y ++ b :: z ++ [c]). repeat split; [now apply word_is|].
    exists y, (b :: z ++ [c]). split; [reflexivity|split; [now apply word_month|]]. exists [b], (z ++ [c]). split; [reflexivity|split; [now apply word_is|]].
    exists z, [c]. split; [reflexivity|split; [now apply word_day|now apply word_is]].
Qed.

Theorem fullmatch_date s : fullmatches (re_date U) s = true <-> a_date cat s.
Proof.
  rewrite fullmatches_iff. change (exists b e, In (b, [], e) (m (re_date U) ([], s, []))) with (ends (re_date U) ([], s, [])).
  unfold re_date. cbn [alts]. rewrite !ends_alt, !ends_seq by reflexivity. unfold a_date. split.
  - intros [(x & v & -> & Hx & H)|[(x & v & -> & Hx & H)|[(x & v & -> & Hx & H)|[H|H]]]].
    + apply word_month2 in Hx. rewrite ends_alt, ends_sep, ends_pure in H by reflexivity. destruct H as [(y & z & -> & Hy & Hz)|(sep & y & z & -> & Hs & Hy & Hz)].
      * apply word_day2 in Hy. apply word_year in Hz. right. left. exists x, y, z. split; [reflexivity|tauto].
      * apply word_day in Hy. apply word_year in Hz. left. exists sep, x, y, z. split; [reflexivity|split; [exact Hs|unfold a_month, a_day in *; tauto]].
    + apply word_day2 in Hx. rewrite ends_alt, ends_sep, ends_pure in H by reflexivity. destruct H as [(y & z & -> & Hy & Hz)|(sep & y & z & -> & Hs & Hy & Hz)].
      * apply word_month2 in Hy. apply word_year in Hz. right. left. exists x, y, z. split; [reflexivity|tauto].
      * apply word_month in Hy. apply word_year in Hz. left. exists sep, x, y, z. split; [reflexivity|split; [exact Hs|unfold a_month, a_day in *; tauto]].
    + apply word_year in Hx. rewrite !ends_alt, ends_sep, !(ends_pure (seqs [is _; _; _; _; _])), (ends_pure (Seq _ _)) in H by reflexivity.
      destruct H as [(sep & y & z & -> & Hs & Hy & Hz)|[H|[H|(y & z & -> & Hy & Hz)]]].
      * apply word_month in Hy. apply word_day in Hz. left. exists sep, x, y, z. split; [reflexivity|split; [exact Hs|unfold a_month, a_day in *; tauto]].
      * apply word_cjk in H as (y & z & -> & Hy & Hz). right. right. exists x, y, z. split; [tauto|split; [exact Hx|split; [exact Hy|exact Hz]]].
      * apply word_cjk in H as (y & z & -> & Hy & Hz). right. right. exists x, y, z. split; [tauto|split; [exact Hx|split; [exact Hy|exact Hz]]].
      * apply word_month2 in Hy. apply word_day2 in Hz. right. left. exists x, y, z. split; [reflexivity|tauto].
    + unfold seqs at 1 in H. rewrite ends_seq in H by reflexivity. destruct H as (x & v & -> & Hx & H). apply word_month1 in Hx.
      change (Seq (Grp 4 sep_chr) _) with (seqs [Grp 4 sep_chr; day U; Back 4; year U]) in H. apply ends_sep in H as (sep & y & z & -> & Hs & Hy & Hz); [|reflexivity..].
      apply word_day in Hy. apply word_year in Hz. left. exists sep, x, y, z. split; [reflexivity|split; [exact Hs|unfold a_month, a_day in *; tauto]].
    + unfold seqs at 1 in H. rewrite ends_seq in H by reflexivity. destruct H as (x & v & -> & Hx & H). apply word_day1 in Hx.
      change (Seq (Grp 5 sep_chr) _) with (seqs [Grp 5 sep_chr; month; Back 5; year U]) in H. apply ends_sep in H as (sep & y & z & -> & Hs & Hy & Hz); [|reflexivity..].
      apply word_month in Hy. apply word_year in Hz. left. exists sep, x, y, z. split; [reflexivity|split; [exact Hs|unfold a_month, a_day in *; tauto]].
  - intros [(sep & x & y & z & -> & Hs & [(Hx & Hy & Hz)|[(Hx & Hy & Hz)|(Hx & Hy & Hz)]])|[(x & y & z & -> & [(Hx & Hy & Hz)|[(Hx & Hy & Hz)|(Hx & Hy & Hz)]])|(x & y & z & He & Hx & Hy & Hz)]].
    + apply word_day in Hy. apply word_year in Hz. destruct Hx as [Hx|(c & -> & Hc)].
      * left. exists x, (sep :: y ++ sep :: z). split; [reflexivity|split; [now apply word_month2|]]. apply ends_alt. right. apply ends_sep; [reflexivity..|]. exists sep, y, z. auto.
      * right. right. right. left. unfold seqs at 1. apply ends_seq; [reflexivity|]. exists [c], (sep :: y ++ sep :: z). split; [reflexivity|split; [left; apply word_range; eauto|]].
        change (Seq (Grp 4 sep_chr) _) with (seqs [Grp 4 sep_chr; day U; Back 4; year U]). apply ends_sep; [reflexivity..|]. exists sep, y, z. auto.
    + apply word_month in Hy. apply word_year in Hz. destruct Hx as [Hx|(c & -> & Hc)].
      * right. left. exists x, (sep :: y ++ sep :: z). split; [reflexivity|split; [now apply word_day2|]]. apply ends_alt. right. apply ends_sep; [reflexivity..|]. exists sep, y, z. auto.
      * right. right. right. right. unfold seqs at 1. apply ends_seq; [reflexivity|]. exists [c], (sep :: y ++ sep :: z). split; [reflexivity|split; [cbn [alts]; left; apply word_range; eauto|]].
        change (Seq (Grp 5 sep_chr) _) with (seqs [Grp 5 sep_chr; month; Back 5; year U]). apply ends_sep; [reflexivity..|]. exists sep, y, z. auto.
    + apply word_month in Hy. apply word_day in Hz. right. right. left. exists x, (sep :: y ++ sep :: z). split; [reflexivity|split; [now apply word_year|]].
      apply ends_alt. left. apply ends_sep; [reflexivity..|]. exists sep, y, z. auto.
    + left. exists x, (y ++ z). split; [reflexivity|split; [now apply word_month2|]]. apply ends_alt. left. apply ends_pure; [reflexivity|].
      exists y, z. repeat split; [now apply word_day2|now apply word_year].
    + right. left. exists x, (y ++ z). split; [reflexivity|split; [now apply word_day2|]]. apply ends_alt. left. apply ends_pure; [reflexivity|].
      exists y, z. repeat split; [now apply word_month2|now apply word_year].
    + right. right. left. exists x, (y ++ z). split; [reflexivity|split; [now apply word_year|]]. rewrite !ends_alt. right. right. right. apply ends_pure; [reflexivity|].
      exists y, z. repeat split; [now apply word_month2|now apply word_day2].
    + right. right. left. destruct He as [-> | ->].
      * eexists x, _. split; [reflexivity|split; [now apply word_year|]]. rewrite !ends_alt. right. left. apply ends_pure; [reflexivity|]. apply word_cjk. eauto.
      * eexists x, _. split; [reflexivity|split; [now apply word_year|]]. rewrite !ends_alt. right. right. left. apply ends_pure; [reflexivity|]. apply word_cjk. eauto.
Qed.

Lemma part_first s : month2 s \/ a_month s \/ day2 cat s \/ a_day cat s \/ a_year cat s -> exists c t, s = c :: t /\ digit cat c.
Proof.
  assert (H2 : forall v, two_digits s v -> exists c t, s = c :: t /\ digit cat c).
  { intros v (a & b & -> & Ha & _). exists a, [b]. split; [reflexivity|]. now apply sane. }
  assert (H1 : (exists c, s = [c] /\ 49 <= c <= 57) -> exists c t, s = c :: t /\ digit cat c).
  { intros (c & -> & Hc). exists c, []. split; [reflexivity|]. apply sane. unfold ascii_digit. lia. }
  assert (Hd : day2 cat s -> exists c t, s = c :: t /\ digit cat c).
  { intros [(v & H & _)|(a & b & -> & Ha & _)]; [eauto|]. exists a, [b]. split; [reflexivity|]. apply sane. apply one_two in Ha. unfold ascii_digit. lia. }
  intros [(v & H & _)|[[(v & H & _)|H]|[H|[[H|H]|(Hs & H)]]]]; eauto.
  destruct s as [|c t]; [destruct H as [[=]|([=] & _)]|]. inversion Hs. eauto.
Qed.
Lemma date_first s : a_date cat s -> exists c t, s = c :: t /\ digit cat c.
Proof.
  assert (HA : forall x y, (exists c t, x = c :: t /\ digit cat c) -> exists c t, x ++ y = c :: t /\ digit cat c).
  { intros x y (c & t & -> & Hc). cbn. eauto. }
  intros [(sep & x & y & z & -> & _ & [(Hx & _)|[(Hx & _)|(Hx & _)]])|[(x & y & z & -> & [(Hx & _)|[(Hx & _)|(Hx & _)]])|(x & y & z & [-> | ->] & Hx & _)]];
    apply HA, part_first; tauto.
Qed.
Theorem is_date_iff cell : is_date U cell = true <-> a_date cat (strip cell).
Proof.
  unfold is_date. cbn zeta. rewrite run_strip. unfold run_regex. rewrite andb_true_iff, fullmatch_date. split; [tauto|].
  intros H. split; [|exact H]. apply date_first in H as (c & t & -> & Hc). cbn. now apply isdigit_ok.
Qed.

(** ** Dates with times *)
Lemma zoned_iff sg t : zoned U [sg] t = true <-> with_zone strip sg t.
Proof.
  unfold with_zone, zone. transitivity (exists a b l, py_split [sg] t = a :: b :: l /\ (a_time (strip a) /\ (a_time (strip b) \/ hhmm (strip b)))).
  - unfold zoned. split.
    + destruct (py_split [sg] t) as [|a [|b l]] eqn:E; try easy. rewrite andb_true_iff, !orb_true_iff, !(is_time_iff U sane isdigit_ok), !run_HHMM_iff.
      intros H. exists a, b, l. split; [reflexivity|]. tauto.
    + intros (a & b & l & -> & H). rewrite andb_true_iff, !orb_true_iff, !(is_time_iff U sane isdigit_ok), !run_HHMM_iff. tauto.
  - rewrite (split_more sg t (fun a b => a_time (strip a) /\ (a_time (strip b) \/ hhmm (strip b)))). firstorder.
Qed.
Lemma digit_first_strip s : s = strip s -> (exists d r, s = d ++ r /\ a_date cat (strip d)) -> digit_first U s = true.
Proof.
  intros Hs (d & r & -> & Hd). destruct d as [|c d].
  - apply date_first in Hd as (c & t & E & _). discriminate.
  - cbn [app] in *. symmetry in Hs. apply strip_head in Hs as Hc. destruct (strip_first (u_space U) c d Hc) as (t & E).
    apply date_first in Hd as (c' & t' & E' & Hc'). unfold Types.strip in E'. rewrite E in E'. injection E' as <- _. cbn. now apply isdigit_ok.
Qed.
Theorem is_datetime_iff cell : cell = strip cell -> (is_datetime U cell = true <-> a_datetime cat strip cell).
Proof.
  intros Hs. unfold is_datetime, a_datetime. change (s2l " ") with [SPACE]. change (s2l "T") with [T_char]. change (s2l "Z") with [Z_char].
  change (s2l "+") with [plus_char]. change (s2l "-") with [hyphen]. rewrite andb_true_iff. split.
  - intros (_ & H). destruct (contains [SPACE] cell) eqn:Esp.
    + left. destruct (py_split [SPACE] cell) as [|d [|t [|]]] eqn:E; try easy. apply split_two in E as (-> & Hd & Ht).
      rewrite andb_true_iff, is_date_iff, (is_time_iff U sane isdigit_ok) in H. exists d, t. tauto.
    + right. assert (Hn : ~ In SPACE cell) by (rewrite <- contains_one; congruence).
      destruct (contains [T_char] cell); [|easy]. destruct (py_split [T_char] cell) as [|d [|t [|]]] eqn:E; try easy. apply split_two in E as (-> & Hd & Ht).
      rewrite andb_true_iff, is_date_iff, !orb_true_iff, andb_true_iff, !(is_time_iff U sane isdigit_ok), ends_with_one in H. destruct H as (HD & H).
      exists d, t. repeat split; auto. destruct H as [[((u & ->) & H)|H]|H].
      * right. left. exists u. rewrite removelast_last in H. auto.
      * now left.
      * destruct (contains [plus_char] t) eqn:Ep.
        { right. right. left. apply contains_one in Ep. now apply zoned_iff in H. }
        assert (Hp : ~ In plus_char t) by (rewrite <- contains_one; congruence).
        destruct (contains [hyphen] t) eqn:Eh; [|easy]. right. right. right. apply contains_one in Eh. now apply zoned_iff in H.
  - intros [(d & t & E & Hd & Ht & HD & HT)|(d & t & E & Hn & Hd & Ht & HD & HT)].
    + split; [apply digit_first_strip; eauto|]. assert (Ec : contains [SPACE] cell = true) by (apply contains_one; rewrite E; apply in_or_app; right; now left).
      rewrite Ec. rewrite (proj2 (split_two SPACE cell d t)) by auto. apply andb_true_iff. split; [now apply is_date_iff|now apply (is_time_iff U sane isdigit_ok)].
    + split; [apply digit_first_strip; eauto|]. rewrite <- contains_one in Hn. apply not_true_is_false in Hn. rewrite Hn.
      assert (Ec : contains [T_char] cell = true) by (apply contains_one; rewrite E; apply in_or_app; right; now left).
      rewrite Ec. rewrite (proj2 (split_two T_char cell d t)) by auto. apply andb_true_iff. split; [now apply is_date_iff|].
      rewrite !orb_true_iff, andb_true_iff, !(is_time_iff U sane isdigit_ok), ends_with_one.
      destruct HT as [HT|[(u & -> & HT)|[(Hp & HT)|(Hp & Hh & HT)]]].
      * left. now right.
      * left. left. rewrite removelast_last. eauto.
      * right. apply contains_one in Hp. rewrite Hp. now apply zoned_iff.
      * right. rewrite <- contains_one in Hp. apply not_true_is_false in Hp. rewrite Hp. apply contains_one in Hh. rewrite Hh. now apply zoned_iff.
Qed.
End Date.
