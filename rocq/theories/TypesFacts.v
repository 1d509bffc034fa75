(** * TypesFacts: the patterns accept what SpecTypes says *)
From Coq Require Import String.
From Verif Require Import Base Parser Dialect Json Regex RegexFacts Types SpecTypes.
Open Scope N_scope.

Section Facts.
Variable U : unidata.
Local Notation cat := (u_cat U).
Local Notation len := List.length.

(** ** Characters *)
Lemma nd_iff c : nd U c = true <-> digit cat c.
Proof. apply str_eqb_eq. Qed.
Lemma sc_iff c : sc U c = true <-> a_currency cat c.
Proof. apply str_eqb_eq. Qed.
Lemma letter_iff c : letter U c = true <-> a_letter cat c.
Proof. unfold letter. rewrite starts_with_iff. reflexivity. Qed.
Lemma numeral_iff c : numeral U c = true <-> a_numeral cat c.
Proof. unfold numeral. rewrite starts_with_iff. reflexivity. Qed.
Lemma range_iff a b c : in_range a b c = true <-> a <= c <= b.
Proof. unfold in_range. rewrite andb_true_iff, !N.leb_le. reflexivity. Qed.
Lemma one_of_iff s c : one_of s c = true <-> In c s.
Proof.
  unfold one_of. rewrite existsb_exists. split; [intros (x & Hx & E); apply N.eqb_eq in E; now subst|].
  intros H. exists c. now rewrite N.eqb_refl.
Qed.
Lemma alnum_iff c : alnum c = true <-> ascii_alnum c.
Proof.
  unfold alnum, az, AZ, d09, ascii_alnum, lower_case, upper_case, ascii_digit. rewrite !orb_true_iff, !range_iff. tauto.
Qed.
Lemma digits_iff s : Forall (fun c => nd U c = true) s <-> digits cat s.
Proof. unfold digits. split; apply Forall_impl; intros c; apply nd_iff. Qed.
Lemma Forall_iff {A} (P Q : A -> Prop) l : (forall x, P x <-> Q x) -> (Forall P l <-> Forall Q l).
Proof. intros H. split; apply Forall_impl; intros x; apply H. Qed.

(** ** Words of the small patterns *)
Lemma word_D w : word (D U) w <-> exists c, w = [c] /\ digit cat c.
Proof. cbn. split; intros (c & -> & H); exists c; (split; [reflexivity|]); now apply nd_iff. Qed.
Lemma word_Ds lo hi w : word (Rep lo hi (D U)) w <-> digits cat w /\ within lo hi (len w).
Proof. unfold D. now rewrite word_rep_chr, digits_iff. Qed.
Lemma word_sign w : word sign w <-> a_sign w.
Proof.
  unfold sign, a_sign. rewrite word_opt, word_any_of. split.
  - intros [->|(_ & c & Hc & ->)]; [now left|right]. cbn in Hc. destruct Hc as [<-|[<-|[]]]; [left|right]; reflexivity.
  - intros [->|[->| ->]]; [now left|right..]; (split; [easy|]).
    + exists 43. split; [now left|reflexivity].
    + exists 45. split; [right; now left|reflexivity].
Qed.
Lemma word_expo w : word (exponent U) w <-> expo cat w.
Proof.
  unfold exponent, seqs, expo. rewrite word_seq. setoid_rewrite word_seq. setoid_rewrite word_any_of. setoid_rewrite word_sign.
  unfold plus. setoid_rewrite word_Ds. split.
  - intros (u & v & -> & (c & Hc & ->) & sg & t & -> & Hs & Ht & Hb). exists c, sg, t. repeat split; auto.
    intros ->. destruct Hb as (Hb & _). cbn in Hb. lia.
  - intros (c & sg & t & -> & Hc & Hs & Hn & Ht). exists [c], (sg ++ t). repeat split; eauto.
    exists sg, t. repeat split; auto. destruct t; [easy|cbn; lia].
Qed.
Lemma word_D13 w : word (D13 U) w <-> digits cat w /\ one_to 3 w.
Proof.
  unfold D13. rewrite word_Ds. unfold one_to, within. destruct w; cbn; intuition (try congruence; try lia).
Qed.

(** ** IP addresses *)
Lemma word_ipv4 w : word (re_ipv4 U) w <-> an_ipv4 cat w.
Proof.
  unfold re_ipv4, an_ipv4. rewrite word_seq. split.
  - intros (u & d & -> & (ws & -> & Hw & Hb1 & Hb2) & Hd). apply word_D13 in Hd.
    destruct ws as [|wa [|wb [|wc [|? ws]]]]; cbn in Hb1, Hb2; try lia.
    inversion Hw as [|? ? (_ & Ha) Hw1]; subst. inversion Hw1 as [|? ? (_ & Hbb) Hw2]; subst. inversion Hw2 as [|? ? (_ & Hc) _]; subst.
    destruct Ha as (a & x & -> & Ha & Hx). apply word_is in Hx as ->. apply word_D13 in Ha.
    destruct Hbb as (b & x & -> & Hbb & Hx). apply word_is in Hx as ->. apply word_D13 in Hbb.
    destruct Hc as (c & x & -> & Hc & Hx). apply word_is in Hx as ->. apply word_D13 in Hc.
    exists a, b, c, d. split; [cbn; rewrite <- !app_assoc; reflexivity|]. apply Forall_cons; [exact Ha|apply Forall_cons; [exact Hbb|apply Forall_cons; [exact Hc|apply Forall_cons; [exact Hd|constructor]]]].
  - intros (a & b & c & d & -> & H). inversion H as [|? ? Ha H1]; subst. inversion H1 as [|? ? Hb H2]; subst.
    inversion H2 as [|? ? Hc H3]; subst. inversion H3 as [|? ? Hd _]; subst.
    exists (a ++ dot :: b ++ dot :: c ++ [dot]), d. split; [|split; [|now apply word_D13]].
    + rewrite <- app_assoc. cbn. rewrite <- app_assoc. cbn. rewrite <- app_assoc. reflexivity.
    + exists [a ++ [dot]; b ++ [dot]; c ++ [dot]]. split; [|split; [|unfold within; cbn; lia]].
      * cbn. rewrite <- !app_assoc. reflexivity.
      * assert (H' : forall x, digits cat x /\ one_to 3 x -> x ++ [dot] <> [] /\ word (Seq (D13 U) (is 46)) (x ++ [dot])).
        { intros x Hx. split; [now destruct x|]. exists x, [dot]. repeat split; [now apply word_D13|now apply word_is]. }
        apply Forall_cons; [now apply H'|apply Forall_cons; [now apply H'|apply Forall_cons; [now apply H'|constructor]]].
Qed.
Lemma is_ipv4_iff cell : is_ipv4 U cell = true <-> an_ipv4 cat (strip U cell).
Proof. unfold is_ipv4, run_regex. rewrite fullmatches_pure by reflexivity. apply word_ipv4. Qed.

(** ** Numbers with groups *)
Lemma word_group sep w : word (seqs [is sep; D U; D U; D U]) w <-> exists g, w = sep :: g /\ digits cat g /\ len g = 3%nat.
Proof.
  cbn [seqs]. rewrite word_seq. split.
  - intros (u & v & -> & Hu & a & v1 & -> & Ha & b & c & -> & Hb & Hc). apply word_is in Hu as ->.
    apply word_D in Ha as (x & -> & Hx). apply word_D in Hb as (y & -> & Hy). apply word_D in Hc as (z & -> & Hz).
    exists [x; y; z]. repeat split. repeat constructor; assumption.
  - intros (g & -> & Hg & Hl). destruct g as [|x [|y [|z [|]]]]; try discriminate Hl.
    inversion Hg as [|? ? Hx Hg1]; subst. inversion Hg1 as [|? ? Hy Hg2]; subst. inversion Hg2 as [|? ? Hz _]; subst.
    exists [sep], [x; y; z]. repeat split; [now apply word_is|].
    exists [x], [y; z]. repeat split; [apply word_D; eauto|]. exists [y], [z]. repeat split; apply word_D; eauto.
Qed.
Lemma word_head w : word (Alt (range 49 57) (Seq (range 49 57) (Rep 0 (Some 2%nat) (D U)))) w <->
  exists c t, w = c :: t /\ 49 <= c <= 57 /\ digits cat t /\ (len t <= 2)%nat.
Proof.
  rewrite word_alt, word_seq, word_range. split.
  - intros [(c & -> & Hc)|(u & t & -> & Hu & Ht)].
    + exists c, []. repeat split; try apply Hc; [constructor|cbn; lia].
    + apply word_range in Hu as (c & -> & Hc). apply word_Ds in Ht as (Ht & _ & Hl). exists c, t. repeat split; auto; apply Hc.
  - intros (c & t & -> & Hc & Ht & Hl). right. exists [c], t. repeat split; [apply word_range; eauto|].
    apply word_Ds. repeat split; auto; lia.
Qed.
Lemma groups_iff sep w : word (plus (seqs [is sep; D U; D U; D U])) w <->
  exists gs, w = concat (map (cons sep) gs) /\ gs <> [] /\ Forall (fun g => digits cat g /\ len g = 3%nat) gs.
Proof.
  split.
  - intros (ws & -> & Hw & Hb & _). assert (H : exists gs, ws = map (cons sep) gs /\ Forall (fun g => digits cat g /\ len g = 3%nat) gs).
    { clear Hb. induction Hw as [|v ws (_ & Hv) Hw IH]; [exists []; auto|].
      destruct IH as (gs & -> & Hg). apply word_group in Hv as (g & -> & Hd & Hl). exists (g :: gs). auto. }
    destruct H as (gs & -> & Hg). exists gs. repeat split; auto. intros ->. cbn in Hb. lia.
  - intros (gs & -> & Hn & Hg). exists (map (cons sep) gs). split; [reflexivity|split].
    + apply Forall_map. eapply Forall_impl; [|exact Hg]. intros g (Hd & Hl). split; [easy|]. apply word_group. eauto.
    + split; [|exact I]. rewrite map_length. destruct gs; [easy|cbn; lia].
Qed.
Lemma word_grouped sep dec w : word (grouped U sep dec) w <-> grouped_number cat sep dec w.
Proof.
  unfold grouped, grouped_number. change (seqs _) with
    (Seq sign (Seq (Alt (range 49 57) (Seq (range 49 57) (Rep 0 (Some 2%nat) (D U))))
       (Seq (plus (seqs [is sep; D U; D U; D U])) (Seq (is dec) (star (D U)))))). split.
  - intros (sg & v & -> & Hs & h & v1 & -> & Hh & g & v2 & -> & Hg & x & f & -> & Hx & Hf).
    apply word_sign in Hs. apply word_head in Hh as (c & t & -> & Hc & Ht & Hl). apply groups_iff in Hg as (gs & -> & Hn & Hg).
    apply word_is in Hx as ->. apply word_Ds in Hf as (Hf & _). exists sg, c, t, gs, f. repeat split; auto; apply Hc.
  - intros (sg & c & t & gs & f & -> & Hs & Hc & Ht & Hl & Hn & Hg & Hf).
    exists sg, ((c :: t) ++ concat (map (cons sep) gs) ++ dec :: f). repeat split; [now apply word_sign|].
    exists (c :: t), (concat (map (cons sep) gs) ++ dec :: f). split; [reflexivity|split; [apply word_head; exists c, t; auto|]].
    exists (concat (map (cons sep) gs)), (dec :: f). split; [reflexivity|split; [apply groups_iff; eauto|]].
    exists [dec], f. split; [reflexivity|split; [now apply word_is|]]. apply word_Ds. repeat split; auto. lia.
Qed.

(** ** Times *)
Lemma word_hh w : word hh w <-> below 24 w.
Proof.
  unfold hh, below, two_digits, ascii_digit. cbn [alts]. rewrite !word_alt. split.
  - intros [(u & v & -> & Hu & Hv)|[(u & v & -> & Hu & Hv)|(u & v & -> & Hu & Hv)]];
      apply word_is in Hu as ->; apply word_range in Hv as (c & -> & Hc); eexists; (split; [eexists _, c; split; [reflexivity|split; [lia|split; [lia|reflexivity]]]|lia]).
  - intros (v & (a & b & -> & Ha & Hb & ->) & Hv).
    assert (Ha' : a = 48 \/ a = 49 \/ (a = 50 /\ b <= 51)) by lia.
    destruct Ha' as [->|[->|(-> & Hb')]]; [left|right; left|right; right]; (eexists [_], [b]; repeat split; [now apply word_is|apply word_range; exists b; split; [reflexivity|lia]]).
Qed.
Lemma word_low a n w : (a <= 57) -> n = 10 * (a - 47) -> 48 <= a -> word (Seq (range 48 a) (Chr d09)) w <-> below n w.
Proof.
  intros H1 -> H2. unfold below, two_digits, ascii_digit. rewrite word_seq. split.
  - intros (u & v & -> & Hu & Hv). apply word_range in Hu as (x & -> & Hx). apply word_range in Hv as (y & -> & Hy).
    eexists. split; [exists x, y; repeat split; try lia; reflexivity|]. lia.
  - intros (v & (x & y & -> & Hx & Hy & ->) & Hv). exists [x], [y]. repeat split; apply word_range; eexists; (split; [reflexivity|lia]).
Qed.
Lemma word_sixty w : word sixty w <-> below 60 w.
Proof. apply word_low; [lia|reflexivity|lia]. Qed.
Lemma word_hhmm w : word re_time_hhmm w <-> exists h mi, w = h ++ colon :: mi /\ below 24 h /\ below 60 mi.
Proof.
  unfold re_time_hhmm. cbn [seqs]. rewrite word_seq. split.
  - intros (h & v & -> & Hh & u & mi & -> & Hu & Hm). apply word_is in Hu as ->. exists h, mi. apply word_hh in Hh. apply word_sixty in Hm. auto.
  - intros (h & mi & -> & Hh & Hm). exists h, (colon :: mi). split; [reflexivity|split; [now apply word_hh|]].
    exists [colon], mi. repeat split; [now apply word_is|now apply word_sixty].
Qed.
Lemma word_hmm w : word re_time_hmm w <->
  exists h mi, w = h ++ colon :: mi /\ ((exists c, h = [c] /\ ascii_digit c) \/ (below 24 h /\ exists t, h = 49 :: t \/ h = 50 :: t)) /\ below 60 mi.
Proof.
  unfold re_time_hmm. cbn [seqs alts]. rewrite word_seq. split.
  - intros (h & v & -> & Hh & u & mi & -> & Hu & Hm). apply word_is in Hu as ->. apply word_sixty in Hm. exists h, mi. split; [reflexivity|split; [|exact Hm]].
    destruct Hh as [Hh|Hh]; [left; apply word_range in Hh as (c & -> & Hc); exists c; auto|right]. split.
    + apply word_hh. unfold hh. cbn [alts]. right. exact Hh.
    + destruct Hh as [(x & y & -> & Hx & Hy)|(x & y & -> & Hx & Hy)]; apply word_is in Hx as ->; exists y; auto.
  - intros (h & mi & -> & Hh & Hm). exists h, (colon :: mi). split; [reflexivity|split].
    + destruct Hh as [(c & -> & Hc)|(Hh & t & Ht)]; [left; apply word_range; eauto|right].
      apply word_hh in Hh. unfold hh in Hh. cbn [alts] in Hh. destruct Hh as [(x & y & -> & Hx & Hy)|Hh]; [|exact Hh].
      apply word_is in Hx as ->. destruct Ht as [[=]|[=]].
    + exists [colon], mi. repeat split; [now apply word_is|now apply word_sixty].
Qed.
Lemma word_hhmmss w : word re_time_hhmmss w <->
  exists h mi se, w = h ++ colon :: mi ++ colon :: se /\ below 24 h /\ below 60 mi /\ below 60 se.
Proof.
  unfold re_time_hhmmss. cbn [seqs]. rewrite word_seq. split.
  - intros (h & v & -> & Hh & u & v1 & -> & Hu & mi & v2 & -> & Hm & u' & se & -> & Hu' & Hs).
    apply word_is in Hu as ->. apply word_is in Hu' as ->. apply word_hh in Hh. apply word_sixty in Hm, Hs. exists h, mi, se. auto.
  - intros (h & mi & se & -> & Hh & Hm & Hs). exists h, (colon :: mi ++ colon :: se). split; [reflexivity|split; [now apply word_hh|]].
    exists [colon], (mi ++ colon :: se). split; [reflexivity|split; [now apply word_is|]]. exists mi, (colon :: se). split; [reflexivity|split; [now apply word_sixty|]].
    exists [colon], se. split; [reflexivity|split; [now apply word_is|now apply word_sixty]].
Qed.
Lemma word_hhmmsszz w : word re_time_hhmmsszz w <->
  exists h mi se sg zh zm, w = h ++ colon :: mi ++ colon :: se ++ sg :: zh ++ colon :: zm /\
     below 24 h /\ below 60 mi /\ below 60 se /\ In sg (s2l "+-") /\ below 20 zh /\ below 60 zm.
Proof.
  unfold re_time_hhmmsszz. cbn [seqs]. rewrite word_seq. split.
  - intros (h & v & -> & Hh & u & v1 & -> & Hu & mi & v2 & -> & Hm & u' & v3 & -> & Hu' & se & v4 & -> & Hs & g & v5 & -> & Hg & zh & v6 & -> & Hz & u2 & zm & -> & Hu2 & Hzm).
    apply word_is in Hu as ->. apply word_is in Hu' as ->. apply word_is in Hu2 as ->. apply word_any_of in Hg as (sg & Hg & ->).
    apply word_hh in Hh. apply word_sixty in Hm, Hs, Hzm. apply (word_low 49 20) in Hz; [|lia|reflexivity|lia]. exists h, mi, se, sg, zh, zm. repeat split; auto.
  - intros (h & mi & se & sg & zh & zm & -> & Hh & Hm & Hs & Hg & Hz & Hzm).
    exists h, (colon :: mi ++ colon :: se ++ sg :: zh ++ colon :: zm). split; [reflexivity|split; [now apply word_hh|]].
    exists [colon], (mi ++ colon :: se ++ sg :: zh ++ colon :: zm). split; [reflexivity|split; [now apply word_is|]].
    exists mi, (colon :: se ++ sg :: zh ++ colon :: zm). split; [reflexivity|split; [now apply word_sixty|]].
    exists [colon], (se ++ sg :: zh ++ colon :: zm). split; [reflexivity|split; [now apply word_is|]].
    exists se, (sg :: zh ++ colon :: zm). split; [reflexivity|split; [now apply word_sixty|]].
    exists [sg], (zh ++ colon :: zm). split; [reflexivity|split; [apply word_any_of; eauto|]].
    exists zh, (colon :: zm). split; [reflexivity|split; [apply (word_low 49 20); [lia|reflexivity|lia|exact Hz]|]].
    exists [colon], zm. split; [reflexivity|split; [now apply word_is|now apply word_sixty]].
Qed.
Lemma word_HHMM w : word re_time_HHMM w <-> hhmm w.
Proof.
  unfold re_time_HHMM, hhmm. cbn [seqs]. rewrite word_seq. split; intros (h & mi & -> & Hh & Hm); exists h, mi;
    (split; [reflexivity|split; [now apply word_hh|now apply word_sixty]]).
Qed.
Lemma time_words w : word re_time_hmm w \/ word re_time_hhmm w \/ word re_time_hhmmss w \/ word re_time_hhmmsszz w <-> a_time w.
Proof.
  rewrite word_hmm, word_hhmm, word_hhmmss, word_hhmmsszz. unfold a_time. split.
  - intros [(h & mi & -> & Hh & Hm)|[(h & mi & -> & Hh & Hm)|H]]; [left; exists h, mi; intuition|left; exists h, mi; intuition|right; exact H].
  - intros [(h & mi & -> & Hh & Hm)|H]; [|tauto]. destruct Hh as [Hh|Hh]; [left|right; left]; exists h, mi; auto.
Qed.

End Facts.
