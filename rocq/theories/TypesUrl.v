(** * TypesUrl: what counts as a URL, and what removing URLs removes *)
From Coq Require Import String.
From Verif Require Import Base Parser Dialect Json SpecTies TieRules NormalFacts Potential SpecPotential PotentialFacts
  Regex RegexFacts Types SpecTypes TypesFacts TypesText TypesDate.
Open Scope N_scope.
Local Notation len := List.length.

(** Repetition of a pattern whose words have one parameter. *)
Lemma word_rep_map {A} lo hi r (f : A -> str) (Q : A -> Prop) w :
  (forall v, word r v <-> exists x, v = f x /\ Q x) -> (forall x, f x <> []) ->
  (word (Rep lo hi r) w <-> exists xs, w = concat (map f xs) /\ Forall Q xs /\ within lo hi (len xs)).
Proof.
  intros H Hf. split.
  - intros (ws & -> & Hw & Hb). assert (H' : exists xs, ws = map f xs /\ Forall Q xs).
    { clear Hb. induction Hw as [|v ws (_ & Hv) Hw IH]; [exists []; auto|]. destruct IH as (xs & -> & Hx).
      apply H in Hv as (x & -> & HQ). exists (x :: xs). auto. }
    destruct H' as (xs & -> & Hx). rewrite map_length in Hb. eauto.
  - intros (xs & -> & Hx & Hb). exists (map f xs). rewrite map_length. repeat split; try apply Hb.
    apply Forall_map. eapply Forall_impl; [|exact Hx]. intros x HQ. split; [apply Hf|]. apply H. eauto.
Qed.

Section Url.
Variable U : unidata.
Local Notation cat := (u_cat U).
Local Notation strip := (strip U).
Hypothesis sane : sane_categories cat.

Lemma label_class c : (letter U c || numeral U c || (c =? 45))%bool = true <-> label_char cat c.
Proof. rewrite !orb_true_iff, letter_iff, numeral_iff, N.eqb_eq. unfold label_char, hyphen. tauto. Qed.
Lemma path_class c : (letter U c || numeral U c || one_of (s2l "_/()~?=&%-#.:") c)%bool = true <-> path_char cat c.
Proof. rewrite !orb_true_iff, letter_iff, numeral_iff, one_of_iff. unfold path_char. tauto. Qed.
Lemma word_lower lo hi w : word (lower_word lo hi) w <-> Forall lower_case w /\ within lo hi (len w).
Proof. unfold lower_word. rewrite word_rep_chr. apply and_iff_compat_r, Forall_iff. intros c. apply range_iff. Qed.

Definition labels_re : re := plus (Seq (plus (Chr (fun c => letter U c || numeral U c || (c =? 45))%bool)) (is 46)).
Lemma word_labels w : word labels_re w <-> exists ls, w = concat (map (fun l => l ++ [dot]) ls) /\
  Forall (fun l => l <> [] /\ Forall (label_char cat) l) ls /\ ls <> [].
Proof.
  unfold labels_re. unfold plus at 1. rewrite (word_rep_map 1 None _ (fun l => l ++ [dot]) (fun l => l <> [] /\ Forall (label_char cat) l)).
  - split; intros (xs & -> & Hx & Hb); exists xs; repeat split; auto; [intros ->; destruct Hb as (Hb & _); cbn in Hb; lia|]. destruct xs; [easy|cbn; lia].
  - intros v. rewrite word_seq. split.
    + intros (a & b & -> & Ha & Hb). apply word_is in Hb as ->. apply (Forall_class _ _ _ label_class) in Ha. eauto.
    + intros (l & -> & Hl). exists l, [dot]. repeat split; [|now apply word_is]. now apply (Forall_class _ _ _ label_class).
  - intros l. now destruct l.
Qed.
Definition domain_re : re :=
  seqs [labels_re; Alt (lower_word 2 None) (lit (s2l "local")); opt (Seq (is 46) (lower_word 2 (Some 3%nat)))].
Lemma word_domain w : word domain_re w <-> domain cat w.
Proof.
  unfold domain_re, domain. cbn [seqs]. rewrite word_seq. split.
  - intros (a & v & -> & Ha & t & x & -> & Ht & Hx). apply word_labels in Ha as (ls & -> & Hl & Hn).
    assert (Ht' : Forall lower_case t /\ (2 <= len t)%nat).
    { apply word_alt in Ht as [Ht|Ht]; [apply word_lower in Ht as (Ht & Hb & _); auto|]. apply word_lit in Ht as ->. cbn. unfold lower_case. split; [repeat constructor; lia|lia]. }
    destruct Ht' as (Ht1 & Ht2). apply word_opt in Hx as [->|(_ & u & y & -> & Hu & Hy)].
    + exists ls, t. rewrite app_nil_r. auto.
    + apply word_is in Hu as ->. apply word_lower in Hy as (Hy & Hb & _). exists (ls ++ [t]), y. rewrite map_app, concat_app. cbn.
      rewrite app_nil_r, <- !app_assoc. repeat split; auto; [now destruct ls|].
      apply Forall_app. split; [exact Hl|]. constructor; [|constructor]. split; [destruct t; [cbn in Ht2; lia|easy]|].
      eapply Forall_impl; [|exact Ht1]. intros c Hc. left. now apply sane.
  - intros (ls & t & -> & Hn & Hl & Ht & Hb). eexists _, t. split; [reflexivity|split; [apply word_labels; eauto|]].
    exists t, []. rewrite app_nil_r. repeat split; [|apply word_opt; now left]. left. apply word_lower. repeat split; auto.
Qed.
Lemma word_port w : word (port U) w <-> a_port cat w.
Proof.
  unfold port, a_port. rewrite word_opt, word_seq. split.
  - intros [->|(_ & u & v & -> & Hu & Hv)]; [now left|right]. apply word_is in Hu as ->. apply word_Ds in Hv as (Hd & Hb1 & Hb2). exists v. repeat split; auto.
    intros ->. cbn in Hb1. lia.
  - intros [->|(p & -> & Hd & Hn & Hb)]; [now left|right]. split; [easy|]. exists [colon], p. repeat split; [now apply word_is|].
    apply word_Ds. repeat split; auto. destruct p; [easy|cbn; lia].
Qed.
Lemma word_quad w : word (seqs [D13 U; is 46; D13 U; is 46; D13 U; is 46; D13 U; port U]) w <->
  exists a p, w = a ++ p /\ an_ipv4 cat a /\ a_port cat p.
Proof.
  cbn [seqs]. rewrite word_seq. split.
  - intros (a & v & -> & Ha & x1 & v1 & -> & H1 & b & v2 & -> & Hb & x2 & v3 & -> & H2 & c & v4 & -> & Hc & x3 & v5 & -> & H3 & d & p & -> & Hd & Hp).
    apply word_is in H1 as ->. apply word_is in H2 as ->. apply word_is in H3 as ->. apply word_D13 in Ha, Hb, Hc, Hd. apply word_port in Hp.
    exists (a ++ dot :: b ++ dot :: c ++ dot :: d), p. repeat split; auto.
    + rewrite <- app_assoc. cbn. rewrite <- app_assoc. cbn. rewrite <- app_assoc. reflexivity.
    + exists a, b, c, d. split; [reflexivity|]. apply Forall_cons; [exact Ha|apply Forall_cons; [exact Hb|apply Forall_cons; [exact Hc|apply Forall_cons; [exact Hd|constructor]]]].
  - intros (x & p & -> & (a & b & c & d & -> & H) & Hp). inversion H as [|? ? Ha H1]; subst. inversion H1 as [|? ? Hb H2]; subst.
    inversion H2 as [|? ? Hc H3]; subst. inversion H3 as [|? ? Hd _]; subst.
    exists a, (dot :: b ++ dot :: c ++ dot :: d ++ p). split; [|split; [now apply word_D13|]].
    { rewrite <- app_assoc. cbn. rewrite <- app_assoc. cbn. rewrite <- app_assoc. reflexivity. }
    exists [dot]. eexists. split; [reflexivity|split; [now apply word_is|]]. exists b. eexists. split; [reflexivity|split; [now apply word_D13|]].
    exists [dot]. eexists. split; [reflexivity|split; [now apply word_is|]]. exists c. eexists. split; [reflexivity|split; [now apply word_D13|]].
    exists [dot]. eexists. split; [reflexivity|split; [now apply word_is|]]. exists d, p. split; [reflexivity|split; [now apply word_D13|now apply word_port]].
Qed.
Definition host_re : re :=
  alts [domain_re; Seq (lit (s2l "localhost")) (port U); seqs [D13 U; is 46; D13 U; is 46; D13 U; is 46; D13 U; port U]].
Lemma word_host w : word host_re w <-> a_host cat w.
Proof.
  unfold host_re, a_host. cbn [alts]. rewrite !word_alt, word_domain, word_quad, word_seq.
  assert (H : (exists u v, w = u ++ v /\ word (lit (s2l "localhost")) u /\ word (port U) v) <-> exists p, w = s2l "localhost" ++ p /\ a_port cat p).
  { split.
    - intros (u & v & -> & Hu & Hv). apply word_lit in Hu as ->. apply word_port in Hv. eauto.
    - intros (p & -> & Hp). exists (s2l "localhost"), p. repeat split; [now apply word_lit|now apply word_port]. }
  now rewrite H.
Qed.
Definition path_re : re := opt (Seq (is 47) (star (Chr (fun c => letter U c || numeral U c || one_of (s2l "_/()~?=&%-#.:") c)%bool))).
Lemma word_upath w : word path_re w <-> w = [] \/ exists p, w = slash :: p /\ Forall (path_char cat) p.
Proof.
  unfold path_re. rewrite word_opt, word_seq. split.
  - intros [->|(_ & u & v & -> & Hu & Hv)]; [now left|right]. apply word_is in Hu as ->. apply word_star_chr in Hv. exists v. split; [reflexivity|].
    eapply Forall_iff; [|exact Hv]. intros c. symmetry. apply path_class.
  - intros [->|(p & -> & Hp)]; [now left|right]. split; [easy|]. exists [slash], p. repeat split; [now apply word_is|]. apply word_star_chr.
    eapply Forall_iff; [|exact Hp]. apply path_class.
Qed.
Definition ext_re : re := opt (Seq (is 46) (lower_word 1 None)).
Lemma word_ext w : word ext_re w <-> w = [] \/ exists x, w = dot :: x /\ x <> [] /\ Forall lower_case x.
Proof.
  unfold ext_re. rewrite word_opt, word_seq. split.
  - intros [->|(_ & u & v & -> & Hu & Hv)]; [now left|right]. apply word_is in Hu as ->. apply word_lower in Hv as (Hv & Hb & _). exists v. repeat split; auto.
    intros ->. cbn in Hb. lia.
  - intros [->|(x & -> & Hn & Hx)]; [now left|right]. split; [easy|]. exists [dot], x. repeat split; [now apply word_is|]. apply word_lower. repeat split; auto.
    destruct x; [easy|cbn; lia].
Qed.
Definition scheme_re : re := Seq (Alt (seqs [lit (s2l "http"); opt (is 115)]) (lit (s2l "ftp"))) (lit (s2l "://")).
Lemma word_scheme w : word scheme_re w <-> In w [s2l "http://"; s2l "https://"; s2l "ftp://"].
Proof.
  unfold scheme_re. cbn [seqs]. rewrite word_seq. split.
  - intros (u & v & -> & [(a & b & -> & Ha & Hb)|Hu] & Hv); apply word_lit in Hv as ->.
    + apply word_lit in Ha as ->. apply word_opt in Hb as [->|(_ & Hb)]; [left; reflexivity|]. apply word_is in Hb as ->. right. left. reflexivity.
    + apply word_lit in Hu as ->. right. right. left. reflexivity.
  - intros [<-|[<-|[<-|[]]]].
    + exists (s2l "http"), (s2l "://"). repeat split; [|now apply word_lit]. left. exists (s2l "http"), []. repeat split; [now apply word_lit|apply word_opt; now left].
    + exists (s2l "https"), (s2l "://"). repeat split; [|now apply word_lit]. left. exists (s2l "http"), [115]. repeat split; [now apply word_lit|apply word_opt; right; split; [easy|now apply word_is]].
    + exists (s2l "ftp"), (s2l "://"). repeat split; [|now apply word_lit]. right. now apply word_lit.
Qed.
Lemma host_not_empty h : a_host cat h -> h <> [].
Proof.
  intros [(ls & t & -> & Hn & _)|[(p & -> & _)|(a & p & -> & (x & b & c & d & -> & _) & _)]].
  - destruct ls as [|l ls]; [easy|]. cbn. intros E. apply app_eq_nil in E as (E & _). apply app_eq_nil in E as (E & _). now destruct l.
  - easy.
  - intros E. apply app_eq_nil in E as (E & _). now destruct x.
Qed.
Theorem fullmatch_url s : fullmatches (re_url U) s = true <-> a_url cat s.
Proof.
  rewrite fullmatches_iff. change (exists b e, In (b, [], e) (m (re_url U) ([], s, []))) with (ends (re_url U) ([], s, [])).
  unfold a_url. set (tail := Seq host_re (Seq path_re ext_re)).
  change (re_url U) with (Seq (opt (Seq (Alt (seqs [lit (s2l "http"); opt (is 115)]) (lit (s2l "ftp"))) (Seq (lit (s2l "://")) (NotLook (is 45))))) tail).
  assert (HT : forall v, word tail v <-> exists h p x, v = h ++ p ++ x /\ a_host cat h /\ (p = [] \/ exists q, p = slash :: q /\ Forall (path_char cat) q) /\
    (x = [] \/ exists y, x = dot :: y /\ y <> [] /\ Forall lower_case y)).
  { intros v. unfold tail. rewrite word_seq. split.
    - intros (h & v1 & -> & Hh & p & x & -> & Hp & Hx). apply word_host in Hh. apply word_upath in Hp. apply word_ext in Hx. exists h, p, x. auto.
    - intros (h & p & x & -> & Hh & Hp & Hx). exists h, (p ++ x). split; [reflexivity|split; [now apply word_host|]].
      exists p, x. split; [reflexivity|split; [now apply word_upath|now apply word_ext]]. }
  assert (HM : forall b v e, ends tail (b, v, e) <-> word tail v) by (intros; apply ends_pure; reflexivity).
  assert (HL : forall b v e, m (is 45) (b, v, e) = [] <-> forall t, v <> hyphen :: t).
  { intros b v e. unfold is. cbn [m]. destruct v as [|c v]; [split; [easy|reflexivity]|]. destruct (N.eqb_spec 45 c) as [<-|Hc].
    - split; [easy|]. intros H. now destruct (H v).
    - split; [|reflexivity]. intros _ t [= -> _]. now apply Hc. }
  split.
  - intros (b & e & H). apply m_seq in H as (st & H & H'). apply m_opt in H as [->|(H & _)].
    + assert (Ht : word tail s) by (apply (HM [] s []); exists b, e; exact H'). apply HT in Ht as (h & p & x & -> & Hh & Hp & Hx).
      exists [], h, p, x. auto 6.
    + apply m_seq in H as (st1 & H1 & H). apply m_pure in H1 as (u & v & -> & -> & Hu); [|reflexivity].
      apply m_seq in H as (st2 & H2 & H). apply m_pure in H2 as (u2 & v2 & -> & -> & Hu2); [|reflexivity].
      apply m_notlook in H as (-> & Hn). assert (Hn0 := proj1 (HL _ _ _) Hn). clear Hn. rename Hn0 into Hn.
      assert (Hs : word scheme_re (u ++ u2)) by (exists u, u2; auto). apply word_scheme in Hs.
      assert (Ht : word tail v2) by (eapply HM; exists b, e; exact H'). apply HT in Ht as (h & p & x & -> & Hh & Hp & Hx).
      exists (u ++ u2), h, p, x. rewrite app_assoc. split; [reflexivity|split; [|auto]]. right. split; [exact Hs|].
      intros t ->. cbn in Hn. eapply Hn. reflexivity.
  - intros (sch & h & p & x & -> & Hs & Hh & Hp & Hx).
    assert (Ht : word tail (h ++ p ++ x)) by (apply HT; exists h, p, x; auto).
    destruct Hs as [->|(Hs & Hn)].
    + destruct (proj2 (HM [] (h ++ p ++ x) []) Ht) as (b & e & H). exists b, e. apply m_seq. eexists. split; [apply m_opt; now left|exact H].
    + apply word_scheme in Hs as (u & u2 & -> & Hu & Hu2).
      destruct (proj2 (HM (rev u2 ++ rev u ++ []) (h ++ p ++ x) []) Ht) as (b & e & H). exists b, e. apply m_seq. eexists. split; [|exact H].
      apply m_opt. right. split.
      * apply m_seq. eexists. split; [apply m_pure; [reflexivity|]; exists u, (u2 ++ h ++ p ++ x); rewrite <- app_assoc; split; [reflexivity|split; [reflexivity|exact Hu]]|].
        apply m_seq. eexists. split; [apply m_pure; [reflexivity|]; exists u2, (h ++ p ++ x); split; [reflexivity|split; [reflexivity|exact Hu2]]|].
        apply m_notlook. split; [reflexivity|]. apply HL. apply host_not_empty in Hh. destruct h as [|c h]; [easy|]. intros t [= -> _]. now apply (Hn h).
      * cbn [fst snd]. apply word_lit in Hu2 as ->. rewrite !app_length. cbn. lia.
Qed.
Theorem is_url_iff cell : is_url U cell = true <-> a_url cat (strip cell).
Proof. apply fullmatch_url. Qed.

(** ** Substitution *)
Definition shipped_url (before s : str) : option nat := match_at (re_url U) (rev before) s.

Lemma url_reads : reads (path_char cat) (re_url U).
Proof.
  assert (HL : forall l, Forall (path_char cat) l -> reads (path_char cat) (lit l)).
  { unfold lit. induction 1 as [|c l Hc Hl IH]; [exact I|]. cbn [map seqs]. destruct (map is l) eqn:E.
    - intros x Ex. apply N.eqb_eq in Ex as <-. exact Hc.
    - split; [|exact IH]. intros x Ex. apply N.eqb_eq in Ex as <-. exact Hc. }
  assert (HLow : forall c, lower_case c -> path_char cat c) by (intros c Hc; left; now apply sane).
  assert (HD : forall c, nd U c = true -> path_char cat c).
  { intros c Hc. apply nd_iff in Hc. right. left. exists [100]. exact Hc. }
  assert (Hm : forall c, In c (s2l "_/()~?=&%-#.:") -> path_char cat c) by (intros c Hc; right; right; exact Hc).
  assert (Hi : forall c, In c (s2l "_/()~?=&%-#.:") -> reads (path_char cat) (is c)).
  { intros c Hc x Ex. apply N.eqb_eq in Ex as <-. now apply Hm. }
  assert (Haz : forall c, az c = true -> path_char cat c) by (intros c Hc; apply HLow, range_iff; exact Hc).
  assert (Hd : reads (path_char cat) (is 46)) by (apply Hi; cbn; tauto).
  assert (Hc : reads (path_char cat) (is 58)) by (apply Hi; cbn; tauto).
  assert (Hlab : forall c, (letter U c || numeral U c || (c =? 45))%bool = true -> path_char cat c).
  { intros c E. apply label_class in E. destruct E as [E|[E| ->]]; [now left|right; now left|]. apply Hm. cbn. tauto. }
  assert (Hpth : forall c, (letter U c || numeral U c || one_of (s2l "_/()~?=&%-#.:") c)%bool = true -> path_char cat c) by (intros c; apply path_class).
  assert (Hl : forall l, forallb (fun c => ((97 <=? c) && (c <=? 122))%bool) l = true -> reads (path_char cat) (lit l)).
  { intros l E. apply HL, Forall_forall. intros c Hcl. apply HLow. rewrite forallb_forall in E. apply E in Hcl. apply andb_prop in Hcl as (E1 & E2). apply N.leb_le in E1, E2. split; assumption. }
  assert (H3 : reads (path_char cat) (lit (s2l "://"))) by (apply HL; repeat constructor; apply Hm; cbn; tauto).
  assert (Hs : reads (path_char cat) (is 115)). { intros x Ex. apply N.eqb_eq in Ex as <-. apply HLow. unfold lower_case. lia. }
  assert (Hp : reads (path_char cat) (is 47)) by (apply Hi; cbn; tauto).
  unfold re_url. cbn [seqs alts reads opt plus star port D13 D lower_word].
  repeat split; try assumption; try (apply Hl; reflexivity); try exact I.
  all: intros x Ex; apply N.eqb_eq in Ex as <-; (apply HLow; unfold lower_case; cbn; lia) || (apply Hm; cbn; tauto).
Qed.
Lemma shipped_url_char b s n : shipped_url b s = Some n -> exists u t, s = u ++ t /\ len u = n /\ Forall (path_char cat) u.
Proof.
  unfold shipped_url, match_at. match goal with |- match ?x with _ => _ end = _ -> _ => destruct x as [|[[b' s'] e'] l] eqn:E end; [easy|]. intros [= <-].
  assert (Hi : In (b', s', e') (m (re_url U) (rev b, s, []))) by (match type of E with ?x = _ => change (In (b', s', e') x) end; rewrite E; now left).
  apply (m_reads _ _ url_reads) in Hi as (w & E1 & _ & Hw). cbn [fst snd] in E1. subst s. exists w, s'. repeat split; auto. rewrite app_length. lia.
Qed.

Theorem url_filter_keeps P data : (forall c, P c = true -> ~ path_char cat c) -> a_letter cat 85 ->
  filter P (filter_urls shipped_url data) = filter P data.
Proof.
  intros HP HU. assert (H85 : P 85 = false). { destruct (P 85) eqn:E; [|reflexivity]. destruct (HP _ E). now left. }
  unfold filter_urls.
  assert (HN : forall u, Forall (path_char cat) u -> filter P u = []).
  { induction 1 as [|c u Hc Hu IH]; [reflexivity|]. cbn. destruct (P c) eqn:E; [now destruct (HP c E)|exact IH]. }
  assert (H : forall s k b u t, s = u ++ t -> len u = k -> Forall (path_char cat) u -> filter P (sub_url shipped_url k b s) = filter P t).
  { induction s as [|c s IH]; intros k b u t E Hk Hu.
    - symmetry in E. apply app_eq_nil in E as (-> & ->). reflexivity.
    - destruct u as [|x u].
      + cbn in E, Hk. subst k t. cbn [sub_url]. destruct (shipped_url b (c :: s)) as [[|n]|] eqn:Eu.
        * cbn [filter]. rewrite (IH 0%nat (b ++ [c]) [] s); auto.
        * apply shipped_url_char in Eu as (u & t & E & Hl & Hu'). destruct u as [|x u]; [discriminate|]. cbn in E. injection E as <- ->.
          cbn [filter]. rewrite H85. rewrite (IH n (b ++ [c]) u t); auto; [|now inversion Hu'].
          inversion Hu' as [|? ? Hc Hu2]; subst. rewrite (filter_app P u t), (HN u Hu2). destruct (P c) eqn:Ec; [now destruct (HP c Ec)|reflexivity].
        * cbn [filter]. rewrite (IH 0%nat (b ++ [c]) [] s); auto.
      + cbn in E, Hk. injection E as <- ->. subst k. cbn [sub_url]. inversion Hu; subst. eapply IH; eauto. }
  now apply (H data 0%nat [] [] data).
Qed.

(** Where the pattern matches, it matches a URL, whatever stands around it. *)
Theorem url_match b s st : In st (m (re_url U) (b, s, [])) <-> exists u t, s = u ++ t /\ st = (rev u ++ b, t, []) /\ a_url cat u.
Proof.
  unfold a_url. set (tail := Seq host_re (Seq path_re ext_re)).
  change (re_url U) with (Seq (opt (Seq (Alt (seqs [lit (s2l "http"); opt (is 115)]) (lit (s2l "ftp"))) (Seq (lit (s2l "://")) (NotLook (is 45))))) tail).
  assert (HT : forall v, word tail v <-> exists h p x, v = h ++ p ++ x /\ a_host cat h /\ (p = [] \/ exists q, p = slash :: q /\ Forall (path_char cat) q) /\
    (x = [] \/ exists y, x = dot :: y /\ y <> [] /\ Forall lower_case y)).
  { intros v. unfold tail. rewrite word_seq. split.
    - intros (h & v1 & -> & Hh & p & x & -> & Hp & Hx). apply word_host in Hh. apply word_upath in Hp. apply word_ext in Hx. exists h, p, x. auto.
    - intros (h & p & x & -> & Hh & Hp & Hx). exists h, (p ++ x). split; [reflexivity|split; [now apply word_host|]].
      exists p, x. split; [reflexivity|split; [now apply word_upath|now apply word_ext]]. }
  assert (HM : forall b v e st, In st (m tail (b, v, e)) <-> exists u t, v = u ++ t /\ st = (rev u ++ b, t, e) /\ word tail u) by (intros; apply m_pure; reflexivity).
  assert (HL : forall b v e, m (is 45) (b, v, e) = [] <-> forall t, v <> hyphen :: t).
  { intros b' v e. unfold is. cbn [m]. destruct v as [|c v]; [split; [easy|reflexivity]|]. destruct (N.eqb_spec 45 c) as [<-|Hc].
    - split; [easy|]. intros H. now destruct (H v).
    - split; [|reflexivity]. intros _ t [= -> _]. now apply Hc. }
  split.
  - intros H. apply m_seq in H as (st0 & H & H'). apply m_opt in H as [->|(H & _)].
    + apply HM in H' as (u & t & -> & -> & Ht). apply HT in Ht as (h & p & x & -> & Hh & Hp & Hx).
      exists (h ++ p ++ x), t. split; [reflexivity|split; [reflexivity|]]. exists [], h, p, x. auto 6.
    + apply m_seq in H as (st1 & H1 & H). apply m_pure in H1 as (u & v & -> & -> & Hu); [|reflexivity].
      apply m_seq in H as (st2 & H2 & H). apply m_pure in H2 as (u2 & v2 & -> & -> & Hu2); [|reflexivity].
      apply m_notlook in H as (-> & Hn). assert (Hn0 := proj1 (HL _ _ _) Hn). clear Hn. rename Hn0 into Hn.
      assert (Hs : word scheme_re (u ++ u2)) by (exists u, u2; auto). apply word_scheme in Hs.
      apply HM in H' as (u3 & t & -> & -> & Ht). apply HT in Ht as (h & p & x & -> & Hh & Hp & Hx).
      exists ((u ++ u2) ++ h ++ p ++ x), t. rewrite <- !app_assoc. split; [reflexivity|split; [rewrite !rev_app_distr, <- !app_assoc; reflexivity|]].
      exists (u ++ u2), h, p, x. rewrite <- !app_assoc. split; [reflexivity|split; [|auto]]. right. split; [exact Hs|].
      intros t' ->. cbn in Hn. eapply Hn. reflexivity.
  - intros (w & t & -> & -> & sch & h & p & x & -> & Hs & Hh & Hp & Hx).
    assert (Ht : word tail (h ++ p ++ x)) by (apply HT; exists h, p, x; auto).
    destruct Hs as [->|(Hs & Hn)].
    + apply m_seq. eexists. split; [apply m_opt; now left|]. apply HM. exists (h ++ p ++ x), t. auto.
    + apply word_scheme in Hs as (u & u2 & -> & Hu & Hu2).
      remember (h ++ p ++ x) as w eqn:Ew. rewrite <- !app_assoc.
      apply m_seq. exists (rev u2 ++ rev u ++ b, w ++ t, []). split.
      * apply m_opt. right. split.
        -- apply m_seq. eexists. split; [apply m_pure; [reflexivity|]; exists u, (u2 ++ w ++ t); split; [reflexivity|split; [reflexivity|exact Hu]]|].
           apply m_seq. eexists. split; [apply m_pure; [reflexivity|]; exists u2, (w ++ t); split; [reflexivity|split; [reflexivity|exact Hu2]]|].
           apply m_notlook. split; [reflexivity|]. apply HL. apply host_not_empty in Hh. destruct h as [|c h]; [easy|]. subst w. intros t' [= -> _]. now apply (Hn h).
        -- cbn [fst snd]. apply word_lit in Hu2 as ->. rewrite !app_length. cbn. lia.
      * apply HM. exists w, t. rewrite !rev_app_distr, <- !app_assoc. auto.
Qed.
Lemma shipped_url_some b s n : shipped_url b s = Some n -> exists u t, s = u ++ t /\ len u = n /\ a_url cat u.
Proof.
  unfold shipped_url, match_at. match goal with |- match ?x with _ => _ end = _ -> _ => destruct x as [|[[b' s'] e'] l] eqn:E end; [easy|]. intros [= <-].
  assert (Hi : In (b', s', e') (m (re_url U) (rev b, s, []))) by (match type of E with ?x = _ => change (In (b', s', e') x) end; rewrite E; now left).
  apply url_match in Hi as (u & t & -> & [= _ -> _] & Hu). exists u, t. repeat split; auto. rewrite app_length. lia.
Qed.
Lemma shipped_url_none b s : shipped_url b s = None <-> forall u t, s = u ++ t -> ~ a_url cat u.
Proof.
  unfold shipped_url, match_at. match goal with |- match ?x with _ => _ end = _ <-> _ => destruct x as [|[[b' s'] e'] l] eqn:E end.
  - split; [|reflexivity]. intros _ u t -> Hu. assert (Hi : In (rev u ++ rev b, t, []) (m (re_url U) (rev b, u ++ t, []))) by (apply url_match; eauto).
    change (m (re_url U) (rev b, u ++ t, []) = []) in E. rewrite E in Hi. destruct Hi.
  - split; [easy|]. intros H. assert (Hi : In (b', s', e') (m (re_url U) (rev b, s, []))) by (match type of E with ?x = _ => change (In (b', s', e') x) end; rewrite E; now left).
    apply url_match in Hi as (u & t & Es & _ & Hu). now destruct (H u t Es).
Qed.

(** ** Removing URLs *)
Lemma url_long u : a_url cat u -> (2 <= len u)%nat.
Proof.
  intros (sch & h & p & x & -> & _ & Hh & _). rewrite !app_length. enough (2 <= len h)%nat by lia.
  destruct Hh as [(ls & t & -> & _ & _ & _ & Ht)|[(q & -> & _)|(a & q & -> & (a1 & a2 & a3 & a4 & -> & _) & _)]].
  - rewrite app_length. lia.
  - cbn. lia.
  - rewrite !app_length. cbn. rewrite !app_length. cbn. lia.
Qed.
Theorem filter_urls_removed data : urls_removed cat data (filter_urls shipped_url data).
Proof.
  unfold filter_urls.
  assert (H : forall s k b u t, s = u ++ t -> len u = k -> urls_removed cat t (sub_url shipped_url k b s)).
  { induction s as [|c s IH]; intros k b u t E Hk.
    - symmetry in E. apply app_eq_nil in E as (-> & ->). destruct k; constructor.
    - destruct u as [|x u].
      + cbn in E, Hk. subst k t. cbn [sub_url]. destruct (shipped_url b (c :: s)) as [n|] eqn:Eu.
        * apply shipped_url_some in Eu as (u & t & E & Hl & Hu). pose proof (url_long u Hu) as H2.
          destruct u as [|x u]; [cbn in H2; lia|]. destruct n as [|n]; [discriminate|]. cbn in E. injection E as <- ->.
          change (c :: u ++ t) with ((c :: u) ++ t). apply ur_url; [exact Hu|]. apply (IH n (b ++ [c]) u t); auto.
        * assert (Hn := proj1 (shipped_url_none b (c :: s)) Eu). apply ur_keep; [exact Hn|]. now apply (IH 0%nat (b ++ [c]) [] s).
      + cbn in E, Hk. injection E as <- ->. subst k. cbn [sub_url]. eapply IH; eauto. }
  now apply (H data 0%nat [] [] data).
Qed.
Lemma removed_length s t : urls_removed cat s t -> (len t <= len s)%nat.
Proof. induction 1 as [|c s t Hc H IH|u s t Hu H IH]; cbn; [lia|lia|]. apply url_long in Hu. rewrite app_length. lia. Qed.
Lemma removed_same s t : urls_removed cat s t -> (t = s <-> forall a u b, s = a ++ u ++ b -> ~ a_url cat u).
Proof.
  induction 1 as [|c s t Hc H IH|u s t Hu H IH].
  - split; [|reflexivity]. intros _ a u b E Hu. apply url_long in Hu. apply (f_equal (@len N)) in E. rewrite !app_length in E. cbn in E. lia.
  - split.
    + intros [= E]. intros a u b Es Hu. destruct a as [|x a].
      * now apply (Hc u b).
      * cbn in Es. injection Es as <- Es. now apply (proj1 IH E a u b).
    + intros Hn. f_equal. apply IH. intros a u b Es. apply (Hn (c :: a) u b). cbn. now rewrite Es.
  - split.
    + intros E. apply removed_length in H. apply url_long in Hu. apply (f_equal (@len N)) in E. rewrite app_length in E. cbn in E. lia.
    + intros Hn. now destruct (Hn [] u s).
Qed.
Theorem filter_urls_same data : filter_urls shipped_url data = data <-> forall a u b, data = a ++ u ++ b -> ~ a_url cat u.
Proof. apply removed_same, filter_urls_removed. Qed.
Lemma url_has_dot u : a_url cat u -> In dot u \/ exists a b, u = a ++ s2l "localhost" ++ b.
Proof.
  intros (sch & h & p & x & -> & _ & Hh & _).
  destruct Hh as [(ls & t & -> & Hn & _)|[(q & -> & _)|(a & q & -> & (a1 & a2 & a3 & a4 & -> & _) & _)]].
  - left. destruct ls as [|l ls]; [easy|]. cbn. rewrite !in_app_iff. cbn. tauto.
  - right. exists sch, (q ++ p ++ x). now rewrite <- !app_assoc.
  - left. rewrite !in_app_iff. cbn. tauto.
Qed.
Theorem filter_urls_plain data : ~ In dot data -> (forall a b, data <> a ++ s2l "localhost" ++ b) -> filter_urls shipped_url data = data.
Proof.
  intros Hd Hl. apply filter_urls_same. intros a u b -> Hu. apply url_has_dot in Hu as [H|(x & y & ->)].
  - apply Hd. rewrite !in_app_iff. tauto.
  - apply (Hl (a ++ x) (y ++ b)). now rewrite <- !app_assoc.
Qed.
(** A default delimiter that is not a path mark survives. *)
Theorem delimiter_survives c data :
  (forall x, a_letter cat x -> In (cat x) (map s2l ["Lu"; "Ll"; "Lt"; "Lm"; "Lo"]%string)) ->
  (forall x, a_numeral cat x -> In (cat x) (map s2l ["Nd"; "Nl"; "No"]%string)) ->
  cat 40 = s2l "Ps" -> cat 41 = s2l "Pe" -> a_letter cat 85 -> ~ a_letter cat TAB -> ~ a_numeral cat TAB ->
  default_delimiter cat c -> ~ In c (s2l "_~?=&%-#:") -> (In c (filter_urls shipped_url data) <-> In c data).
Proof.
  intros HL HN H40 H41 H85 HT1 HT2 Hd Hm.
  assert (Hp : ~ path_char cat c).
  { intros H. destruct Hd as [->|(Hb & Hc)].
    - destruct H as [H|[H|H]]; [contradiction|contradiction|]. cbn in H. unfold TAB in H. lia.
    - destruct H as [H|[H|H]].
      + apply HL in H. apply Hc. cbn in *. tauto.
      + apply HN in H. apply Hc. cbn in *. tauto.
      + cbn in H, Hb, Hm. repeat (destruct H as [H|H]; [try (exfalso; tauto)|]); try exact H.
        * subst c. apply Hc. rewrite H40. cbn. tauto.
        * subst c. apply Hc. rewrite H41. cbn. tauto. }
  assert (E : filter (N.eqb c) (filter_urls shipped_url data) = filter (N.eqb c) data).
  { apply url_filter_keeps; [|exact H85]. intros x Ex. apply N.eqb_eq in Ex as <-. exact Hp. }
  assert (G : forall s, In c s <-> In c (filter (N.eqb c) s)) by (intros s; rewrite filter_In, N.eqb_refl; tauto).
  now rewrite (G (filter_urls _ _)), E, <- G.
Qed.
End Url.
