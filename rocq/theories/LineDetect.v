(** * LineDetect: detection sees the candidates, their tables and nothing else *)
From Coq Require Import String Permutation.
From Verif Require Import Base Parser Dialect SpecLayout SpecParse Potential SpecPotential PotentialFacts Ties TieFacts TieMember Floats Consistency SpecConsistency ScoreFacts TypeFacts DetectFacts
  SpecColumn SpecLines LineLayout UrlLines LineEnds.
Local Notation len := List.length.

(** ** Ties *)
Section Ties.
Variables l1 l2 : Z.
Variables t1 t2 : str.
Variable o_set : list SimpleDialect -> list SimpleDialect.
Hypothesis o_perm : forall l, Permutation (o_set l) l.
Definition same_rows (d : SimpleDialect) : Prop := parses l1 t1 d /\ plist l1 t1 d = plist l2 t2 d.

Lemma two_ext A B : same_rows A -> same_rows B -> break_ties_two l1 t1 A B = break_ties_two l2 t2 A B.
Proof.
  intros (_ & HA) (_ & HB). unfold break_ties_two.
  repeat match goal with
  | |- context [if ?b then _ else _] => destruct b
  end; rewrite ?HA, ?HB; reflexivity.
Qed.
Lemma equal_pairs_ext ps : (forall a b, In (a, b) ps -> same_rows a /\ same_rows b) -> equal_pairs l1 t1 ps = equal_pairs l2 t2 ps.
Proof.
  induction ps as [|[a b] ps IH]; intros H; [reflexivity|]. cbn [equal_pairs]. destruct (H a b (or_introl eq_refl)) as ((_ & Ha) & (_ & Hb)).
  rewrite Ha, Hb, IH; [reflexivity|]. intros x y Hi. apply H. now right.
Qed.
Lemma break_pairs_ext ps : (forall a b, In (a, b) ps -> same_rows a /\ same_rows b) -> forall new vis, break_pairs l1 t1 ps new vis = break_pairs l2 t2 ps new vis.
Proof.
  induction ps as [|[a b] ps IH]; intros H new vis; [reflexivity|]. cbn [break_pairs]. destruct (H a b (or_introl eq_refl)) as (Ha & Hb).
  rewrite (two_ext a b Ha Hb). destruct (break_ties_two l2 t2 a b) as [r|x]; [|reflexivity]. cbn [bind]. apply IH. intros x y Hi. apply H. now right.
Qed.
Lemma reduce_ext ds : Forall same_rows ds -> reduce_pairwise l1 t1 o_set ds = reduce_pairwise l2 t2 o_set ds.
Proof.
  intros H. rewrite Forall_forall in H. assert (HP : forall a b, In (a, b) (pairwise ds) -> same_rows a /\ same_rows b).
  { intros a b Hab. apply pairwise_in in Hab as (Ha & Hb). auto. }
  unfold reduce_pairwise. destruct (negb (equal_delim ds)); [reflexivity|].
  destruct (equal_pairs_ok l1 t1 (pairwise ds)) as (eq & E & Hi); [intros a b Hab; destruct (HP a b Hab) as ((Ha & _) & (Hb & _)); now split|].
  rewrite <- (equal_pairs_ext _ HP), E. cbn [bind]. rewrite (break_pairs_ext eq); [reflexivity|]. intros a b Hab. now apply HP, Hi.
Qed.
Lemma reduce_in ds l : Forall same_rows ds -> reduce_pairwise l1 t1 o_set ds = Ok (Some l) -> Forall same_rows l.
Proof.
  intros H E. destruct (reduce_ok l1 t1 o_set o_perm ds) as (r & E' & Hr); [eapply Forall_impl; [|exact H]; now intros x (Hx & _)|].
  rewrite E in E'. injection E' as <-. destruct Hr as (Hr & _). rewrite Forall_forall in *. auto.
Qed.
Lemma three_ext A B C : same_rows A -> same_rows B -> same_rows C -> break_ties_three l1 t1 o_set A B C = break_ties_three l2 t2 o_set A B C.
Proof.
  intros HA HB HC. assert (HF : Forall same_rows [A; B; C]) by (repeat (constructor; [assumption|]); constructor).
  assert (HI : forall d, In d [A; B; C] -> same_rows d) by now apply Forall_forall.
  unfold break_ties_three. destruct (same_delim A B && same_delim B C && (same_escape A B && same_escape B C)).
  - rewrite <- (proj2 HA), <- (proj2 HB), <- (proj2 HC), <- (reduce_ext _ HF).
    destruct (plist l1 t1 A) as [pA|x]; [|reflexivity]. destruct (plist l1 t1 B) as [pB|x]; [|reflexivity]. destruct (plist l1 t1 C) as [pC|x]; [|reflexivity]. cbn [bind].
    destruct (_ || _ || _); [reflexivity|]. destruct (find _ _) as [[pn dn]|] eqn:Ef; [|reflexivity].
    apply find_some in Ef as [Ef _].
    assert (Z : forall p d, In (p, d) (zip [pA; pB; pC] [A; B; C]) -> In d [A; B; C]).
    { intros p d [H|[H|[H|[]]]]; injection H as <- <-; cbn; auto. }
    assert (F : forall p d, In (p, d) (filter (fun '(p0, d0) => negb (table_eqb p0 pn)) (zip [pA; pB; pC] [A; B; C])) -> In d [A; B; C]).
    { intros p d H. apply filter_In in H as [H _]. eapply Z, H. }
    apply Z in Ef. destruct (filter _ _) as [|[p0 d0] [|[p1 d1] l]]; [reflexivity|reflexivity|].
    assert (I0 : In d0 [A; B; C]) by (apply (F p0); now left). assert (I1 : In d1 [A; B; C]) by (apply (F p1); right; now left).
    rewrite (two_ext dn d0), (two_ext dn d1); auto.
  - destruct (same_delim A B && same_delim B C); [|reflexivity].
    assert (F : forall d, In d (filter (fun d => negb (is_str (sd_quotechar d) [])) [A; B; C]) -> In d [A; B; C]) by (intros d H; now apply filter_In in H).
    destruct (filter _ _) as [|d0 [|d1 [|? ?]]]; try reflexivity. apply two_ext; apply HI, F; cbn; auto.
Qed.
Lemma tie_ext ds : Forall same_rows ds -> tie_breaker l1 t1 o_set ds = tie_breaker l2 t2 o_set ds.
Proof.
  intros H. unfold tie_breaker. destruct ds as [|a [|b [|c [|d [|e l]]]]]; try reflexivity.
  - apply Forall_cons_iff in H as [Ha H]. apply Forall_cons_iff in H as [Hb _]. now apply two_ext.
  - apply Forall_cons_iff in H as [Ha H]. apply Forall_cons_iff in H as [Hb H]. apply Forall_cons_iff in H as [Hc _]. now apply three_ext.
  - unfold break_ties_four. destruct (negb _); [reflexivity|]. rewrite <- (reduce_ext _ H).
    destruct (reduce_pairwise l1 t1 o_set [a; b; c; d]) as [[l|]|x] eqn:E; [|reflexivity|reflexivity]. apply (reduce_in _ _ H) in E. cbn [bind].
    destruct l as [|d0 [|d1 [|d2 [|? ?]]]]; try reflexivity.
    + apply Forall_cons_iff in E as [E0 E]. apply Forall_cons_iff in E as [E1 _]. now apply two_ext.
    + apply Forall_cons_iff in E as [E0 E]. apply Forall_cons_iff in E as [E1 E]. apply Forall_cons_iff in E as [E2 _]. now apply three_ext.
Qed.
End Ties.

(** ** Scores *)
Section Scores.
Variable known : str -> bool -> res pyexc bool.
Variables l1 l2 : Z.
Variables t1 t2 : str.
Definition same_score (d : SimpleDialect) : Prop :=
  pattern_score t1 d = pattern_score t2 d /\ parse_string l1 t1 d true = parse_string l2 t2 d true.
Lemma loop_ext capacity skip ds : Forall same_score ds -> forall inc m c,
  scores_loop known l1 capacity skip t1 ds inc m c = scores_loop known l2 capacity skip t2 ds inc m c.
Proof.
  induction ds as [|d ds IH]; intros H inc m c; [reflexivity|]. apply Forall_cons_iff in H as ((H1 & H2) & H). cbn [scores_loop].
  rewrite H1. destruct (pattern_score t2 d) as [P|x]; [|reflexivity]. cbn [bind].
  assert (E : compute_type_score known l1 capacity t1 d c = compute_type_score known l2 capacity t2 d c) by (unfold compute_type_score; now rewrite H2).
  rewrite E. destruct (_ && _); [now apply IH|]. destruct (compute_type_score known l2 capacity t2 d c) as [[T c']|x]; [|reflexivity]. cbn [bind]. now apply IH.
Qed.
End Scores.
Lemma loop_domain known limit capacity skip t ds : forall inc m c m', scores_loop known limit capacity skip t ds inc m c = Ok m' ->
  forall d, In d (map fst m') -> In d (map fst m) \/ In d ds.
Proof.
  induction ds as [|d ds IH]; intros inc m c m' H x Hx; [injection H as <-; now left|]. cbn [scores_loop] in H.
  destruct (pattern_score t d) as [P|e]; [|discriminate]. cbn [bind] in H. destruct (_ && _).
  - destruct (IH _ _ _ _ H x Hx) as [K|K]; [|right; now right]. apply set_keys in K as [->|K]; [right; now left|now left].
  - destruct (compute_type_score known limit capacity t d c) as [[T c']|e]; [|discriminate]. cbn [bind] in H.
    destruct (IH _ _ _ _ H x Hx) as [K|K]; [|right; now right]. apply set_keys in K as [->|K]; [right; now left|now left].
Qed.
Lemma best_domain m d : In d (get_best_dialects m) -> In d (map fst m).
Proof. unfold get_best_dialects. intros H. apply in_map_iff in H as (p & <- & H). apply filter_In in H as (H & _). now apply in_map. Qed.

(** ** Detection *)
Section Detection.
Variable cat : N -> str.
Variable url : str -> str -> option nat.
Variable known : str -> bool -> res pyexc bool.
Variable user : option (list str).
Hypothesis HU : line_matcher url.
Hypothesis HK : control_ends cat.
Hypothesis HUser : usual_delimiters user.
Variable o_set : list SimpleDialect -> list SimpleDialect.
Hypothesis o_perm : forall l, Permutation (o_set l) l.

Section Two.
Variables rows1 rows2 : list (str * eol).
Variables final1 final2 : option str.
Hypothesis EC : column_of rows1 final1 = column_of rows2 final2.
Hypothesis HB : forall l, In l (column_of rows1 final1) -> balanced_line cat user l.
Hypothesis C1 : clear_ends rows1 final1.
Hypothesis C2 : clear_ends rows2 final2.
Local Notation t1 := (column_text rows1 final1).
Local Notation t2 := (column_text rows2 final2).
Local Notation lim t := (Z.of_nat (len t) + 1)%Z.

Lemma candidate_reads d q e : candidate cat user (filter_urls url t1) t1 d q e ->
  same_score (lim t1) (lim t2) t1 t2 (dialect3 d q e) /\ same_rows (lim t1) (lim t2) t1 t2 (dialect3 d q e).
Proof.
  intros H. assert (Hdef : defined (dialect3 d q e)) by (repeat split; discriminate).
  destruct (candidate_chars cat url user HK HUser rows1 final1 d q e HB H) as (D & ED & HD & Hq & He). rewrite ED in *.
  destruct (balanced_rows D cat user HD Hq He _ HB) as (cs & HF). pose proof HF as HF2. rewrite EC in HF2.
  destruct (lines_read D HD rows1 final1 cs C1 HF) as (P1 & R1).
  destruct (lines_read D HD rows2 final2 cs C2 HF2) as (P2 & R2).
  split; split.
  - now rewrite P1, P2.
  - rewrite R1, R2 by lia. reflexivity.
  - split; [exact Hdef|]. unfold plist. rewrite R1 by lia. eauto.
  - unfold plist. rewrite R1, R2 by lia. reflexivity.
Qed.
Theorem detect_lines O1 O2 capacity skip old : any_orders O1 -> any_orders O2 ->
  fst (detect cat url known O1 o_set capacity skip t1 user old) = fst (detect cat url known O2 o_set capacity skip t2 user old).
Proof.
  intros H1 H2. unfold detect.
  destruct (candidates_same cat url user HU HK HUser O1 O2 rows1 final1 rows2 final2 false H1 H2 eq_refl EC)
    as [(L1 & L2 & -> & -> & HP & HG & HC)|[-> ->]]; [|reflexivity]. cbn zeta.
  assert (HS : forall x, In x L1 -> same_score (lim t1) (lim t2) t1 t2 x /\ same_rows (lim t1) (lim t2) t1 t2 x).
  { intros x Hx. destruct (HC x Hx) as (d & q & e & -> & Hd). now apply candidate_reads. }
  rewrite (scores_perm known (lim t2) capacity skip t2 L1 L2 []) by (try (now apply candidates_defined); now apply Permutation_sym).
  unfold compute_consistency_scores. destruct (py_sorted L1) as [ds|x] eqn:ES; [|reflexivity]. cbn [bind].
  apply sorted_permutation in ES.
  assert (HD : forall x, In x ds -> same_score (lim t1) (lim t2) t1 t2 x /\ same_rows (lim t1) (lim t2) t1 t2 x).
  { intros x Hx. apply HS. now apply (Permutation_in _ ES). }
  rewrite (loop_ext known (lim t1) (lim t2) t1 t2 capacity skip ds) by (apply Forall_forall; intros x Hx; now apply HD).
  destruct (scores_loop known (lim t2) capacity skip t2 ds minus_inf [] []) as [m|x] eqn:EM; [|reflexivity]. cbn [bind].
  assert (HT : Forall (same_rows (lim t1) (lim t2) t1 t2) (get_best_dialects m)).
  { apply Forall_forall. intros x Hx. apply best_domain in Hx. destruct (loop_domain _ _ _ _ _ _ _ _ _ _ EM x Hx) as [[]|Hx']. now apply HD. }
  pose proof (tie_ext (lim t1) (lim t2) t1 t2 o_set o_perm _ HT) as E.
  destruct (get_best_dialects m) as [|a [|b l]].
  - reflexivity.
  - reflexivity.
  - rewrite E. now destruct (tie_breaker (lim t2) t2 o_set (a :: b :: l)).
Qed.
End Two.
End Detection.
