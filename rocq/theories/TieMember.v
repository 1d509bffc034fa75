(** * TieMember: the answer is always one of the candidates (C34) *)
From Coq Require Import Permutation.
From Verif Require Import Base Parser Dialect Potential Floats Ties TieFacts Consistency DetectFacts.

Section Member.
Variable limit : Z.
Variable data : str.
Variable o_set : list SimpleDialect -> list SimpleDialect.
Hypothesis o_incl : forall l, incl (o_set l) l.

Lemma equal_pairs_incl ps : forall r, equal_pairs limit data ps = Ok r -> incl r ps.
Proof.
  induction ps as [|[a b] ps IH]; intros r; cbn [equal_pairs]; [intros [= <-]; apply incl_refl|].
  destruct (plist limit data a) as [X|]; cbn [bind]; [|discriminate].
  destruct (plist limit data b) as [Y|]; cbn [bind]; [|discriminate].
  destruct (equal_pairs limit data ps) as [r'|]; cbn [bind]; [|discriminate]. intros [= <-].
  specialize (IH _ eq_refl). destruct (table_eqb X Y); [apply incl_cons; [now left|]|]; now apply incl_tl.
Qed.
Lemma break_pairs_in ps : forall new vis new' vis', break_pairs limit data ps new vis = Ok (new', vis') ->
  forall x, In x new' -> In x new \/ exists a b, In (a, b) ps /\ (x = a \/ x = b).
Proof.
  induction ps as [|[a b] ps IH]; intros new vis new' vis'; cbn [break_pairs]; [intros [= <- <-]; auto|].
  destruct (break_ties_two limit data a b) as [ans|] eqn:E; cbn [bind]; [|discriminate]. intros H x Hx.
  destruct (IH _ _ _ _ H x Hx) as [K|(a' & b' & K & K')].
  - destruct ans as [d|]; [|now left]. apply dset_in in K as [->|K]; [|now left].
    right. exists a, b. split; [now left|]. now apply two_member in E.
  - right. exists a', b'. split; [now right|exact K'].
Qed.
Lemma reduce_incl ds l : reduce_pairwise limit data o_set ds = Ok (Some l) -> incl l ds.
Proof.
  unfold reduce_pairwise. destruct (negb _); [discriminate|].
  destruct (equal_pairs limit data (pairwise ds)) as [eq|] eqn:E1; cbn [bind]; [|discriminate].
  destruct (break_pairs limit data eq [] []) as [[new vis]|] eqn:E2; cbn [bind]; [|discriminate].
  intros [= <-] x Hx. apply o_incl, unvisited_in in Hx as [Hx|Hx]; [|exact Hx].
  destruct (break_pairs_in _ _ _ _ _ E2 x Hx) as [[]|(a & b & Hab & Hx')].
  apply (equal_pairs_incl _ _ E1), pairwise_in in Hab as [Ha Hb]. destruct Hx' as [->| ->]; assumption.
Qed.
Lemma two_in A B d ds : break_ties_two limit data A B = Ok (Some d) -> In A ds -> In B ds -> In d ds.
Proof. intros H HA HB. apply two_member in H as [->| ->]; assumption. Qed.
Lemma three_in A B C d : break_ties_three limit data o_set A B C = Ok (Some d) -> In d [A; B; C].
Proof.
  unfold break_ties_three.
  destruct (_ && _ && _).
  - destruct (plist limit data A) as [pA|]; cbn [bind]; [|discriminate].
    destruct (plist limit data B) as [pB|]; cbn [bind]; [|discriminate].
    destruct (plist limit data C) as [pC|]; cbn [bind]; [|discriminate].
    destruct (negb _ || _ || _); [discriminate|]. cbn zeta.
    assert (Z : forall p x, In (p, x) (zip [pA; pB; pC] [A; B; C]) -> In x [A; B; C]).
    { intros p x. cbn. intros [H|[H|[H|[]]]]; injection H as _ <-; auto. }
    destruct (find _ _) as [[pn dn]|] eqn:Ef; [|discriminate]. apply find_some in Ef as [Ef _]. apply Z in Ef.
    assert (F : forall p x, In (p, x) (filter (fun '(p, d) => negb (table_eqb p pn)) (zip [pA; pB; pC] [A; B; C])) -> In x [A; B; C]).
    { intros p x H. apply filter_In in H as [H _]. eapply Z, H. }
    assert (R : bind (reduce_pairwise limit data o_set [A; B; C]) (fun new =>
                match new with Some [d] => Ok (Some d) | _ => Ok None end) = Ok (Some d) -> In d [A; B; C]).
    { destruct (reduce_pairwise limit data o_set [A; B; C]) as [[[|x [|? ?]]|]|] eqn:E; cbn [bind]; try discriminate.
      intros [= <-]. apply (reduce_incl _ _ E). now left. }
    destruct (filter _ _) as [|[p0 d0] [|[p1 d1] l]]; [exact R|exact R|].
    assert (I0 : In d0 [A; B; C]) by (apply (F p0); now left).
    assert (I1 : In d1 [A; B; C]) by (apply (F p1); right; now left).
    destruct (table_eqb pn p0); [intros H; now apply (two_in _ _ _ _ H)|].
    destruct (table_eqb pn p1); [intros H; now apply (two_in _ _ _ _ H)|discriminate].
  - destruct (same_delim A B && same_delim B C); [|discriminate].
    assert (F : forall x, In x (filter (fun d => negb (is_str (sd_quotechar d) [])) [A; B; C]) -> In x [A; B; C]).
    { intros x H. now apply filter_In in H. }
    destruct (filter _ _) as [|d0 [|d1 [|? ?]]]; try discriminate.
    intros H. apply (two_in _ _ _ _ H); apply F; [now left|right; now left].
Qed.
Lemma tie_breaker_in ds d : tie_breaker limit data o_set ds = Ok (Some d) -> In d ds.
Proof.
  unfold tie_breaker. destruct ds as [|a [|b [|c [|e [|f l]]]]]; try discriminate.
  - intros H. apply (two_in _ _ _ _ H); cbn; auto.
  - apply three_in.
  - unfold break_ties_four. destruct (negb _); [discriminate|].
    destruct (reduce_pairwise limit data o_set [a; b; c; e]) as [[l|]|] eqn:E; cbn [bind]; try discriminate.
    apply reduce_incl in E. destruct l as [|d0 [|d1 [|d2 [|? ?]]]]; try discriminate.
    + intros [= <-]. apply E. now left.
    + intros H. apply (two_in _ _ _ _ H); apply E; cbn; auto.
    + intros H. apply three_in in H. apply E, H.
Qed.
End Member.

Lemma insert_perm x : forall l r, insert x l = Ok r -> Permutation r (x :: l).
Proof.
  induction l as [|y l IH]; intros r; cbn [insert]; [now intros [= <-]|].
  destruct (dialect_ltb y x) as [[|]|]; cbn [bind]; try discriminate; [|now intros [= <-]].
  destruct (insert x l) as [r'|]; cbn [bind]; [|discriminate]. intros [= <-].
  rewrite (IH _ eq_refl). apply perm_swap.
Qed.
Lemma sorted_permutation : forall l r, py_sorted l = Ok r -> Permutation r l.
Proof.
  induction l as [|x l IH]; intros r; cbn [py_sorted]; [now intros [= <-]|].
  destruct (py_sorted l) as [r'|]; cbn [bind]; [|discriminate]. intros H. apply insert_perm in H.
  rewrite H. now rewrite (IH _ eq_refl).
Qed.
Lemma loop_keys known limit capacity skip data : forall ds inc m c m',
  scores_loop known limit capacity skip data ds inc m c = Ok m' ->
  forall k, In k (map fst m') -> In k ds \/ In k (map fst m).
Proof.
  induction ds as [|d ds IH]; intros inc m c m'; cbn [scores_loop]; [intros [= <-]; auto|].
  destruct (pattern_score data d) as [P|]; cbn [bind]; [|discriminate].
  assert (G : forall s inc c, scores_loop known limit capacity skip data ds inc (scores_set d s m) c = Ok m' ->
    forall k, In k (map fst m') -> In k (d :: ds) \/ In k (map fst m)).
  { intros s i c0 H k Hk. destruct (IH _ _ _ _ H k Hk) as [K|K]; [left; now right|].
    apply set_keys in K as [->|K]; [left; now left|now right]. }
  destruct (fltb P inc && skip); [apply G|].
  destruct (compute_type_score known limit capacity data d c) as [[T c1]|]; cbn [bind]; [|discriminate].
  apply G.
Qed.
Lemma detect_candidate cat url known O o_set capacity skip data user old d new :
  (forall l, incl (o_set l) l) ->
  detect cat url known O o_set capacity skip data user old = (Ok (Some d), new) ->
  exists L, get_dialects cat url O utf8 data user false = Ok L /\ In d L.
Proof.
  intros Ho. unfold detect. destruct (get_dialects cat url O utf8 data user false) as [L|e]; [|discriminate].
  cbn zeta. set (limit := (Z.of_nat (length data) + 1)%Z).
  unfold compute_consistency_scores.
  destruct (py_sorted L) as [ds|] eqn:ES; cbn [bind]; [|discriminate].
  destruct (scores_loop known limit capacity skip data ds minus_inf [] []) as [m|] eqn:EL; cbn [bind]; [|discriminate].
  assert (B : forall k, In k (get_best_dialects m) -> In k L).
  { intros k Hk. unfold get_best_dialects in Hk. apply in_map_iff in Hk as (p & <- & Hp).
    apply filter_In in Hp as [Hp _]. apply (in_map fst) in Hp.
    destruct (loop_keys _ _ _ _ _ _ _ _ _ _ EL _ Hp) as [K|[]].
    exact (Permutation_in _ (sorted_permutation _ _ ES) K). }
  intros H. exists L. split; [reflexivity|]. apply B.
  destruct (get_best_dialects m) as [|x [|y l]].
  - destruct (tie_breaker limit data o_set []) as [r|] eqn:E; [|discriminate]. injection H as -> _.
    now apply tie_breaker_in in E.
  - injection H as -> _. now left.
  - destruct (tie_breaker limit data o_set (x :: y :: l)) as [r|] eqn:E; [|discriminate]. injection H as -> _.
    now apply tie_breaker_in in E.
Qed.
