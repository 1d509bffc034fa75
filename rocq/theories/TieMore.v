(** * TieMore: ties between three and four dialects (C60) *)
From Coq Require Import Permutation.
From Verif Require Import Base Parser Dialect SpecParse Potential SpecPotential PotentialFacts MaskedFacts Ties TieFacts SpecTies TieRules.

Section More.
  Variable limit : Z.
  Variable data : str.
  Variable o_set : list SimpleDialect -> list SimpleDialect.
  Hypothesis o_perm : forall l, Permutation (o_set l) l.
  Notation parse dl := (parse_string limit data dl false).

  Lemma pairwise_neighbours {A} (l : list A) a b : In (a, b) (pairwise l) <-> neighbours l a b.
  Proof.
    unfold neighbours. induction l as [|x l IH].
    - split; [intros []|]. intros ([|? ?] & r & H); discriminate.
    - destruct l as [|y l].
      + split; [intros []|]. intros ([|? [|? ?]] & r & H); discriminate.
      + cbn [pairwise tl zip In] in *. rewrite IH. split.
        * intros [H|(p & r & H)]; [injection H as -> ->; exists [], l; reflexivity|]. exists (x :: p), r. cbn. now rewrite H.
        * intros ([|z p] & r & H); [left; cbn in H; congruence|]. right. injection H as -> H. exists p, r. exact H.
  Qed.
  Lemma equal_pairs_exact ps : forall r, equal_pairs limit data ps = Ok r -> forall a b,
    In (a, b) r <-> In (a, b) ps /\ exists X, parse a = (X, None) /\ parse b = (X, None).
  Proof.
    induction ps as [|[a b] ps IH]; intros r H u v; cbn [equal_pairs] in H.
    - injection H as <-. cbn. tauto.
    - unfold plist in H. destruct (parse a) as [X [x|]] eqn:EX; [discriminate|]. cbn [bind] in H.
      destruct (parse b) as [Y [y|]] eqn:EY; [discriminate|]. cbn [bind] in H.
      destruct (equal_pairs limit data ps) as [r'|]; [|discriminate]. cbn [bind] in H. injection H as <-.
      specialize (IH r' eq_refl u v). destruct (table_eqb X Y) eqn:E.
      + apply table_eqb_eq in E as ->. cbn [In]. rewrite IH. split.
        * intros [Eq|[H1 H2]]; [injection Eq as -> ->; eauto|auto].
        * intros [[Eq|H1] H2]; auto.
      + rewrite IH. cbn [In]. split; [tauto|]. intros [[Eq|H1] H2]; [|auto]. injection Eq as -> ->.
        destruct H2 as (Z & H1 & H2). assert (X = Y) by congruence. subst. now rewrite table_eqb_refl in E.
  Qed.
  Lemma break_pairs_exact ps : forall new vis new' vis', break_pairs limit data ps new vis = Ok (new', vis') ->
    (forall x, In x new' <-> In x new \/ exists a b, In (a, b) ps /\ break_ties_two limit data a b = Ok (Some x)) /\
    (forall x, In x vis' <-> In x vis \/ exists a b, In (a, b) ps /\ (x = a \/ x = b)).
  Proof.
    induction ps as [|[a b] ps IH]; intros new vis new' vis' H; cbn [break_pairs] in H.
    - injection H as <- <-. split; intros x; split; auto; intros [H|(a & b & [] & _)]; auto.
    - destruct (break_ties_two limit data a b) as [ans|] eqn:E; [|discriminate]. cbn [bind] in H.
      destruct (IH _ _ _ _ H) as [H1 H2]. split; intros x.
      + rewrite H1. split.
        * intros [Hx|(u & v & Hu & Hx)]; [|right; exists u, v; split; [now right|exact Hx]].
          destruct ans as [d|]; [|now left]. apply dset_in in Hx as [->|Hx]; [|now left].
          right. exists a, b. split; [now left|exact E].
        * intros [Hx|(u & v & [Hu|Hu] & Hx)].
          -- left. destruct ans; [|exact Hx]. apply dset_in. now right.
          -- injection Hu as -> ->. left. rewrite E in Hx. injection Hx as ->. apply dset_in. now left.
          -- right. eauto.
      + rewrite H2, !dset_in. split.
        * intros [[->|[->|Hx]]|(u & v & Hu & Hx)]; [right; exists a, b; cbn; auto..|now left|right; exists u, v; cbn; auto].
        * intros [Hx|(u & v & [Hu|Hu] & Hx)]; [tauto| |right; eauto]. injection Hu as -> ->. tauto.
  Qed.
  Lemma unvisited_exact vis ds : forall new x,
    In x (fold_left (fun new d => if mem_dialect d vis then new else dset_add d new) ds new) <->
    In x new \/ (In x ds /\ ~ In x vis).
  Proof.
    induction ds as [|d ds IH]; intros new x; cbn [fold_left]; [cbn; tauto|]. rewrite IH.
    destruct (mem_dialect d vis) eqn:E.
    - apply mem_dialect_in in E. cbn [In]. split; [tauto|]. intros [H|[[->|H] Hn]]; tauto.
    - rewrite dset_in. assert (~ In d vis) by (rewrite <- mem_dialect_in; congruence). cbn [In].
      split; [intros [[->|H']|[H1 H2]]; auto|intros [H1|[[->|H1] H2]]; auto].
  Qed.
  Lemma reduce_exact ds : Forall (parses limit data) ds -> equal_delim ds = true ->
    exists R, reduce_pairwise limit data o_set ds = Ok (Some R) /\ NoDup R /\
      forall x, In x R <->
        (exists a b, twins limit data ds a b /\ break_ties_two limit data a b = Ok (Some x)) \/
        (In x ds /\ forall a b, twins limit data ds a b -> x <> a /\ x <> b).
  Proof.
    intros HP HD. destruct (reduce_ok limit data o_set o_perm ds HP) as (r & E & Hr).
    unfold reduce_pairwise in E. rewrite HD in E. cbn [negb] in E.
    unfold reduce_pairwise. rewrite HD. cbn [negb].
    destruct (equal_pairs limit data (pairwise ds)) as [eq|] eqn:EQ; [|discriminate]. cbn [bind] in E |- *.
    destruct (break_pairs limit data eq [] []) as [[new vis]|] eqn:EB; [|discriminate]. cbn [bind] in E |- *.
    injection E as <-. destruct Hr as [_ Hnd]. eexists. split; [reflexivity|]. split; [exact Hnd|].
    destruct (break_pairs_exact _ _ _ _ _ EB) as [Hnew Hvis].
    pose proof (equal_pairs_exact _ _ EQ) as Heq.
    assert (HT : forall a b, In (a, b) eq <-> twins limit data ds a b).
    { intros a b. rewrite Heq, pairwise_neighbours. reflexivity. }
    intros x. split.
    - intros Hx. apply (Permutation_in _ (o_perm _)) in Hx. apply unvisited_exact in Hx as [Hx|[Hx Hn]].
      + left. apply Hnew in Hx as [[]|(a & b & Hab & Hx)]. exists a, b. split; [now apply HT|exact Hx].
      + right. split; [exact Hx|]. intros a b Hab. apply HT in Hab. split; intros ->; apply Hn, Hvis; right; eauto.
    - intros Hx. apply (Permutation_in _ (Permutation_sym (o_perm _))). apply unvisited_exact.
      destruct Hx as [(a & b & Hab & Hx)|[Hx Hn]].
      + left. apply Hnew. right. exists a, b. split; [now apply HT|exact Hx].
      + right. split; [exact Hx|]. rewrite Hvis. intros [[]|(a & b & Hab & Hx')]. apply HT in Hab. destruct (Hn a b Hab).
        destruct Hx' as [->| ->]; tauto.
  Qed.

  Definition defined3 d q e : defined (dialect3 d q e).
  Proof. unfold defined, dialect3. cbn. repeat split; discriminate. Qed.
  Lemma parses3 d q e X : parse (dialect3 d q e) = (X, None) -> parses limit data (dialect3 d q e).
  Proof. intros H. split; [apply defined3|]. exists X. now apply plist_of. Qed.

  Lemma four_rule d T : length T = 4%nat ->
    let ds := map (fun '(q, e) => dialect3 d q e) T in
    (forall x, In x ds -> exists X, parse x = (X, None)) ->
    exists R, NoDup R /\
      (forall x, In x R <->
        (exists a b, twins limit data ds a b /\ break_ties_two limit data a b = Ok (Some x)) \/
        (In x ds /\ forall a b, twins limit data ds a b -> x <> a /\ x <> b)) /\
      tie_breaker limit data o_set ds =
      match R with
      | [x] => Ok (Some x)
      | [x; y] => break_ties_two limit data x y
      | [x; y; z] => break_ties_three limit data o_set x y z
      | _ => Ok None
      end.
  Proof.
    intros HL ds HP. destruct T as [|[q1 e1] [|[q2 e2] [|[q3 e3] [|[q4 e4] [|? ?]]]]]; try discriminate. cbn [map] in ds.
    assert (HD : equal_delim ds = true).
    { unfold ds, equal_delim, same_delim, dialect3. cbn [sd_delimiter forallb]. now rewrite some_eq. }
    destruct (reduce_exact ds) as (R & E & Hn & Hi); [|exact HD|].
    { apply Forall_forall. intros x Hx. destruct (HP x Hx) as [X HX].
      destruct Hx as [<-|[<-|[<-|[<-|[]]]]]; now apply parses3 in HX. }
    exists R. split; [exact Hn|]. split; [exact Hi|]. unfold tie_breaker, ds. fold ds. unfold break_ties_four.
    rewrite HD, E. cbn [negb bind]. destruct R as [|? [|? [|? [|? ?]]]]; reflexivity.
  Qed.
  Lemma four_delims a b c d : ~ (sd_delimiter a = sd_delimiter b /\ sd_delimiter a = sd_delimiter c /\ sd_delimiter a = sd_delimiter d) ->
    tie_breaker limit data o_set [a; b; c; d] = Ok None.
  Proof.
    intros H. unfold tie_breaker, break_ties_four. destruct (equal_delim [a; b; c; d]) eqn:E; [|reflexivity].
    exfalso. apply H. unfold equal_delim in E. cbn [forallb] in E. rewrite !andb_true_iff, !same_delim_eq in E. tauto.
  Qed.
  Lemma three_delims a b c : ~ (sd_delimiter a = sd_delimiter b /\ sd_delimiter a = sd_delimiter c) ->
    tie_breaker limit data o_set [a; b; c] = Ok None.
  Proof.
    intros H. unfold tie_breaker, break_ties_three. destruct (same_delim a b && same_delim b c) eqn:E; [|reflexivity].
    exfalso. apply H. rewrite andb_true_iff, !same_delim_eq in E. destruct E. split; congruence.
  Qed.
  Lemma three_escapes d q1 e1 q2 e2 q3 e3 : ~ (e1 = e2 /\ e2 = e3) ->
    let with_quote := filter (fun x => negb (str_eqb (fst x) [])) [(q1, e1); (q2, e2); (q3, e3)] in
    tie_breaker limit data o_set [dialect3 d q1 e1; dialect3 d q2 e2; dialect3 d q3 e3] =
    match with_quote with
    | [(q, e); (q', e')] => break_ties_two limit data (dialect3 d q e) (dialect3 d q' e')
    | _ => Ok None
    end.
  Proof.
    intros H wq. unfold tie_breaker, break_ties_three, same_delim, same_escape.
    cbn [dialect3 sd_delimiter sd_escapechar]. rewrite !some_eq. cbn [andb].
    destruct (opt_str_eqb (Some e1) (Some e2) && opt_str_eqb (Some e2) (Some e3)) eqn:E.
    { exfalso. apply H. rewrite andb_true_iff, !opt_str_eqb_eq in E. destruct E as [E1 E2]. split; congruence. }
    unfold wq. cbn [filter fst]. unfold is_str, dialect3. cbn [sd_quotechar opt_str_eqb].
    destruct (str_eqb q1 []), (str_eqb q2 []), (str_eqb q3 []); reflexivity.
  Qed.
  Lemma five_or_more ds : (length ds < 2 \/ 4 < length ds)%nat -> tie_breaker limit data o_set ds = Ok None.
  Proof.
    intros H. destruct ds as [|a [|b [|c [|d [|e l]]]]]; try reflexivity; cbn in H; lia.
  Qed.
End More.
