(** * TieRules: the rules by which a tie between two dialects is broken (C59) *)
From Verif Require Import Base Parser Dialect SpecParse Potential SpecPotential PotentialFacts MaskedFacts Ties TieFacts SpecTies StandardizeFacts.

Section Rules.
  Variable limit : Z.
  Variable data : str.
  Notation parse dl := (parse_string limit data dl false).
  Notation two := (break_ties_two limit data).

  Lemma plist_of d X : parse d = (X, None) -> plist limit data d = Ok X.
  Proof. unfold plist. now intros ->. Qed.

  Lemma some_neq (a b : str) : a <> b -> opt_str_eqb (Some a) (Some b) = false.
  Proof. intros H. apply not_true_is_false. cbn. now rewrite str_eqb_eq. Qed.
  Lemma some_eq (a : str) : opt_str_eqb (Some a) (Some a) = true.
  Proof. now apply opt_str_eqb_eq. Qed.
  Lemma d3_neq d q e d' q' e' : (d, q, e) <> (d', q', e') -> dialect_eqb (dialect3 d q e) (dialect3 d' q' e') = false.
  Proof. intros H. apply eqb_neq_d. unfold dialect3. congruence. Qed.

  Lemma rule_quote d e q X Y : q <> [] ->
    parse (dialect3 d [] e) = (X, None) -> parse (dialect3 d q e) = (Y, None) ->
    exists r, two (dialect3 d [] e) (dialect3 d q e) = Ok (Some r) /\
      (X = Y -> r = dialect3 d [] e) /\ (X <> Y -> r = dialect3 d q e).
  Proof.
    intros Hq EX EY. apply plist_of in EX, EY. unfold break_ties_two, only_differ_in, same_delim, same_escape, is_str.
    cbn [dialect3 sd_delimiter sd_quotechar sd_escapechar]. rewrite !some_eq. cbn [andb orb]. rewrite eqb_refl_d.
    fold (dialect3 d [] e) (dialect3 d q e). rewrite EX, EY. cbn [bind]. eexists. split; [reflexivity|].
    destruct (table_eqb X Y) eqn:E; [apply table_eqb_eq in E|]; split; intros H; try congruence.
    subst. rewrite table_eqb_refl in E. discriminate.
  Qed.
  Lemma rule_two_quotes d e q q' : q <> q' -> q <> [] -> q' <> [] ->
    two (dialect3 d q e) (dialect3 d q' e) = Ok None.
  Proof.
    intros H H1 H2. unfold break_ties_two, only_differ_in, same_delim, same_escape, is_str.
    cbn [dialect3 sd_delimiter sd_quotechar sd_escapechar]. rewrite !some_eq, !some_neq by assumption. reflexivity.
  Qed.

  Lemma rule_delims q e d d' : d <> d' ->
    two (dialect3 d q e) (dialect3 d' q e) =
    Ok (if (str_eqb d [COMMA] && str_eqb d' [SPACE]) || (str_eqb d [SPACE] && str_eqb d' [COMMA])
        then Some (if str_eqb d [COMMA] then dialect3 d q e else dialect3 d' q e)
        else if str_eqb d [45%N] || str_eqb d' [45%N]
        then Some (if str_eqb d [45%N] then dialect3 d' q e else dialect3 d q e) else None).
  Proof.
    intros H. unfold break_ties_two, only_differ_in, same_delim, same_escape, same_quote, is_str.
    cbn [dialect3 sd_delimiter sd_quotechar sd_escapechar]. rewrite !some_eq, !some_neq by assumption. cbn [andb opt_str_eqb].
    repeat match goal with |- context [if ?b then _ else _] => destruct b end; reflexivity.
  Qed.
  Lemma rule_comma_space q e : two (dialect3 [COMMA] q e) (dialect3 [SPACE] q e) = Ok (Some (dialect3 [COMMA] q e)).
  Proof. rewrite rule_delims by discriminate. reflexivity. Qed.
  Lemma rule_hyphen q e d : d <> [45%N] -> two (dialect3 d q e) (dialect3 [45%N] q e) = Ok (Some (dialect3 d q e)).
  Proof.
    intros H. rewrite rule_delims by assumption.
    assert (str_eqb d [45%N] = false) as -> by (apply not_true_is_false; now rewrite str_eqb_eq).
    change (str_eqb [45%N] [SPACE]) with false. change (str_eqb [45%N] [COMMA]) with false. rewrite !andb_false_r. reflexivity.
  Qed.
  Lemma rule_other_delims q e d d' : d <> d' -> d <> [45%N] -> d' <> [45%N] ->
    ~ (d = [COMMA] /\ d' = [SPACE]) -> ~ (d = [SPACE] /\ d' = [COMMA]) ->
    two (dialect3 d q e) (dialect3 d' q e) = Ok None.
  Proof.
    intros H H1 H2 H3 H4. rewrite rule_delims by assumption.
    rewrite <- !str_eqb_eq in *.
    destruct (str_eqb d [COMMA]), (str_eqb d' [SPACE]), (str_eqb d [SPACE]), (str_eqb d' [COMMA]), (str_eqb d [45%N]), (str_eqb d' [45%N]);
      cbn; try reflexivity; exfalso; tauto.
  Qed.

  (** ** Shapes and differences *)
  Lemma same_shape_spec X Y : same_shape X Y = true <-> shape_of X = shape_of Y.
  Proof.
    unfold same_shape. revert Y. induction X as [|x X IH]; intros [|y Y]; cbn; try (split; [intros H; discriminate|intros H; discriminate]); [tauto|].
    specialize (IH Y). rewrite !andb_true_iff in *. unfold shape_of in *. cbn [map]. rewrite Nat.eqb_eq in *.
    split.
    - intros (H1 & H2 & H3). f_equal; [now apply Nat.eqb_eq|]. apply IH. auto.
    - intros H. injection H as H1 H2. apply IH in H2. rewrite (proj2 (Nat.eqb_eq (length x) (length y)) H1). tauto.
  Qed.
  Lemma different_row x : forall y, length x = length y ->
    flat_map (fun '(u, v) => if cell_eqb u v then [] else [(cell_text u, cell_text v)]) (zip x y) =
    map (fun '(u, v) => (cell_text u, cell_text v)) (filter (fun '(u, v) => negb (cell_eqb u v)) (zip x y)).
  Proof.
    induction x as [|u x IH]; intros [|v y] H; try discriminate; [reflexivity|]. injection H as H. cbn [zip flat_map filter].
    rewrite IH by exact H. now destruct (cell_eqb u v).
  Qed.
  Lemma zip_app {A B} (a b : list A) (c d : list B) : length a = length c -> zip (a ++ b) (c ++ d) = zip a c ++ zip b d.
  Proof. revert c. induction a as [|x a IH]; intros [|y c] H; try discriminate; [reflexivity|]. cbn. injection H as H. now rewrite IH. Qed.
  Lemma different_flat X : forall Y, shape_of X = shape_of Y ->
    different X Y = map (fun '(u, v) => (cell_text u, cell_text v)) (filter (fun '(u, v) => negb (cell_eqb u v)) (zip (concat X) (concat Y))).
  Proof.
    unfold shape_of. induction X as [|x X IH]; intros [|y Y] H; try discriminate; [reflexivity|]. cbn in H. injection H as H1 H2.
    unfold different in *. cbn [zip flat_map concat]. rewrite zip_app, filter_app, map_app by exact H1.
    rewrite IH by exact H2. now rewrite different_row.
  Qed.
  Lemma concat_shape {A} (X : list (list A)) : length (concat X) = fold_right Nat.add 0 (map (@length A) X).
  Proof. induction X as [|x X IH]; [reflexivity|]. cbn. now rewrite app_length, IH. Qed.
  Lemma app_split {A} (x y a b : list A) : length x = length y -> x ++ a = y ++ b -> x = y /\ a = b.
  Proof.
    revert y. induction x as [|u x IH]; intros [|v y] H E; try discriminate; [auto|]. cbn in H, E.
    injection H as H. injection E as -> E. destruct (IH y H E) as [-> ->]. auto.
  Qed.
  Lemma shape_inj (X : list (list cell)) : forall Y, shape_of X = shape_of Y -> concat X = concat Y -> X = Y.
  Proof.
    unfold shape_of. induction X as [|x X IH]; intros [|y Y] H E; try discriminate; [reflexivity|].
    cbn in H, E. injection H as H1 H2. destruct (app_split x y _ _ H1 E) as [-> E']. f_equal. now apply IH.
  Qed.
  Lemma filter_first (x : list cell) : forall y k u v, nth_error x k = Some u -> nth_error y k = Some v -> u <> v ->
    firstn k x = firstn k y -> exists l,
    filter (fun '(u, v) => negb (cell_eqb u v)) (zip x y) = (u, v) :: l.
  Proof.
    induction x as [|a x IH]; intros [|b y] [|k] u v Hx Hy Hn Hk; try discriminate.
    - cbn in Hx, Hy. injection Hx as ->. injection Hy as ->. cbn [zip filter].
      assert (cell_eqb u v = false) as -> by (apply not_true_is_false; now rewrite cell_eqb_eq). cbn. eauto.
    - cbn in Hx, Hy, Hk. injection Hk as -> Hk. cbn [zip filter].
      assert (cell_eqb b b = true) as -> by now apply cell_eqb_eq. cbn [negb]. now apply (IH y k).
  Qed.
  Lemma filter_none (x : list cell) : filter (fun '(u, v) => negb (cell_eqb u v)) (zip x x) = [].
  Proof.
    induction x as [|a x IH]; [reflexivity|]. cbn [zip filter].
    assert (cell_eqb a a = true) as -> by now apply cell_eqb_eq. exact IH.
  Qed.
  Lemma pair_is a b x y : is_str (Some [a]) [x] && is_str (Some [b]) [y] = ((x =? a) && (y =? b))%N.
  Proof. unfold is_str, opt_str_eqb, str_eqb, list_eqb. now rewrite !andb_true_r, (N.eqb_sym a x), (N.eqb_sym b y). Qed.
  Lemma count_adjacent a b s : count_escapes (Some [a]) (Some [b]) s = adjacent a b s.
  Proof.
    unfold count_escapes, pairwise. induction s as [|x s IH]; [reflexivity|]. destruct s as [|y s]; [reflexivity|].
    cbn [tl zip filter] in IH |- *. rewrite pair_is. cbn [adjacent].
    destruct ((x =? a) && (y =? b))%N; cbn [length Nat.add].
    - f_equal. exact IH.
    - exact IH.
  Qed.
  Lemma contains_substring p s : contains p s = true <-> substring p s.
  Proof.
    assert (HS : forall p s, starts_with p s = true <-> exists r, s = p ++ r).
    { clear. induction p as [|a p IH]; intros s; [cbn; split; eauto|]. destruct s as [|b s]; cbn.
      - split; [discriminate|]. intros [r H]. discriminate.
      - rewrite andb_true_iff, N.eqb_eq, IH. split; [intros [-> [r ->]]; eauto|].
        intros [r H]. injection H as -> ->. split; eauto. }
    induction s as [|x s IH]; cbn [contains]; rewrite orb_true_iff, HS.
    - split; [intros [[r H]|H]; [|discriminate]; exists [], r; exact H|]. intros (a & r & H).
      left. exists r. destruct a; [exact H|discriminate].
    - rewrite IH. split.
      + intros [[r H]|(a & r & H)]; [exists [], r; exact H|]. exists (x :: a), r. cbn. now rewrite H.
      + intros ([|y a] & r & H); [left; exists r; exact H|]. right. injection H as -> H. exists a, r. exact H.
  Qed.

  (** ** Third rule: the escape character *)
  Lemma two_escape d q c : c <> [] ->
    two (dialect3 d q []) (dialect3 d q c) =
    bind (plist limit data (dialect3 d q [])) (fun X => bind (plist limit data (dialect3 d q c)) (fun Y =>
    if negb (same_shape X Y) then Ok None
    else match different X Y with
         | [] => Ok None
         | (u, _) :: _ =>
             let count := count_escapes (Some c) (Some q) u in
             Ok (Some (if Nat.ltb 0 count && Nat.even count then dialect3 d q c else dialect3 d q []))
         end)).
  Proof.
    intros Hc. unfold break_ties_two, only_differ_in, same_delim, same_escape, same_quote, is_str.
    cbn [dialect3 sd_delimiter sd_quotechar sd_escapechar]. rewrite !some_eq, !(some_neq [] c) by congruence. reflexivity.
  Qed.
  Lemma rule_escape_equal d q c X : c <> [] ->
    parse (dialect3 d q []) = (X, None) -> parse (dialect3 d q c) = (X, None) ->
    two (dialect3 d q []) (dialect3 d q c) = Ok None.
  Proof.
    intros Hc EX EY. apply plist_of in EX, EY. rewrite two_escape by exact Hc. rewrite EX, EY. cbn [bind].
    rewrite (proj2 (same_shape_spec X X)) by reflexivity. cbn [negb]. now rewrite different_flat, filter_none.
  Qed.
  Lemma rule_escape_shape d q c X Y : c <> [] ->
    parse (dialect3 d q []) = (X, None) -> parse (dialect3 d q c) = (Y, None) -> shape_of X <> shape_of Y ->
    two (dialect3 d q []) (dialect3 d q c) = Ok None.
  Proof.
    intros Hc EX EY H. apply plist_of in EX, EY. rewrite two_escape by exact Hc. rewrite EX, EY. cbn [bind].
    destruct (same_shape X Y) eqn:E; [|reflexivity]. apply same_shape_spec in E. contradiction.
  Qed.
  Lemma rule_escape d q c X Y t v :
    parse (dialect3 d [q] []) = (X, None) -> parse (dialect3 d [q] [c]) = (Y, None) -> shape_of X = shape_of Y ->
    first_difference X Y (CStr t) v ->
    two (dialect3 d [q] []) (dialect3 d [q] [c]) =
    Ok (Some (if Nat.ltb 0 (adjacent c q t) && Nat.even (adjacent c q t) then dialect3 d [q] [c] else dialect3 d [q] [])).
  Proof.
    intros EX EY H (k & H1 & H2 & H3 & H4). apply plist_of in EX, EY. rewrite two_escape by discriminate. rewrite EX, EY. cbn [bind].
    rewrite (proj2 (same_shape_spec X Y)) by exact H. cbn [negb]. rewrite different_flat by exact H.
    destruct (filter_first _ _ k _ _ H1 H2 H3 H4) as [l ->]. cbn [map cell_text]. now rewrite count_adjacent.
  Qed.
  (** Tables of one shape that are not equal have a first difference. *)
  Lemma first_difference_exists X Y : shape_of X = shape_of Y -> X <> Y -> exists u v, first_difference X Y u v.
  Proof.
    intros H Hn. assert (Hc : concat X <> concat Y) by (intros E; apply Hn; now apply shape_inj).
    assert (Hl : length (concat X) = length (concat Y)).
    { rewrite !concat_shape. unfold shape_of in H. now rewrite H. }
    unfold first_difference. revert Hc Hl. generalize (concat X) (concat Y). clear.
    induction l as [|a l IH]; intros [|b l'] Hc Hl; try discriminate; [congruence|].
    destruct (cell_eqb a b) eqn:E.
    - apply cell_eqb_eq in E as ->. destruct (IH l') as (u & v & k & H1 & H2 & H3 & H4); [congruence|now injection Hl|].
      exists u, v, (S k). cbn. now rewrite H4.
    - exists a, b, 0%nat. cbn. repeat split; auto. intros ->. rewrite (proj2 (cell_eqb_eq b b)) in E; [discriminate|reflexivity].
  Qed.

  (** ** Fourth rule: quote and escape character together *)
  Lemma two_both d q e : q <> [] -> e <> [] ->
    two (dialect3 d [] []) (dialect3 d q e) =
    bind (plist limit data (dialect3 d [] [])) (fun X => bind (plist limit data (dialect3 d q e)) (fun Y =>
    if negb (same_shape X Y) then Ok None
    else if forallb (fun '(x, _) => contains (e ++ q) x) (different X Y) then Ok (Some (dialect3 d q e)) else Ok None)).
  Proof.
    intros Hq He. unfold break_ties_two, only_differ_in, same_delim, same_escape, same_quote, is_str.
    cbn [dialect3 sd_delimiter sd_quotechar sd_escapechar]. rewrite !some_eq, !(some_neq [] e), !(some_neq [] q) by congruence.
    cbn [andb orb]. now rewrite eqb_refl_d.
  Qed.
  Lemma filter_in (x y : list cell) : length x = length y -> forall u v,
    In (u, v) (filter (fun '(u, v) => negb (cell_eqb u v)) (zip x y)) <->
    exists k, nth_error x k = Some u /\ nth_error y k = Some v /\ u <> v.
  Proof.
    revert y. induction x as [|a x IH]; intros [|b y] H u v; try discriminate.
    - cbn. split; [tauto|]. intros ([|k] & E & _); discriminate.
    - injection H as H. cbn [zip filter]. specialize (IH y H u v). destruct (cell_eqb a b) eqn:E; cbn [negb].
      + apply cell_eqb_eq in E as ->. rewrite IH. split; [intros (k & Hk); now exists (S k)|].
        intros ([|k] & E1 & E2 & Hn); [cbn in *; congruence|]. now exists k.
      + cbn [In]. rewrite IH. split.
        * intros [E1|(k & Hk)]; [|now exists (S k)]. injection E1 as -> ->. exists 0%nat. repeat split.
          intros ->. rewrite (proj2 (cell_eqb_eq v v)) in E; [discriminate|reflexivity].
        * intros ([|k] & E1 & E2 & Hn); [left; cbn in *; congruence|]. right. now exists k.
  Qed.
  Lemma rule_both d q e X Y : q <> [] -> e <> [] ->
    parse (dialect3 d [] []) = (X, None) -> parse (dialect3 d q e) = (Y, None) ->
    exists r, two (dialect3 d [] []) (dialect3 d q e) = Ok r /\
      (shape_of X = shape_of Y /\ differences_contain (e ++ q) X Y -> r = Some (dialect3 d q e)) /\
      (~ (shape_of X = shape_of Y /\ differences_contain (e ++ q) X Y) -> r = None).
  Proof.
    intros Hq He EX EY. assert (HS := proj2 (parse_data_rows _ _ _ _ _ EX)).
    apply plist_of in EX, EY. rewrite two_both by assumption. rewrite EX, EY. cbn [bind].
    destruct (same_shape X Y) eqn:E; cbn [negb].
    2:{ eexists. split; [reflexivity|]. split; [|reflexivity]. intros [H _]. apply same_shape_spec in H. congruence. }
    apply same_shape_spec in E.
    assert (Hl : length (concat X) = length (concat Y)).
    { rewrite !concat_shape. unfold shape_of in E. now rewrite E. }
    assert (HF : forallb (fun '(x, _) => contains (e ++ q) x) (different X Y) = true <-> differences_contain (e ++ q) X Y).
    { rewrite different_flat by exact E. rewrite forallb_forall. split.
      - intros H k t v H1 H2 Hn. apply contains_substring.
        apply (H (t, cell_text v)). apply in_map_iff. exists (CStr t, v). split; [reflexivity|].
        apply filter_in; eauto.
      - intros H [s s'] Hin. apply in_map_iff in Hin as ([u v] & Eq & Hin). injection Eq as <- <-.
        apply filter_in in Hin as (k & H1 & H2 & Hn); [|exact Hl]. apply contains_substring.
        assert (Hu : exists s, u = CStr s).
        { apply nth_error_In in H1. apply in_concat in H1 as (r & Hr & Hu). exact (HS r u Hr Hu). }
        destruct Hu as [s ->]. cbn. eapply H; eauto. }
    destruct (forallb _ _).
    - eexists. split; [reflexivity|]. split; [reflexivity|]. intros H. exfalso. apply H. split; [exact E|now apply HF].
    - eexists. split; [reflexivity|]. split; [|reflexivity]. intros [_ H]. apply HF in H. discriminate.
  Qed.
  Lemma rule_otherwise d q e d' q' e' : d <> d' -> (q, e) <> (q', e') ->
    two (dialect3 d q e) (dialect3 d' q' e') = Ok None.
  Proof.
    intros Hd H. unfold break_ties_two, only_differ_in, same_delim, same_escape, same_quote, is_str.
    cbn [dialect3 sd_delimiter sd_quotechar sd_escapechar]. rewrite !(some_neq d d') by exact Hd. cbn [andb].
    destruct (opt_str_eqb (Some q) (Some q')) eqn:E1; [|reflexivity].
    destruct (opt_str_eqb (Some e) (Some e')) eqn:E2; [|reflexivity].
    apply opt_str_eqb_eq in E1, E2. congruence.
  Qed.
  Lemma rule_otherwise_same d q e q' e' : q <> q' -> e <> e' -> (q, e) <> ([], []) -> (q', e') <> ([], []) ->
    two (dialect3 d q e) (dialect3 d q' e') = Ok None.
  Proof.
    intros Hq He H H'. unfold break_ties_two, only_differ_in, same_delim, same_escape, same_quote, is_str.
    cbn [dialect3 sd_delimiter sd_quotechar sd_escapechar]. rewrite !some_eq, !(some_neq q q'), !(some_neq e e') by assumption.
    cbn [andb]. 
    assert (HB : forall a b : str, (a, b) <> ([], []) -> opt_str_eqb (Some a) (Some []) && opt_str_eqb (Some b) (Some []) = false).
    { intros a b Hab. apply not_true_is_false. rewrite andb_true_iff, !opt_str_eqb_eq. intros [E1 E2]. injection E1 as ->. injection E2 as ->. now apply Hab. }
    match goal with |- (if ?b || ?c then _ else _) = _ => assert (b || c = false) as ->; [|reflexivity] end.
    apply orb_false_iff. split; [exact (HB q e H)|exact (HB q' e' H')].
  Qed.
End Rules.
