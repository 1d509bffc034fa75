(** * LineOrder: detection and the order of the lines *)
From Coq Require Import String Permutation SpecFloat.
From Verif Require Import Base Parser Dialect SpecLayout SpecParse Potential SpecPotential PotentialFacts Ties TieFacts TieMember Floats Consistency SpecConsistency ScoreFacts TypeFacts DetectFacts
  SpecColumn SpecLines LineLayout UrlLines LineEnds LineDetect SpecOrder.
Local Notation len := List.length.
Open Scope nat_scope.

(** ** Sums of one or two numbers do not depend on the order *)
Lemma fadd_swap a b : fadd (fadd fzero a) b = fadd (fadd fzero b) a.
Proof.
  unfold fadd, fzero. destruct a as [[]|[]| |sa ma ea], b as [[]|[]| |sb mb eb]; try reflexivity.
  cbn. rewrite (Z.min_comm ea eb). rewrite Z.add_comm. reflexivity.
Qed.
Lemma firsts_perm l1 l2 : Permutation l1 l2 -> Permutation (firsts l1) (firsts l2).
Proof.
  intros H. apply NoDup_Permutation; try apply NoDup_firsts. intros x. rewrite !In_firsts. split; intros Hx.
  - now apply (Permutation_in _ H).
  - now apply (Permutation_in _ (Permutation_sym H)).
Qed.
Lemma table_score_perm k1 k2 : Permutation k1 k2 -> firsts k1 = firsts k2 \/ len (firsts k1) <= 2 -> table_score k1 = table_score k2.
Proof.
  intros HP H. unfold table_score. rewrite (Permutation_length (firsts_perm _ _ HP)). f_equal.
  assert (EK : forall k, kind_score (count_occ Nat.eq_dec k1 k) k = kind_score (count_occ Nat.eq_dec k2 k) k).
  { intros k. f_equal. now apply Permutation_count_occ. }
  rewrite (map_ext _ _ EK). set (f := fun k => kind_score (count_occ Nat.eq_dec k2 k) k).
  destruct H as [->|H]; [reflexivity|]. pose proof (firsts_perm _ _ HP) as HF. pose proof (NoDup_firsts k1) as HN.
  destruct (firsts k1) as [|a [|b [|c l]]].
  - apply Permutation_nil in HF. now rewrite HF.
  - apply Permutation_length_1_inv in HF. now rewrite HF.
  - apply Permutation_length_2_inv in HF as [->| ->]; [reflexivity|]. cbn [map fold_left]. apply fadd_swap.
  - cbn in H. lia.
Qed.

(** ** Type scores *)
Section Types.
Variable known : str -> bool -> res pyexc bool.
Definition answers (x : cell) : Prop := match x with CTuple s q => exists b, known s q = Ok b | CStr _ => False end.
Definition weight (x : cell) : Z := match x with CTuple s q => match known s q with Ok true => 1 | _ => 0 end | CStr _ => 0 end%Z.
Definition total_weight (cells : list cell) : Z := fold_right Z.add 0%Z (map weight cells).
Lemma plain_cells_all cells : Forall answers cells -> forall tot kn,
  plain_cells known cells tot kn = Ok (tot + Z.of_nat (len cells), kn + total_weight cells)%Z.
Proof.
  induction 1 as [|x cells Hx _ IH]; intros tot kn; [cbn; now rewrite !Z.add_0_r|].
  destruct x as [s|s q]; [destruct Hx|]. destruct Hx as (b & Hb). cbn [plain_cells]. rewrite Hb. cbn [bind]. rewrite IH.
  unfold total_weight. cbn [map fold_right weight len]. rewrite Hb. do 2 f_equal; [lia|]. destruct b; lia.
Qed.
Lemma total_weight_perm c1 c2 : Permutation c1 c2 -> total_weight c1 = total_weight c2.
Proof. unfold total_weight. induction 1; cbn [map fold_right]; lia. Qed.
Lemma type_score_perm lim1 lim2 t1 t2 d rows1 rows2 :
  parse_string lim1 t1 d true = (rows1, None) -> parse_string lim2 t2 d true = (rows2, None) -> Permutation (concat rows1) (concat rows2) ->
  Forall answers (concat rows1) -> exists T, type_score known lim1 t1 d = Ok T /\ type_score known lim2 t2 d = Ok T.
Proof.
  intros E1 E2 HP HA. unfold type_score. rewrite E1, E2. rewrite (plain_cells_all _ HA), (plain_cells_all _ (Permutation_Forall HP HA)). cbn [bind].
  rewrite (total_weight_perm _ _ HP), (Permutation_length HP). eauto.
Qed.
End Types.

(** ** Ties *)
Lemma forallb_perm {A} (p : A -> bool) l1 l2 : Permutation l1 l2 -> forallb p l1 = forallb p l2.
Proof.
  induction 1 as [|x l1 l2 _ IH|x y l|l1 l2 l3 _ IH1 _ IH2]; cbn [forallb]; [reflexivity|now rewrite IH| |congruence].
  now rewrite !andb_assoc, (andb_comm (p y)).
Qed.
Lemma list_eqb_map {A B} (e : B -> B -> bool) (f g : A -> B) ls : list_eqb e (map f ls) (map g ls) = forallb (fun l => e (f l) (g l)) ls.
Proof. induction ls as [|l ls IH]; [reflexivity|]. cbn. now rewrite IH. Qed.
Lemma zip_map {A B C} (f : A -> B) (g : A -> C) ls : zip (map f ls) (map g ls) = map (fun l => (f l, g l)) ls.
Proof. induction ls as [|l ls IH]; [reflexivity|]. cbn [map zip]. now rewrite IH. Qed.
Lemma forallb_mapped {A B} (p : B -> bool) (f : A -> B) ls : forallb p (map f ls) = forallb (fun l => p (f l)) ls.
Proof. induction ls as [|l ls IH]; [reflexivity|]. cbn. now rewrite IH. Qed.
Lemma flat_mapped {A B C} (h : B -> list C) (f : A -> B) ls : flat_map h (map f ls) = flat_map (fun l => h (f l)) ls.
Proof. induction ls as [|l ls IH]; [reflexivity|]. cbn. now rewrite IH. Qed.

Section Ties.
Variables l1 l2 : Z.
Variables t1 t2 : str.
Variables ls1 ls2 : list str.
Hypothesis HP : Permutation ls1 ls2.
Variable row : SimpleDialect -> str -> list cell.
Variable o_set : list SimpleDialect -> list SimpleDialect.
Hypothesis o_perm : forall l, Permutation (o_set l) l.
Variable good : SimpleDialect -> Prop.
(** Each line is a row of its own, and no escape character comes in front of a quote. *)
Hypothesis G1 : forall d, good d -> parses l1 t1 d.
Hypothesis G2 : forall d, good d -> plist l1 t1 d = Ok (map (row d) ls1) /\ plist l2 t2 d = Ok (map (row d) ls2).
Hypothesis G3 : forall A B l x, good A -> good B -> same_quote A B = true -> In l ls1 -> In x (row A l) ->
  count_escapes (sd_escapechar B) (sd_quotechar B) (cell_text x) = 0.

Lemma eqb_lines A B : table_eqb (map (row A) ls1) (map (row B) ls1) = table_eqb (map (row A) ls2) (map (row B) ls2).
Proof. unfold table_eqb. rewrite !list_eqb_map. now apply forallb_perm. Qed.
Lemma shape_lines A B : same_shape (map (row A) ls1) (map (row B) ls1) = same_shape (map (row A) ls2) (map (row B) ls2).
Proof. unfold same_shape. rewrite !map_length, !Nat.eqb_refl, !zip_map, !forallb_mapped. cbn [andb]. now apply forallb_perm. Qed.
Lemma different_lines A B : Permutation (different (map (row A) ls1) (map (row B) ls1)) (different (map (row A) ls2) (map (row B) ls2)).
Proof. unfold different. rewrite !zip_map, !flat_mapped. now apply Permutation_flat_map. Qed.
Lemma zip_in {A B} (x : A) (y : B) xs : forall ys, In (x, y) (zip xs ys) -> In x xs /\ In y ys.
Proof.
  induction xs as [|a xs IH]; intros [|b ys] H; try easy. cbn [zip] in H. destruct H as [[= <- <-]|H]; [split; now left|]. apply IH in H as (H1 & H2). split; now right.
Qed.
Lemma different_in A B ls u v : In (u, v) (different (map (row A) ls) (map (row B) ls)) -> exists l x, In l ls /\ In x (row A l) /\ u = cell_text x.
Proof.
  unfold different. rewrite zip_map, flat_mapped. intros H. apply in_flat_map in H as (l & Hl & H). apply in_flat_map in H as ([x y] & Hx & H).
  destruct (cell_eqb x y); [destruct H|]. destruct H as [[= <- _]|[]]. apply zip_in in Hx as (Hx & _). eauto.
Qed.
Lemma two_lines A B : good A -> good B -> break_ties_two l1 t1 A B = break_ties_two l2 t2 A B.
Proof.
  intros HA HB. destruct (G2 A HA) as (A1 & A2), (G2 B HB) as (B1 & B2). unfold break_ties_two.
  destruct (only_differ_in A B FQuotechar).
  { destruct (_ || _); [|reflexivity].
    assert (K : forall d, d = A \/ d = B -> good d) by (intros d [->| ->]; assumption).
    set (d_no := if is_str (sd_quotechar A) [] then A else B). set (d_yes := if dialect_eqb d_no A then B else A).
    destruct (G2 d_no) as (N1 & N2); [apply K; unfold d_no; destruct (is_str _ _); auto|].
    destruct (G2 d_yes) as (Y1 & Y2); [apply K; unfold d_yes; destruct (dialect_eqb _ _); auto|].
    rewrite N1, N2, Y1, Y2. cbn [bind]. now rewrite eqb_lines. }
  destruct (only_differ_in A B FDelimiter); [reflexivity|].
  destruct (only_differ_in A B FEscapechar) eqn:EE.
  { assert (K : forall X Y, good X -> good Y -> same_quote X Y = true ->
      bind (plist l1 t1 X) (fun T => bind (plist l1 t1 Y) (fun T' => if negb (same_shape T T') then Ok None else
        match different T T' with [] => Ok None | (u, _) :: _ =>
          let count := count_escapes (sd_escapechar Y) (sd_quotechar Y) u in Ok (Some (if Nat.ltb 0 count && Nat.even count then Y else X)) end)) =
      bind (plist l2 t2 X) (fun T => bind (plist l2 t2 Y) (fun T' => if negb (same_shape T T') then Ok None else
        match different T T' with [] => Ok None | (u, _) :: _ =>
          let count := count_escapes (sd_escapechar Y) (sd_quotechar Y) u in Ok (Some (if Nat.ltb 0 count && Nat.even count then Y else X)) end))).
    { intros X Y HX HY HQ. destruct (G2 X HX) as (X1 & X2), (G2 Y HY) as (Y1 & Y2). rewrite X1, X2, Y1, Y2. cbn [bind]. rewrite shape_lines.
      destruct (negb _); [reflexivity|]. pose proof (different_lines X Y) as HD.
      assert (Z : forall ls u v, (forall l, In l ls -> In l ls1) -> In (u, v) (different (map (row X) ls) (map (row Y) ls)) -> count_escapes (sd_escapechar Y) (sd_quotechar Y) u = 0).
      { intros ls u v Hls H. apply different_in in H as (l & x & Hl & Hx & ->). apply (G3 X Y l); auto. }
      destruct (different (map (row X) ls1) (map (row Y) ls1)) as [|[u v] dl] eqn:E1.
      - apply Permutation_nil in HD. now rewrite HD.
      - destruct (different (map (row X) ls2) (map (row Y) ls2)) as [|[u' v'] dl'] eqn:E2.
        + now apply Permutation_sym, Permutation_nil_cons in HD.
        + cbn zeta. rewrite (Z ls1 u v), (Z ls2 u' v'); [reflexivity| | |auto|].
          * intros l Hl. now apply (Permutation_in _ (Permutation_sym HP)).
          * rewrite E2. now left.
          * rewrite E1. now left. }
    cbn [only_differ_in] in EE. apply andb_true_iff in EE as (_ & EQ).
    destruct (is_str (sd_escapechar A) []); apply K; auto.
    unfold same_quote in *. apply opt_str_eqb_eq in EQ. apply opt_str_eqb_eq. now symmetry. }
  destruct (same_delim A B); [|reflexivity]. cbn zeta.
  destruct (_ || _); [|reflexivity].
  set (blank := is_str (sd_quotechar A) [] && is_str (sd_escapechar A) []).
  assert (K : forall d, d = A \/ d = B -> good d) by (intros d [->| ->]; assumption).
  set (d_no := if blank then A else B). set (d_yes := if dialect_eqb d_no A then B else A).
  destruct (G2 d_no) as (N1 & N2); [apply K; unfold d_no; destruct blank; auto|].
  destruct (G2 d_yes) as (Y1 & Y2); [apply K; unfold d_yes; destruct (dialect_eqb _ _); auto|].
  rewrite N1, N2, Y1, Y2. cbn [bind]. rewrite shape_lines. destruct (negb _); [reflexivity|].
  destruct (sd_escapechar d_yes) as [e|]; [|reflexivity]. destruct (sd_quotechar d_yes) as [q|]; [|reflexivity].
  now rewrite (forallb_perm _ _ _ (different_lines d_no d_yes)).
Qed.
Lemma equal_pairs_lines ps : (forall a b, In (a, b) ps -> good a /\ good b) -> equal_pairs l1 t1 ps = equal_pairs l2 t2 ps.
Proof.
  induction ps as [|[a b] ps IH]; intros H; [reflexivity|]. cbn [equal_pairs]. destruct (H a b (or_introl eq_refl)) as (Ha & Hb).
  destruct (G2 a Ha) as (-> & ->), (G2 b Hb) as (-> & ->). cbn [bind]. rewrite eqb_lines, IH; [reflexivity|]. intros x y Hi. apply H. now right.
Qed.
Lemma break_pairs_lines ps : (forall a b, In (a, b) ps -> good a /\ good b) -> forall new vis, break_pairs l1 t1 ps new vis = break_pairs l2 t2 ps new vis.
Proof.
  induction ps as [|[a b] ps IH]; intros H new vis; [reflexivity|]. cbn [break_pairs]. destruct (H a b (or_introl eq_refl)) as (Ha & Hb).
  rewrite (two_lines a b Ha Hb). destruct (break_ties_two l2 t2 a b) as [r|x]; [|reflexivity]. cbn [bind]. apply IH. intros x y Hi. apply H. now right.
Qed.
Lemma reduce_lines ds : Forall good ds -> reduce_pairwise l1 t1 o_set ds = reduce_pairwise l2 t2 o_set ds.
Proof.
  intros H. rewrite Forall_forall in H. assert (HQ : forall a b, In (a, b) (pairwise ds) -> good a /\ good b).
  { intros a b Hab. apply pairwise_in in Hab as (Ha & Hb). auto. }
  unfold reduce_pairwise. destruct (negb (equal_delim ds)); [reflexivity|].
  destruct (equal_pairs_ok l1 t1 (pairwise ds)) as (eq & E & Hi); [intros a b Hab; destruct (HQ a b Hab) as (Ha & Hb); split; now apply G1|].
  rewrite <- (equal_pairs_lines _ HQ), E. cbn [bind]. rewrite (break_pairs_lines eq); [reflexivity|]. intros a b Hab. now apply HQ, Hi.
Qed.
Lemma reduce_good ds l : Forall good ds -> reduce_pairwise l1 t1 o_set ds = Ok (Some l) -> Forall good l.
Proof.
  intros H E. destruct (reduce_ok l1 t1 o_set o_perm ds) as (r & E' & Hr); [eapply Forall_impl; [|exact H]; exact G1|].
  rewrite E in E'. injection E' as <-. destruct Hr as (Hr & _). rewrite Forall_forall in *. auto.
Qed.
Lemma three_lines A B C : good A -> good B -> good C -> break_ties_three l1 t1 o_set A B C = break_ties_three l2 t2 o_set A B C.
Proof.
  intros HA HB HC. assert (HF : Forall good [A; B; C]) by (repeat (constructor; [assumption|]); constructor).
  assert (HI : forall d, In d [A; B; C] -> good d) by now apply Forall_forall.
  unfold break_ties_three. destruct (same_delim A B && same_delim B C && (same_escape A B && same_escape B C)).
  - rewrite <- (reduce_lines _ HF). destruct (G2 A HA) as (-> & ->), (G2 B HB) as (-> & ->), (G2 C HC) as (-> & ->). cbn [bind].
    rewrite !map_length, !Nat.eqb_refl. cbn [negb orb zip find].
    destruct (is_str (sd_quotechar A) []), (is_str (sd_quotechar B) []), (is_str (sd_quotechar C) []); try reflexivity; cbn [filter];
      rewrite !eqb_lines;
      repeat match goal with |- context [negb (table_eqb ?x ?y)] => destruct (table_eqb x y) eqn:?; cbn [negb] end; try reflexivity;
      rewrite !eqb_lines; rewrite ?(two_lines A A), ?(two_lines B B), ?(two_lines C C), ?(two_lines A B), ?(two_lines A C), ?(two_lines B A), ?(two_lines B C), ?(two_lines C A), ?(two_lines C B) by assumption; reflexivity.
  - destruct (same_delim A B && same_delim B C); [|reflexivity].
    assert (F : forall d, In d (filter (fun d => negb (is_str (sd_quotechar d) [])) [A; B; C]) -> In d [A; B; C]) by (intros d H; now apply filter_In in H).
    destruct (filter _ _) as [|d0 [|d1 [|? ?]]]; try reflexivity. apply two_lines; apply HI, F; cbn; auto.
Qed.
Lemma tie_lines ds : Forall good ds -> tie_breaker l1 t1 o_set ds = tie_breaker l2 t2 o_set ds.
Proof.
  intros H. unfold tie_breaker. destruct ds as [|a [|b [|c [|d [|e l]]]]]; try reflexivity.
  - apply Forall_cons_iff in H as [Ha H]. apply Forall_cons_iff in H as [Hb _]. now apply two_lines.
  - apply Forall_cons_iff in H as [Ha H]. apply Forall_cons_iff in H as [Hb H]. apply Forall_cons_iff in H as [Hc _]. now apply three_lines.
  - unfold break_ties_four. destruct (negb _); [reflexivity|]. rewrite <- (reduce_lines _ H).
    destruct (reduce_pairwise l1 t1 o_set [a; b; c; d]) as [[l|]|x] eqn:E; [|reflexivity|reflexivity]. apply (reduce_good _ _ H) in E. cbn [bind].
    destruct l as [|d0 [|d1 [|d2 [|? ?]]]]; try reflexivity.
    + apply Forall_cons_iff in E as [E0 E]. apply Forall_cons_iff in E as [E1 _]. now apply two_lines.
    + apply Forall_cons_iff in E as [E0 E]. apply Forall_cons_iff in E as [E1 E]. apply Forall_cons_iff in E as [E2 _]. now apply three_lines.
Qed.
End Ties.

(** ** Values of cells *)
(** A text from which some characters have been removed. *)
Inductive thin (P : N -> Prop) : str -> str -> Prop :=
| thin_nil : thin P [] []
| thin_keep c v r : thin P v r -> thin P (c :: v) (c :: r)
| thin_drop c v r : P c -> thin P v r -> thin P v (c :: r).
Section Thin.
Variable P : N -> Prop.
Lemma thin_refl s : thin P s s.
Proof. induction s; now constructor. Qed.
Lemma thin_app v1 r1 v2 r2 : thin P v1 r1 -> thin P v2 r2 -> thin P (v1 ++ v2) (r1 ++ r2).
Proof. intros H H2. induction H; cbn [app]; [exact H2|now constructor|now constructor]. Qed.
Lemma thin_all s : (forall c, In c s -> P c) -> thin P [] s.
Proof. induction s as [|c s IH]; intros H; [constructor|]. constructor; [apply H; now left|]. apply IH. intros x Hx. apply H. now right. Qed.
Lemma thin_trans v w r : thin P v w -> thin P w r -> thin P v r.
Proof.
  intros H H2. revert v H. induction H2 as [|c w r H2 IH|c w r Hc H2 IH]; intros v H; [exact H| |].
  - inversion H; subst; [constructor; now apply IH|constructor; [assumption|now apply IH]].
  - constructor; [exact Hc|now apply IH].
Qed.
Lemma thin_concat {A} (f g : A -> str) l : (forall x, In x l -> thin P (f x) (g x)) -> thin P (List.concat (map f l)) (List.concat (map g l)).
Proof.
  induction l as [|x l IH]; intros H; [constructor|]. cbn [map List.concat]. apply thin_app; [apply H; now left|]. apply IH. intros y Hy. apply H. now right.
Qed.
(** A pair whose second character may be removed. *)
Variable E : N -> Prop.
Variable q : N.
Hypothesis HE : forall c, P c -> E c \/ c = q.
Lemma thin_head b r : thin P (q :: b) r -> (exists r', r = q :: r') \/ exists a, E a /\ before a q r.
Proof.
  remember (q :: b) as v eqn:Ev. intros H. induction H as [|c v r H IH|c v r Hc H IH]; [discriminate|injection Ev as -> _; left; eauto|].
  destruct (HE c Hc) as [He| ->]; [|left; eauto]. right. destruct (IH Ev) as [(r' & ->)|(a & Ha & (x & y & ->))].
  - exists c. split; [exact He|]. now exists [], r'.
  - exists a. split; [exact Ha|]. now exists (c :: x), y.
Qed.
Lemma thin_before a v r : thin P v r -> E a -> before a q v -> exists a', E a' /\ before a' q r.
Proof.
  intros H Ha. induction H as [|c v r H IH|c v r Hc H IH]; intros (x & y & Ev).
  - destruct x; discriminate.
  - destruct x as [|c' x].
    + cbn in Ev. injection Ev as -> ->. apply thin_head in H as [(r' & ->)|(a' & Ha' & (x & y' & ->))].
      * exists a. split; [exact Ha|]. now exists [], r'.
      * exists a'. split; [exact Ha'|]. now exists (a :: x), y'.
    + cbn in Ev. injection Ev as -> Ev. destruct IH as (a' & Ha' & (x' & y' & ->)); [now exists x, y|]. exists a'. split; [exact Ha'|]. now exists (c' :: x'), y'.
  - destruct IH as (a' & Ha' & (x' & y' & ->)); [now exists x, y|]. exists a'. split; [exact Ha'|]. now exists (c :: x'), y'.
Qed.
End Thin.

Section Values.
Variable D : chars.
Definition removable (c : N) : Prop := cq D = Some c \/ ce D = Some c.
Lemma thin_qitem i : thin removable (qitem_value D i) (render_qitem D i).
Proof.
  destruct i as [c| |c]; cbn [qitem_value render_qitem]; [apply thin_refl| |].
  - destruct (cq D) as [q|] eqn:Eq; [|apply thin_refl]. cbn [opt_str app]. apply thin_drop; [now left|apply thin_refl].
  - destruct (special D c); [|apply thin_refl]. change [c] with ([] ++ [c]) at 1. apply thin_app; [|apply thin_refl].
    apply thin_all. intros x Hx. right. destruct (ce D) as [e|]; [|destruct Hx]. destruct Hx as [<-|[]]. reflexivity.
Qed.
Lemma thin_piece p : thin removable (piece_value D p) (render_piece D p).
Proof.
  destruct p as [c|c|l]; cbn [piece_value render_piece]; [apply thin_refl| |].
  - destruct (special D c || is_nl c); [|apply thin_refl]. change [c] with ([] ++ [c]) at 1. apply thin_app; [|apply thin_refl].
    apply thin_all. intros x Hx. right. destruct (ce D) as [e|]; [|destruct Hx]. destruct Hx as [<-|[]]. reflexivity.
  - apply thin_app; [apply thin_refl|]. apply thin_app; [|apply thin_refl]. apply thin_concat. intros i _. apply thin_qitem.
Qed.
Lemma thin_unquote s : thin removable (fst (unquote D s)) s.
Proof.
  unfold unquote. destruct (enclosed D s) eqn:E; [|apply thin_refl]. cbn [fst]. destruct s as [|c [|c' s]]; try discriminate. cbn [enclosed] in E.
  apply andb_true_iff in E as (E1 & E2). cbn [tl].
  assert (K : forall x, is_opt (cq D) x = true -> removable x).
  { intros x Hx. left. destruct (cq D) as [q|]; [|discriminate]. cbn in Hx. apply N.eqb_eq in Hx. now subst. }
  apply thin_drop; [now apply K|]. destruct (exists_last (l := c' :: s) ltac:(discriminate)) as (s' & z & Es). rewrite Es in *. rewrite removelast_last. rewrite last_last in E2.
  rewrite <- (app_nil_r s') at 1. apply thin_app; [apply thin_refl|]. apply thin_drop; [now apply K|constructor].
Qed.
Lemma thin_cell ps : thin removable (fst (cell_value D ps)) (render_cell D ps).
Proof. unfold cell_value. eapply thin_trans; [apply thin_unquote|]. apply thin_concat. intros p _. apply thin_piece. Qed.
Lemma cell_in_row cells ps : In ps cells -> exists x y, render_row D cells = x ++ render_cell D ps ++ y.
Proof.
  unfold render_row. induction cells as [|c cells IH]; [intros []|]. cbn [map join]. intros [->|H].
  - destruct (map (render_cell D) cells) as [|s ss]; [exists [], []; now rewrite app_nil_r|]. now eexists [], _.
  - destruct (IH H) as (x & y & E). destruct cells as [|c' cells]; [destruct H|]. cbn [map] in *. rewrite E. exists (render_cell D c ++ opt_str (cd D) ++ x), y. now rewrite <- !app_assoc.
Qed.
End Values.

(** ** Lines on their own *)
Definition line_row_of (rq : bool) (d : SimpleDialect) (l : str) : list cell :=
  hd [] (fst (parse_string (Z.of_nat (len l) + 1) l d rq)).
Section Lines.
Variable cat : N -> str.
Variable user : option (list str).
(** The dialects that are candidates for balanced lines. *)
Definition apt (x : SimpleDialect) : Prop := exists D, x = simple D false /\ wf_chars D = true /\
  (forall q, cq D = Some q -> In q [34; 39]%N) /\ (forall e, ce D = Some e -> escape_like cat e).
Lemma one_line D l c : wf_chars D = true -> l <> [] -> line_row D l c ->
  (forall rq, parse_string (Z.of_nat (len l) + 1) l (simple D false) rq = ([map (mk_cell rq) (row_value D c)], None)) /\ row_value D c <> [].
Proof.
  intros HD Hn Hc. assert (HC : clear_ends [] (Some l)) by (split; [intros a s b E; now destruct a|congruence]).
  assert (EL : column_text [] (Some l) = l) by reflexivity.
  destruct (lines_read D HD [] (Some l) [c] HC) as (_ & R); [constructor; [exact Hc|constructor]|]. rewrite EL in R. split.
  - intros rq. now rewrite R by lia.
  - destruct Hc as (_ & Hr & _). destruct c; [|discriminate]. cbn in Hr. congruence.
Qed.
Lemma lines_rows x rows final : apt x -> clear_ends rows final -> (forall l, In l (column_of rows final) -> balanced_line cat user l /\ l <> []) ->
  column_of rows final <> [] ->
  (forall limit rq, (Z.of_nat (len (column_text rows final)) + 1 <= limit)%Z ->
     parse_string limit (column_text rows final) x rq = (map (line_row_of rq x) (column_of rows final), None)) /\
  pattern_score (column_text rows final) x = Ok (table_score (map (line_cells x) (column_of rows final))).
Proof.
  intros (D & -> & HD & Hq & He) HC HB HN. destruct (balanced_rows D cat user HD Hq He (column_of rows final)) as (cs & HF); [intros l Hl; now apply HB|].
  destruct (lines_read D HD rows final cs HC HF) as (P & R).
  assert (K : forall rq, map (line_row_of rq (simple D false)) (column_of rows final) = mk_rows rq (map (row_value D) cs) /\
    map (line_cells (simple D false)) (column_of rows final) = map (@List.length _) (map (row_value D) cs) /\
    Forall (fun r => r <> []) (map (row_value D) cs)).
  { intros rq. assert (HB' : forall l, In l (column_of rows final) -> l <> []) by (intros l Hl; now apply HB). clear HB HC R P HN.
    induction HF as [|l c ls cs Hc HF IH]; [repeat split; constructor|].
    destruct (one_line D l c HD (HB' l (or_introl eq_refl)) Hc) as (E & Hn). destruct IH as (I1 & I2 & I3); [intros y Hy; apply HB'; now right|].
    cbn [map]. split; [|split].
    - unfold mk_rows in *. cbn [map]. f_equal; [|exact I1]. unfold line_row_of. now rewrite E.
    - f_equal; [|exact I2]. unfold line_cells. rewrite E. now rewrite map_length.
    - now constructor. }
  split.
  - intros limit rq HL. rewrite (proj1 (K rq)). now apply R.
  - destruct (K true) as (_ & -> & K3). rewrite P. do 2 f_equal. assert (HNc : cs <> []) by (intros ->; inversion HF; congruence).
    unfold row_kinds. destruct cs as [|c cs]; [congruence|]. cbn [map] in *.
    assert (F : filter (fun n => negb (Nat.eqb n 0)) (map (@List.length _) (row_value D c :: map (row_value D) cs)) =
      map (@List.length _) (row_value D c :: map (row_value D) cs)).
    { clear - K3. induction K3 as [|r rs Hr _ IH]; [reflexivity|]. cbn [map filter]. destruct r; [congruence|]. cbn [len Nat.eqb negb]. now rewrite IH. }
    cbn [map] in F. rewrite F. apply Forall_inv in K3. destruct (row_value D c); [congruence|reflexivity].
Qed.
(** No escape character in front of a quote. *)
Lemma lines_escapes A B l x : apt A -> apt B -> same_quote A B = true -> balanced_line cat user l -> l <> [] -> In x (line_row_of false A l) ->
  count_escapes (sd_escapechar B) (sd_quotechar B) (cell_text x) = 0.
Proof.
  intros (D & -> & HD & Hq & He) (D' & -> & HD' & Hq' & He') HQ HB Hn Hx.
  destruct (balanced_row D cat user HD Hq He l HB) as (c & Hc). destruct (one_line D l c HD Hn Hc) as (E & _).
  unfold line_row_of in Hx. rewrite E in Hx. cbn [fst hd] in Hx. apply in_map_iff in Hx as (v & <- & Hv). apply in_map_iff in Hv as (ps & <- & Hps).
  cbn [mk_cell cell_text]. destruct (count_escapes _ _ _) eqn:EC; [reflexivity|]. exfalso. unfold count_escapes in EC.
  destruct (filter _ _) as [|[a b] fl] eqn:EF; [discriminate|]. assert (Hi : In (a, b) ((a, b) :: fl)) by now left. rewrite <- EF in Hi.
  apply filter_In in Hi as (Hi & Ht). apply andb_true_iff in Ht as (T1 & T2). apply pairwise_before in Hi.
  cbn [simple sd_escapechar sd_quotechar] in T1, T2. unfold is_str in T1, T2. apply opt_str_eqb_eq in T1, T2. injection T1 as T1. injection T2 as T2.
  assert (Ea : ce D' = Some a) by (destruct (ce D'); [cbn in T1; congruence|discriminate]).
  assert (Eb : cq D' = Some b) by (destruct (cq D'); [cbn in T2; congruence|discriminate]).
  unfold same_quote in HQ. apply opt_str_eqb_eq in HQ. cbn [simple sd_quotechar] in HQ. rewrite Eb in HQ. injection HQ as HQ.
  assert (Eb' : cq D = Some b) by (destruct (cq D); [cbn in HQ; congruence|discriminate]).
  destruct (thin_before (removable D) (escape_like cat) b) with (a := a) (v := fst (cell_value D ps)) (r := render_cell D ps) as (a' & Ha' & (x & y & Er)).
  - intros z [Hz|Hz]; [right; congruence|left; now apply He].
  - apply thin_cell.
  - now apply He'.
  - exact Hi.
  - destruct (cell_in_row D c ps Hps) as (x' & y' & El). destruct Hc as (_ & Hc & _). rewrite Hc, Er in El.
    destruct HB as (_ & _ & HX). destruct (HX (x' ++ x) a' (b :: y ++ y')) as (v & b' & [= <- <-] & _ & K); [rewrite El, <- !app_assoc; reflexivity|exact Ha'|].
    apply K. now apply Hq.
Qed.
End Lines.

(** ** Detection *)
Lemma pure_loop_ext known lim1 lim2 t1 t2 skip ds : (forall d, In d ds -> fP t1 d = fP t2 d /\ fT known lim1 t1 d = fT known lim2 t2 d) ->
  forall inc m, pure_loop known lim1 t1 skip ds inc m = pure_loop known lim2 t2 skip ds inc m.
Proof.
  induction ds as [|d ds IH]; intros H inc m; [reflexivity|]. cbn [pure_loop]. destruct (H d (or_introl eq_refl)) as (E1 & E2).
  unfold entry, fQ. rewrite E1, E2. destruct (_ && _); apply IH; intros x Hx; apply H; now right.
Qed.
Section Detection.
Variable cat : N -> str.
Variable url : str -> str -> option nat.
Variable known : str -> bool -> res pyexc bool.
Variable user : option (list str).
Hypothesis HU : line_matcher url.
Hypothesis HK : control_ends cat.
Hypothesis HUser : usual_delimiters user.
Variable o_set : list SimpleDialect -> list SimpleDialect.
Hypothesis o_perm : forall l, Permutation (o_set l) l.
Variables rows1 rows2 : list (str * eol).
Variables final1 final2 : option str.
Local Notation t1 := (column_text rows1 final1).
Local Notation t2 := (column_text rows2 final2).
Local Notation ls1 := (column_of rows1 final1).
Local Notation ls2 := (column_of rows2 final2).
Hypothesis HP : Permutation ls1 ls2.
Hypothesis HB : forall l, In l ls1 -> balanced_line cat user l /\ l <> [].
Hypothesis C1 : clear_ends rows1 final1.
Hypothesis C2 : clear_ends rows2 final2.
(** The type detector answers for every text of characters of a line. *)
Hypothesis HT : forall l s b, In l ls1 -> incl s l -> exists r, known s b = Ok r.
Hypothesis HS : forall O L d, any_orders O -> get_dialects cat url O utf8 t1 user false = Ok L -> In d L -> shapes_agree d ls1 ls2.
Local Notation lim t := (Z.of_nat (len t) + 1)%Z.
Lemma lines_ne : ls1 <> [] -> ls2 <> [].
Proof. intros H E. rewrite E in HP. now apply H, Permutation_nil, Permutation_sym. Qed.
Lemma HB2 : forall l, In l ls2 -> balanced_line cat user l /\ l <> [].
Proof. intros l Hl. apply HB. now apply (Permutation_in _ (Permutation_sym HP)). Qed.
Lemma row_chars x l : apt cat x -> In l ls1 -> Forall (answers known) (line_row_of true x l).
Proof.
  intros (D & -> & HD & Hq & He) Hl. destruct (HB l Hl) as (HBl & Hn). destruct (balanced_row D cat user HD Hq He l HBl) as (c & Hc).
  destruct (one_line D l c HD Hn Hc) as (E & _). unfold line_row_of. rewrite E. cbn [fst hd]. apply Forall_forall. intros y Hy.
  apply in_map_iff in Hy as (v & <- & Hv). apply in_map_iff in Hv as (ps & <- & Hps). cbn [mk_cell answers]. apply (HT l); [exact Hl|].
  destruct (cell_in_row D c ps Hps) as (x' & y' & El). destruct Hc as (_ & Hc & _). rewrite Hc in El. rewrite El.
  intros z Hz. apply in_or_app. right. apply in_or_app. left. revert Hz. generalize (thin_cell D ps). generalize (render_cell D ps), (fst (cell_value D ps)).
  clear. intros r v H. induction H as [|c v r H IH|c v r Hc H IH]; intros Hz; [exact Hz| |right; now apply IH].
  destruct Hz as [->|Hz]; [now left|right; now apply IH].
Qed.
Theorem detect_order_lines O1 O2 capacity skip old : any_orders O1 -> any_orders O2 -> ls1 <> [] ->
  fst (detect cat url known O1 o_set capacity skip t1 user old) = fst (detect cat url known O2 o_set capacity skip t2 user old).
Proof.
  intros H1 H2 HN. unfold detect.
  destruct (candidates_same_set cat url user HU HK HUser O1 O2 rows1 final1 rows2 final2 false H1 H2 eq_refl)
    as [(L1 & L2 & E1 & -> & HPL & HG & HCd)|[-> ->]]; [|rewrite E1|reflexivity].
  { intros l. split; intros H; [now apply (Permutation_in _ HP)|now apply (Permutation_in _ (Permutation_sym HP))]. }
  cbn zeta.
  assert (HA : forall x, In x L1 -> apt cat x).
  { intros x Hx. destruct (HCd x Hx) as (d & q & e & -> & Hd).
    destruct (candidate_chars cat url user HK HUser rows1 final1 d q e (fun l Hl => proj1 (HB l Hl)) Hd) as (D & ED & HD & Hq & He). exists D. auto. }
  assert (HR1 : forall x, In x L1 -> _) by exact (fun x Hx => lines_rows cat user x rows1 final1 (HA x Hx) C1 HB HN).
  assert (HR2 : forall x, In x L1 -> _) by exact (fun x Hx => lines_rows cat user x rows2 final2 (HA x Hx) C2 HB2 (lines_ne HN)).
  assert (HSc : forall x, In x L1 -> scored known (lim t1) t1 x /\ scored known (lim t2) t2 x /\ fP t1 x = fP t2 x /\ fT known (lim t1) t1 x = fT known (lim t2) t2 x).
  { intros x Hx. destruct (HR1 x Hx) as (R1 & P1), (HR2 x Hx) as (R2 & P2). specialize (R1 (lim t1) true ltac:(lia)). specialize (R2 (lim t2) true ltac:(lia)).
    destruct (type_score_perm known (lim t1) (lim t2) t1 t2 x _ _ R1 R2) as (T & T1 & T2).
    - rewrite <- !flat_map_concat_map. now apply Permutation_flat_map.
    - apply Forall_forall. intros y Hy. apply in_concat in Hy as (r & Hr & Hy). apply in_map_iff in Hr as (l & <- & Hl).
      pose proof (row_chars x l (HA x Hx) Hl) as K. rewrite Forall_forall in K. now apply K.
    - assert (EP : table_score (map (line_cells x) ls1) = table_score (map (line_cells x) ls2)).
      { apply table_score_perm; [now apply Permutation_map|]. exact (HS O1 L1 x H1 E1 Hx). }
      unfold scored, fP, fT. rewrite P1, P2, T1, T2, EP. cbn [get_or]. repeat split. }
  rewrite (scores_perm known (lim t2) capacity skip t2 L1 L2 []) by (try (now apply candidates_defined); now apply Permutation_sym).
  unfold compute_consistency_scores. destruct (py_sorted L1) as [ds|x] eqn:ES; [|reflexivity]. cbn [bind].
  apply sorted_permutation in ES.
  assert (HD : forall x, In x ds -> In x L1) by (intros x Hx; now apply (Permutation_in _ ES)).
  assert (S1 : Forall (scored known (lim t1) t1) ds) by (apply Forall_forall; intros x Hx; exact (proj1 (HSc x (HD x Hx)))).
  assert (S2 : Forall (scored known (lim t2) t2) ds) by (apply Forall_forall; intros x Hx; exact (proj1 (proj2 (HSc x (HD x Hx))))).
  assert (S3 : forall x, In x ds -> fP t1 x = fP t2 x /\ fT known (lim t1) t1 x = fT known (lim t2) t2 x) by (intros x Hx; exact (proj2 (proj2 (HSc x (HD x Hx))))).
  rewrite (loop_pure known (lim t1) capacity t1) by (exact S1 || apply sound_nil).
  rewrite (loop_pure known (lim t2) capacity t2) by (exact S2 || apply sound_nil).
  rewrite (pure_loop_ext known (lim t1) (lim t2) t1 t2 skip ds S3). cbn [bind].
  set (m := pure_loop known (lim t2) t2 skip ds minus_inf []).
  assert (HTi : tie_breaker (lim t1) t1 o_set (get_best_dialects m) = tie_breaker (lim t2) t2 o_set (get_best_dialects m)).
  { apply (tie_lines (lim t1) (lim t2) t1 t2 ls1 ls2 HP (line_row_of false) o_set o_perm (fun x => In x L1)).
    - intros d Hd. split; [|unfold plist; rewrite (proj1 (HR1 d Hd)) by lia; eauto]. pose proof (candidates_defined L1 HG) as K. rewrite Forall_forall in K. now apply K.
    - intros d Hd. unfold plist. rewrite (proj1 (HR1 d Hd)), (proj1 (HR2 d Hd)) by lia. now split.
    - intros A B l x HAi HBi HQ Hl Hx. destruct (HB l Hl) as (HBl & Hn). exact (lines_escapes cat user A B l x (HA A HAi) (HA B HBi) HQ HBl Hn Hx).
    - apply Forall_forall. intros x Hx. apply best_domain in Hx. apply HD. unfold m in Hx.
      clear - Hx. assert (K : forall ds inc mm, In x (map fst (pure_loop known (lim t2) t2 skip ds inc mm)) -> In x ds \/ In x (map fst mm)).
      { clear. induction ds as [|d ds IH]; intros inc mm H; [now right|]. cbn [pure_loop] in H.
        destruct (_ && _); apply IH in H as [H|H]; try (left; now right); apply set_keys in H as [->|H]; [left; now left|now right|left; now left|now right]. }
      now apply K in Hx as [Hx|[]]. }
  destruct (get_best_dialects m) as [|a [|b l]].
  - reflexivity.
  - reflexivity.
  - rewrite HTi. now destruct (tie_breaker (lim t2) t2 o_set (a :: b :: l)).
Qed.
End Detection.
