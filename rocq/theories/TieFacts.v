(** * TieFacts: breaking ties (C34, C36, C55, C57) *)
From Coq Require Import Permutation.
From Verif Require Import Base Parser Dialect SpecLayout SpecParse ParserLift Potential SpecPotential
  PotentialFacts MaskedFacts Ties SpecConsistency.

Lemma opt_str_eqb_eq a b : opt_str_eqb a b = true <-> a = b.
Proof.
  unfold opt_str_eqb. destruct a as [s|], b as [t|].
  - rewrite str_eqb_eq. split; [intros ->; reflexivity|intros H; now injection H].
  - split; discriminate.
  - split; discriminate.
  - tauto.
Qed.
Lemma is_str_eq o s : is_str o s = true <-> o = Some s.
Proof. apply opt_str_eqb_eq. Qed.
Lemma same_delim_eq A B : same_delim A B = true <-> sd_delimiter A = sd_delimiter B.
Proof. apply opt_str_eqb_eq. Qed.
Lemma same_quote_eq A B : same_quote A B = true <-> sd_quotechar A = sd_quotechar B.
Proof. apply opt_str_eqb_eq. Qed.
Lemma same_escape_eq A B : same_escape A B = true <-> sd_escapechar A = sd_escapechar B.
Proof. apply opt_str_eqb_eq. Qed.
Lemma dialect_ext A B : sd_delimiter A = sd_delimiter B -> sd_quotechar A = sd_quotechar B ->
  sd_escapechar A = sd_escapechar B -> sd_strict A = sd_strict B -> A = B.
Proof. destruct A, B. cbn. congruence. Qed.
Lemma eqb_refl_d A : dialect_eqb A A = true.
Proof. now apply eqb_eq. Qed.
Lemma eqb_neq_d A B : A <> B -> dialect_eqb A B = false.
Proof. intros H. destruct (dialect_eqb A B) eqn:E; [apply eqb_eq in E; contradiction|reflexivity]. Qed.

Lemma bool_ext (a b : bool) : (a = true <-> b = true) -> a = b.
Proof. destruct a, b; intuition congruence. Qed.
Lemma same_delim_sym A B : same_delim A B = same_delim B A.
Proof. apply bool_ext. rewrite !same_delim_eq. split; congruence. Qed.
Lemma same_quote_sym A B : same_quote A B = same_quote B A.
Proof. apply bool_ext. rewrite !same_quote_eq. split; congruence. Qed.
Lemma same_escape_sym A B : same_escape A B = same_escape B A.
Proof. apply bool_ext. rewrite !same_escape_eq. split; congruence. Qed.
Lemma only_sym A B f : only_differ_in A B f = only_differ_in B A f.
Proof. unfold only_differ_in. rewrite (same_delim_sym A B), (same_quote_sym A B), (same_escape_sym A B). reflexivity. Qed.

Lemma cell_eqb_eq a b : cell_eqb a b = true <-> a = b.
Proof.
  destruct a as [s|s p], b as [t|t q]; cbn [cell_eqb]; try (split; discriminate).
  - rewrite str_eqb_eq. split; [intros ->; reflexivity|intros H; now injection H].
  - rewrite andb_true_iff, str_eqb_eq, eqb_true_iff. split; [intros [-> ->]; reflexivity|intros H; injection H as -> ->; auto].
Qed.
Lemma table_eqb_eq a b : table_eqb a b = true <-> a = b.
Proof. apply list_eqb_spec, list_eqb_spec, cell_eqb_eq. Qed.
Lemma table_eqb_refl a : table_eqb a a = true.
Proof. now apply table_eqb_eq. Qed.

Section Two.
  Variable limit : Z.
  Variable data : str.
  Variable o_set : list SimpleDialect -> list SimpleDialect.
  Notation two := (break_ties_two limit data).

  Lemma two_sym A B : sd_strict A = sd_strict B -> one_escape A B -> two A B = two B A.
  Proof.
    intros Hst He.
    destruct (dialect_eqb A B) eqn:E0; [apply eqb_eq in E0 as ->; reflexivity|].
    assert (Hne : A <> B) by (intros ->; rewrite eqb_refl_d in E0; discriminate).
    unfold break_ties_two. rewrite !(only_sym B A).
    destruct (only_differ_in A B FQuotechar) eqn:E1.
    { cbn in E1. apply andb_true_iff in E1 as [E1 E2]. apply same_delim_eq in E1. apply same_escape_eq in E2.
      destruct (is_str (sd_quotechar A) []) eqn:Qa, (is_str (sd_quotechar B) []) eqn:Qb; cbn [orb]; try reflexivity.
      - apply is_str_eq in Qa, Qb. exfalso. apply Hne, dialect_ext; congruence.
      - rewrite eqb_refl_d, (eqb_neq_d A B Hne). reflexivity.
      - rewrite eqb_refl_d, (eqb_neq_d B A) by congruence. reflexivity. }
    destruct (only_differ_in A B FDelimiter) eqn:E2.
    { cbn in E2. apply andb_true_iff in E2 as [E2 E3]. apply same_quote_eq in E2. apply same_escape_eq in E3.
      destruct (is_str (sd_delimiter A) [COMMA]) eqn:A1, (is_str (sd_delimiter B) [COMMA]) eqn:B1,
               (is_str (sd_delimiter A) [SPACE]) eqn:A2, (is_str (sd_delimiter B) [SPACE]) eqn:B2;
        cbn [andb orb]; try reflexivity;
        repeat match goal with H : is_str _ _ = true |- _ => apply is_str_eq in H end;
        try (exfalso; first [discriminate|congruence|apply Hne, dialect_ext; congruence]);
        try (destruct (is_str (sd_delimiter A) [45%N]) eqn:A3, (is_str (sd_delimiter B) [45%N]) eqn:B3; cbn [orb]; try reflexivity;
             apply is_str_eq in A3, B3; exfalso; apply Hne, dialect_ext; congruence). }
    destruct (only_differ_in A B FEscapechar) eqn:E3.
    { cbn in E3. apply andb_true_iff in E3 as [E3 E4]. apply same_delim_eq in E3. apply same_quote_eq in E4.
      destruct (is_str (sd_escapechar A) []) eqn:Ea, (is_str (sd_escapechar B) []) eqn:Eb; try reflexivity.
      - apply is_str_eq in Ea, Eb. exfalso. apply Hne, dialect_ext; congruence.
      - destruct He as [He|[He|He]].
        + apply is_str_eq in He. congruence.
        + apply is_str_eq in He. congruence.
        + exfalso. apply Hne, dialect_ext; congruence. }
    rewrite (same_delim_sym B A). destruct (same_delim A B) eqn:E4; [|reflexivity]. apply same_delim_eq in E4.
    set (bl := fun D => is_str (sd_quotechar D) [] && is_str (sd_escapechar D) []).
    change (is_str (sd_quotechar A) [] && is_str (sd_escapechar A) []) with (bl A).
    change (is_str (sd_quotechar B) [] && is_str (sd_escapechar B) []) with (bl B).
    destruct (bl A) eqn:Ba, (bl B) eqn:Bb; cbn [orb]; try reflexivity.
    - unfold bl in Ba, Bb. apply andb_true_iff in Ba as [Ba1 Ba2]. apply andb_true_iff in Bb as [Bb1 Bb2].
      apply is_str_eq in Ba1, Ba2, Bb1, Bb2. exfalso. apply Hne, dialect_ext; congruence.
    - rewrite eqb_refl_d, (eqb_neq_d A B Hne). reflexivity.
    - rewrite eqb_refl_d, (eqb_neq_d B A) by congruence. reflexivity.
  Qed.

  (** The answer is one of the two. *)
  Lemma two_member A B d : two A B = Ok (Some d) -> d = A \/ d = B.
  Proof.
    unfold break_ties_two, bind.
    repeat match goal with
    | |- context [if ?b then _ else _] => destruct b
    | |- context [match plist ?l ?t ?x with _ => _ end] => destruct (plist l t x)
    | |- context [match different ?X ?Y with _ => _ end] => destruct (different X Y) as [|[? ?] ?]
    | |- context [match sd_escapechar ?x with _ => _ end] => destruct (sd_escapechar x)
    | |- context [match sd_quotechar ?x with _ => _ end] => destruct (sd_quotechar x)
    end; intros H; try discriminate; injection H as <-; auto.
  Qed.

  (** No exception if the dialects parse. *)
  Definition parses (d : SimpleDialect) : Prop := defined d /\ exists X, plist limit data d = Ok X.
  Lemma two_ok A B : parses A -> parses B -> exists r, two A B = Ok r.
  Proof.
    intros ((_ & Aq & Ae) & XA & HA) ((_ & Bq & Be) & XB & HB). unfold break_ties_two, bind.
    repeat match goal with
    | |- context [if ?b then _ else _] => destruct b
    | |- context [plist limit data A] => rewrite HA
    | |- context [plist limit data B] => rewrite HB
    | |- context [match different ?X ?Y with _ => _ end] => destruct (different X Y) as [|[? ?] ?]
    | |- context [match sd_escapechar ?x with _ => _ end] => destruct (sd_escapechar x); try congruence
    | |- context [match sd_quotechar ?x with _ => _ end] => destruct (sd_quotechar x); try congruence
    | |- exists r, Ok _ = Ok r => eexists; reflexivity
    end.
  Qed.

  Hypothesis o_perm : forall l, Permutation (o_set l) l.

  Lemma dset_in d x l : In x (dset_add d l) <-> x = d \/ In x l.
  Proof.
    unfold dset_add. destruct (mem_dialect d l) eqn:E.
    - split; [auto|]. intros [->|H]; [|exact H]. unfold mem_dialect in E. apply existsb_exists in E as (y & Hy & E).
      apply eqb_eq in E as ->. exact Hy.
    - rewrite in_app_iff. cbn. intuition.
  Qed.
  Lemma mem_dialect_in d l : mem_dialect d l = true <-> In d l.
  Proof.
    unfold mem_dialect. rewrite existsb_exists. split.
    - intros (y & Hy & E). apply eqb_eq in E as ->. exact Hy.
    - intros H. exists d. split; [exact H|apply eqb_refl_d].
  Qed.
  Lemma NoDup_dset d l : NoDup l -> NoDup (dset_add d l).
  Proof.
    intros H. unfold dset_add. destruct (mem_dialect d l) eqn:E; [exact H|]. apply NoDup_snoc; [exact H|].
    rewrite <- mem_dialect_in. congruence.
  Qed.
  Lemma pairwise_in {A} (l : list A) : forall a b, In (a, b) (pairwise l) -> In a l /\ In b l.
  Proof.
    induction l as [|x l IH]; [intros ? ? []|]. destruct l as [|y l]; [intros ? ? []|].
    intros a b H. cbn in H. destruct H as [H|H]; [injection H as <- <-; cbn; auto|].
    apply IH in H. cbn in *. intuition.
  Qed.
  Lemma equal_pairs_ok ps : (forall a b, In (a, b) ps -> parses a /\ parses b) ->
    exists r, equal_pairs limit data ps = Ok r /\ incl r ps.
  Proof.
    induction ps as [|[a b] ps IH]; intros H; [exists []; split; [reflexivity|apply incl_refl]|].
    destruct (H a b (or_introl eq_refl)) as [(_ & X & HX) (_ & Y & HY)]. cbn [equal_pairs]. rewrite HX, HY. cbn [bind].
    destruct IH as (r & -> & Hr); [intros; apply H; now right|]. cbn [bind].
    eexists. split; [reflexivity|]. intros p Hp. destruct (table_eqb X Y); [destruct Hp as [<-|Hp]; [now left|]|]; right; auto.
  Qed.
  Lemma break_pairs_ok ps : forall new vis, (forall a b, In (a, b) ps -> parses a /\ parses b) ->
    exists new' vis', break_pairs limit data ps new vis = Ok (new', vis') /\
      (forall x, In x new' -> In x new \/ exists a b, In (a, b) ps /\ (x = a \/ x = b)) /\
      (NoDup new -> NoDup new').
  Proof.
    induction ps as [|[a b] ps IH]; intros new vis H; [exists new, vis; repeat split; auto|].
    destruct (H a b (or_introl eq_refl)) as [Ha Hb]. cbn [break_pairs]. destruct (two_ok a b Ha Hb) as [r Hr].
    rewrite Hr. cbn [bind].
    destruct (IH (match r with Some d => dset_add d new | None => new end) (dset_add b (dset_add a vis)))
      as (new' & vis' & E & Hin & Hnd); [intros; apply H; now right|].
    exists new', vis'. split; [exact E|]. split.
    - intros x Hx. destruct (Hin x Hx) as [K|(a' & b' & K1 & K2)].
      + destruct r as [d|]; [|now left]. apply dset_in in K as [->|K]; [|now left].
        right. exists a, b. split; [now left|]. now apply two_member in Hr.
      + right. exists a', b'. split; [now right|exact K2].
    - intros Hn. apply Hnd. destruct r; [now apply NoDup_dset|exact Hn].
  Qed.
  Lemma unvisited_in vis ds : forall new x,
    In x (fold_left (fun new d => if mem_dialect d vis then new else dset_add d new) ds new) -> In x new \/ In x ds.
  Proof.
    induction ds as [|d ds IH]; intros new x Hx; [now left|]. cbn [fold_left] in Hx.
    apply IH in Hx as [Hx|Hx]; [|right; now right]. destruct (mem_dialect d vis); [now left|].
    apply dset_in in Hx as [->|Hx]; [right; now left|now left].
  Qed.
  Lemma NoDup_unvisited vis ds : forall new, NoDup new ->
    NoDup (fold_left (fun new d => if mem_dialect d vis then new else dset_add d new) ds new).
  Proof.
    induction ds as [|d ds IH]; intros new H; [exact H|]. cbn [fold_left]. apply IH. destruct (mem_dialect d vis); [exact H|now apply NoDup_dset].
  Qed.
  Lemma reduce_ok ds : Forall parses ds ->
    exists r, reduce_pairwise limit data o_set ds = Ok r /\
      match r with Some l => incl l ds /\ NoDup l | None => True end.
  Proof.
    intros H. rewrite Forall_forall in H. unfold reduce_pairwise. destruct (negb (equal_delim ds)); [now exists None|].
    destruct (equal_pairs_ok (pairwise ds)) as (eq & -> & Heq).
    { intros a b Hab. apply pairwise_in in Hab as [Ha Hb]. auto. }
    cbn [bind]. destruct (break_pairs_ok eq [] []) as (new & vis & -> & Hin & Hnd).
    { intros a b Hab. apply Heq, pairwise_in in Hab as [Ha Hb]. auto. }
    cbn [bind]. eexists. split; [reflexivity|]. split.
    - intros x Hx. apply (Permutation_in _ (o_perm _)) in Hx. apply unvisited_in in Hx as [Hx|Hx]; [|exact Hx].
      apply Hin in Hx as [[]|(a & b & Hab & Hx)]. apply Heq, pairwise_in in Hab as [Ha Hb].
      destruct Hx as [->| ->]; assumption.
    - apply (Permutation_NoDup (Permutation_sym (o_perm _))). apply NoDup_unvisited, Hnd. constructor.
  Qed.

  Lemma three_ok A B C : parses A -> parses B -> parses C ->
    exists r, break_ties_three limit data o_set A B C = Ok r /\
      match r with Some d => In d [A; B; C] | None => True end.
  Proof.
    intros HA HB HC. unfold break_ties_three.
    assert (T : forall a b, In a [A; B; C] -> In b [A; B; C] -> parses a -> parses b ->
      exists r, break_ties_two limit data a b = Ok r /\ match r with Some d => In d [A; B; C] | None => True end).
    { intros a b Ia Ib Ha Hb. destruct (two_ok a b Ha Hb) as [r Hr]. exists r. split; [exact Hr|].
      destruct r as [d|]; [|exact I]. apply two_member in Hr as [->| ->]; assumption. }
    destruct (same_delim A B && same_delim B C && (same_escape A B && same_escape B C)).
    - destruct HA as (DA & XA & EA), HB as (DB & XB & EB), HC as (DC & XC & EC).
      rewrite EA, EB, EC. cbn [bind]. destruct (_ || _ || _); [exists None; auto|].
      assert (P : forall d, In d [A; B; C] -> parses d).
      { intros d [<-|[<-|[<-|[]]]]; split; eauto. }
      destruct (find _ _) as [[pn dn]|] eqn:Ef; [|exists None; auto].
      apply find_some in Ef as [Ef _].
      assert (Z : forall p d, In (p, d) (zip [XA; XB; XC] [A; B; C]) -> In d [A; B; C]).
      { intros p d [H|[H|[H|[]]]]; injection H as <- <-; cbn; auto. }
      assert (F : forall p d, In (p, d) (filter (fun '(p0, d0) => negb (table_eqb p0 pn)) (zip [XA; XB; XC] [A; B; C])) -> In d [A; B; C]).
      { intros p d H. apply filter_In in H as [H _]. eapply Z, H. }
      assert (R : exists r, bind (reduce_pairwise limit data o_set [A; B; C]) (fun new =>
                match new with Some [d] => Ok (Some d) | _ => Ok None end) = Ok r /\
                match r with Some d => In d [A; B; C] | None => True end).
      { destruct (reduce_ok [A; B; C]) as (r & -> & Hr); [apply Forall_forall; exact P|]. cbn [bind].
        destruct r as [[|d [|? ?]]|]; try (exists None; now auto). exists (Some d). split; [reflexivity|]. apply Hr. now left. }
      destruct (filter _ _) as [|[p0 d0] [|[p1 d1] l]]; [exact R|exact R|].
      apply Z in Ef. assert (I0 : In d0 [A; B; C]) by (apply (F p0); now left).
      assert (I1 : In d1 [A; B; C]) by (apply (F p1); right; now left).
      destruct (table_eqb pn p0); [now apply T; auto|]. destruct (table_eqb pn p1); [now apply T; auto|]. exists None; auto.
    - destruct (same_delim A B && same_delim B C); [|exists None; auto].
      assert (F : forall d, In d (filter (fun d => negb (is_str (sd_quotechar d) [])) [A; B; C]) -> In d [A; B; C]).
      { intros d H. now apply filter_In in H. }
      destruct (filter _ _) as [|d0 [|d1 [|? ?]]]; try (exists None; now auto).
      assert (I0 : In d0 [A; B; C]) by (apply F; now left). assert (I1 : In d1 [A; B; C]) by (apply F; right; now left).
      apply T; auto.
      + destruct I0 as [<-|[<-|[<-|[]]]]; assumption.
      + destruct I1 as [<-|[<-|[<-|[]]]]; assumption.
  Qed.

  Lemma tie_breaker_ok ds : Forall parses ds ->
    exists r, tie_breaker limit data o_set ds = Ok r /\ match r with Some d => In d ds | None => True end.
  Proof.
    intros H. unfold tie_breaker. destruct ds as [|a [|b [|c [|d [|e l]]]]]; try (exists None; now auto).
    - apply Forall_cons_iff in H as [Ha H]. apply Forall_cons_iff in H as [Hb _].
      destruct (two_ok a b Ha Hb) as [r Hr]. exists r. split; [exact Hr|]. destruct r; [|exact I].
      apply two_member in Hr as [->| ->]; cbn; auto.
    - apply Forall_cons_iff in H as [Ha H]. apply Forall_cons_iff in H as [Hb H]. apply Forall_cons_iff in H as [Hc _].
      now apply three_ok.
    - unfold break_ties_four. destruct (negb _); [exists None; auto|].
      destruct (reduce_ok [a; b; c; d] H) as (r & -> & Hr). cbn [bind]. rewrite Forall_forall in H.
      destruct r as [[|d0 [|d1 [|d2 [|? ?]]]]|]; try (exists None; now auto).
      + exists (Some d0). split; [reflexivity|]. apply Hr. now left.
      + destruct Hr as [Hr _]. assert (I0 := Hr d0 (or_introl eq_refl)). assert (I1 := Hr d1 (or_intror (or_introl eq_refl))).
        destruct (two_ok d0 d1 (H _ I0) (H _ I1)) as [r E]. exists r. split; [exact E|]. destruct r; [|exact I].
        apply two_member in E as [->| ->]; assumption.
      + destruct Hr as [Hr _]. assert (I0 := Hr d0 (or_introl eq_refl)). assert (I1 := Hr d1 (or_intror (or_introl eq_refl))).
        assert (I2 := Hr d2 (or_intror (or_intror (or_introl eq_refl)))).
        destruct (three_ok d0 d1 d2 (H _ I0) (H _ I1) (H _ I2)) as (r & E & Hm). exists r. split; [exact E|].
        destruct r as [x|]; [|exact I]. destruct Hm as [<-|[<-|[<-|[]]]]; assumption.
  Qed.
End Two.

(** Candidate dialects parse every text without NUL. *)
Lemma parses_valid limit data d : validate d = true -> sd_strict d = false ->
  (Z.of_nat (length data) <= limit)%Z -> ~ In NUL data -> parses limit data d.
Proof.
  intros Hv Hs Hl Hn. split.
  - destruct (simple_of_valid d Hv) as [D ->]. repeat split; discriminate.
  - destruct (parse_string_total limit data d false Hv Hs Hl) as [_ H]. specialize (H Hn). unfold plist.
    destruct (parse_string limit data d false) as [rows en]. cbn in H. subst. eauto.
Qed.

Ltac comp := repeat (progress (
  repeat match goal with
  | H : dialect_eqb ?x ?y = false |- context [dialect_eqb ?x ?y] => rewrite H
  | |- context [dialect_eqb ?x ?x] => rewrite (eqb_refl_d x)
  end; cbn [orb existsb app])).

(** ** Three dialects that differ in the quote character *)
Section Three.
  Variable limit : Z.
  Variable data : str.
  Variable o_set : list SimpleDialect -> list SimpleDialect.
  Hypothesis o_perm : forall l, Permutation (o_set l) l.
  Variables A B C : SimpleDialect.
  Variables pA pB pC : table.
  Hypothesis EA : plist limit data A = Ok pA.
  Hypothesis EB : plist limit data B = Ok pB.
  Hypothesis EC : plist limit data C = Ok pC.
  Hypothesis dAB : sd_delimiter A = sd_delimiter B.
  Hypothesis dBC : sd_delimiter B = sd_delimiter C.
  Hypothesis eAB : sd_escapechar A = sd_escapechar B.
  Hypothesis eBC : sd_escapechar B = sd_escapechar C.
  Hypothesis sAB : sd_strict A = sd_strict B.
  Hypothesis sBC : sd_strict B = sd_strict C.
  Hypothesis nAB : A <> B.
  Hypothesis nBC : B <> C.
  Hypothesis nAC : A <> C.

  Lemma two_quote_no D E p q : plist limit data D = Ok p -> plist limit data E = Ok q ->
    sd_delimiter D = sd_delimiter E -> sd_escapechar D = sd_escapechar E -> sd_strict D = sd_strict E -> D <> E ->
    break_ties_two limit data D E =
    Ok (if is_str (sd_quotechar D) [] then Some (if table_eqb p q then D else E)
        else if is_str (sd_quotechar E) [] then Some (if table_eqb q p then E else D) else None).
  Proof.
    intros HD HE H1 H2 H3 Hn. unfold break_ties_two.
    assert (H : only_differ_in D E FQuotechar = true).
    { cbn. apply andb_true_iff. rewrite same_delim_eq, same_escape_eq. auto. }
    rewrite H. destruct (is_str (sd_quotechar D) []) eqn:Qd; cbn [orb].
    - rewrite eqb_refl_d, HD, HE. reflexivity.
    - destruct (is_str (sd_quotechar E) []) eqn:Qe; [|reflexivity]. rewrite (eqb_neq_d E D) by congruence.
      rewrite HD, HE. reflexivity.
  Qed.

  Definition the_unquoted : option SimpleDialect :=
    find (fun d => is_str (sd_quotechar d) []) [A; B; C].

  Lemma perm_one x : o_set [x] = [x].
  Proof. apply Permutation_length_1_inv, Permutation_sym, o_perm. Qed.
  Lemma perm_long l : 2 <= length l ->
    match Some (o_set l) with Some [d] => @Ok pyexc _ (Some d) | _ => Ok None end = Ok None.
  Proof.
    intros H. pose proof (Permutation_length (o_perm l)) as E. destruct (o_set l) as [|x [|y r]]; try reflexivity.
    cbn in E. lia.
  Qed.
  Lemma quotes_differ D E : sd_delimiter D = sd_delimiter E -> sd_escapechar D = sd_escapechar E ->
    sd_strict D = sd_strict E -> D <> E -> is_str (sd_quotechar D) [] = true -> is_str (sd_quotechar E) [] = false.
  Proof.
    intros H1 H2 H3 Hn H. destruct (is_str (sd_quotechar E) []) eqn:K; [|reflexivity].
    apply is_str_eq in H, K. exfalso. apply Hn, dialect_ext; congruence.
  Qed.

  Lemma three_closed : break_ties_three limit data o_set A B C =
    Ok (if table_eqb pA pB && table_eqb pB pC then the_unquoted else None).
  Proof.
    assert (Hd1 : same_delim A B = true) by now apply same_delim_eq.
    assert (Hd2 : same_delim B C = true) by now apply same_delim_eq.
    assert (Hd3 : same_delim A C = true) by (apply same_delim_eq; congruence).
    assert (He1 : same_escape A B = true) by now apply same_escape_eq.
    assert (He2 : same_escape B C = true) by now apply same_escape_eq.
    assert (TAB := two_quote_no A B pA pB EA EB dAB eAB sAB nAB).
    assert (TBC := two_quote_no B C pB pC EB EC dBC eBC sBC nBC).
    assert (QAB := quotes_differ A B dAB eAB sAB nAB).
    assert (QBC := quotes_differ B C dBC eBC sBC nBC).
    assert (QAC := quotes_differ A C (eq_trans dAB dBC) (eq_trans eAB eBC) (eq_trans sAB sBC) nAC).
    unfold break_ties_three. rewrite Hd1, Hd2, He1, He2. cbn [andb]. rewrite EA, EB, EC. cbn [bind].
    assert (R : reduce_pairwise limit data o_set [A; B; C] =
      bind (break_pairs limit data ((if table_eqb pA pB then [(A, B)] else []) ++ (if table_eqb pB pC then [(B, C)] else [])) [] [])
       (fun '(new, visited) => Ok (Some (o_set (fold_left (fun new d => if mem_dialect d visited then new else dset_add d new)
                                  [A; B; C] new))))).
    { unfold reduce_pairwise, equal_delim. cbn [forallb]. rewrite Hd1, Hd3. cbn [andb negb].
      unfold pairwise. cbn [tl zip equal_pairs]. rewrite EA, EB, EC. cbn [bind].
      destruct (table_eqb pA pB), (table_eqb pB pC); reflexivity. }
    unfold the_unquoted. cbn [find zip].
    assert (DAB := eqb_neq_d A B nAB). assert (DBA := eqb_neq_d B A (fun h => nAB (eq_sym h))).
    assert (DBC := eqb_neq_d B C nBC). assert (DCB := eqb_neq_d C B (fun h => nBC (eq_sym h))).
    assert (DAC := eqb_neq_d A C nAC). assert (DCA := eqb_neq_d C A (fun h => nAC (eq_sym h))).
    destruct (table_eqb pA pB) eqn:T1.
    - apply table_eqb_eq in T1 as <-. destruct (table_eqb pA pC) eqn:T2.
      + apply table_eqb_eq in T2 as <-. cbn [andb]. rewrite !Nat.eqb_refl. cbn [negb orb].
        rewrite R. cbn [app break_pairs]. rewrite TAB, TBC, !table_eqb_refl. cbn [bind].
        destruct (is_str (sd_quotechar A) []) eqn:QA.
        { rewrite (QAB eq_refl), (QAC eq_refl). cbn [filter negb]. rewrite table_eqb_refl. cbn [filter negb].
          cbn [dset_add mem_dialect existsb]. unfold dset_add, mem_dialect. cbn [fold_left existsb app].
          comp.
          rewrite perm_one. reflexivity. }
        destruct (is_str (sd_quotechar B) []) eqn:QB.
        { cbn [filter negb]. rewrite table_eqb_refl. cbn [filter negb].
          unfold dset_add, mem_dialect. cbn [fold_left existsb app].
          comp.
          rewrite perm_one. reflexivity. }
        destruct (is_str (sd_quotechar C) []) eqn:QC; [|reflexivity].
        cbn [filter negb]. rewrite table_eqb_refl. cbn [filter negb].
        unfold dset_add, mem_dialect. cbn [fold_left existsb app].
        comp.
        rewrite perm_one. reflexivity.
      + cbn [andb]. destruct (_ || _ || _); [reflexivity|].
        assert (T2' : table_eqb pC pA = false).
        { destruct (table_eqb pC pA) eqn:K; [|reflexivity]. apply table_eqb_eq in K as ->. now rewrite table_eqb_refl in T2. }
        rewrite R. cbn [app break_pairs]. rewrite TAB, !table_eqb_refl. cbn [bind].
        destruct (is_str (sd_quotechar A) []) eqn:QA.
        { cbn [filter]. rewrite table_eqb_refl, T2'. cbn [negb].
          unfold dset_add, mem_dialect. cbn [fold_left existsb app].
          comp.
          apply perm_long. cbn. repeat constructor. }
        destruct (is_str (sd_quotechar B) []) eqn:QB.
        { cbn [filter]. rewrite table_eqb_refl, T2'. cbn [negb].
          unfold dset_add, mem_dialect. cbn [fold_left existsb app].
          comp.
          apply perm_long. cbn. repeat constructor. }
        destruct (is_str (sd_quotechar C) []) eqn:QC; [|reflexivity].
        cbn [filter]. rewrite table_eqb_refl, T2. cbn [negb]. rewrite T2'. reflexivity.
    - assert (T1' : table_eqb pB pA = false).
      { destruct (table_eqb pB pA) eqn:K; [|reflexivity]. apply table_eqb_eq in K as ->. now rewrite table_eqb_refl in T1. }
      cbn [andb]. destruct (_ || _ || _); [reflexivity|].
      destruct (table_eqb pB pC) eqn:T3.
      + apply table_eqb_eq in T3 as <-. rewrite R. cbn [app break_pairs]. rewrite TBC, !table_eqb_refl. cbn [bind].
        destruct (is_str (sd_quotechar A) []) eqn:QA.
        { cbn [filter]. rewrite table_eqb_refl, T1'. cbn [negb]. rewrite T1. reflexivity. }
        destruct (is_str (sd_quotechar B) []) eqn:QB.
        { cbn [filter]. rewrite table_eqb_refl, T1. cbn [negb].
          unfold dset_add, mem_dialect. cbn [fold_left existsb app].
          comp.
          apply perm_long. cbn. repeat constructor. }
        destruct (is_str (sd_quotechar C) []) eqn:QC; [|reflexivity].
        cbn [filter]. rewrite table_eqb_refl, T1. cbn [negb].
        unfold dset_add, mem_dialect. cbn [fold_left existsb app].
        comp.
        apply perm_long. cbn. repeat constructor.
      + assert (T3' : table_eqb pC pB = false).
        { destruct (table_eqb pC pB) eqn:K; [|reflexivity]. apply table_eqb_eq in K as ->. now rewrite table_eqb_refl in T3. }
        assert (F : bind (reduce_pairwise limit data o_set [A; B; C]) (fun new =>
                match new with Some [d] => Ok (Some d) | _ => Ok None end) = Ok None).
        { rewrite R. cbn [app break_pairs bind].
          unfold dset_add, mem_dialect. cbn [fold_left existsb app].
          comp.
          apply perm_long. cbn. repeat constructor. }
        destruct (table_eqb pA pC) eqn:T4.
        * apply table_eqb_eq in T4 as <-.
          destruct (is_str (sd_quotechar A) []) eqn:QA; [cbn [filter]; rewrite table_eqb_refl, T1'; cbn [negb]; exact F|].
          destruct (is_str (sd_quotechar B) []) eqn:QB; [cbn [filter]; rewrite table_eqb_refl, T1; cbn [negb]; rewrite T1'; reflexivity|].
          destruct (is_str (sd_quotechar C) []) eqn:QC; [cbn [filter]; rewrite table_eqb_refl, T1'; cbn [negb]; exact F|reflexivity].
        * assert (T4' : table_eqb pC pA = false).
          { destruct (table_eqb pC pA) eqn:K; [|reflexivity]. apply table_eqb_eq in K as ->. now rewrite table_eqb_refl in T4. }
          destruct (is_str (sd_quotechar A) []) eqn:QA.
          { cbn [filter]. rewrite table_eqb_refl, T1', T4'. cbn [negb]. rewrite T1, T4. reflexivity. }
          destruct (is_str (sd_quotechar B) []) eqn:QB.
          { cbn [filter]. rewrite table_eqb_refl, T1, T3'. cbn [negb]. rewrite T1', T3. reflexivity. }
          destruct (is_str (sd_quotechar C) []) eqn:QC; [|reflexivity].
          cbn [filter]. rewrite table_eqb_refl, T4, T3. cbn [negb]. rewrite T4', T3'. reflexivity.
  Qed.
End Three.

(** ** The order in which a set is listed *)
Section Order.
  Variable limit : Z.
  Variable data : str.
  Variables o1 o2 : list SimpleDialect -> list SimpleDialect.
  Hypothesis o1_perm : forall l, Permutation (o1 l) l.
  Hypothesis o2_perm : forall l, Permutation (o2 l) l.

  (** Every dialect parses, all agree on strictness, and no two of them have
      different escape characters. *)
  Definition compatible (ds : list SimpleDialect) : Prop :=
    (forall d, In d ds -> parses limit data d) /\
    (forall d e, In d ds -> In e ds -> sd_strict d = sd_strict e /\ one_escape d e).

  Lemma compatible_incl ds es : incl es ds -> compatible ds -> compatible es.
  Proof. intros H [H1 H2]. split; auto. Qed.

  Lemma conj_delim A B C : same_delim A B && same_delim B C = true <->
    sd_delimiter A = sd_delimiter B /\ sd_delimiter B = sd_delimiter C.
  Proof. now rewrite andb_true_iff, !same_delim_eq. Qed.
  Lemma conj_escape A B C : same_escape A B && same_escape B C = true <->
    sd_escapechar A = sd_escapechar B /\ sd_escapechar B = sd_escapechar C.
  Proof. now rewrite andb_true_iff, !same_escape_eq. Qed.
  Lemma conj_table (a b c : table) : table_eqb a b && table_eqb b c = true <-> a = b /\ b = c.
  Proof. now rewrite andb_true_iff, !table_eqb_eq. Qed.

  Ltac pick H A := specialize (H A ltac:(cbn; tauto)).

  Lemma three_swap A B C A' B' C' : NoDup [A; B; C] -> compatible [A; B; C] ->
    (A' = B /\ B' = A /\ C' = C \/ A' = A /\ B' = C /\ C' = B) ->
    break_ties_three limit data o1 A B C = break_ties_three limit data o2 A' B' C'.
  Proof.
    intros Hn [Hp Hc] Hs.
    assert (nAB : A <> B /\ A <> C /\ B <> C).
    { inversion Hn as [|? ? H1 H2]; subst. inversion H2 as [|? ? H3 H4]; subst. cbn in *.
      repeat split; intros ->; tauto. }
    destruct nAB as (nAB & nAC & nBC).
    destruct (Hp A ltac:(cbn; tauto)) as (_ & pA & EA).
    destruct (Hp B ltac:(cbn; tauto)) as (_ & pB & EB).
    destruct (Hp C ltac:(cbn; tauto)) as (_ & pC & EC).
    destruct (Hc A B ltac:(cbn; tauto) ltac:(cbn; tauto)) as [sAB oAB].
    destruct (Hc B C ltac:(cbn; tauto) ltac:(cbn; tauto)) as [sBC oBC].
    destruct (Hc A C ltac:(cbn; tauto) ltac:(cbn; tauto)) as [sAC oAC].
    destruct (same_delim A B && same_delim B C) eqn:D1.
    2:{ unfold break_ties_three. rewrite D1. cbn [andb].
        assert (D2 : same_delim A' B' && same_delim B' C' = false).
        { destruct (same_delim A' B' && same_delim B' C') eqn:K; [|reflexivity].
          rewrite <- D1. symmetry. apply conj_delim. apply conj_delim in K as [K1 K2].
          destruct Hs as [(-> & -> & ->)|(-> & -> & ->)]; split; congruence. }
        rewrite D2. reflexivity. }
    assert (D1' := proj1 (conj_delim A B C) D1). destruct D1' as [dAB dBC].
    assert (D2 : same_delim A' B' && same_delim B' C' = true).
    { apply conj_delim. destruct Hs as [(-> & -> & ->)|(-> & -> & ->)]; split; congruence. }
    destruct (same_escape A B && same_escape B C) eqn:E1.
    - assert (E1' := proj1 (conj_escape A B C) E1). destruct E1' as [eAB eBC].
      rewrite (three_closed limit data o1 o1_perm A B C pA pB pC) by assumption.
      assert (QAB := quotes_differ A B dAB eAB sAB nAB).
      assert (QBC := quotes_differ B C dBC eBC sBC nBC).
      assert (QAC := quotes_differ A C (eq_trans dAB dBC) (eq_trans eAB eBC) (eq_trans sAB sBC) nAC).
      destruct Hs as [(-> & -> & ->)|(-> & -> & ->)].
      + rewrite (three_closed limit data o2 o2_perm B A C pB pA pC) by congruence.
        replace (table_eqb pB pA && table_eqb pA pC) with (table_eqb pA pB && table_eqb pB pC)
          by (apply bool_ext; rewrite !conj_table; intuition congruence).
        destruct (table_eqb pA pB && table_eqb pB pC); [|reflexivity]. unfold the_unquoted. cbn [find]. f_equal.
        destruct (is_str (sd_quotechar A) []); [now rewrite (QAB eq_refl)|]. reflexivity.
      + rewrite (three_closed limit data o2 o2_perm A C B pA pC pB) by congruence.
        replace (table_eqb pA pC && table_eqb pC pB) with (table_eqb pA pB && table_eqb pB pC)
          by (apply bool_ext; rewrite !conj_table; intuition congruence).
        destruct (table_eqb pA pB && table_eqb pB pC); [|reflexivity]. unfold the_unquoted. cbn [find]. f_equal.
        destruct (is_str (sd_quotechar A) []); [reflexivity|].
        destruct (is_str (sd_quotechar B) []); [now rewrite (QBC eq_refl)|reflexivity].
    - assert (E2 : same_escape A' B' && same_escape B' C' = false).
      { destruct (same_escape A' B' && same_escape B' C') eqn:K; [|reflexivity].
        rewrite <- E1. symmetry. apply conj_escape. apply conj_escape in K as [K1 K2].
        destruct Hs as [(-> & -> & ->)|(-> & -> & ->)]; split; congruence. }
      unfold break_ties_three. rewrite D1, D2, E1, E2. cbn [andb].
      destruct Hs as [(-> & -> & ->)|(-> & -> & ->)]; cbn [filter];
        destruct (is_str (sd_quotechar A) []), (is_str (sd_quotechar B) []), (is_str (sd_quotechar C) []);
        cbn [negb]; try reflexivity; now apply two_sym.
  Qed.
End Order.

Section Order2.
  Variable limit : Z.
  Variable data : str.

  Lemma compatible_perm ds es : Permutation es ds -> compatible limit data ds -> compatible limit data es.
  Proof. intros H. apply compatible_incl. intros x. now apply Permutation_in. Qed.

  Lemma three_perm o1 o2 A B C A' B' C' :
    (forall l, Permutation (o1 l) l) -> (forall l, Permutation (o2 l) l) ->
    NoDup [A; B; C] -> compatible limit data [A; B; C] -> Permutation [A'; B'; C'] [A; B; C] ->
    break_ties_three limit data o1 A B C = break_ties_three limit data o2 A' B' C'.
  Proof.
    intros H1 H2 Hn Hc Hp.
    (* reach the permutation by swaps *)
    assert (S1 : forall A B C, NoDup [A; B; C] -> compatible limit data [A; B; C] ->
      break_ties_three limit data o2 A B C = break_ties_three limit data o2 B A C).
    { intros a b c Ha Hb. apply three_swap; auto. }
    assert (S2 : forall A B C, NoDup [A; B; C] -> compatible limit data [A; B; C] ->
      break_ties_three limit data o2 A B C = break_ties_three limit data o2 A C B).
    { intros a b c Ha Hb. apply three_swap; auto. }
    assert (S0 : break_ties_three limit data o1 A B C = break_ties_three limit data o2 A B C).
    { rewrite (three_swap limit data o1 o2 H1 H2 A B C B A C) by auto.
      apply (three_swap limit data o2 o2 H2 H2 B A C A B C); auto.
      - apply (Permutation_NoDup (perm_swap B A [C])), Hn.
      - apply (compatible_perm [A; B; C]); [apply perm_swap|exact Hc]. }
    rewrite S0.
    assert (P : forall x y z, Permutation [x; y; z] [A; B; C] -> NoDup [x; y; z] /\ compatible limit data [x; y; z]).
    { intros x y z H. split; [apply (Permutation_NoDup (Permutation_sym H)), Hn|now apply (compatible_perm [A; B; C])]. }
    assert (W1 : forall x y z, Permutation [x; y; z] [A; B; C] ->
       break_ties_three limit data o2 x y z = break_ties_three limit data o2 y x z).
    { intros x y z H. apply S1; apply P, H. }
    assert (W2 : forall x y z, Permutation [x; y; z] [A; B; C] ->
       break_ties_three limit data o2 x y z = break_ties_three limit data o2 x z y).
    { intros x y z H. apply S2; apply P, H. }
    assert (IA : In A' [A; B; C]) by (apply (Permutation_in _ Hp); cbn; auto).
    destruct IA as [<-|[<-|[<-|[]]]].
    - apply Permutation_cons_inv in Hp.
      assert (IB : In B' [B; C]) by (apply (Permutation_in _ Hp); cbn; auto).
      destruct IB as [<-|[<-|[]]].
      + apply Permutation_cons_inv in Hp. apply Permutation_length_1 in Hp as ->. reflexivity.
      + assert (Hp' : Permutation [C'] [B]).
        { apply (Permutation_cons_inv (a := C)). rewrite Hp. apply perm_swap. }
        apply Permutation_length_1 in Hp' as ->. apply W2. apply Permutation_refl.
    - assert (Hp' : Permutation [B'; C'] [A; C]).
      { apply (Permutation_cons_inv (a := B)). rewrite Hp. apply perm_swap. }
      assert (IB : In B' [A; C]) by (apply (Permutation_in _ Hp'); cbn; auto).
      destruct IB as [<-|[<-|[]]].
      + apply Permutation_cons_inv in Hp'. apply Permutation_length_1 in Hp' as ->. apply W1. apply Permutation_refl.
      + assert (Hp'' : Permutation [C'] [A]).
        { apply (Permutation_cons_inv (a := C)). rewrite Hp'. apply perm_swap. }
        apply Permutation_length_1 in Hp'' as ->. rewrite (W1 A B C) by apply Permutation_refl.
        apply W2. apply perm_swap.
    - assert (Hp' : Permutation [B'; C'] [A; B]).
      { apply (Permutation_cons_inv (a := C)). rewrite Hp. apply (Permutation_app_comm [A; B] [C]). }
      assert (IB : In B' [A; B]) by (apply (Permutation_in _ Hp'); cbn; auto).
      assert (PAC : Permutation [A; C; B] [A; B; C]) by (apply perm_skip, perm_swap).
      assert (PBC : Permutation [B; C; A] [A; B; C]) by (apply (Permutation_app_comm [B; C] [A])).
      destruct IB as [<-|[<-|[]]].
      + apply Permutation_cons_inv in Hp'. apply Permutation_length_1 in Hp' as ->.
        rewrite (W2 A B C) by apply Permutation_refl. now apply W1.
      + assert (Hp'' : Permutation [C'] [A]).
        { apply (Permutation_cons_inv (a := B)). rewrite Hp'. apply perm_swap. }
        apply Permutation_length_1 in Hp'' as ->. rewrite (W1 A B C) by apply Permutation_refl.
        rewrite (W2 B A C) by apply perm_swap. now apply W1.
  Qed.

  Lemma reduce_perm o1 o2 ds : (forall l, Permutation (o1 l) l) -> (forall l, Permutation (o2 l) l) ->
    match reduce_pairwise limit data o1 ds, reduce_pairwise limit data o2 ds with
    | Ok (Some l1), Ok (Some l2) => Permutation l2 l1
    | Ok None, Ok None => True
    | Err e1, Err e2 => e1 = e2
    | _, _ => False
    end.
  Proof.
    intros H1 H2. unfold reduce_pairwise. destruct (negb (equal_delim ds)); [exact I|].
    destruct (equal_pairs limit data (pairwise ds)) as [eq|]; cbn [bind]; [|reflexivity].
    destruct (break_pairs limit data eq [] []) as [[new vis]|]; cbn [bind]; [|reflexivity].
    now rewrite H1, H2.
  Qed.

  Lemma tie_breaker_order o1 o2 ds : (forall l, Permutation (o1 l) l) -> (forall l, Permutation (o2 l) l) ->
    NoDup ds -> compatible limit data ds ->
    tie_breaker limit data o1 ds = tie_breaker limit data o2 ds.
  Proof.
    intros H1 H2 Hn Hc. unfold tie_breaker. destruct ds as [|a [|b [|c [|d [|e l]]]]]; try reflexivity.
    - apply three_perm; auto.
    - unfold break_ties_four. destruct (negb _); [reflexivity|].
      pose proof (reduce_perm o1 o2 [a; b; c; d] H1 H2) as HR.
      destruct (reduce_ok limit data o1 H1 [a; b; c; d]) as (r & E & Hr).
      { apply Forall_forall. apply Hc. }
      rewrite E in HR |- *. cbn [bind]. destruct (reduce_pairwise limit data o2 [a; b; c; d]) as [r'|]; [|now destruct r].
      cbn [bind]. destruct r as [l1|], r' as [l2|]; try tauto. destruct Hr as [Hi Hnd].
      pose proof (Permutation_length HR) as HL. assert (Hc1 := compatible_incl limit data _ _ Hi Hc).
      destruct l1 as [|x [|y [|z [|w l1]]]], l2 as [|x' [|y' [|z' [|w' l2]]]]; try discriminate HL; try reflexivity.
      + now apply Permutation_length_1 in HR as ->.
      + apply Permutation_length_2 in HR as [[-> ->]|[-> ->]]; [reflexivity|].
        destruct Hc1 as [_ Hc1]. destruct (Hc1 x y) as [? ?]; [cbn; auto..|]. now apply two_sym.
      + now apply three_perm.
  Qed.
End Order2.
