(** * NormalRows: rows and forms (C40) *)
From Coq Require Import String.
From Verif Require Import Base Parser Dialect Potential SpecPotential PotentialFacts MaskedFacts SpecTies TieRules
  SpecText LayoutMore NormalForm SpecNormal NormalFacts.

(** ** Splitting a row *)
Lemma occ_app q a b : occurrences q (a ++ b) = occurrences q a + occurrences q b.
Proof. apply count_occ_app. Qed.
Lemma occ_cons q c s : occurrences q (c :: s) = (if (c =? q)%N then 1 else 0) + occurrences q s.
Proof.
  unfold occurrences. cbn [count_occ]. destruct (N.eqb_spec c q) as [->|H].
  - destruct (N.eq_dec q q); [reflexivity|congruence].
  - destruct (N.eq_dec c q); [congruence|reflexivity].
Qed.
Lemma xorb_negb_l a b : xorb (negb a) b = xorb a (negb b).
Proof. now destruct a, b. Qed.
Lemma odd_occ_cons q c s : Nat.odd (occurrences q (c :: s)) = xorb (c =? q)%N (Nat.odd (occurrences q s)).
Proof.
  rewrite occ_cons. destruct (c =? q)%N; cbn [Nat.add]; [|now destruct (Nat.odd _)].
  rewrite Nat.odd_succ, <- Nat.negb_odd. now destruct (Nat.odd _).
Qed.
Lemma ins_app q d a : forall inq b,
  ins q d inq (a ++ b) = ins q d inq a && ins q d (xorb inq (Nat.odd (occurrences q a))) b.
Proof.
  induction a as [|c a IH]; intros inq b; [cbn; now destruct inq|].
  cbn [app ins]. rewrite odd_occ_cons. destruct (c =? q)%N.
  - rewrite IH. now rewrite !xorb_negb_l.
  - rewrite IH, andb_assoc. now rewrite xorb_false_l.
Qed.
Lemma ins_inside q d s : d <> q -> ins q d false s = true <-> always_inside q d s.
Proof. intros H. rewrite (ins_spec q d H). unfold always_inside, inside. split; intros K k Hk; specialize (K k Hk); now rewrite ?xorb_false_l in *. Qed.
Lemma even_spec q s : even_quotes q s <-> Nat.odd (occurrences q s) = false.
Proof. unfold even_quotes. rewrite <- Nat.negb_odd. destruct (Nat.odd _); cbn; intuition congruence. Qed.

Section Row.
Variables d q : N.
Hypothesis Hdq : d <> q.

Lemma loop_cons cells cur inq c row : split_row_loop [d] [q] cells cur inq (c :: row) =
  if (c =? d)%N && negb inq then split_row_loop [d] [q] (cells ++ [cur]) [] inq row
  else split_row_loop [d] [q] cells (cur ++ [c]) (xorb (c =? q)%N inq) row.
Proof.
  cbn [split_row_loop]. rewrite (is_char_one c d), (is_char_one c q). destruct ((c =? d)%N && negb inq); [reflexivity|].
  destruct (c =? q)%N, inq; reflexivity.
Qed.
Lemma loop_seg c : forall inq cur cells rest, ins q d inq c = true ->
  split_row_loop [d] [q] cells cur inq (c ++ rest) =
  split_row_loop [d] [q] cells (cur ++ c) (xorb inq (Nat.odd (occurrences q c))) rest.
Proof.
  induction c as [|x c IH]; intros inq cur cells rest H.
  - cbn. now rewrite app_nil_r, xorb_false_r.
  - cbn [app]. rewrite loop_cons, odd_occ_cons. cbn [ins] in H.
    assert (E : ((x =? d)%N && negb inq = false) /\ ins q d (xorb (x =? q)%N inq) c = true).
    { destruct (N.eqb_spec x q) as [->|Hx].
      - rewrite (proj2 (N.eqb_neq q d)) by congruence. split; [reflexivity|]. now destruct inq.
      - apply andb_true_iff in H as [H1 H2]. split; [|now destruct inq].
        destruct (x =? d)%N, inq; cbn in *; congruence. }
    destruct E as [-> E]. rewrite IH by exact E. rewrite <- app_assoc. cbn [app]. f_equal.
    destruct (x =? q)%N, inq, (Nat.odd _); reflexivity.
Qed.
Lemma last_cons2 {A} (x y : A) l dd : List.last (x :: y :: l) dd = List.last (y :: l) dd.
Proof. reflexivity. Qed.
Lemma loop_join cs : forall pre (extra : bool), cs <> [] -> Forall (fun c => c <> []) cs ->
  Forall (fun c => ins q d false c = true) cs -> Forall (even_quotes q) (removelast cs) ->
  (extra = true -> even_quotes q (List.last cs [])) ->
  split_row_loop [d] [q] pre [] false (join [d] cs ++ (if extra then [d] else [])) = pre ++ cs.
Proof.
  induction cs as [|c [|c' cs] IH]; intros pre extra Hne H0 H1 H2 H3; [congruence| |].
  - inversion H0; inversion H1; subst. change (join [d] [c]) with c. rewrite loop_seg by assumption.
    destruct extra.
    + specialize (H3 eq_refl). cbn in H3. apply even_spec in H3. rewrite H3. rewrite loop_cons, N.eqb_refl. cbn.
      reflexivity.
    + cbn. destruct c; [congruence|reflexivity].
  - inversion H0; inversion H1; subst. rewrite join_cons by discriminate.
    cbn [removelast] in H2. apply Forall_cons_iff in H2 as [H2 H2'].
    rewrite <- app_assoc, loop_seg by assumption. apply even_spec in H2. rewrite H2. cbn [xorb app].
    rewrite loop_cons, N.eqb_refl. cbn [negb andb]. rewrite IH; auto; [|discriminate].
    now rewrite <- app_assoc.
Qed.
Lemma loop_spec row : forall cur cells inq, inq = Nat.odd (occurrences q cur) -> ins q d false cur = true ->
  exists cs, split_row_loop [d] [q] cells cur inq row = cells ++ cs /\
    Forall (fun c => ins q d false c = true) cs /\ Forall (even_quotes q) (removelast cs) /\
    ((cs = [] /\ cur ++ row = []) \/
     (cs <> [] /\ (cur ++ row = join [d] cs \/
       (even_quotes q (List.last cs []) /\ cur ++ row = join [d] cs ++ [d])))).
Proof.
  induction row as [|c row IH]; intros cur cells inq Hi Hc.
  - cbn. destruct cur as [|x cur].
    + exists []. rewrite app_nil_r. cbn. repeat split; auto; constructor.
    + exists [x :: cur]. cbn. rewrite app_nil_r. repeat split; auto. right. split; [discriminate|auto].
  - rewrite loop_cons. destruct ((c =? d)%N && negb inq) eqn:E.
    + apply andb_true_iff in E as [E1 E2]. apply N.eqb_eq in E1 as ->. apply negb_true_iff in E2.
      assert (Ev : even_quotes q cur) by (apply even_spec; congruence).
      destruct (IH [] (cells ++ [cur]) inq) as (cs & H1 & H2 & H3 & H4); [cbn; congruence|reflexivity|].
      exists (cur :: cs). rewrite <- app_assoc in H1. split; [exact H1|]. split; [now constructor|].
      destruct H4 as [[-> H4]|[Hne H4]].
      * cbn in H4. subst row. split; [constructor|]. right. split; [discriminate|]. right. split; [exact Ev|].
        reflexivity.
      * destruct cs as [|c' cs]; [congruence|]. split; [cbn [removelast]; constructor; assumption|].
        right. split; [discriminate|]. rewrite join_cons by discriminate. cbn [app] in H4.
        destruct H4 as [->|[H5 ->]]; [left; reflexivity|]. right. split; [rewrite last_cons2; exact H5|].
        cbn [app]. now rewrite <- app_assoc.
    + destruct (IH (cur ++ [c]) cells (xorb (c =? q)%N inq)) as (cs & H1 & H2 & H3 & H4).
      * rewrite occ_app, Nat.odd_add, <- Hi, odd_occ_cons. cbn. now rewrite xorb_false_r, xorb_comm.
      * rewrite ins_app, Hc, xorb_false_l, <- Hi. cbn [andb ins]. destruct (c =? q)%N; [reflexivity|].
        rewrite andb_true_r. destruct (c =? d)%N, inq; cbn in *; congruence.
      * exists cs. rewrite <- app_assoc in H4. now repeat split.
Qed.

Lemma ins_no_quote s : ~ In q s -> ins q d false s = true <-> ~ In d s.
Proof.
  induction s as [|c s IH]; intros Hq; [cbn; tauto|]. cbn [ins].
  rewrite (proj2 (N.eqb_neq c q)) by (intros ->; apply Hq; now left).
  rewrite orb_false_r, andb_true_iff, IH by (intros H; apply Hq; now right).
  destruct (N.eqb_spec c d) as [->|Hc]; cbn; intuition congruence.
Qed.
Lemma in_join x c : forall cs : list str, In c cs -> In x c -> In x (join [d] cs).
Proof.
  induction cs as [|a [|b cs] IH]; intros H Hx; [destruct H| |].
  - destruct H as [->|[]]. exact Hx.
  - rewrite join_cons by discriminate. apply in_app_iff. destruct H as [->|H]; [now left|].
    right. right. now apply IH.
Qed.
Lemma in_join_inv x : x <> d -> forall cs : list str, In x (join [d] cs) -> exists c, In c cs /\ In x c.
Proof.
  intros Hx. induction cs as [|a [|b cs] IH]; intros H; [destruct H| |].
  - exists a. split; [now left|exact H].
  - rewrite join_cons in H by discriminate. apply in_app_iff in H as [H|[H|H]]; [exists a; auto using in_eq|congruence|].
    destruct (IH H) as (c & H1 & H2). exists c. split; [now right|exact H2].
Qed.
Lemma not_in_forall (s : str) : ~ In d s <-> Forall (fun c => (c =? d)%N = false) s.
Proof.
  rewrite Forall_forall. split.
  - intros H c Hc. apply N.eqb_neq. intros ->. now apply H.
  - intros H Hd. specialize (H d Hd). now rewrite N.eqb_refl in H.
Qed.
Lemma split_at_iff (l : str) (cells : list str) : (l = join [d] cells /\ cells <> [] /\ Forall (fun c => ~ In d c) cells) <->
  split_at d [] l = cells.
Proof.
  split.
  - intros (-> & Hne & H). apply split_join; [exact Hne|]. eapply Forall_impl; [|exact H]. intros c. apply not_in_forall.
  - intros <-. rewrite <- split_one. destruct (split_spec [d] l) as [H1 H2]; [discriminate|].
    split; [now symmetry|]. split; [apply split_aux_nonempty|]. eapply Forall_impl; [|exact H2].
    cbn. intros c Hc Hd. apply Hc. apply contains_substring, contains_one, Hd.
Qed.

(** The cells found are exactly those at delimiters outside of quotes. *)
Lemma split_row_iff l cells : cells <> [] -> Forall (fun c => c <> []) cells ->
  cells_at d q l cells <-> split_row l [d] [q] = cells.
Proof.
  intros Hne H0. unfold split_row. cbn [str_eqb list_eqb orb].
  assert (Hi : forall cs, Forall (always_inside q d) cs <-> Forall (fun c => ins q d false c = true) cs).
  { intros cs. rewrite !Forall_forall. split; intros H c Hc; apply (ins_inside q d c Hdq); auto. }
  destruct (contains [q] l) eqn:E; cbn [negb].
  - apply contains_one in E. unfold cells_at. rewrite Hi. split.
    + intros (H1 & H2 & H3). destruct H3 as [H3|(_ & H3 & H4)].
      * rewrite H3. rewrite <- (app_nil_r (join [d] cells)). apply (loop_join cells [] false); auto. discriminate.
      * rewrite H4. apply (loop_join cells [] true); auto.
    + intros H. destruct (loop_spec l [] [] false) as (cs & H1 & H2 & H3 & H4); [reflexivity|reflexivity|].
      cbn [app] in H1, H4. rewrite H in H1. subst cs.
      split; [exact H2|]. split; [exact H3|]. destruct H4 as [[H4 _]|[_ [H4|H4]]]; [now elim Hne|now left|right].
      tauto.
  - assert (Hq : ~ In q l) by (rewrite <- contains_one; congruence). clear E.
    change (py_split [d] l) with (py_split [d] l). rewrite split_one, <- split_at_iff. unfold cells_at. rewrite Hi.
    split.
    + intros (H1 & H2 & H3). destruct H3 as [->|(H3 & _)]; [|tauto]. split; [reflexivity|]. split; [exact Hne|].
      rewrite Forall_forall in *. intros c Hc. apply ins_no_quote; [|now apply H1].
      intros K. apply Hq. now apply (in_join q c).
    + intros (-> & _ & H). rewrite Forall_forall in H.
      assert (K : forall c, In c cells -> ~ In q c) by (intros c Hc K; apply Hq; now apply (in_join q c)).
      split.
      * apply Forall_forall. intros c Hc. apply ins_no_quote; auto.
      * split; [|now left]. apply Forall_forall. intros c Hc. unfold even_quotes, occurrences.
        rewrite (proj1 (count_occ_not_In N.eq_dec c q)); [reflexivity|]. apply K.
        clear - Hc. induction cells as [|x [|y l] IH]; [destruct Hc|destruct Hc|]. cbn [removelast] in Hc.
        destruct Hc as [->|Hc]; [now left|right; now apply IH].
Qed.
Lemma join_has_delim cells : 2 <= List.length cells -> contains [d] (join [d] cells) = true.
Proof.
  destruct cells as [|a [|b cells]]; cbn [List.length]; [lia|lia|]. intros _. rewrite join_cons by discriminate.
  apply contains_one, in_app_iff. right. now left.
Qed.
Lemma contains_app_l p a b : contains p a = true -> contains p (a ++ b) = true.
Proof. rewrite !contains_substring. intros (x & y & ->). exists x, (y ++ b). now rewrite !app_assoc. Qed.
Lemma split_row_facts Q l : Q = [] \/ Q = [q] ->
  (2 <= List.length (split_row l [d] Q) -> contains [d] l = true) /\
  (contains [d] l = true -> split_row l [d] Q <> []).
Proof.
  intros HQ. unfold split_row.
  assert (K : (2 <= List.length (py_split [d] l) -> contains [d] l = true) /\ (contains [d] l = true -> py_split [d] l <> [])).
  { destruct (split_spec [d] l) as [H1 H2]; [discriminate|]. split; [|intros _; apply split_aux_nonempty].
    intros H. rewrite <- H1. now apply join_has_delim. }
  destruct HQ as [->| ->]; [exact K|]. cbn [str_eqb list_eqb orb].
  destruct (contains [q] l); cbn [negb]; [|exact K]. clear K.
  destruct (loop_spec l [] [] false) as (cs & H1 & H2 & H3 & H4); [reflexivity|reflexivity|].
  rewrite H1. cbn [app] in *. split.
  - intros H. destruct H4 as [[-> _]|[_ [->|[_ ->]]]]; [cbn in H; lia|now apply join_has_delim|].
    apply contains_app_l. now apply join_has_delim.
  - intros H K. destruct H4 as [[_ ->]|[H4 _]]; [discriminate|congruence].
Qed.

(** ** Rectangles *)
Lemma rectangle Q (p : str -> bool) rows : Q = [] \/ Q = [q] ->
  every_row_same_length rows [d] Q && forallb (fun row =>
    negb (Nat.eqb (List.length (split_row row [d] Q)) 1) && forallb p (split_row row [d] Q)) rows = true <->
  rectangular rows (fun l cells => split_row l [d] Q = cells /\ Forall (fun c => p c = true) cells).
Proof.
  intros HQ. unfold rectangular. rewrite andb_true_iff. split.
  - intros [H1 H2]. destruct rows as [|r0 rows]; [discriminate|]. split; [discriminate|].
    unfold every_row_same_length in H1. rewrite forallb_forall in H1, H2.
    exists (List.length (split_row r0 [d] Q)). split.
    + specialize (H1 r0 (or_introl eq_refl)). specialize (H2 r0 (or_introl eq_refl)).
      apply andb_true_iff in H1 as [H1 _]. apply andb_true_iff in H2 as [H2 _].
      destruct (split_row_facts Q r0 HQ) as [_ F]. specialize (F H1).
      apply negb_true_iff, Nat.eqb_neq in H2. destruct (split_row r0 [d] Q) as [|a [|b s]]; cbn in *; try lia; congruence.
    + apply Forall_forall. intros l Hl. exists (split_row l [d] Q). specialize (H1 l Hl). specialize (H2 l Hl).
      apply andb_true_iff in H1 as [_ H1]. apply andb_true_iff in H2 as [_ H2]. apply Nat.eqb_eq in H1.
      split; [exact H1|]. split; [reflexivity|]. apply Forall_forall. now apply forallb_forall.
  - intros (Hne & n & Hn & H). rewrite Forall_forall in H.
    assert (K : forall l, In l rows -> List.length (split_row l [d] Q) = n /\ Forall (fun c => p c = true) (split_row l [d] Q)).
    { intros l Hl. destruct (H l Hl) as (cells & H1 & <- & H2). now split. }
    split.
    + destruct rows as [|r0 rows]; [congruence|]. unfold every_row_same_length. apply forallb_forall. intros l Hl.
      destruct (K l Hl) as [K1 _]. destruct (K r0 (or_introl eq_refl)) as [K0 _]. rewrite K1, K0, Nat.eqb_refl, andb_true_r.
      apply (split_row_facts Q l HQ). lia.
    + apply forallb_forall. intros l Hl. destruct (K l Hl) as [K1 K2]. rewrite K1. apply andb_true_iff. split.
      * apply negb_true_iff, Nat.eqb_neq. lia.
      * apply forallb_forall. now apply Forall_forall.
Qed.
End Row.
Lemma rectangular_ext rows (P Q : str -> list str -> Prop) :
  (forall l cells, 2 <= List.length cells -> In l rows -> P l cells <-> Q l cells) -> rectangular rows P <-> rectangular rows Q.
Proof.
  intros H. unfold rectangular. split; intros (Hne & n & Hn & K); (split; [exact Hne|]); exists n; (split; [exact Hn|]);
    rewrite Forall_forall in *; intros l Hl; destruct (K l Hl) as (cells & K1 & K2); exists cells; (split; [exact K1|]);
    apply H; auto; lia.
Qed.

(** ** Characters *)
Lemma ascii_classes : forallb (fun c => Bool.eqb (elementary_char c) (mem_char c elementary) &&
  Bool.eqb (word_char c) (mem_char c word) && Bool.eqb (word_space_char c) (mem_char c (SPACE :: word)))
  (map N.of_nat (seq 0 128)) = true.
Proof. vm_compute. reflexivity. Qed.
Lemma high_classes c : (128 <= c)%N -> elementary_char c = false /\ word_char c = false /\ word_space_char c = false.
Proof.
  intros H. unfold elementary_char, word_char, word_space_char, letter_digit.
  replace (c <=? 122)%N with false by (symmetry; apply N.leb_gt; lia).
  replace (c <=? 90)%N with false by (symmetry; apply N.leb_gt; lia).
  replace (c <=? 57)%N with false by (symmetry; apply N.leb_gt; lia).
  rewrite !andb_false_r. cbn [orb].
  assert (K : forall A, forallb (fun x => (x <? 128)%N) A = true -> mem_char c A = false).
  { intros A HA. apply not_true_iff_false. intros HM. unfold mem_char in HM. apply existsb_exists in HM as (x & Hx & E).
    apply N.eqb_eq in E as <-. rewrite forallb_forall in HA. specialize (HA _ Hx). apply N.ltb_lt in HA. lia. }
  repeat split; apply K; reflexivity.
Qed.
Lemma mem_char_in c A : mem_char c A = true <-> In c A.
Proof.
  unfold mem_char. rewrite existsb_exists. split.
  - intros (x & Hx & E). apply N.eqb_eq in E as <-. exact Hx.
  - intros H. exists c. split; [exact H|apply N.eqb_refl].
Qed.
Lemma classes c : (elementary_char c = true <-> In c elementary) /\ (word_char c = true <-> In c word) /\
  (word_space_char c = true <-> In c (SPACE :: word)).
Proof.
  destruct (N.lt_ge_cases c 128) as [H|H].
  - assert (K := ascii_classes). rewrite forallb_forall in K. specialize (K c).
    assert (In c (map N.of_nat (seq 0 128))).
    { apply in_map_iff. exists (N.to_nat c). split; [apply N2Nat.id|]. apply in_seq. lia. }
    specialize (K H0). apply andb_true_iff in K as [K K3]. apply andb_true_iff in K as [K1 K2].
    apply Bool.eqb_prop in K1, K2, K3. rewrite K1, K2, K3, !mem_char_in. tauto.
  - destruct (high_classes c H) as (-> & -> & ->).
    assert (K : forall A, forallb (fun x => (x <? 128)%N) A = true -> ~ In c A).
    { intros A HA HM. rewrite forallb_forall in HA. specialize (HA _ HM). apply N.ltb_lt in HA. lia. }
    repeat split; try discriminate; intros HM; exfalso; revert HM; apply K; reflexivity.
Qed.
Lemma over_class A f s : (forall c, f c = true <-> In c A) -> forallb f s = true <-> over A s.
Proof. intros H. unfold over. rewrite forallb_forall, Forall_forall. split; intros K c Hc; apply H, K, Hc. Qed.
Lemma is_elementary_spec s : is_elementary s = true <-> s <> [] /\ over elementary s.
Proof.
  unfold is_elementary. destruct s as [|c s]; [split; [discriminate|intros [H _]; congruence]|].
  rewrite (over_class elementary) by apply classes. intuition discriminate.
Qed.
Lemma quote_not_elementary q : In q [39; 34]%N -> ~ In q elementary.
Proof.
  intros [<-|[<-|[]]] H; apply mem_char_in in H; vm_compute in H; discriminate.
Qed.

(** ** Quoted cells *)
Lemma is_quoted_spec q c : is_quoted_cell c [q] = true <-> exists s, c = quoted q s.
Proof.
  unfold is_quoted_cell, quoted. destruct (Nat.ltb_spec (List.length c) 2) as [H|H].
  - split; [discriminate|]. intros [s ->]. cbn in H. rewrite app_length in H. cbn in H. lia.
  - destruct c as [|x c]; [cbn in H; lia|]. unfold last_is. destruct (exists_last (l := c)) as (s & y & ->).
    { intros ->. cbn in H. lia. }
    cbn [rev]. rewrite rev_app_distr. cbn [rev app first_is]. rewrite !is_char_one, andb_true_iff, !N.eqb_eq.
    split; [intros [-> ->]; eauto|]. intros [s' E]. injection E as -> E. apply app_inj_tail in E as [_ ->]. auto.
Qed.
Lemma inner_quoted q s : inner (quoted q s) = s.
Proof. unfold inner, quoted. cbn [tl]. apply removelast_last. Qed.
Lemma quoted_inj q s s' : quoted q s = quoted q s' -> s = s'.
Proof. unfold quoted. intros H. injection H as H. now apply app_inj_tail in H. Qed.
Lemma is_empty_quoted_spec q c : is_empty_quoted c [q] = true <-> c = [q; q].
Proof.
  unfold is_empty_quoted. rewrite andb_true_iff, is_quoted_spec, Nat.eqb_eq. split.
  - intros [H [s ->]]. unfold quoted in *. cbn in H. rewrite app_length in H. cbn in H.
    destruct s; [reflexivity|cbn in H; lia].
  - intros ->. split; [reflexivity|]. exists []. reflexivity.
Qed.
Lemma str_eqb_nil (c : str) : is_empty_unquoted c = true <-> c = [].
Proof. unfold is_empty_unquoted, str_eqb. destruct c; cbn; intuition discriminate. Qed.
