(** * FillFacts: fill_empties computes the canonical pattern *)
From Verif Require Import Base Parser Dialect Abstraction SpecLayout SpecAbstraction.

(** Insert C between every adjacent [a], [b]. *)
Definition ins1 (a b c : N) (s : str) : str :=
  if (c =? a)%N && is_letter b (hd_error s) then [chC] else [].
Fixpoint ins (a b : N) (s : str) : str :=
  match s with
  | [] => []
  | c :: s' => c :: ins1 a b c s' ++ ins a b s'
  end.
Fixpoint cnt (a b : N) (s : str) : nat :=
  match s with
  | [] => 0
  | c :: s' => length (ins1 a b c s') + cnt a b s'
  end.

Lemma replace2_cons a b new c s : py_replace [a; b] new (c :: s) =
  if (c =? a)%N && is_letter b (hd_error s) then new ++ py_replace [a; b] new (tl s)
  else c :: py_replace [a; b] new s.
Proof.
  unfold py_replace at 1. cbn [py_replace_aux starts_with].
  rewrite (N.eqb_sym a c). destruct (c =? a)%N; cbn [andb]; [|reflexivity].
  destruct s as [|c' s]; [reflexivity|]. cbn [is_letter hd_error]. rewrite (N.eqb_sym b c').
  destruct (c' =? b)%N; reflexivity.
Qed.
Lemma contains2_cons a b c s : contains [a; b] (c :: s) =
  ((c =? a)%N && is_letter b (hd_error s)) || contains [a; b] s.
Proof.
  cbn [contains starts_with]. rewrite (N.eqb_sym a c). f_equal. f_equal.
  destruct s as [|c' s]; [reflexivity|]. cbn. rewrite (N.eqb_sym b c'). now rewrite andb_true_r.
Qed.

Lemma hd_replace a b s : hd_error (py_replace [a; b] [a; chC; b] s) = hd_error s.
Proof.
  destruct s as [|c s]; [reflexivity|]. rewrite replace2_cons.
  destruct ((c =? a)%N && is_letter b (hd_error s)) eqn:E; [|reflexivity].
  apply andb_true_iff in E as [E _]. apply N.eqb_eq in E. now subst.
Qed.
Lemma hd_ins a b s : hd_error (ins a b s) = hd_error s.
Proof. destruct s; reflexivity. Qed.

Lemma ins1_hd a b c s t : hd_error s = hd_error t -> ins1 a b c s = ins1 a b c t.
Proof. intros H. unfold ins1. now rewrite H. Qed.

Lemma contains_cnt a b s : contains [a; b] s = negb (Nat.eqb (cnt a b s) 0).
Proof.
  induction s as [|c s IH]; [reflexivity|]. rewrite contains2_cons, IH. cbn [cnt]. unfold ins1.
  destruct ((c =? a)%N && is_letter b (hd_error s)); reflexivity.
Qed.

Lemma ins_id a b s : cnt a b s = 0 -> ins a b s = s.
Proof.
  induction s as [|c s IH]; [reflexivity|]. cbn [cnt ins]. intros H.
  destruct (ins1 a b c s) as [|x l]; [|cbn in H; lia]. cbn in H. cbn. now rewrite IH.
Qed.

Section Replace.
  Variables a b : N.
  Hypothesis Ha : (chC =? a)%N = false.
  Hypothesis Hb : (chC =? b)%N = false.

  Lemma ins1_aC t : ins1 a b a (chC :: t) = [].
  Proof. unfold ins1. cbn [hd_error is_letter]. now rewrite Hb, andb_false_r. Qed.
  Lemma ins1_C t : ins1 a b chC t = [].
  Proof. unfold ins1. now rewrite Ha. Qed.
  Lemma ins1_ab t : ins1 a b a (b :: t) = [chC].
  Proof. unfold ins1. cbn [hd_error is_letter]. now rewrite !N.eqb_refl. Qed.

  Lemma cnt_replace_le : forall n s, length s <= n ->
    cnt a b (py_replace [a; b] [a; chC; b] s) <= cnt a b s /\
    (cnt a b s <> 0 -> cnt a b (py_replace [a; b] [a; chC; b] s) < cnt a b s).
  Proof.
    induction n as [|n IH]; intros s Hn.
    - destruct s; [|cbn in Hn; lia]. cbn. lia.
    - destruct s as [|c s]; [cbn; lia|]. cbn in Hn. rewrite replace2_cons.
      destruct ((c =? a)%N && is_letter b (hd_error s)) eqn:E.
      + destruct s as [|c' s]; [rewrite andb_comm in E; discriminate|].
        apply andb_true_iff in E as [E1 E2]. cbn in E2. apply N.eqb_eq in E1, E2. subst c c'.
        destruct (IH s ltac:(cbn in Hn; lia)) as [L _]. cbn [tl app cnt].
        rewrite ins1_aC, ins1_C, ins1_ab. cbn [length Nat.add].
        rewrite (ins1_hd a b b _ s (hd_replace a b s)). lia.
      + destruct (IH s ltac:(lia)) as [L L']. cbn [cnt].
        rewrite (ins1_hd a b c _ s (hd_replace a b s)). unfold ins1. rewrite E. cbn. lia.
  Qed.
  Lemma ins_replace : forall n s, length s <= n ->
    ins a b (py_replace [a; b] [a; chC; b] s) = ins a b s.
  Proof.
    induction n as [|n IH]; intros s Hn.
    - destruct s; [reflexivity|cbn in Hn; lia].
    - destruct s as [|c s]; [reflexivity|]. cbn in Hn. rewrite replace2_cons.
      destruct ((c =? a)%N && is_letter b (hd_error s)) eqn:E.
      + destruct s as [|c' s]; [rewrite andb_comm in E; discriminate|].
        apply andb_true_iff in E as [E1 E2]. cbn in E2. apply N.eqb_eq in E1, E2. subst c c'.
        cbn [tl app ins]. rewrite ins1_aC, ins1_C, ins1_ab. cbn [app].
        rewrite (ins1_hd a b b _ s (hd_replace a b s)), IH by (cbn in Hn; lia). reflexivity.
      + cbn [ins]. rewrite (ins1_hd a b c _ s (hd_replace a b s)), IH by lia. reflexivity.
  Qed.
  Lemma while_ins : forall fuel s, cnt a b s <= fuel ->
    replace_while fuel [a; b] [a; chC; b] s = Some (ins a b s).
  Proof.
    induction fuel as [|f IH]; intros s H; cbn [replace_while]; rewrite contains_cnt.
    - replace (cnt a b s) with 0 by lia. cbn. now rewrite ins_id by lia.
    - destruct (Nat.eqb_spec (cnt a b s) 0) as [E|E]; cbn [negb].
      + now rewrite ins_id.
      + destruct (cnt_replace_le _ s (le_n _)) as [_ L]. specialize (L E).
        rewrite IH by lia. f_equal. eapply ins_replace, le_n.
  Qed.
  Lemma cnt_length s : cnt a b s <= length s.
  Proof.
    induction s as [|c s IH]; [cbn; lia|]. cbn [cnt length]. unfold ins1.
    destruct (_ && _); cbn; lia.
  Qed.
  Lemma while_ok s : replace_while (S (length s)) [a; b] [a; chC; b] s = Some (ins a b s).
  Proof. apply while_ins. pose proof (cnt_length s). lia. Qed.
End Replace.

(** The three insertions at once. *)
Definition need3 (c : N) (n : option N) : bool :=
  ((c =? chD)%N && (is_letter chD n || is_letter chR n)) || ((c =? chR)%N && is_letter chD n).
Fixpoint ins3 (s : str) : str :=
  match s with
  | [] => []
  | c :: s' => c :: (if need3 c (hd_error s') then [chC] else []) ++ ins3 s'
  end.
Lemma ins_ins_ins s : ins chR chD (ins chD chR (ins chD chD s)) = ins3 s.
Proof.
  induction s as [|c s IH]; [reflexivity|].
  assert (H1 : ins1 chD chD c s = if (c =? chD)%N && is_letter chD (hd_error s) then [chC] else []) by reflexivity.
  assert (H2 : ins1 chD chR c (ins chD chD s) = if (c =? chD)%N && is_letter chR (hd_error s) then [chC] else []).
  { unfold ins1. now rewrite hd_ins. }
  assert (H3 : ins1 chR chD c (ins chD chR (ins chD chD s)) = if (c =? chR)%N && is_letter chD (hd_error s) then [chC] else []).
  { unfold ins1. now rewrite !hd_ins. }
  cbn [ins3]. rewrite <- IH. clear IH. unfold need3.
  change (ins chD chD (c :: s)) with (c :: ins1 chD chD c s ++ ins chD chD s). rewrite H1. clear H1.
  destruct ((c =? chD)%N && is_letter chD (hd_error s)) eqn:E1.
  - apply andb_true_iff in E1 as [E1 E1']. apply N.eqb_eq in E1. subst c. rewrite E1'. reflexivity.
  - cbn [app]. change (ins chD chR (c :: ins chD chD s)) with
      (c :: ins1 chD chR c (ins chD chD s) ++ ins chD chR (ins chD chD s)). rewrite H2. clear H2.
    destruct ((c =? chD)%N && is_letter chR (hd_error s)) eqn:E2.
    + apply andb_true_iff in E2 as [E2 E2']. apply N.eqb_eq in E2. subst c. rewrite E2', orb_true_r. reflexivity.
    + cbn [app]. change (ins chR chD (c :: ins chD chR (ins chD chD s))) with
        (c :: ins1 chR chD c (ins chD chR (ins chD chD s)) ++ ins chR chD (ins chD chR (ins chD chD s))).
      rewrite H3. rewrite andb_orb_distrib_r, E1, E2. reflexivity.
Qed.

Lemma hd_ins3 s : hd_error (ins3 s) = hd_error s.
Proof. destruct s; reflexivity. Qed.
Lemma squeeze_cons c s : squeeze_c (c :: s) =
  if (c =? chC)%N && is_letter chC (hd_error s) then squeeze_c s else c :: squeeze_c s.
Proof. destruct s as [|c' s]; cbn; [now rewrite andb_false_r|reflexivity]. Qed.
Lemma hd_squeeze s : hd_error (squeeze_c s) = hd_error s.
Proof.
  induction s as [|c s IH]; [reflexivity|]. rewrite squeeze_cons.
  destruct ((c =? chC)%N && is_letter chC (hd_error s)) eqn:E; [|reflexivity].
  apply andb_true_iff in E as [E1 E2]. rewrite IH. destruct s as [|c' s]; [discriminate|].
  cbn in E2 |- *. apply N.eqb_eq in E1, E2. congruence.
Qed.

Definition ends_d (s : str) : str := if ends_with [chD] s then [chC] else [].
Lemma ends_d_cons c s : s <> [] -> ends_d (c :: s) = ends_d s.
Proof.
  intros H. unfold ends_d, ends_with. cbn [rev]. destruct (rev s) as [|x l] eqn:E.
  - exfalso. apply H. rewrite <- (rev_involutive s), E. reflexivity.
  - reflexivity.
Qed.

Lemma squeeze_ins3 s : squeeze_c (ins3 s) ++ ends_d (squeeze_c (ins3 s)) = canon_from s.
Proof.
  induction s as [|c s IH]; [reflexivity|]. cbn [ins3 canon_from].
  assert (Hne : s <> [] -> squeeze_c (ins3 s) <> []).
  { intros H E. apply (f_equal (@hd_error N)) in E. rewrite hd_squeeze, hd_ins3 in E. destruct s; [now apply H|discriminate]. }
  destruct (need3 c (hd_error s)) eqn:En.
  - assert (Hc : (c =? chC)%N = false).
    { unfold need3 in En. apply orb_true_iff in En as [En|En]; apply andb_true_iff in En as [En _];
        apply N.eqb_eq in En; subst c; reflexivity. }
    assert (Hn : needs c (hd_error s) = true).
    { unfold need3 in En. unfold needs. apply orb_true_iff in En as [En|En]; rewrite ?En; rewrite ?orb_true_r; auto.
      apply andb_true_iff in En as [E1 E2]. rewrite E1, E2. reflexivity. }
    assert (Hs : s <> []).
    { intros ->. unfold need3 in En. cbn in En. rewrite !andb_false_r in En. discriminate. }
    assert (Hh : is_letter chC (hd_error s) = false).
    { unfold need3 in En. destruct s as [|c' s]; [reflexivity|]. cbn in *.
      destruct (N.eqb_spec c' chC) as [->|]; [|reflexivity].
      cbn in En. rewrite !andb_false_r in En. discriminate. }
    rewrite Hc, Hn. cbn [andb app]. rewrite squeeze_cons, Hc. cbn [andb]. rewrite squeeze_cons, hd_ins3, Hh, andb_false_r.
    rewrite !ends_d_cons; [|now apply Hne|discriminate]. rewrite <- IH. reflexivity.
  - cbn [app]. rewrite squeeze_cons, hd_ins3.
    destruct ((c =? chC)%N && is_letter chC (hd_error s)) eqn:E; [exact IH|].
    destruct s as [|c' s].
    + unfold needs, ends_d, ends_with. cbn [rev app starts_with hd_error is_letter orb andb squeeze_c ins3 canon_from]. rewrite andb_true_r, andb_false_r, orb_false_r, andb_true_r.
      rewrite (N.eqb_sym chD c). destruct (c =? chD)%N; reflexivity.
    + rewrite ends_d_cons by (apply Hne; discriminate). rewrite <- app_comm_cons, IH. f_equal.
      assert (needs c (hd_error (c' :: s)) = false) as ->; [|reflexivity].
      unfold need3 in En. unfold needs. cbn [hd_error] in *. now rewrite orb_false_r.
Qed.

Theorem fill_canonical s : fill_empties s = Some (canonical s).
Proof.
  unfold fill_empties. rewrite (while_ok chD chD), (while_ok chD chR), (while_ok chR chD) by reflexivity.
  rewrite ins_ins_ins. f_equal. unfold canonical.
  rewrite <- squeeze_ins3. generalize (hd_squeeze (ins3 s)). rewrite hd_ins3.
  generalize (squeeze_c (ins3 s)) as t. intros t Ht. rewrite <- Ht. clear Ht.
  assert (Hst : starts_with [chD] t = is_letter chD (hd_error t)).
  { destruct t; [reflexivity|]. cbn. now rewrite andb_true_r, N.eqb_sym. }
  rewrite Hst. destruct (is_letter chD (hd_error t)) eqn:E.
  - assert (ends_with [chD] (chC :: t) = ends_with [chD] t) as ->.
    { unfold ends_with. cbn [rev]. destruct (rev t) eqn:Er; [|reflexivity].
      rewrite <- (rev_involutive t), Er in E. discriminate. }
    unfold ends_d. destruct (ends_with [chD] t); cbn [app]; now rewrite ?app_nil_r.
  - cbn [app]. unfold ends_d. destruct (ends_with [chD] t); now rewrite ?app_nil_r.
Qed.

(** ** What canonical patterns look like *)
Lemma hd_canon_from s : hd_error (canon_from s) = hd_error s.
Proof.
  induction s as [|c s IH]; [reflexivity|]. cbn [canon_from].
  destruct ((c =? chC)%N && is_letter chC (hd_error s)) eqn:E; [|reflexivity].
  apply andb_true_iff in E as [E1 E2]. rewrite IH. destruct s as [|c' s]; [discriminate|].
  cbn in E2 |- *. apply N.eqb_eq in E1, E2. congruence.
Qed.
Lemma hd_canonical s : is_letter chD (hd_error (canonical s)) = false.
Proof.
  unfold canonical. destruct (is_letter chD (hd_error s)) eqn:E; [reflexivity|].
  cbn [app]. now rewrite hd_canon_from.
Qed.

(** [ab] does not occur. *)
Definition bad (a b : N) : bool :=
  ((a =? chC)%N && (b =? chC)%N) || need3 a (Some b).
Lemma canon_from_good a b : bad a b = true -> forall s, contains [a; b] (canon_from s) = false.
Proof.
  intros Hab. induction s as [|c s IH]; [reflexivity|]. cbn [canon_from].
  destruct ((c =? chC)%N && is_letter chC (hd_error s)) eqn:E; [exact IH|].
  destruct (needs c (hd_error s)) eqn:En; cbn [app]; rewrite !contains2_cons, IH; cbn [hd_error is_letter];
    rewrite ?hd_canon_from, orb_false_r.
  - (* c C next *)
    apply orb_false_iff. split.
    + destruct ((c =? a)%N && (chC =? b)%N) eqn:Eab; [|reflexivity]. exfalso.
      apply andb_true_iff in Eab as [E1 E2]. apply N.eqb_eq in E1, E2. subst a b.
      unfold bad, need3 in Hab. cbn in Hab. rewrite !andb_false_r, !orb_false_r, andb_true_r in Hab.
      apply N.eqb_eq in Hab. subst c. discriminate.
    + destruct ((chC =? a)%N && is_letter b (hd_error s)) eqn:Eab; [|reflexivity]. exfalso.
      apply andb_true_iff in Eab as [E1 E2]. apply N.eqb_eq in E1. subst a.
      destruct s as [|c' s]; [discriminate|]. cbn in E2. apply N.eqb_eq in E2. subst c'.
      unfold bad, need3 in Hab. cbn in Hab. rewrite orb_false_r in Hab. apply N.eqb_eq in Hab. subst b.
      unfold needs in En. cbn in En. rewrite !andb_false_r in En. discriminate.
  - destruct ((c =? a)%N && is_letter b (hd_error s)) eqn:Eab; [|reflexivity]. exfalso.
    apply andb_true_iff in Eab as [E1 E2]. apply N.eqb_eq in E1. subst a.
    destruct s as [|c' s]; [discriminate|]. cbn in E2. apply N.eqb_eq in E2. subst c'.
    unfold bad in Hab. cbn in E, En. rewrite E in Hab. cbn in Hab. unfold need3 in Hab. unfold needs in En.
    cbn [is_letter] in *. rewrite orb_false_r in En. congruence.
Qed.
Lemma canonical_good a b s : bad a b = true -> contains [a; b] (canonical s) = false.
Proof.
  intros Hab. unfold canonical. destruct (is_letter chD (hd_error s)) eqn:E; [|now apply canon_from_good].
  cbn [app]. rewrite contains2_cons, canon_from_good, orb_false_r, hd_canon_from by assumption.
  destruct s as [|c s]; [discriminate|]. cbn in E. apply N.eqb_eq in E. subst c. cbn [hd_error is_letter].
  destruct ((chC =? a)%N && (chD =? b)%N) eqn:Eab; [|reflexivity]. exfalso.
  apply andb_true_iff in Eab as [E1 E2]. apply N.eqb_eq in E1, E2. subst a b. discriminate.
Qed.
Lemma canon_from_end s : ends_with [chD] (canon_from s) = false.
Proof.
  induction s as [|c s IH]; [reflexivity|]. cbn [canon_from].
  destruct ((c =? chC)%N && is_letter chC (hd_error s)) eqn:E; [exact IH|].
  assert (Hc : forall x t, t <> [] -> ends_with [chD] (x :: t) = ends_with [chD] t).
  { intros x t Ht. unfold ends_with. cbn [rev]. destruct (rev t) as [|y l] eqn:Er; [|reflexivity].
    exfalso. apply Ht. now rewrite <- (rev_involutive t), Er. }
  destruct s as [|c' s].
  - unfold needs. cbn [hd_error is_letter orb canon_from]. rewrite andb_true_r, andb_false_r, orb_false_r.
    destruct (c =? chD)%N eqn:Ed; [reflexivity|]. unfold ends_with. cbn [rev app starts_with]. now rewrite N.eqb_sym, Ed.
  - assert (Hne : canon_from (c' :: s) <> []).
    { intros X. apply (f_equal (@hd_error N)) in X. rewrite hd_canon_from in X. discriminate. }
    destruct (needs c _); cbn [app].
    + rewrite !Hc; [exact IH|exact Hne|discriminate].
    + now rewrite Hc.
Qed.
Lemma canonical_end s : ends_with [chD] (canonical s) = false.
Proof.
  unfold canonical. destruct (is_letter chD (hd_error s)) eqn:E; [|apply canon_from_end].
  cbn [app]. unfold ends_with. cbn [rev]. pose proof (canon_from_end s) as H. unfold ends_with in H.
  destruct (rev (canon_from s)) as [|x l]; [reflexivity|exact H].
Qed.
Definition not_c (c : N) : bool := negb (c =? chC)%N.
Lemma canon_from_letters s : filter not_c (canon_from s) = filter not_c s.
Proof.
  induction s as [|c s IH]; [reflexivity|]. cbn [canon_from].
  destruct ((c =? chC)%N && is_letter chC (hd_error s)) eqn:E.
  - apply andb_true_iff in E as [E _]. cbn [filter]. unfold not_c at 2. rewrite E. exact IH.
  - cbn [filter]. rewrite filter_app, IH. destruct (needs _ _); reflexivity.
Qed.
Lemma canonical_letters s : filter not_c (canonical s) = filter not_c s.
Proof.
  unfold canonical. destruct (is_letter chD _); cbn [app filter not_c]; apply canon_from_letters.
Qed.

(** A string of that form is left alone. *)
Lemma canonical_id s :
  (forall a b, bad a b = true -> contains [a; b] s = false) ->
  is_letter chD (hd_error s) = false -> ends_with [chD] s = false -> canonical s = s.
Proof.
  intros Hb Hs He. unfold canonical. rewrite Hs. cbn [app]. clear Hs.
  induction s as [|c s IH]; [reflexivity|]. cbn [canon_from].
  assert (Hb' : forall a b, bad a b = true -> contains [a; b] s = false).
  { intros a b H. specialize (Hb a b H). rewrite contains2_cons in Hb. now apply orb_false_iff in Hb. }
  assert (Hp : forall x, hd_error s = Some x -> bad c x = false).
  { intros x Hx. destruct (bad c x) eqn:E; [|reflexivity]. specialize (Hb c x E).
    rewrite contains2_cons, Hx, N.eqb_refl in Hb. cbn in Hb. now rewrite N.eqb_refl in Hb. }
  destruct s as [|c' s].
  - unfold needs. cbn [hd_error is_letter orb canon_from]. rewrite !andb_false_r, !orb_false_r, andb_true_r.
    unfold ends_with in He. cbn [rev app starts_with] in He. rewrite andb_true_r, N.eqb_sym in He. now rewrite He.
  - specialize (Hp c' eq_refl). unfold bad in Hp. apply orb_false_iff in Hp as [P1 P2].
    cbn [hd_error is_letter] in *. rewrite P1. unfold needs. unfold need3 in P2. cbn [is_letter] in P2 |- *.
    rewrite orb_false_r, P2. cbn [app]. f_equal. apply IH; [exact Hb'|].
    unfold ends_with in He |- *. cbn [rev] in He |- *. destruct (rev s) as [|y l]; exact He.
Qed.
Lemma canonical_idem s : canonical (canonical s) = canonical s.
Proof.
  apply canonical_id; [intros; now apply canonical_good|apply hd_canonical|apply canonical_end].
Qed.
Lemma fill_properties s :
  exists a, fill_empties s = Some a /\
    contains [chD; chD] a = false /\ contains [chD; chR] a = false /\ contains [chR; chD] a = false /\
    contains [chC; chC] a = false /\ starts_with [chD] a = false /\ ends_with [chD] a = false /\
    filter (fun c => negb (c =? chC)%N) a = filter (fun c => negb (c =? chC)%N) s /\
    fill_empties a = Some a.
Proof.
  exists (canonical s). rewrite !fill_canonical, canonical_idem.
  repeat (split; [solve [reflexivity | now apply canonical_good | apply canonical_end | apply canonical_letters |
    pose proof (hd_canonical s) as H; destruct (canonical s) as [|c l]; [reflexivity|];
    cbn [starts_with]; cbn [hd_error is_letter] in H; now rewrite N.eqb_sym, H ]|]).
  reflexivity.
Qed.
