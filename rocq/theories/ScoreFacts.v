(** * ScoreFacts: the pattern score (C30) *)
From Coq Require Import Reals Lra SpecFloat.
From Flocq Require Import Core.
From Verif Require Import Base Dialect SpecLayout SpecParse Abstraction SpecAbstraction AbstractionFacts FillFacts
  ShapeFacts Floats FloatFacts Potential Ties Consistency SpecConsistency.

(** ** Splitting at a character *)
Lemma split_cons c x s : x <> c -> forall cur,
  py_split_aux [c] 0 cur (x :: s) = py_split_aux [c] 0 (cur ++ [x]) s.
Proof. intros H cur. cbn. destruct (N.eqb_spec c x); [congruence|reflexivity]. Qed.
Lemma split_sep c s cur : py_split_aux [c] 0 cur (c :: s) = cur :: py_split_aux [c] 0 [] s.
Proof. cbn. now rewrite N.eqb_refl. Qed.

Lemma split_length c s : forall cur,
  length (py_split_aux [c] 0 cur s) = S (count_occ N.eq_dec s c).
Proof.
  induction s as [|x s IH]; intros cur; [reflexivity|].
  destruct (N.eq_dec x c) as [->|n].
  - rewrite split_sep, count_occ_cons_eq by reflexivity. cbn. now rewrite IH.
  - now rewrite split_cons, IH, count_occ_cons_neq by auto.
Qed.

Lemma split_piece c p : ~ In c p -> forall cur, py_split_aux [c] 0 cur p = [cur ++ p].
Proof.
  induction p as [|x p IH]; intros H cur; [now rewrite app_nil_r|].
  rewrite split_cons, IH.
  - now rewrite <- app_assoc.
  - intros X. apply H. now right.
  - intros ->. apply H. now left.
Qed.
Lemma split_app c p s : ~ In c p -> forall cur,
  py_split_aux [c] 0 cur (p ++ c :: s) = (cur ++ p) :: py_split_aux [c] 0 [] s.
Proof.
  induction p as [|x p IH]; intros H cur.
  - cbn [app]. now rewrite split_sep, app_nil_r.
  - cbn [app]. rewrite split_cons, IH.
    + now rewrite <- app_assoc.
    + intros X. apply H. now right.
    + intros ->. apply H. now left.
Qed.
Lemma split_join c l : l <> [] -> Forall (fun p => ~ In c p) l -> py_split [c] (join [c] l) = l.
Proof.
  intros Hn H. unfold py_split. induction l as [|p l IH]; [congruence|].
  apply Forall_cons_iff in H as [Hp Hl]. destruct l as [|p' l].
  - cbn [join]. now rewrite split_piece.
  - cbn [join]. cbn [app]. rewrite split_app by exact Hp. cbn [app]. f_equal. apply IH; [discriminate|exact Hl].
Qed.

(** ** The sizes of the patterns *)
Lemma count_not_c c s : c <> chC -> count_occ N.eq_dec s c = count_occ N.eq_dec (filter not_c s) c.
Proof.
  intros Hc. induction s as [|x s IH]; [reflexivity|]. cbn [filter]. unfold not_c at 1.
  destruct (N.eqb_spec x chC) as [->|n]; cbn [negb].
  - rewrite count_occ_cons_neq by congruence. exact IH.
  - destruct (N.eq_dec x c) as [->|n'].
    + rewrite !count_occ_cons_eq by reflexivity. now rewrite IH.
    + rewrite !count_occ_cons_neq by assumption. exact IH.
Qed.
Lemma count_le_length c (s : str) : count_occ N.eq_dec s c <= length s.
Proof. apply count_occ_bound. Qed.

Lemma bfun_length d q e s : forall l esc, length (bfun d q e l esc s) <= length s.
Proof.
  induction s as [|c s IH]; intros l esc; [reflexivity|]. cbn [bfun].
  assert (H : length (fst (bstep d q e l esc c)) <= 1).
  { unfold bstep. destruct (is_nl c), (c =? d)%N, (c =? q)%N, (c =? e)%N, esc, (opt_is l chR), (opt_is l chC);
      cbn; lia. }
  destruct (bstep d q e l esc c) as [w esc']. cbn [fst] in H. rewrite app_length. cbn [length].
  specialize (IH (lastl l w) esc'). lia.
Qed.
Lemma mg_length : forall n s acc, length s <= n ->
  length (mg acc s) = length s + match acc with Some a => length a | None => 0 end.
Proof.
  induction n as [|n IH]; intros s acc Hn.
  - destruct s; [|cbn in Hn; lia]. destruct acc; cbn; [now rewrite rev_length|reflexivity].
  - destruct s as [|c s]; [destruct acc; cbn; [now rewrite rev_length|reflexivity]|].
    cbn [length] in Hn. cbn [mg]. destruct acc as [a|].
    + destruct (c =? chQ)%N.
      * destruct s as [|c' s].
        { rewrite app_length, repeat_length, IH by (cbn; lia). cbn. lia. }
        destruct (c' =? chQ)%N.
        { rewrite IH by (cbn in Hn; lia). cbn. lia. }
        { rewrite app_length, repeat_length, IH by (cbn in *; lia). cbn. lia. }
      * rewrite IH by lia. cbn. lia.
    + destruct (c =? chQ)%N.
      * rewrite IH by lia. cbn. lia.
      * cbn [length]. rewrite IH by lia. cbn. lia.
Qed.

Lemma abstraction_count t dl A c : make_abstraction t dl = Ok A -> c <> chC ->
  count_occ N.eq_dec A c <= length t.
Proof.
  intros HA Hc.
  assert (HA' : exists d q e, A = strip_trailing (canonical (mg None (bfun d q e None false t)))).
  { unfold make_abstraction, base_abstraction in HA.
    destruct (set_char (sd_delimiter dl)) as [d|] eqn:Hd; [|discriminate].
    destruct (set_char (sd_quotechar dl)) as [q|] eqn:Hq; [|discriminate].
    destruct (set_char (sd_escapechar dl)) as [e|] eqn:He; [|discriminate].
    exists d, q, e. pose proof (make_abstraction_dq t dl d q e Hd Hq He) as H.
    unfold make_abstraction, base_abstraction in H. rewrite Hd, Hq, He in H. rewrite H in HA. now injection HA as <-. }
  destruct HA' as (d & q & e & ->).
  set (s := mg None (bfun d q e None false t)).
  destruct (strip_no_r (canonical s)) as [n E].
  assert (H1 : count_occ N.eq_dec (strip_trailing (canonical s)) c <= count_occ N.eq_dec (canonical s) c).
  { rewrite E at 2. rewrite count_occ_app. lia. }
  rewrite (count_not_c c (canonical s)), canonical_letters, <- count_not_c in H1 by exact Hc.
  assert (H2 : length s <= length t).
  { unfold s. rewrite (mg_length _ _ None (Nat.le_refl _)). pose proof (bfun_length d q e t None false). lia. }
  pose proof (count_le_length c s). lia.
Qed.

(** ** The counter *)
Definition total (m : list (str * Z)) : Z := fold_right (fun p z => snd p + z)%Z 0%Z m.
Lemma count_in_total s m : total (count_in s m) = (total m + 1)%Z.
Proof.
  induction m as [|[k n] m IH]; [reflexivity|]. cbn [count_in]. destruct (str_eqb s k); cbn [total fold_right snd] in *.
  - lia.
  - unfold total in IH. lia.
Qed.
Lemma counter_total_gen l : forall m, total (fold_left (fun m s => count_in s m) l m) = (total m + Z.of_nat (length l))%Z.
Proof.
  induction l as [|s l IH]; intros m; [cbn [fold_left length]; lia|]. cbn [fold_left]. rewrite IH, count_in_total. cbn [length]. lia.
Qed.
Lemma counter_total l : total (counter l) = Z.of_nat (length l).
Proof. unfold counter. rewrite counter_total_gen. reflexivity. Qed.
Lemma count_in_pos s m : Forall (fun p => 1 <= snd p)%Z m -> Forall (fun p => 1 <= snd p)%Z (count_in s m).
Proof.
  induction 1 as [|[k n] m Hp Hm IH]; [repeat constructor; cbn; lia|]. cbn [count_in].
  destruct (str_eqb s k); constructor; auto; cbn [snd] in *; lia.
Qed.
Lemma counter_pos l : Forall (fun p => 1 <= snd p)%Z (counter l).
Proof.
  unfold counter. assert (H : forall m, Forall (fun p => 1 <= snd p)%Z m ->
    Forall (fun p => 1 <= snd p)%Z (fold_left (fun m s => count_in s m) l m)).
  { induction l as [|s l IH]; intros m Hm; [exact Hm|]. cbn [fold_left]. apply IH, count_in_pos, Hm. }
  apply H. constructor.
Qed.
Lemma count_in_keys s m x : In x (map fst (count_in s m)) <-> x = s \/ In x (map fst m).
Proof.
  induction m as [|[k n] m IH]; [cbn; intuition|]. cbn [count_in]. destruct (str_eqb s k) eqn:E.
  - apply str_eqb_eq in E as ->. cbn. intuition.
  - cbn [map In fst]. rewrite IH. cbn. intuition.
Qed.
Lemma counter_keys l x : In x (map fst (counter l)) <-> In x l.
Proof.
  unfold counter. assert (H : forall m, In x (map fst (fold_left (fun m s => count_in s m) l m)) <-> In x l \/ In x (map fst m)).
  { induction l as [|s l IH]; intros m; [cbn; tauto|]. cbn [fold_left]. rewrite IH, count_in_keys. cbn. intuition. }
  rewrite H. cbn. tauto.
Qed.
Lemma length_le_total m : Forall (fun p => 1 <= snd p)%Z m -> (Z.of_nat (length m) <= total m)%Z.
Proof.
  induction 1 as [|[k n] m Hp Hm IH]; [reflexivity|]. cbn [length total fold_right snd] in *.
  unfold total in IH. lia.
Qed.
Lemma total_nonneg m : Forall (fun p => 1 <= snd p)%Z m -> (0 <= total m)%Z.
Proof. intros H. pose proof (length_le_total m H). lia. Qed.

(** ** Bounds on the score *)
Lemma small_le a k : (Rabs a <= bpow radix2 k)%R -> (k <= 1000)%Z -> (Rabs a <= bpow radix2 1000)%R.
Proof. intros H Hk. apply Rle_trans with (1 := H). now apply bpow_le. Qed.

Lemma r_pat_pos : (0 < r_pat <= 1/2)%R.
Proof.
  pose proof r_pat_bounds as [H1 H2]. pose proof (bpow_gt_0 radix2 (-10)).
  assert (bpow radix2 (-9) <= 1/2)%R by (replace (1/2)%R with (bpow radix2 (-1)); [apply bpow_le; lia|cbn; lra]). lra.
Qed.

Lemma frac_val L : (1 <= L <= two53)%Z ->
  exists f, val (fdiv (fmax eps_pat (float_of_Z (L - 1))) (float_of_Z L)) f /\ (r_pat <= f <= 1)%R.
Proof.
  intros HL. pose proof r_pat_pos as Hp.
  assert (H1 : val (fmax eps_pat (float_of_Z (L - 1))) (Rmax r_pat (IZR (L - 1)))).
  { apply fmax_val; [apply val_eps_pat|apply val_Z; lia]. }
  assert (H2 : val (float_of_Z L) (IZR L)) by (apply val_Z; lia).
  assert (HL1 : (1 <= IZR L)%R) by (apply IZR_le; lia).
  set (x := Rmax r_pat (IZR (L - 1))) in *.
  assert (Hx : (r_pat * IZR L <= x <= IZR L)%R).
  { unfold x. destruct (Z.eq_dec L 1) as [->|n].
    - cbn. rewrite Rmax_left by lra. lra.
    - assert (2 <= IZR L)%R by (apply IZR_le; lia). rewrite minus_IZR.
      rewrite Rmax_right by lra. split; nra. }
  assert (Hq : (r_pat <= x / IZR L <= 1)%R).
  { split.
    - apply Rmult_le_reg_r with (IZR L); [lra|]. unfold Rdiv. rewrite Rmult_assoc, Rinv_l by lra. lra.
    - apply Rmult_le_reg_r with (IZR L); [lra|]. unfold Rdiv. rewrite Rmult_assoc, Rinv_l by lra. lra. }
  exists (rnd (x / IZR L)). split.
  - apply val_div; [assumption..|lra|]. apply small_le with 0%Z; [|lia]. cbn.
    rewrite Rabs_pos_eq by lra. lra.
  - split.
    + apply rnd_ge_format; [apply (val_format _ _ val_eps_pat)|lra].
    + apply rnd_le_format; [apply format_1|lra].
Qed.

Lemma term_val n L : (1 <= n <= two53)%Z -> (1 <= L <= two53)%Z ->
  exists r, val (pattern_term n L) r /\ (r_pat <= r <= IZR n)%R.
Proof.
  intros Hn HL. destruct (frac_val L HL) as (f & Hf & Hf1 & Hf2). unfold pattern_term.
  assert (Hv : val (float_of_Z n) (IZR n)) by (apply val_Z; lia).
  assert (Hn1 : (1 <= IZR n)%R) by (apply IZR_le; lia). pose proof r_pat_pos as Hp.
  assert (Hb : (r_pat <= IZR n * f <= IZR n)%R) by (split; nra).
  exists (rnd (IZR n * f)). split.
  - apply val_mul; [assumption..|]. apply small_le with 53%Z; [|lia].
    rewrite Rabs_pos_eq by lra. apply Rle_trans with (IZR n); [lra|].
    pose proof (IZR_small n) as H. rewrite Rabs_pos_eq in H by lra. apply H. lia.
  - split.
    + apply rnd_ge_format; [apply (val_format _ _ val_eps_pat)|lra].
    + apply rnd_le_format; [apply format_Z; lia|lra].
Qed.

Definition sum_terms (m : list (str * Z)) (P : float) : float :=
  fold_left (fun P '(pat, n) => fadd P (pattern_term n (pattern_length pat))) m P.
Lemma sum_val m : forall P p k, val P p -> (0 <= p <= IZR k)%R -> (0 <= k)%Z ->
  Forall (fun q => 1 <= snd q /\ 1 <= pattern_length (fst q) <= two53)%Z m ->
  (k + total m <= two53)%Z ->
  exists r, val (sum_terms m P) r /\ (p <= r <= IZR (k + total m))%R /\ (m <> [] -> r_pat <= r)%R.
Proof.
  induction m as [|[pat n] m IH]; intros P p k HP Hp Hk Hm Ht.
  - exists p. cbn. rewrite Z.add_0_r. split; [exact HP|]. split; [lra|congruence].
  - apply Forall_cons_iff in Hm as [[Hn HL] Hm]. cbn [fst snd] in *.
    assert (Htm : (0 <= total m)%Z).
    { apply total_nonneg. eapply Forall_impl; [|exact Hm]. now intros a [H _]. }
    cbn [total fold_right snd] in Ht. fold (total m) in Ht.
    destruct (term_val n (pattern_length pat)) as (t & Hv & Ht1 & Ht2); [lia|lia|].
    pose proof r_pat_pos as Hpos.
    assert (Hs : val (fadd P (pattern_term n (pattern_length pat))) (rnd (p + t))).
    { apply val_add; [assumption..|]. apply small_le with 53%Z; [|lia]. rewrite Rabs_pos_eq by lra.
      pose proof (IZR_small (k + n)) as H. rewrite plus_IZR in H.
      rewrite Rabs_pos_eq in H by lra. apply Rle_trans with (2 := H ltac:(lia)). lra. }
    destruct (IH _ _ (k + n)%Z Hs) as (r & Hr & [Hr1 Hr2] & _); [|lia|exact Hm|lia|].
    + split.
      * apply rnd_ge_format; [apply format_0|lra].
      * apply rnd_le_format; [apply format_Z; lia|]. rewrite plus_IZR. lra.
    + exists r. split; [exact Hr|].
      assert (p <= rnd (p + t))%R by (apply rnd_ge_format; [apply (val_format _ _ HP)|lra]).
      assert (r_pat <= rnd (p + t))%R by (apply rnd_ge_format; [apply (val_format _ _ val_eps_pat)|lra]).
      cbn [total fold_right snd]. fold (total m). rewrite Z.add_assoc. split; [lra|]. intros _. lra.
Qed.

Lemma score_bounds A n : (forall c, c <> chC -> count_occ N.eq_dec A c <= n) -> (Z.of_nat n + 1 <= two53)%Z ->
  exists r, val (score_of_abstraction A) r /\ (0 < r <= IZR (Z.of_nat n + 1))%R.
Proof.
  intros Hc Hn. unfold score_of_abstraction. set (m := counter (py_split [chR] A)).
  assert (Hlen : length (py_split [chR] A) <= S n).
  { unfold py_split. rewrite split_length. specialize (Hc chR). assert (chR <> chC) by discriminate. lia. }
  assert (Hne : py_split [chR] A <> []).
  { intros E. apply (f_equal (@length _)) in E. unfold py_split in E. now rewrite split_length in E. }
  assert (Htot : total m = Z.of_nat (length (py_split [chR] A))) by apply counter_total.
  pose proof (counter_pos (py_split [chR] A)) as Hpos. fold m in Hpos.
  assert (Hmne : m <> []).
  { intros E. rewrite E in Htot. cbn in Htot. destruct (py_split [chR] A); [congruence|cbn in Htot; lia]. }
  assert (Hsub : forall c x s cur, In x (py_split_aux [c] 0 cur s) -> forall y, y <> c ->
            count_occ N.eq_dec x y <= count_occ N.eq_dec (cur ++ s) y).
  { intros c x s. induction s as [|z s IH]; intros cur Hx y Hy.
    - cbn in Hx. destruct Hx as [<-|[]]. now rewrite app_nil_r.
    - destruct (N.eq_dec z c) as [->|nz].
      + rewrite split_sep in Hx. rewrite count_occ_app, count_occ_cons_neq by congruence.
        destruct Hx as [<-|Hx]; [lia|]. specialize (IH [] Hx y Hy). cbn in IH. lia.
      + rewrite split_cons in Hx by assumption. specialize (IH _ Hx y Hy).
        now rewrite <- app_assoc in IH. }
  destruct (sum_val m fzero 0 0) as (r & Hr & Hr1 & Hr2).
  - apply val_zero.
  - lra.
  - lia.
  - apply Forall_forall. intros [pat k] Hp. cbn [fst snd]. rewrite Forall_forall in Hpos. split; [apply (Hpos _ Hp)|].
    unfold pattern_length, py_split. rewrite split_length. split; [lia|].
    assert (Hin : In pat (py_split [chR] A)).
    { apply counter_keys. fold m. apply (in_map fst) in Hp. exact Hp. }
    specialize (Hsub chR pat A [] Hin chD). assert (chD <> chR) by discriminate.
    cbn [app] in Hsub. specialize (Hc chD). assert (chD <> chC) by discriminate. lia.
  - lia.
  - specialize (Hr2 Hmne). unfold sum_terms in Hr.
    assert (Hlm : (1 <= Z.of_nat (length m) <= two53)%Z).
    { pose proof (length_le_total m Hpos). destruct m; [congruence|]. cbn [length] in *. lia. }
    assert (Hv : val (float_of_Z (Z.of_nat (length m))) (IZR (Z.of_nat (length m)))) by (apply val_Z; lia).
    assert (HL : (1 <= IZR (Z.of_nat (length m)))%R) by (apply IZR_le; lia).
    pose proof r_pat_pos as Hpp.
    assert (Hrt : (r <= IZR (Z.of_nat n + 1))%R).
    { apply Rle_trans with (1 := proj2 Hr1). apply IZR_le. lia. }
    set (q := (r / IZR (Z.of_nat (length m)))%R).
    assert (Hq : (bpow radix2 (-63) <= q <= r)%R).
    { unfold q. split.
      - apply Rmult_le_reg_r with (IZR (Z.of_nat (length m))); [lra|]. unfold Rdiv. rewrite Rmult_assoc, Rinv_l, Rmult_1_r by lra.
        apply Rle_trans with (bpow radix2 (-63) * bpow radix2 53)%R.
        + apply Rmult_le_compat_l; [apply bpow_ge_0|].
          change (bpow radix2 53) with (IZR two53). apply IZR_le. lia.
        + rewrite <- bpow_plus. cbn [Z.add]. apply Rle_trans with r_pat; [apply r_pat_bounds|exact Hr2].
      - apply Rmult_le_reg_r with (IZR (Z.of_nat (length m))); [lra|]. unfold Rdiv. rewrite Rmult_assoc, Rinv_l, Rmult_1_r by lra. nra. }
    pose proof (bpow_gt_0 radix2 (-63)) as Hb.
    exists (rnd q). split.
    + apply val_div; [exact Hr|exact Hv|lra|]. fold q. apply small_le with 53%Z; [|lia].
      rewrite Rabs_pos_eq by lra. apply Rle_trans with (IZR (Z.of_nat n + 1)); [lra|].
      change (bpow radix2 53) with (IZR two53). apply IZR_le. lia.
    + split.
      * apply Rlt_le_trans with (1 := Hb). apply rnd_ge_format; [apply format_bpow; lia|lra].
      * apply rnd_le_format; [apply format_Z; lia|lra].
Qed.

Lemma pattern_score_val data d P : pattern_score data d = Ok P -> (Z.of_nat (length data) < two53)%Z ->
  exists r, val P r /\ (0 < r <= IZR (Z.of_nat (length data) + 1))%R.
Proof.
  unfold pattern_score. destruct (make_abstraction data d) as [A|] eqn:E; [|discriminate].
  intros H Hl. injection H as <-. apply score_bounds; [|lia].
  intros c Hc. now apply (abstraction_count data d).
Qed.

Lemma pattern_score_positive data d P : pattern_score data d = Ok P -> (Z.of_nat (length data) < two53)%Z ->
  positive P /\ fleb P (float_of_Z (Z.of_nat (length data) + 1)) = true.
Proof.
  intros H Hl. destruct (pattern_score_val data d P H Hl) as (r & Hv & Hr). split.
  - apply (val_pos P r Hv). lra.
  - assert (Hz : val (float_of_Z (Z.of_nat (length data) + 1)) (IZR (Z.of_nat (length data) + 1)))
      by (apply val_Z; lia).
    rewrite (fleb_val _ _ _ _ Hv Hz). lra.
Qed.

Lemma pattern_score_ok data D strict : exists P, pattern_score data (simple D strict) = Ok P.
Proof. unfold pattern_score. rewrite make_abstraction_simple. eauto. Qed.

(** ** The score of a table *)
Lemma str_neq_sym (a b : str) : str_eqb a b = str_eqb b a.
Proof.
  destruct (str_eqb a b) eqn:E.
  - apply str_eqb_eq in E as ->. now rewrite str_eqb_refl.
  - apply str_eqb_neq in E. symmetry. apply str_eqb_neq. congruence.
Qed.

(** The counter of a list of the form [map f l], [f] injective. *)
Section Counter.
  Variable f : nat -> str.
  Variable l0 : list nat.
  Hypothesis inj : forall a b, In a l0 -> In b l0 -> f a = f b -> a = b.
  Lemma feq a b : In a l0 -> In b l0 -> str_eqb (f a) (f b) = Nat.eqb a b.
  Proof.
    intros Ha Hb. destruct (Nat.eqb_spec a b) as [->|n]; [apply str_eqb_refl|].
    apply str_eqb_neq. intros E. now apply n, inj.
  Qed.
  (** Adding the elements of [l] to a counter [m]. *)
  Definition entries (l : list nat) : list (str * Z) :=
    map (fun k => (f k, Z.of_nat (count_occ Nat.eq_dec l k))) (firsts l).
  Lemma count_in_skip a m : In a l0 -> (forall p, In p m -> exists b, In b l0 /\ fst p = f b) ->
    ~ In (f a) (map fst m) -> count_in (f a) m = m ++ [(f a, 1%Z)].
  Proof.
    intros Ha. induction m as [|[k n] m IH]; intros Hm Hn; [reflexivity|]. cbn [count_in].
    destruct (str_eqb (f a) k) eqn:E.
    - apply str_eqb_eq in E. exfalso. apply Hn. left. cbn. congruence.
    - cbn [app]. f_equal. apply IH.
      + intros p Hp. apply Hm. now right.
      + intros H. apply Hn. now right.
  Qed.
  Lemma In_firsts l x : In x (firsts l) <-> In x l.
  Proof.
    induction l as [|y l IH]; [reflexivity|]. cbn [firsts In]. rewrite filter_In, IH.
    destruct (Nat.eqb_spec x y) as [->|n]; cbn; intuition congruence.
  Qed.
  Lemma firsts_snoc l x : firsts (l ++ [x]) = if in_dec Nat.eq_dec x l then firsts l else firsts l ++ [x].
  Proof.
    induction l as [|y l IH]; [reflexivity|]. cbn [app firsts]. rewrite IH.
    destruct (in_dec Nat.eq_dec x l) as [i|n], (in_dec Nat.eq_dec x (y :: l)) as [i'|n']; try reflexivity.
    - exfalso. apply n'. now right.
    - destruct i' as [->|i']; [|contradiction]. rewrite filter_app. cbn. rewrite Nat.eqb_refl. cbn. now rewrite app_nil_r.
    - rewrite filter_app. cbn. destruct (Nat.eqb_spec x y) as [->|]; [exfalso; apply n'; now left|]. reflexivity.
  Qed.
  Lemma count_in_hit a (ks : list nat) g : NoDup ks -> In a ks -> incl ks l0 ->
    count_in (f a) (map (fun k => (f k, g k)) ks) =
    map (fun k => (f k, (g k + if Nat.eqb k a then 1 else 0)%Z)) ks.
  Proof.
    induction ks as [|k ks IH]; intros Hn Ha Hi; [contradiction|].
    inversion Hn as [|? ? Hk Hn']; subst. cbn [map count_in].
    assert (Hal : In a l0) by auto. assert (Hkl : In k l0) by (apply Hi; now left).
    rewrite feq by assumption. destruct (Nat.eqb_spec a k) as [->|n].
    - rewrite Nat.eqb_refl. f_equal. apply map_ext_in. intros k' Hk'.
      destruct (Nat.eqb_spec k' k) as [->|]; [contradiction|]. now rewrite Z.add_0_r.
    - destruct (Nat.eqb_spec k a) as [->|]; [congruence|]. rewrite Z.add_0_r. f_equal.
      apply IH; [assumption| |intros x Hx; apply Hi; now right]. destruct Ha as [->|Ha]; [congruence|exact Ha].
  Qed.
  Lemma NoDup_firsts l : NoDup (firsts l).
  Proof.
    induction l as [|x l IH]; [constructor|]. cbn [firsts]. constructor; [|now apply NoDup_filter].
    rewrite filter_In, Nat.eqb_refl. now intros [_ H].
  Qed.
  Lemma entries_snoc l a : incl (l ++ [a]) l0 -> count_in (f a) (entries l) = entries (l ++ [a]).
  Proof.
    intros Hi. assert (Ha : In a l0) by (apply Hi, in_or_app; right; now left).
    assert (Hl : incl l l0) by (intros x Hx; apply Hi, in_or_app; now left).
    unfold entries. rewrite firsts_snoc. destruct (in_dec Nat.eq_dec a l) as [i|n].
    - rewrite (count_in_hit a (firsts l) (fun k => Z.of_nat (count_occ Nat.eq_dec l k))).
      + apply map_ext. intros k. f_equal. rewrite count_occ_app. cbn [count_occ].
        destruct (Nat.eq_dec a k) as [->|n].
        * rewrite Nat.eqb_refl. lia.
        * destruct (Nat.eqb_spec k a); [congruence|]. lia.
      + apply NoDup_firsts.
      + now apply In_firsts.
      + intros x Hx. apply Hl, In_firsts; assumption.
    - rewrite count_in_skip; [|exact Ha|..].
      + rewrite map_app. cbn [map]. f_equal.
        * apply map_ext_in. intros k Hk. apply (proj1 (In_firsts _ _)) in Hk. f_equal. rewrite count_occ_app. cbn [count_occ].
          destruct (Nat.eq_dec a k) as [->|]; [contradiction|]. lia.
        * rewrite count_occ_app, (proj1 (count_occ_not_In Nat.eq_dec l a) n). cbn [count_occ].
          destruct (Nat.eq_dec a a); [reflexivity|congruence].
      + intros p Hp. apply in_map_iff in Hp as (k & <- & Hk). exists k. split; [|reflexivity].
        apply Hl, In_firsts; assumption.
      + rewrite map_map. cbn [fst]. intros H. apply in_map_iff in H as (k & E & Hk). apply (proj1 (In_firsts _ _)) in Hk.
        apply n. rewrite <- (inj k a (Hl k Hk) Ha E). exact Hk.
  Qed.
  Lemma counter_entries l : incl l l0 -> counter (map f l) = entries l.
  Proof.
    unfold counter. induction l as [|a l IH] using rev_ind; intros Hi; [reflexivity|].
    rewrite map_app, fold_left_app. cbn [map fold_left]. rewrite IH.
    - now apply entries_snoc.
    - intros x Hx. apply Hi, in_or_app. now left.
  Qed.
End Counter.

Definition kind_shape (n : nat) : str := match n with 0 => [] | _ => shape n end.
Lemma join_nil_inv (s : str) l : join [chD] ((chC :: s) :: l) <> [].
Proof. destruct l; discriminate. Qed.
Lemma shape_split n : n <> 0 -> py_split [chD] (shape n) = repeat [chC] n.
Proof.
  intros H. unfold shape. apply split_join.
  - destruct n; [congruence|discriminate].
  - apply Forall_forall. intros p Hp. apply repeat_spec in Hp as ->. intros [X|[]]; discriminate.
Qed.
Lemma kind_shape_length n : pattern_length (kind_shape n) = Z.of_nat (Nat.max 1 n).
Proof.
  unfold pattern_length. destruct n as [|n]; [reflexivity|]. unfold kind_shape.
  rewrite shape_split, repeat_length by discriminate. reflexivity.
Qed.
Lemma kind_shape_inj a b : kind_shape a = kind_shape b -> a = b.
Proof.
  intros H. destruct a as [|a], b as [|b]; try reflexivity.
  - exfalso. symmetry in H. revert H. apply join_nil_inv.
  - exfalso. revert H. apply join_nil_inv.
  - assert (E : length (py_split [chD] (kind_shape (S a))) = length (py_split [chD] (kind_shape (S b)))) by now rewrite H.
    unfold kind_shape in E. rewrite !shape_split, !repeat_length in E by discriminate. exact E.
Qed.
Lemma kind_shape_no_r n : ~ In chR (kind_shape n).
Proof.
  destruct n as [|n]; [easy|]. unfold kind_shape, shape. induction n as [|n IH].
  - intros [X|[]]; discriminate.
  - change (~ In chR (([chC] ++ [chD]) ++ join [chD] (repeat [chC] (S n)))). intros H. apply in_app_or in H as [H|H]; [|auto].
    destruct H as [X|[X|[]]]; discriminate.
Qed.

Lemma lengths_filter {A} (rows : list (list A)) :
  filter (fun n => negb (Nat.eqb n 0)) (map (@length A) rows) = map (@length A) (filter not_empty rows).
Proof. induction rows as [|[|a r] rows IH]; cbn; [reflexivity|exact IH|now rewrite IH]. Qed.

Lemma shape_split_rows {A} (rows : list (list A)) :
  py_split [chR] (table_shape rows) = map kind_shape (row_kinds rows).
Proof.
  unfold table_shape, row_kinds. rewrite lengths_filter.
  assert (Hf : forall r, In r (filter not_empty rows) -> kind_shape (length r) = shape (length r)).
  { intros r Hr. apply filter_In in Hr as [_ Hr]. destruct r; [discriminate|reflexivity]. }
  destruct (filter not_empty rows) as [|r full] eqn:E; [reflexivity|].
  assert (Hm : map (fun r => shape (length r)) (r :: full) = map kind_shape (map (@length A) (r :: full))).
  { rewrite map_map. apply map_ext_in. intros x Hx. symmetry. now apply Hf. }
  rewrite Hm. clear Hm.
  assert (Hs : py_split [chR] (join [chR] (map kind_shape (map (@length A) (r :: full)))) =
               map kind_shape (map (@length A) (r :: full))).
  { apply split_join; [discriminate|]. apply Forall_forall. intros p Hp. apply in_map_iff in Hp as (n & <- & _).
    apply kind_shape_no_r. }
  destruct rows as [|[|a r'] rows]; [discriminate| |exact Hs].
  cbn [app]. unfold py_split. rewrite split_sep. cbn [app].
  change (match map (@length A) (r :: full) with [] => [0] | n :: l => 0 :: n :: l end)
    with (0 :: map (@length A) (r :: full)).
  cbn [map kind_shape]. f_equal. exact Hs.
Qed.

Lemma fold_left_map {A B C} (f : A -> B -> A) (g : C -> B) l : forall a,
  fold_left f (map g l) a = fold_left (fun a c => f a (g c)) l a.
Proof. induction l as [|c l IH]; intros a; [reflexivity|]. cbn. apply IH. Qed.

Lemma score_of_table {A} (rows : list (list A)) :
  score_of_abstraction (table_shape rows) = table_score (row_kinds rows).
Proof.
  unfold score_of_abstraction, table_score. rewrite shape_split_rows.
  rewrite (counter_entries kind_shape (row_kinds rows)) by (auto using kind_shape_inj; apply incl_refl).
  unfold entries. rewrite map_length. f_equal. rewrite !fold_left_map.
  generalize fzero. induction (firsts (row_kinds rows)) as [|k ks IH]; intros z; [reflexivity|].
  cbn [fold_left]. rewrite kind_shape_length. apply IH.
Qed.

Lemma pattern_score_table D d strict :
  wf_chars D = true -> wf_doc D d = true -> closed d = true -> esc_ok d = true ->
  pattern_score (render D d) (simple D strict) = Ok (table_score (row_kinds (denote D d))).
Proof.
  intros H1 H2 H3 H4. unfold pattern_score. rewrite abstraction_layout by assumption. f_equal. apply score_of_table.
Qed.

(** ** Uniform tables *)
Lemma firsts_repeat n k : firsts (repeat k (S n)) = [k].
Proof. induction n as [|n IH]; [reflexivity|]. cbn [repeat firsts] in *. injection IH as IH. rewrite IH. cbn. now rewrite Nat.eqb_refl. Qed.
Lemma count_repeat n k : count_occ Nat.eq_dec (repeat k n) k = n.
Proof. induction n as [|n IH]; [reflexivity|]. cbn [repeat]. now rewrite count_occ_cons_eq, IH. Qed.
Lemma kind_score_val n k : (1 <= n)%nat -> (Z.of_nat n <= two53)%Z -> (Z.of_nat k <= two53)%Z ->
  exists r, val (kind_score n k) r /\ (r_pat <= r <= IZR (Z.of_nat n))%R.
Proof.
  intros Hn Hn' Hk. apply (term_val (Z.of_nat n) (Z.of_nat (Nat.max 1 k))); unfold two53 in *; lia.
Qed.
Lemma fadd_zero x r : val x r -> (0 < r)%R -> fadd fzero x = x.
Proof. intros H Hr. destruct (val_pos x r H Hr) as (m & e & ->). reflexivity. Qed.
Lemma fdiv_one x r : val x r -> (0 < r <= bpow radix2 53)%R -> fdiv x (float_of_Z 1) = x.
Proof.
  intros H Hr. apply val_inj with r; [|exact H|lra].
  rewrite <- (val_rnd x r H). replace r with (r / 1)%R at 1 by field.
  apply val_div; [exact H|apply (val_Z 1); unfold two53; lia|lra|].
  replace (r / 1)%R with r by field. apply small_le with 53%Z; [|lia]. rewrite Rabs_pos_eq; lra.
Qed.
Lemma uniform_score n k : (1 <= n)%nat -> (Z.of_nat n <= two53)%Z -> (Z.of_nat k <= two53)%Z ->
  table_score (repeat k n) = kind_score n k.
Proof.
  intros Hn Hn' Hk. destruct (kind_score_val n k Hn Hn' Hk) as (r & Hv & Hr).
  pose proof r_pat_pos as Hp. destruct n as [|n]; [lia|]. unfold table_score. rewrite firsts_repeat. cbn [map fold_left length].
  rewrite count_repeat. rewrite (fadd_zero _ r Hv) by lra. apply (fdiv_one _ r Hv). split; [lra|].
  apply Rle_trans with (1 := proj2 Hr). change (bpow radix2 53) with (IZR two53). now apply IZR_le.
Qed.
Lemma uniform_kinds {A} (rows : list (list A)) k : rows <> [] -> k <> 0%nat ->
  Forall (fun r => length r = k) rows -> row_kinds rows = repeat k (length rows).
Proof.
  intros Hn Hk H. unfold row_kinds.
  assert (E : filter (fun n => negb (Nat.eqb n 0)) (map (@length A) rows) = repeat k (length rows)).
  { clear Hn. induction H as [|r rows Hr H IH]; [reflexivity|]. cbn [map filter]. rewrite Hr.
    destruct (Nat.eqb_spec k 0); [congruence|]. cbn. now rewrite IH. }
  rewrite E. destruct rows as [|r rows]; [congruence|]. cbn [length repeat].
  apply Forall_cons_iff in H as [Hr _]. destruct r; [cbn in Hr; congruence|reflexivity].
Qed.
Lemma pattern_score_uniform D d strict k :
  wf_chars D = true -> wf_doc D d = true -> closed d = true -> esc_ok d = true ->
  denote D d <> [] -> k <> 0%nat -> Forall (fun r => length r = k) (denote D d) ->
  (Z.of_nat (length (denote D d)) <= two53)%Z -> (Z.of_nat k <= two53)%Z ->
  pattern_score (render D d) (simple D strict) = Ok (kind_score (length (denote D d)) k).
Proof.
  intros H1 H2 H3 H4 H5 H6 H7 H8 H9. rewrite pattern_score_table by assumption. f_equal.
  rewrite (uniform_kinds _ k) by assumption. apply uniform_score; try assumption.
  destruct (denote D d); [congruence|cbn; lia].
Qed.
