(** * TableScores: comparing the pattern scores of tables *)
From Coq Require Import Reals Lra SpecFloat.
From Flocq Require Import Core Relative.
From Verif Require Import Base Floats FloatFacts Consistency SpecConsistency ScoreFacts.
Local Notation len := List.length.

(** ** Rounding *)
Lemma format_scaled z e : (Z.abs z < two53)%Z -> (-1000 <= e)%Z -> generic_format radix2 rfexp (IZR z * bpow radix2 e).
Proof.
  intros Hz He. change (IZR z * bpow radix2 e)%R with (F2R (Float radix2 z e)). apply generic_format_F2R. intros Hn.
  unfold cexp, SpecFloat.fexp, SpecFloat.emin, fprec, femax. rewrite mag_F2R by exact Hn.
  assert (H : (mag radix2 (IZR z) <= 53)%Z).
  { apply mag_le_bpow; [now apply IZR_neq|]. rewrite <- abs_IZR. change (bpow radix2 53) with (IZR two53). now apply IZR_lt. }
  lia.
Qed.
Lemma rnd_rel x : (bpow radix2 (-900) <= x)%R ->
  (x * (1 - bpow radix2 (-53)) <= rnd x <= x * (1 + bpow radix2 (-53)))%R.
Proof.
  intros Hx. pose proof (bpow_gt_0 radix2 (-900)) as H0.
  assert (H := relative_error_N_FLT radix2 (-1074) 53 ltac:(lia) (fun x => negb (Z.even x)) x).
  assert (E : forall e, rfexp e = FLT_exp (-1074) 53 e) by reflexivity.
  unfold rnd. rewrite Rabs_pos_eq in H by lra.
  assert (Hm : (bpow radix2 (-1074 + 53 - 1) <= x)%R) by (apply Rle_trans with (2 := Hx); apply bpow_le; lia).
  specialize (H Hm). change (bpow radix2 (- (53) + 1)) with (bpow radix2 (-53 + 1)) in H. rewrite bpow_plus in H. change (bpow radix2 1) with 2%R in H.
  change (round radix2 rfexp ZnearestE x) with (round radix2 (FLT_exp (-1074) 53) ZnearestE x).
  apply Rabs_le_inv in H. lra.
Qed.

(** ** One kind of rows *)
Definition share (k : nat) : R := (Rmax r_pat (IZR (Z.of_nat k) - 1) / IZR (Z.of_nat k))%R.
Lemma kind_real n k : (1 <= n)%nat -> (1 <= k)%nat -> (Z.of_nat n <= two53)%Z -> (Z.of_nat k <= two53)%Z ->
  val (kind_score n k) (rnd (IZR (Z.of_nat n) * rnd (share k))).
Proof.
  intros Hn Hk Hn' Hk'. unfold kind_score. replace (Nat.max 1 k) with k by lia. set (K := Z.of_nat k). set (N := Z.of_nat n).
  pose proof r_pat_pos as Hp.
  assert (H1 : val (fmax eps_pat (float_of_Z (K - 1))) (Rmax r_pat (IZR (K - 1)))) by (apply fmax_val; [apply val_eps_pat|apply val_Z; lia]).
  assert (H2 : val (float_of_Z K) (IZR K)) by (apply val_Z; lia).
  assert (HL : (1 <= IZR K)%R) by (apply IZR_le; lia).
  assert (HS : share k = (Rmax r_pat (IZR (K - 1)) / IZR K)%R) by (unfold share; now rewrite minus_IZR).
  assert (Hs : (0 <= share k <= 1)%R).
  { rewrite HS, minus_IZR. split.
    - apply Rmult_le_pos; [|apply Rlt_le, Rinv_0_lt_compat; lra]. apply Rle_trans with r_pat; [lra|apply Rmax_l].
    - apply Rmult_le_reg_r with (IZR K); [lra|]. unfold Rdiv. rewrite Rmult_assoc, Rinv_l by lra.
      rewrite Rmult_1_r, Rmult_1_l. apply Rmax_lub; lra. }
  assert (Hv : val (fdiv (fmax eps_pat (float_of_Z (K - 1))) (float_of_Z K)) (rnd (share k))).
  { rewrite HS in *. apply val_div; [assumption..|lra|]. apply small_le with 0%Z; [|lia]. cbn. rewrite Rabs_pos_eq by lra. lra. }
  assert (Hr : (0 <= rnd (share k) <= 1)%R).
  { split; [apply rnd_ge_format; [apply format_0|lra]|apply rnd_le_format; [apply format_1|lra]]. }
  apply val_mul; [apply val_Z; lia|exact Hv|]. apply small_le with 53%Z; [|lia].
  assert (HN : (0 <= IZR N <= bpow radix2 53)%R).
  { split; [apply IZR_le; lia|]. change (bpow radix2 53) with (IZR two53). apply IZR_le. lia. }
  rewrite Rabs_pos_eq by nra. nra.
Qed.
Lemma share_more k : (2 <= k)%nat -> share k = (1 - / IZR (Z.of_nat k))%R.
Proof.
  intros Hk. assert (H : (2 <= IZR (Z.of_nat k))%R) by (apply IZR_le; lia). pose proof r_pat_pos. unfold share.
  rewrite Rmax_right by lra. field. lra.
Qed.
(** A table of [n] rows and at least two columns scores at least [n/2] ... *)
Lemma kind_at_least n k r : (1 <= n)%nat -> (2 <= k)%nat -> (Z.of_nat n < 2 ^ 50)%Z -> (Z.of_nat k <= two53)%Z ->
  val (kind_score n k) r -> (IZR (Z.of_nat n) / 2 <= r)%R /\ ((3 <= k)%nat -> (IZR (Z.of_nat n) * (5 / 8) <= r)%R).
Proof.
  intros Hn Hk Hn' Hk' Hv. rewrite (val_unique _ _ _ Hv (kind_real n k Hn ltac:(lia) ltac:(unfold two53; lia) Hk')).
  assert (HN : (1 <= IZR (Z.of_nat n))%R) by (apply IZR_le; lia). rewrite share_more by exact Hk. split; [|intros H3].
  - assert (H : (1 / 2 <= rnd (1 - / IZR (Z.of_nat k)))%R).
    { apply rnd_ge_format.
      - replace (1 / 2)%R with (IZR 1 * bpow radix2 (-1))%R by (cbn; lra). apply format_scaled; [unfold two53|]; lia.
      - assert (2 <= IZR (Z.of_nat k))%R by (apply IZR_le; lia). assert (/ IZR (Z.of_nat k) <= / 2)%R by (apply Rinv_le; lra). lra. }
    apply rnd_ge_format; [|nra].
    replace (IZR (Z.of_nat n) / 2)%R with (IZR (Z.of_nat n) * bpow radix2 (-1))%R by (cbn; lra). apply format_scaled; [unfold two53|]; lia.
  - assert (H : (5 / 8 <= rnd (1 - / IZR (Z.of_nat k)))%R).
    { apply rnd_ge_format.
      - replace (5 / 8)%R with (IZR 5 * bpow radix2 (-3))%R by (cbn; lra). apply format_scaled; [unfold two53|]; lia.
      - assert (3 <= IZR (Z.of_nat k))%R by (apply IZR_le; lia). assert (/ IZR (Z.of_nat k) <= / 3)%R by (apply Rinv_le; lra). lra. }
    apply rnd_ge_format; [|nra].
    replace (IZR (Z.of_nat n) * (5 / 8))%R with (IZR (5 * Z.of_nat n) * bpow radix2 (-3))%R by (rewrite mult_IZR; cbn; lra).
    apply format_scaled; [unfold two53|]; lia.
Qed.
(** ... one of one column at most [n/4]. *)
Lemma kind_one n r : (1 <= n)%nat -> (Z.of_nat n < 2 ^ 50)%Z -> val (kind_score n 1) r -> (0 <= r <= IZR (Z.of_nat n) / 4)%R.
Proof.
  intros Hn Hn' Hv. rewrite (val_unique _ _ _ Hv (kind_real n 1 Hn ltac:(lia) ltac:(unfold two53; lia) ltac:(unfold two53; lia))).
  assert (HN : (1 <= IZR (Z.of_nat n))%R) by (apply IZR_le; lia). pose proof r_pat_bounds as [Hp1 Hp2].
  pose proof (bpow_gt_0 radix2 (-10)) as H0. assert (H9 : (bpow radix2 (-9) <= 1 / 4)%R) by (cbn; lra).
  assert (E : rnd (share 1) = r_pat).
  { unfold share. change (Z.of_nat 1) with 1%Z. rewrite Rmax_left by lra. replace (r_pat / 1)%R with r_pat by field. apply (val_rnd _ _ val_eps_pat). }
  rewrite E. split.
  - apply rnd_ge_format; [apply format_0|nra].
  - apply rnd_le_format; [|nra]. replace (IZR (Z.of_nat n) / 4)%R with (IZR (Z.of_nat n) * bpow radix2 (-2))%R by (cbn; lra).
    apply format_scaled; [unfold two53|]; lia.
Qed.
(** More columns score more. *)
Lemma kind_lt n j k r s : (1 <= n)%nat -> (1 <= j)%nat -> (j < k)%nat -> (Z.of_nat n < 2 ^ 50)%Z -> (Z.of_nat k <= 2 ^ 20)%Z ->
  val (kind_score n j) r -> val (kind_score n k) s -> (r < s)%R.
Proof.
  intros Hn Hj Hjk Hn' Hk Hr Hs. assert (HN : (1 <= IZR (Z.of_nat n))%R) by (apply IZR_le; lia).
  destruct (Nat.eq_dec j 1) as [->|Hj1].
  - destruct (kind_one n r Hn Hn' Hr) as [_ H1]. destruct (kind_at_least n k s Hn ltac:(lia) Hn' ltac:(unfold two53; lia) Hs) as [H2 _]. lra.
  - rewrite (val_unique _ _ _ Hr (kind_real n j Hn Hj ltac:(unfold two53; lia) ltac:(unfold two53; lia))).
    rewrite (val_unique _ _ _ Hs (kind_real n k Hn ltac:(lia) ltac:(unfold two53; lia) ltac:(unfold two53; lia))).
    rewrite !share_more by lia. set (J := IZR (Z.of_nat j)). set (K := IZR (Z.of_nat k)). set (n' := IZR (Z.of_nat n)) in *.
    assert (HJ : (2 <= J)%R) by (apply IZR_le; lia). assert (HK : (J + 1 <= K)%R) by (unfold J, K; rewrite <- (plus_IZR _ 1); apply IZR_le; lia).
    assert (HK20 : (K <= bpow radix2 20)%R) by (change (bpow radix2 20) with (IZR (2 ^ 20)); now apply IZR_le).
    set (a := (1 - / J)%R). set (b := (1 - / K)%R). set (u := bpow radix2 (-53)).
    assert (Hij : (/ J - / K >= bpow radix2 (-40))%R).
    { replace (/ J - / K)%R with ((K - J) * (/ J * / K))%R by (field; lra).
      assert (A1 : (bpow radix2 (-20) <= / K)%R) by (change (-20)%Z with (- (20))%Z; rewrite bpow_opp; apply Rinv_le; lra).
      assert (A2 : (bpow radix2 (-20) <= / J)%R) by (change (-20)%Z with (- (20))%Z; rewrite bpow_opp; apply Rinv_le; lra).
      change (-40)%Z with (-20 + -20)%Z. rewrite bpow_plus. pose proof (bpow_gt_0 radix2 (-20)) as Hd0.
      assert (A3 : (bpow radix2 (-20) * bpow radix2 (-20) <= / J * / K)%R) by (apply Rmult_le_compat; lra).
      set (p := (/ J * / K)%R) in *. assert (0 <= p)%R by nra. nra. }
    assert (Hh : (/ J <= / 2)%R) by (apply Rinv_le; lra). assert (HiK : (0 < / K)%R) by (apply Rinv_0_lt_compat; lra).
    assert (Ha : (1 / 2 <= a)%R) by (unfold a; lra). assert (Hb : (b <= 1)%R) by (unfold b; lra). assert (Hab : (a + bpow radix2 (-40) <= b)%R) by (unfold a, b; lra).
    assert (Hsm : (bpow radix2 (-900) <= 1 / 4)%R).
    { apply Rle_trans with (bpow radix2 (-2)); [apply bpow_le; lia|cbn; lra]. }
    assert (Hu : (0 < u <= / 1024 * bpow radix2 (-40))%R).
    { unfold u. split; [apply bpow_gt_0|]. replace (/ 1024)%R with (bpow radix2 (-10)) by (cbn; lra). rewrite <- bpow_plus. apply bpow_le. lia. }
    assert (H40 : (bpow radix2 (-40) <= 1 / 1024)%R) by (replace (1 / 1024)%R with (bpow radix2 (-10)) by (cbn; lra); apply bpow_le; lia).
    destruct (rnd_rel a ltac:(lra)) as [La Ua]. destruct (rnd_rel b ltac:(lra)) as [Lb Ub]. fold u in La, Ua, Lb, Ub.
    assert (Hra : (1 / 4 <= rnd a)%R) by nra. assert (Hrb : (1 / 4 <= rnd b)%R) by nra.
    destruct (rnd_rel (n' * rnd a)%R ltac:(nra)) as [Lna Una]. destruct (rnd_rel (n' * rnd b)%R ltac:(nra)) as [Lnb Unb]. fold u in Lna, Una, Lnb, Unb.
    apply Rle_lt_trans with (1 := Una). apply Rlt_le_trans with (2 := Lnb).
    rewrite !Rmult_assoc. apply Rmult_lt_compat_l; [lra|].
    set (d := bpow radix2 (-40)) in *. set (ra := rnd a) in *. set (rb := rnd b) in *. clearbody d ra rb a b u.
    assert (X1 : (ra <= a + u)%R) by nra. assert (X2 : (b - u <= rb)%R) by nra.
    assert (X3 : (ra * (1 + u) <= a + 3 * u)%R) by nra. assert (X4 : (b - 3 * u <= rb * (1 - u))%R) by nra. lra.
Qed.

(** ** Several kinds *)
Lemma sum_counts l : NoDup l -> forall ks, incl ks l -> list_sum (map (count_occ Nat.eq_dec ks) l) = len ks.
Proof.
  intros Hl. induction ks as [|x ks IH]; intros Hi.
  - assert (E : forall l : list nat, list_sum (map (count_occ Nat.eq_dec []) l) = 0) by (induction l0; [reflexivity|exact IHl0]). apply E.
  - cbn [List.length]. rewrite <- IH by (intros y Hy; apply Hi; now right).
    assert (Hx : In x l) by (apply Hi; now left). clear IH Hi. induction Hl as [|y l Hy Hl IH]; [destruct Hx|].
    cbn [map list_sum fold_right]. fold (list_sum (map (count_occ Nat.eq_dec (x :: ks)) l)). fold (list_sum (map (count_occ Nat.eq_dec ks) l)).
    destruct Hx as [->|Hx].
    + rewrite count_occ_cons_eq by reflexivity.
      assert (E : map (count_occ Nat.eq_dec (x :: ks)) l = map (count_occ Nat.eq_dec ks) l).
      { apply map_ext_in. intros z Hz. apply count_occ_cons_neq. intros ->. contradiction. }
      rewrite E. lia.
    + rewrite count_occ_cons_neq by (intros ->; contradiction). rewrite IH by exact Hx. lia.
Qed.
Lemma sum_at_most (f : nat -> float) (b : nat -> Z) l :
  Forall (fun k => exists r, val (f k) r /\ (0 <= r <= IZR (b k) / 2)%R) l ->
  forall acc r0 z0, val acc r0 -> (0 <= r0 <= IZR z0 / 2)%R -> (z0 + fold_right Z.add 0 (map b l) < 2 ^ 53)%Z ->
  exists r, val (fold_left fadd (map f l) acc) r /\ (0 <= r <= IZR (z0 + fold_right Z.add 0%Z (map b l)) / 2)%R.
Proof.
  induction 1 as [|k l (r & Hv & Hr) H IH]; intros acc r0 z0 Ha H0 Hz.
  - cbn. rewrite Z.add_0_r. eauto.
  - cbn [map fold_left fold_right] in *.
    assert (Hb : (0 <= b k)%Z) by (apply le_IZR; lra).
    assert (Hb' : (0 <= fold_right Z.add 0 (map b l))%Z).
    { clear - H. induction H as [|k l (r & _ & Hr) H IH]; [cbn; lia|]. cbn. assert (0 <= b k)%Z by (apply le_IZR; lra). lia. }
    assert (Hs : val (fadd acc (f k)) (rnd (r0 + r))).
    { apply val_add; [exact Ha|exact Hv|]. apply small_le with 53%Z; [|lia]. rewrite Rabs_pos_eq by lra.
      apply Rle_trans with (IZR (z0 + b k)); [rewrite plus_IZR; lra|]. change (bpow radix2 53) with (IZR two53). apply IZR_le. unfold two53. lia. }
    destruct (IH _ _ (z0 + b k)%Z Hs) as (r' & Hv' & Hr').
    + split; [apply rnd_ge_format; [apply format_0|lra]|]. apply rnd_le_format; [|rewrite plus_IZR; lra].
      replace (IZR (z0 + b k) / 2)%R with (IZR (z0 + b k) * bpow radix2 (-1))%R by (cbn; lra). apply format_scaled; [unfold two53|lia].
      assert (0 <= z0)%Z by (apply le_IZR; lra). lia.
    + lia.
    + exists r'. split; [exact Hv'|]. now rewrite Z.add_assoc.
Qed.
(** Rows of at least two kinds score at most half their number, and less if one
    kind is the single cell. *)
Lemma mixed_score kinds a b : In a kinds -> In b kinds -> a <> b -> Forall (fun k => 1 <= k)%nat kinds ->
  Forall (fun k => Z.of_nat k <= two53)%Z kinds -> (Z.of_nat (len kinds) < 2 ^ 50)%Z ->
  exists r, val (table_score kinds) r /\ (0 <= r <= IZR (Z.of_nat (len kinds)) / 2)%R /\
    (In 1%nat kinds -> (r < IZR (Z.of_nat (len kinds)) / 2)%R).
Proof.
  intros Ha Hb Hab Hpos Hbig Hlen. set (n := Z.of_nat (len kinds)) in *.
  assert (Hn2 : (2 <= n)%Z).
  { unfold n. destruct kinds as [|x [|y l]]; [destruct Ha| |cbn; lia]. destruct Ha as [<-|[]], Hb as [<-|[]]. congruence. }
  set (F := firsts kinds). assert (HF : NoDup F) by apply NoDup_firsts.
  assert (HI : forall x, In x F <-> In x kinds) by (intros x; apply In_firsts).
  assert (HL : (2 <= Z.of_nat (len F) <= n)%Z).
  { split.
    - assert (2 <= len F)%nat; [|lia]. apply (NoDup_incl_length (l := [a; b])).
      + constructor; [intros [->|[]]; congruence|constructor; [intros []|constructor]].
      + intros x [<-|[<-|[]]]; now apply HI.
    - assert (len F <= len kinds)%nat; [|lia]. apply NoDup_incl_length; [exact HF|]. intros x Hx. now apply HI. }
  set (bd := fun k => (2 * Z.of_nat (count_occ Nat.eq_dec kinds k) - if Nat.eqb k 1 then 1 else 0)%Z).
  assert (HT : Forall (fun k => exists r, val (kind_score (count_occ Nat.eq_dec kinds k) k) r /\ (0 <= r <= IZR (bd k) / 2)%R) F).
  { apply Forall_forall. intros k Hk. apply HI in Hk. set (c := count_occ Nat.eq_dec kinds k).
    assert (Hc : (1 <= c)%nat) by (apply count_occ_In; exact Hk).
    assert (Hc' : (c <= len kinds)%nat) by (apply count_occ_bound).
    rewrite Forall_forall in Hpos, Hbig. specialize (Hpos k Hk). specialize (Hbig k Hk).
    destruct (kind_score_val c k Hc ltac:(unfold two53; lia) Hbig) as (r & Hv & Hr). exists r. split; [exact Hv|].
    pose proof r_pat_pos as Hp. split; [lra|]. unfold bd. fold c. destruct (Nat.eqb_spec k 1) as [->|_].
    - destruct (kind_one c r Hc ltac:(lia) Hv) as [_ H1]. rewrite minus_IZR, mult_IZR. assert (1 <= IZR (Z.of_nat c))%R by (apply IZR_le; lia). lra.
    - rewrite Z.sub_0_r, mult_IZR. lra. }
  assert (HS : (fold_right Z.add 0 (map bd F) = 2 * n - (if in_dec Nat.eq_dec 1%nat kinds then 1 else 0))%Z).
  { assert (HC : list_sum (map (count_occ Nat.eq_dec kinds) F) = len kinds) by (apply sum_counts; [exact HF|intros x Hx; now apply HI]).
    assert (G : forall l, NoDup l -> (fold_right Z.add 0 (map bd l) = 2 * Z.of_nat (list_sum (map (count_occ Nat.eq_dec kinds) l)) - (if in_dec Nat.eq_dec 1%nat l then 1 else 0))%Z).
    { intros l Hl. induction Hl as [|x l Hx Hl IH]; [reflexivity|]. cbn [map fold_right list_sum]. fold (list_sum (map (count_occ Nat.eq_dec kinds) l)).
      rewrite IH. unfold bd. rewrite Nat2Z.inj_add.
      destruct (Nat.eqb_spec x 1) as [->|Hn1].
      - destruct (in_dec Nat.eq_dec 1%nat l); [contradiction|]. destruct (in_dec Nat.eq_dec 1%nat (1%nat :: l)) as [_|H]; [lia|destruct H; now left].
      - destruct (in_dec Nat.eq_dec 1%nat l) as [i|i]; destruct (in_dec Nat.eq_dec 1%nat (x :: l)) as [H|H]; try lia.
        + destruct H. now right.
        + destruct H as [H|H]; [congruence|contradiction]. }
    rewrite G, HC by exact HF. unfold n. destruct (in_dec Nat.eq_dec 1%nat F) as [i|i]; destruct (in_dec Nat.eq_dec 1%nat kinds) as [j|j]; try reflexivity.
    - destruct j. now apply HI.
    - destruct i. now apply HI. }
  destruct (sum_at_most _ bd F HT fzero 0 0 val_zero) as (r & Hv & Hr); [cbn; lra|rewrite HS; destruct in_dec; lia|].
  rewrite HS in Hr. change (0 + ?x)%Z with x in Hr.
  assert (HrN : (r <= IZR n)%R).
  { apply Rle_trans with (1 := proj2 Hr). destruct in_dec; rewrite ?Z.sub_0_r, ?minus_IZR, mult_IZR; lra. }
  assert (HvL : val (float_of_Z (Z.of_nat (len F))) (IZR (Z.of_nat (len F)))) by (apply val_Z; unfold two53; lia).
  assert (HL2 : (2 <= IZR (Z.of_nat (len F)))%R) by (apply IZR_le; lia).
  assert (Hq : (0 <= r / IZR (Z.of_nat (len F)) <= r / 2)%R).
  { split; [apply Rmult_le_pos; [lra|apply Rlt_le, Rinv_0_lt_compat; lra]|]. apply Rmult_le_compat_l; [lra|]. apply Rinv_le; lra. }
  assert (HnR : (2 <= IZR n)%R) by (apply IZR_le; lia).
  exists (rnd (r / IZR (Z.of_nat (len F)))). split; [|split; [split|]].
  - unfold table_score. fold F. apply val_div; [exact Hv|exact HvL|lra|]. apply small_le with 53%Z; [|lia]. rewrite Rabs_pos_eq by lra.
    apply Rle_trans with (IZR n); [lra|]. change (bpow radix2 53) with (IZR two53). apply IZR_le. unfold two53. lia.
  - apply rnd_ge_format; [apply format_0|lra].
  - apply rnd_le_format; [|lra]. replace (IZR n / 2)%R with (IZR n * bpow radix2 (-1))%R by (cbn; lra). apply format_scaled; [unfold two53|]; lia.
  - intros H1. destruct (in_dec Nat.eq_dec 1%nat kinds) as [_|H]; [|contradiction].
    apply Rle_lt_trans with (IZR (2 * n - 1) / 4)%R.
    + apply rnd_le_format; [|lra]. replace (IZR (2 * n - 1) / 4)%R with (IZR (2 * n - 1) * bpow radix2 (-2))%R by (cbn; lra).
      apply format_scaled; [unfold two53|]; lia.
    + rewrite minus_IZR, mult_IZR. lra.
Qed.
