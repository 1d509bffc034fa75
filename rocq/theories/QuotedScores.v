(** * QuotedScores: strict bounds on pattern and type scores *)
From Coq Require Import String Reals Lra SpecFloat.
From Flocq Require Import Core.
From Verif Require Import Base Floats FloatFacts Consistency SpecConsistency ScoreFacts TableScores TypeFacts.
Local Notation len := List.length.

(** ** Sums with bounds that are multiples of a small power of two *)
Lemma sum_at_most_fine (f : nat -> float) (b : nat -> Z) l :
  Forall (fun k => exists r, val (f k) r /\ (0 <= r <= IZR (b k) * bpow radix2 (-20))%R) l ->
  forall acc r0 z0, val acc r0 -> (0 <= r0 <= IZR z0 * bpow radix2 (-20))%R -> (z0 + fold_right Z.add 0 (map b l) < 2 ^ 53)%Z ->
  exists r, val (fold_left fadd (map f l) acc) r /\ (0 <= r <= IZR (z0 + fold_right Z.add 0%Z (map b l)) * bpow radix2 (-20))%R.
Proof.
  pose proof (bpow_gt_0 radix2 (-20)) as Hu. assert (Hu1 : (bpow radix2 (-20) <= 1)%R) by (apply (bpow_le radix2 (-20) 0); lia).
  assert (NN : forall z, (0 <= IZR z * bpow radix2 (-20))%R -> (0 <= z)%Z).
  { intros z Hz. apply le_IZR. apply Rmult_le_reg_r with (1 := Hu). lra. }
  induction 1 as [|k l (r & Hv & Hr) H IH]; intros acc r0 z0 Ha H0 Hz.
  - cbn. rewrite Z.add_0_r. eauto.
  - cbn [map fold_left fold_right] in *.
    assert (Hb : (0 <= b k)%Z) by (apply NN; lra). assert (Hz0 : (0 <= z0)%Z) by (apply NN; lra).
    assert (Hb' : (0 <= fold_right Z.add 0 (map b l))%Z).
    { clear - H NN. induction H as [|k l (r & _ & Hr) H IH]; [cbn; lia|]. cbn. assert (0 <= b k)%Z by (apply NN; lra). lia. }
    assert (Hsum : (r0 + r <= IZR (z0 + b k) * bpow radix2 (-20))%R) by (rewrite plus_IZR; lra).
    assert (Hs : val (fadd acc (f k)) (rnd (r0 + r))).
    { apply val_add; [exact Ha|exact Hv|]. apply small_le with 53%Z; [|lia]. rewrite Rabs_pos_eq by lra.
      apply Rle_trans with (1 := Hsum). apply Rle_trans with (IZR (z0 + b k) * 1)%R.
      - apply Rmult_le_compat_l; [apply IZR_le; lia|exact Hu1].
      - rewrite Rmult_1_r. change (bpow radix2 53) with (IZR two53). apply IZR_le. unfold two53. lia. }
    destruct (IH _ _ (z0 + b k)%Z Hs) as (r' & Hv' & Hr').
    + split; [apply rnd_ge_format; [apply format_0|lra]|]. apply rnd_le_format; [|exact Hsum].
      apply format_scaled; [unfold two53|]; lia.
    + lia.
    + exists r'. split; [exact Hv'|]. now rewrite Z.add_assoc.
Qed.

Lemma kind_below n k r : (1 <= n)%nat -> (1 <= k)%nat -> (Z.of_nat n < 2 ^ 30)%Z -> (Z.of_nat k <= 2 ^ 20)%Z ->
  val (kind_score n k) r -> (0 <= r <= IZR (2 ^ 20 * Z.of_nat n - 1) * bpow radix2 (-20))%R.
Proof.
  intros Hn Hk Hn' Hk' Hv. assert (HN : (1 <= IZR (Z.of_nat n))%R) by (apply IZR_le; lia).
  pose proof (bpow_gt_0 radix2 (-20)) as Hu. assert (Hu4 : (bpow radix2 (-20) <= 1 / 4)%R).
  { apply Rle_trans with (bpow radix2 (-2)); [apply bpow_le; lia|cbn; lra]. }
  assert (Eb : (IZR (2 ^ 20 * Z.of_nat n - 1) * bpow radix2 (-20) = IZR (Z.of_nat n) - bpow radix2 (-20))%R).
  { rewrite minus_IZR, mult_IZR. change (IZR (2 ^ 20)) with (bpow radix2 20). rewrite Rmult_minus_distr_r.
    replace (bpow radix2 20 * IZR (Z.of_nat n) * bpow radix2 (-20))%R with (IZR (Z.of_nat n) * (bpow radix2 20 * bpow radix2 (-20)))%R by ring.
    rewrite <- bpow_plus. change (bpow radix2 (20 + -20)) with 1%R. ring. }
  destruct (Nat.eq_dec k 1) as [->|Hk1].
  - destruct (kind_one n r Hn ltac:(lia) Hv) as [H0 H1]. rewrite Eb. lra.
  - rewrite (val_unique _ _ _ Hv (kind_real n k Hn Hk ltac:(unfold two53; lia) ltac:(unfold two53; lia))).
    rewrite share_more by lia. assert (HK : (2 <= IZR (Z.of_nat k))%R) by (apply IZR_le; lia).
    assert (HK' : (IZR (Z.of_nat k) <= bpow radix2 20)%R) by (change (bpow radix2 20) with (IZR (2 ^ 20)); now apply IZR_le).
    assert (A1 : (bpow radix2 (-20) <= / IZR (Z.of_nat k))%R) by (change (-20)%Z with (- (20))%Z; rewrite bpow_opp; apply Rinv_le; lra).
    assert (A2 : (/ IZR (Z.of_nat k) <= / 2)%R) by (apply Rinv_le; lra).
    assert (A3 : (0 <= rnd (1 - / IZR (Z.of_nat k)) <= 1 - bpow radix2 (-20))%R).
    { split; [apply rnd_ge_format; [apply format_0|lra]|]. apply rnd_le_format; [|lra].
      replace (1 - bpow radix2 (-20))%R with (IZR (2 ^ 20 - 1) * bpow radix2 (-20))%R.
      - apply format_scaled; [unfold two53|]; lia.
      - rewrite minus_IZR. change (IZR (2 ^ 20)) with (bpow radix2 20). rewrite Rmult_minus_distr_r, <- bpow_plus.
        change (bpow radix2 (20 + -20)) with 1%R. ring. }
    split; [apply rnd_ge_format; [apply format_0|nra]|].
    apply rnd_le_format; [apply format_scaled; [unfold two53|]; lia|]. rewrite Eb. nra.
Qed.

(** Rows of several kinds score less than half their number. *)
Lemma mixed_small kinds a b : In a kinds -> In b kinds -> a <> b -> Forall (fun k => 1 <= k)%nat kinds ->
  Forall (fun k => Z.of_nat k <= 2 ^ 20)%Z kinds -> (Z.of_nat (len kinds) < 2 ^ 30)%Z ->
  exists r, val (table_score kinds) r /\ (0 <= r < IZR (Z.of_nat (len kinds)) / 2)%R.
Proof.
  intros Ha Hb Hab Hpos Hbig Hlen. set (n := Z.of_nat (len kinds)) in *.
  set (F := firsts kinds). assert (HF : NoDup F) by apply NoDup_firsts.
  assert (HI : forall x, In x F <-> In x kinds) by (intros x; apply In_firsts).
  assert (HL : (2 <= Z.of_nat (len F) <= n)%Z).
  { split.
    - assert (2 <= len F)%nat; [|lia]. apply (NoDup_incl_length (l := [a; b])).
      + constructor; [intros [->|[]]; congruence|constructor; [intros []|constructor]].
      + intros x [<-|[<-|[]]]; now apply HI.
    - assert (len F <= len kinds)%nat; [|lia]. apply NoDup_incl_length; [exact HF|]. intros x Hx. now apply HI. }
  set (bd := fun k => (2 ^ 20 * Z.of_nat (count_occ Nat.eq_dec kinds k) - 1)%Z).
  assert (HT : Forall (fun k => exists r, val (kind_score (count_occ Nat.eq_dec kinds k) k) r /\ (0 <= r <= IZR (bd k) * bpow radix2 (-20))%R) F).
  { apply Forall_forall. intros k Hk. apply HI in Hk. unfold bd. set (c := count_occ Nat.eq_dec kinds k).
    assert (Hc : (1 <= c)%nat) by (apply count_occ_In; exact Hk).
    assert (Hc' : (c <= len kinds)%nat) by (apply count_occ_bound).
    rewrite Forall_forall in Hpos, Hbig. specialize (Hpos k Hk). specialize (Hbig k Hk).
    destruct (kind_score_val c k Hc ltac:(unfold two53; lia) ltac:(unfold two53; lia)) as (r & Hv & _). exists r. split; [exact Hv|].
    apply (kind_below c k r); auto. lia. }
  assert (HS : (fold_right Z.add 0 (map bd F) = 2 ^ 20 * n - Z.of_nat (len F))%Z).
  { assert (HC : list_sum (map (count_occ Nat.eq_dec kinds) F) = len kinds) by (apply sum_counts; [exact HF|intros x Hx; now apply HI]).
    assert (G : forall l, (fold_right Z.add 0 (map bd l) = 2 ^ 20 * Z.of_nat (list_sum (map (count_occ Nat.eq_dec kinds) l)) - Z.of_nat (len l))%Z).
    { induction l as [|x l IH]; [reflexivity|]. cbn [map fold_right list_sum List.length]. fold (list_sum (map (count_occ Nat.eq_dec kinds) l)).
      rewrite IH. unfold bd. rewrite Nat2Z.inj_add, Nat2Z.inj_succ. lia. }
    rewrite G, HC. reflexivity. }
  destruct (sum_at_most_fine _ bd F HT fzero 0 0 val_zero) as (r & Hv & Hr); [cbn; lra|rewrite HS; lia|].
  rewrite HS in Hr. change (0 + ?x)%Z with x in Hr.
  pose proof (bpow_gt_0 radix2 (-20)) as Hu.
  assert (Hr' : (0 <= r <= IZR (2 ^ 20 * n - 1) * bpow radix2 (-20))%R).
  { split; [lra|]. apply Rle_trans with (1 := proj2 Hr). apply Rmult_le_compat_r; [lra|]. apply IZR_le. lia. }
  assert (Eb : (IZR (2 ^ 20 * n - 1) * bpow radix2 (-20) = IZR n - bpow radix2 (-20))%R).
  { rewrite minus_IZR, mult_IZR. change (IZR (2 ^ 20)) with (bpow radix2 20). rewrite Rmult_minus_distr_r.
    replace (bpow radix2 20 * IZR n * bpow radix2 (-20))%R with (IZR n * (bpow radix2 20 * bpow radix2 (-20)))%R by ring.
    rewrite <- bpow_plus. change (bpow radix2 (20 + -20)) with 1%R. ring. }
  assert (HvL : val (float_of_Z (Z.of_nat (len F))) (IZR (Z.of_nat (len F)))) by (apply val_Z; unfold two53; lia).
  assert (HL2 : (2 <= IZR (Z.of_nat (len F)))%R) by (apply IZR_le; lia).
  assert (HnR : (2 <= IZR n)%R) by (apply IZR_le; lia).
  assert (Hq : (0 <= r / IZR (Z.of_nat (len F)) <= r / 2)%R).
  { split; [apply Rmult_le_pos; [lra|apply Rlt_le, Rinv_0_lt_compat; lra]|]. apply Rmult_le_compat_l; [lra|]. apply Rinv_le; lra. }
  exists (rnd (r / IZR (Z.of_nat (len F)))). split; [|split].
  - unfold table_score. fold F. apply val_div; [exact Hv|exact HvL|lra|]. apply small_le with 53%Z; [|lia]. rewrite Rabs_pos_eq by lra.
    apply Rle_trans with (IZR n); [lra|]. change (bpow radix2 53) with (IZR two53). apply IZR_le. unfold two53. lia.
  - apply rnd_ge_format; [apply format_0|lra].
  - apply Rle_lt_trans with (IZR (2 ^ 20 * n - 1) * bpow radix2 (-21))%R.
    + apply rnd_le_format; [apply format_scaled; [unfold two53|]; lia|].
      change (-21)%Z with (-20 + -1)%Z. rewrite bpow_plus. change (bpow radix2 (-1)) with (/ 2)%R. lra.
    + change (-21)%Z with (-20 + -1)%Z. rewrite bpow_plus. change (bpow radix2 (-1)) with (/ 2)%R. lra.
Qed.

(** ** A cell of unknown type lowers the score *)
Lemma share_less kb cells s q : (Z.of_nat (len cells) <= 2 ^ 52)%Z -> In (s, q) cells -> kb s q = false ->
  exists r, val (type_share kb cells) r /\ (0 <= r <= 1 - bpow radix2 (-52))%R.
Proof.
  intros Hl Hi Hk. destruct cells as [|c cells]; [destruct Hi|]. set (l := c :: cells) in *. cbn [type_share].
  pose proof (bpow_gt_0 radix2 (-52)) as Hu. assert (Hu2 : (bpow radix2 (-52) <= 1 / 4)%R).
  { apply Rle_trans with (bpow radix2 (-2)); [apply bpow_le; lia|cbn; lra]. }
  assert (Hc : (count_known kb l <= len l)%nat) by apply count_known_le.
  assert (Hne : count_known kb l <> len l). { intros E. pose proof (proj1 (count_known_all kb l) E s q Hi). congruence. }
  set (k := Z.of_nat (count_known kb l)). set (t := Z.of_nat (len l)).
  assert (Hkt : (0 <= k <= t - 1)%Z) by lia. assert (Ht : (1 <= t <= 2 ^ 52)%Z) by (unfold t, l; cbn [List.length]; unfold t, l in Hl; cbn [List.length] in Hl; lia).
  assert (Hvk : val (float_of_Z k) (IZR k)) by (apply val_Z; unfold two53; lia).
  assert (Hvt : val (float_of_Z t) (IZR t)) by (apply val_Z; unfold two53; lia).
  assert (Ht1 : (1 <= IZR t)%R) by (apply IZR_le; lia).
  assert (Ht2 : (IZR t <= bpow radix2 52)%R) by (change (bpow radix2 52) with (IZR (2 ^ 52)); apply IZR_le; lia).
  assert (Hk0 : (0 <= IZR k <= IZR t - 1)%R) by (split; [apply IZR_le; lia|rewrite <- minus_IZR; apply IZR_le; lia]).
  set (x := (IZR k / IZR t)%R). assert (Hx : (x * IZR t = IZR k)%R) by (unfold x; field; lra).
  assert (Hut : (bpow radix2 (-52) * IZR t <= 1)%R).
  { apply Rle_trans with (bpow radix2 (-52) * bpow radix2 52)%R; [apply Rmult_le_compat_l; lra|].
    rewrite <- bpow_plus. change (bpow radix2 (-52 + 52)) with 1%R. lra. }
  assert (Hx01 : (0 <= x <= 1 - bpow radix2 (-52))%R).
  { split; apply Rmult_le_reg_r with (IZR t); try lra; rewrite Hx; lra. }
  pose proof r_type_pos as Hp.
  exists (Rmax r_type (rnd x)). split; [|split].
  - apply fmax_val; [apply val_eps_type|]. apply val_div; [assumption..|lra|]. fold x. apply Rle_trans with (bpow radix2 0); [|apply bpow_le; lia].
    cbn. rewrite Rabs_pos_eq by lra. lra.
  - apply Rle_trans with r_type; [lra|apply Rmax_l].
  - apply Rmax_lub; [lra|]. apply rnd_le_format; [|lra].
    replace (1 - bpow radix2 (-52))%R with (IZR (2 ^ 52 - 1) * bpow radix2 (-52))%R.
    + apply format_scaled; [unfold two53|]; lia.
    + rewrite minus_IZR. change (IZR (2 ^ 52)) with (bpow radix2 52). rewrite Rmult_minus_distr_r, <- bpow_plus.
      change (bpow radix2 (52 + -52)) with 1%R. ring.
Qed.
Lemma product_less P T p t : val P p -> val T t -> (1 / 4 <= p <= bpow radix2 60)%R -> (0 <= t <= 1 - bpow radix2 (-52))%R ->
  exists q, val (fmul P T) q /\ (q < p)%R.
Proof.
  intros HP HT Hp Ht. exists (rnd (p * t)). pose proof (bpow_gt_0 radix2 (-52)) as Hu. split.
  - apply val_mul; [exact HP|exact HT|]. apply small_le with 60%Z; [|lia]. rewrite Rabs_pos_eq by nra. nra.
  - assert (Hu2 : (bpow radix2 (-52) <= 1 / 4)%R).
    { apply Rle_trans with (bpow radix2 (-2)); [apply bpow_le; lia|cbn; lra]. }
    assert (Hsm : (bpow radix2 (-900) <= 1 / 16)%R).
    { apply Rle_trans with (bpow radix2 (-4)); [apply bpow_le; lia|cbn; lra]. }
    set (y := (p * (1 - bpow radix2 (-52)))%R). assert (Hy : (p * t <= y)%R) by (unfold y; apply Rmult_le_compat_l; lra).
    apply Rle_lt_trans with (rnd y); [now apply rnd_le|].
    assert (Hy0 : (1 / 16 <= y)%R) by (unfold y; nra). destruct (rnd_rel y ltac:(lra)) as [_ H]. apply Rle_lt_trans with (1 := H).
    assert (E : (bpow radix2 (-52) = 2 * bpow radix2 (-53))%R) by (change (-52)%Z with (1 + -53)%Z; rewrite bpow_plus; reflexivity).
    unfold y. rewrite E in *. set (v := bpow radix2 (-53)) in *. assert (0 < v)%R by lra.
    replace (p * (1 - 2 * v) * (1 + v))%R with (p - p * (v + 2 * v * v))%R by ring. nra.
Qed.
