(** * FloatFacts: order facts about binary64, by way of Flocq *)
From Coq Require Import Reals Lra SpecFloat.
From Flocq Require Import Core BinarySingleNaN.
From Verif Require Import Base Floats.

Local Instance Hprec : FLX.Prec_gt_0 fprec := eq_refl _.
Local Instance Hmax : Prec_lt_emax fprec femax := eq_refl _.

Definition b64 := binary_float fprec femax.
Notation rfexp := (SpecFloat.fexp fprec femax).
Definition rnd (x : R) : R := round radix2 rfexp ZnearestE x.

(** ** The standard library operations are Flocq's *)
Lemma round_aux_equiv sx mx ex lx :
  SpecFloat.binary_round_aux fprec femax sx mx ex lx =
  BinarySingleNaN.binary_round_aux fprec femax mode_NE sx mx ex lx.
Proof.
  unfold SpecFloat.binary_round_aux, BinarySingleNaN.binary_round_aux.
  destruct (shr_fexp _ _ _) as [mrs' e'].
  assert (H : round_nearest_even (shr_m mrs') (loc_of_shr_record mrs') =
              choice_mode mode_NE sx (shr_m mrs') (loc_of_shr_record mrs')).
  { destruct (loc_of_shr_record mrs') as [|[| |]]; cbn; try reflexivity.
    unfold Round.cond_incr. now destruct (Z.even _). }
  now rewrite H.
Qed.

Lemma normalize_equiv m e z :
  SpecFloat.binary_normalize fprec femax m e z =
  B2SF (BinarySingleNaN.binary_normalize fprec femax Hprec Hmax mode_NE m e z).
Proof.
  assert (H : forall s p, SpecFloat.binary_round fprec femax s p e =
                          BinarySingleNaN.binary_round fprec femax mode_NE s p e).
  { intros s p. unfold SpecFloat.binary_round, BinarySingleNaN.binary_round, shl_align_fexp.
    destruct (shl_align _ _ _) as [mz ez]. apply round_aux_equiv. }
  destruct m as [|p|p]; [reflexivity|..];
    cbn [SpecFloat.binary_normalize BinarySingleNaN.binary_normalize];
    rewrite B2SF_SF2B; apply H.
Qed.

Lemma mul_equiv (x y : b64) : fmul (B2SF x) (B2SF y) = B2SF (Bmult mode_NE x y).
Proof.
  unfold fmul. destruct x, y; try reflexivity. cbn [B2SF SFmul Bmult]. rewrite B2SF_SF2B.
  apply round_aux_equiv.
Qed.

Lemma add_equiv (x y : b64) : fadd (B2SF x) (B2SF y) = B2SF (Bplus mode_NE x y).
Proof.
  unfold fadd. destruct x, y; try reflexivity;
    try (cbn [B2SF SFadd Bplus]; now destruct (Bool.eqb _ _)).
  cbn [B2SF SFadd Bplus]. apply normalize_equiv.
Qed.

Lemma div_equiv (x y : b64) : fdiv (B2SF x) (B2SF y) = B2SF (Bdiv mode_NE x y).
Proof.
  unfold fdiv. destruct x, y; try reflexivity. cbn [B2SF SFdiv Bdiv]. rewrite B2SF_SF2B.
  destruct (SFdiv_core_binary _ _ _ _ _ _) as [[mz ez] lz]. apply round_aux_equiv.
Qed.

(** ** Values *)
Definition val (x : float) (r : R) : Prop :=
  exists b : b64, B2SF b = x /\ is_finite b = true /\ B2R b = r.

Lemma valid_fexp : Valid_exp rfexp.
Proof. apply fexp_correct, Hprec. Qed.
Local Existing Instance valid_fexp.
Lemma valid_NE : Valid_rnd ZnearestE.
Proof. apply valid_rnd_N. Qed.
Local Existing Instance valid_NE.

Lemma rnd_le x y : (x <= y)%R -> (rnd x <= rnd y)%R.
Proof. apply round_le; typeclasses eauto. Qed.
Lemma format_rnd x : generic_format radix2 rfexp x -> rnd x = x.
Proof. apply round_generic; typeclasses eauto. Qed.
Lemma val_format x r : val x r -> generic_format radix2 rfexp r.
Proof. intros (b & _ & _ & <-). apply generic_format_B2R. Qed.
Lemma val_rnd x r : val x r -> rnd r = r.
Proof. intros H. eapply format_rnd, val_format, H. Qed.

Lemma format_bpow k : (-1000 <= k <= 1000)%Z -> generic_format radix2 rfexp (bpow radix2 k).
Proof.
  intros H. apply generic_format_bpow'; [typeclasses eauto|].
  unfold SpecFloat.fexp, SpecFloat.emin, fprec, femax. lia.
Qed.

Lemma rnd_small x : (Rabs x <= bpow radix2 1000)%R ->
  Rlt_bool (Rabs (rnd x)) (bpow radix2 femax) = true.
Proof.
  intros H. apply Rlt_bool_true. apply Rle_lt_trans with (bpow radix2 1000).
  - unfold rnd. apply abs_round_le_generic; [typeclasses eauto..|apply format_bpow; lia|exact H].
  - apply bpow_lt. unfold femax. lia.
Qed.

Lemma val_mul x y a b : val x a -> val y b -> (Rabs (a * b) <= bpow radix2 1000)%R ->
  val (fmul x y) (rnd (a * b)).
Proof.
  intros (u & <- & Hu & <-) (v & <- & Hv & <-) H. rewrite mul_equiv.
  exists (Bmult mode_NE u v). split; [reflexivity|].
  generalize (Bmult_correct fprec femax Hprec Hmax mode_NE u v).
  cbn [round_mode]. fold (rnd (B2R u * B2R v)). rewrite rnd_small by exact H.
  intros (H1 & H2 & _). rewrite H2, Hu, Hv. auto.
Qed.

Lemma val_add x y a b : val x a -> val y b -> (Rabs (a + b) <= bpow radix2 1000)%R ->
  val (fadd x y) (rnd (a + b)).
Proof.
  intros (u & <- & Hu & <-) (v & <- & Hv & <-) H. rewrite add_equiv.
  exists (Bplus mode_NE u v). split; [reflexivity|].
  generalize (Bplus_correct fprec femax Hprec Hmax mode_NE u v Hu Hv).
  cbn [round_mode]. fold (rnd (B2R u + B2R v)). rewrite rnd_small by exact H.
  intros (H1 & H2 & _). auto.
Qed.

Lemma val_div x y a b : val x a -> val y b -> b <> 0%R -> (Rabs (a / b) <= bpow radix2 1000)%R ->
  val (fdiv x y) (rnd (a / b)).
Proof.
  intros (u & <- & Hu & <-) (v & <- & Hv & <-) Hb H. rewrite div_equiv.
  exists (Bdiv mode_NE u v). split; [reflexivity|].
  generalize (Bdiv_correct fprec femax Hprec Hmax mode_NE u v Hb).
  cbn [round_mode]. fold (rnd (B2R u / B2R v)). rewrite rnd_small by exact H.
  intros (H1 & H2 & _). rewrite H2, Hu. auto.
Qed.

Definition two53 : Z := 2 ^ 53.

Lemma format_Z n : (Z.abs n <= two53)%Z -> generic_format radix2 rfexp (IZR n).
Proof.
  intros H. destruct (Z.eq_dec (Z.abs n) two53) as [E|E].
  - assert (Hb : bpow radix2 53 = IZR two53) by reflexivity.
    assert (Hf : generic_format radix2 rfexp (IZR two53)) by (rewrite <- Hb; apply format_bpow; lia).
    destruct (Z.abs_eq_or_opp n) as [En|En]; rewrite En in E.
    + now rewrite E.
    + replace n with (- two53)%Z by lia. rewrite opp_IZR. now apply generic_format_opp.
  - replace (IZR n) with (F2R (Float radix2 n 0)) by (unfold F2R; cbn; ring).
    apply generic_format_F2R. intros Hn.
    unfold cexp, SpecFloat.fexp, SpecFloat.emin, fprec, femax.
    assert (Hm : (mag radix2 (F2R (Float radix2 n 0)) <= 53)%Z).
    { apply mag_le_bpow.
      - unfold F2R. cbn. rewrite Rmult_1_r. now apply IZR_neq.
      - unfold F2R. cbn [Fnum Fexp]. change (bpow radix2 0) with 1%R. rewrite Rmult_1_r.
        rewrite <- abs_IZR. change (bpow radix2 53) with (IZR two53). apply IZR_lt. lia. }
    lia.
Qed.

Lemma IZR_small n : (Z.abs n <= two53)%Z -> (Rabs (IZR n) <= bpow radix2 53)%R.
Proof. intros H. rewrite <- abs_IZR. change (bpow radix2 53) with (IZR two53). now apply IZR_le. Qed.

Lemma bpow_le_1000 k : (k <= 1000)%Z -> (bpow radix2 k <= bpow radix2 1000)%R.
Proof. apply bpow_le. Qed.

Lemma val_Z n : (Z.abs n <= two53)%Z -> val (float_of_Z n) (IZR n).
Proof.
  intros H. unfold float_of_Z. rewrite normalize_equiv.
  exists (BinarySingleNaN.binary_normalize fprec femax Hprec Hmax mode_NE n 0 false).
  split; [reflexivity|].
  generalize (binary_normalize_correct fprec femax Hprec Hmax mode_NE n 0 false).
  cbn [round_mode]. cbv zeta.
  replace (F2R (Float radix2 n 0)) with (IZR n) by (unfold F2R; cbn; ring).
  fold (rnd (IZR n)). rewrite rnd_small.
  - intros (H1 & H2 & _). rewrite H1, H2. split; [reflexivity|]. apply format_rnd, format_Z, H.
  - apply Rle_trans with (bpow radix2 53); [now apply IZR_small|apply bpow_le_1000; lia].
Qed.

Lemma val_zero : val fzero 0.
Proof. exists (B754_zero false). auto. Qed.

(** Constants. *)
Lemma val_finite m e : SpecFloat.bounded fprec femax m e = true ->
  val (S754_finite false m e) (F2R (Float radix2 (Zpos m) e)).
Proof. intros H. exists (B754_finite false m e H). auto. Qed.

Definition r_pat : R := F2R (Float radix2 0x10624dd2f1a9fc (-62)).
Definition r_type : R := F2R (Float radix2 0x1b7cdfd9d7bdbb (-86)).
Lemma val_eps_pat : val eps_pat r_pat.
Proof. now apply val_finite. Qed.
Lemma val_eps_type : val eps_type r_type.
Proof. now apply val_finite. Qed.

Lemma F2R_bounds m e a b : (2 ^ a <= Zpos m <= 2 ^ b)%Z -> (0 <= a)%Z -> (0 <= b)%Z ->
  (bpow radix2 (a + e) <= F2R (Float radix2 (Zpos m) e) <= bpow radix2 (b + e))%R.
Proof.
  intros [H1 H2] Ha Hb. unfold F2R. cbn [Fnum Fexp]. rewrite !bpow_plus.
  rewrite <- (IZR_Zpower radix2 a), <- (IZR_Zpower radix2 b) by assumption.
  split; apply Rmult_le_compat_r; try apply bpow_ge_0; apply IZR_le; assumption.
Qed.

Lemma r_pat_bounds : (bpow radix2 (-10) <= r_pat <= bpow radix2 (-9))%R.
Proof. apply (F2R_bounds _ (-62) 52 53); lia. Qed.
Lemma r_type_bounds : (bpow radix2 (-34) <= r_type <= bpow radix2 (-33))%R.
Proof. apply (F2R_bounds _ (-86) 52 53); lia. Qed.

(** ** Comparisons *)
Lemma fltb_val x y a b : val x a -> val y b -> fltb x y = true <-> (a < b)%R.
Proof.
  intros (u & <- & Hu & <-) (v & <- & Hv & <-).
  change (fltb (B2SF u) (B2SF v)) with (Bltb u v). rewrite Bltb_correct by assumption.
  case Rlt_bool_spec; intros H; split; intros; try discriminate; auto; lra.
Qed.

Lemma fltb_val_false x y a b : val x a -> val y b -> fltb x y = false <-> (b <= a)%R.
Proof.
  intros Hx Hy. destruct (fltb x y) eqn:E.
  - rewrite (fltb_val _ _ _ _ Hx Hy) in E. split; [discriminate|lra].
  - split; [|reflexivity]. intros _. apply Rnot_lt_le. rewrite <- (fltb_val _ _ _ _ Hx Hy). congruence.
Qed.

Lemma fleb_val x y a b : val x a -> val y b -> fleb x y = true <-> (a <= b)%R.
Proof.
  intros (u & <- & Hu & <-) (v & <- & Hv & <-).
  change (fleb (B2SF u) (B2SF v)) with (Bleb u v). rewrite Bleb_correct by assumption.
  case Rle_bool_spec; intros H; split; intros; try discriminate; auto; lra.
Qed.

Lemma feqb_val x y a b : val x a -> val y b -> feqb x y = true <-> a = b.
Proof.
  intros (u & <- & Hu & <-) (v & <- & Hv & <-).
  change (feqb (B2SF u) (B2SF v)) with (Beqb u v). rewrite Beqb_correct by assumption.
  case Req_bool_spec; intros H; split; intros; try discriminate; auto; lra.
Qed.

Lemma fmax_val x y a b : val x a -> val y b -> val (fmax x y) (Rmax a b).
Proof.
  intros Hx Hy. unfold fmax. destruct (fltb x y) eqn:E.
  - rewrite (fltb_val _ _ _ _ Hx Hy) in E. rewrite Rmax_right by lra. exact Hy.
  - rewrite (fltb_val_false _ _ _ _ Hx Hy) in E. rewrite Rmax_left by lra. exact Hx.
Qed.

Lemma minus_inf_lt x a : val x a -> fltb minus_inf x = true.
Proof. intros (u & <- & Hu & <-). destruct u; try discriminate; reflexivity. Qed.

Lemma lt_minus_inf x a : val x a -> fltb x minus_inf = false.
Proof. intros (u & <- & Hu & <-). destruct u as [[]| | |[] ? ?]; try discriminate; reflexivity. Qed.

Lemma val_inj x y a : val x a -> val y a -> (a <> 0)%R -> x = y.
Proof.
  intros (u & <- & Hu & Eu) (v & <- & Hv & Ev) Ha. f_equal.
  apply B2R_inj; [|..|congruence].
  - destruct u; try discriminate; [cbn in Eu; congruence|reflexivity].
  - destruct v; try discriminate; [cbn in Ev; congruence|reflexivity].
Qed.

Lemma val_unique x a b : val x a -> val x b -> a = b.
Proof.
  intros (u & Eu & Hu & <-) (v & Ev & Hv & <-). f_equal. apply B2SF_inj. congruence.
Qed.

(** A positive value is a finite float with positive sign. *)
Lemma val_pos x a : val x a -> (0 < a)%R -> exists m e, x = S754_finite false m e.
Proof.
  intros (u & <- & Hu & <-) Ha. destruct u as [s|s| |s m e H]; try discriminate.
  - cbn in Ha. lra.
  - cbn in Ha |- *. destruct s; [|eauto].
    exfalso. cbn in Ha. assert ((F2R (Float radix2 (Z.neg m) e) < 0)%R) by now apply F2R_lt_0.
    lra.
Qed.

Lemma rnd_ge_format a x : generic_format radix2 rfexp a -> (a <= x)%R -> (a <= rnd x)%R.
Proof. intros Ha H. apply round_ge_generic; [typeclasses eauto..|exact Ha|exact H]. Qed.
Lemma rnd_le_format a x : generic_format radix2 rfexp a -> (x <= a)%R -> (rnd x <= a)%R.
Proof. intros Ha H. apply round_le_generic; [typeclasses eauto..|exact Ha|exact H]. Qed.

Lemma format_1 : generic_format radix2 rfexp 1.
Proof. change 1%R with (bpow radix2 0). apply format_bpow. lia. Qed.
Lemma format_0 : generic_format radix2 rfexp 0.
Proof. apply generic_format_0. Qed.
