(** * TypeFacts: the type score and its cache (C44, C45) *)
From Coq Require Import Reals Lra SpecFloat.
From Flocq Require Import Core.
From Verif Require Import Base Parser Dialect SpecLayout SpecParse ParserFacts ParserProps ParserLift
  Floats FloatFacts Potential Ties Consistency SpecConsistency.

(** ** The cache *)
Lemma ckey_eqb_eq a b : ckey_eqb a b = true <-> a = b.
Proof.
  destruct a as [s p], b as [t q]. unfold ckey_eqb. cbn. rewrite andb_true_iff, str_eqb_eq, eqb_true_iff.
  split; [intros [-> ->]; reflexivity|intros H; injection H as -> ->; auto].
Qed.

Section Cache.
  Variable known : str -> bool -> res pyexc bool.
  Variable capacity : Z.
  Definition sound (c : cache) : Prop := forall k b, In (k, b) c -> known (fst k) (snd k) = Ok b.
  Lemma find_in k c b : cache_find k c = Some b -> In (k, b) c.
  Proof.
    induction c as [|[k' b'] c IH]; [discriminate|]. cbn [cache_find]. destruct (ckey_eqb k k') eqn:E.
    - apply ckey_eqb_eq in E as ->. intros H. injection H as ->. now left.
    - intros H. right. auto.
  Qed.
  Lemma drop_in p k c : In p (cache_drop k c) -> In p c.
  Proof.
    induction c as [|[k' b'] c IH]; [easy|]. cbn [cache_drop]. destruct (ckey_eqb k k').
    - now right.
    - intros [<-|H]; [now left|right; auto].
  Qed.
  Lemma drop_length k c b : cache_find k c = Some b -> length c = S (length (cache_drop k c)).
  Proof.
    induction c as [|[k' b'] c IH]; [discriminate|]. cbn [cache_find cache_drop]. destruct (ckey_eqb k k'); [reflexivity|].
    intros H. cbn [length]. now rewrite (IH H).
  Qed.
  Lemma firstn_in {A} n (l : list A) x : In x (firstn n l) -> In x l.
  Proof. revert n. induction l as [|y l IH]; intros [|n]; cbn; auto; [tauto|]. intros [->|H]; [now left|right; eauto]. Qed.

  Lemma call_sound s q c : sound c ->
    match cached_call known capacity s q c with
    | Ok (b, c') => known s q = Ok b /\ sound c'
    | Err e => known s q = Err e
    end.
  Proof.
    intros Hc. unfold cached_call. destruct (capacity <=? 0)%Z.
    - destruct (known s q); cbn; auto.
    - destruct (cache_find (s, q) c) as [b|] eqn:E.
      + apply find_in in E. split; [apply (Hc _ _ E)|]. intros k b' [H|H].
        * injection H as <- <-. apply (Hc _ _ E).
        * apply Hc. eapply drop_in, H.
      + destruct (known s q) as [b|e] eqn:Ek; cbn [bind]; [|reflexivity]. split; [reflexivity|].
        intros k b' H. apply firstn_in in H as [H|H]; [injection H as <- <-; exact Ek|now apply Hc].
  Qed.
  Lemma reached_sound c : reached known capacity c -> sound c.
  Proof.
    induction 1 as [|s q b c c' H IH E]; [intros k b []|].
    pose proof (call_sound s q c IH) as K. rewrite E in K. apply K.
  Qed.
  Lemma reached_length c : reached known capacity c -> (Z.of_nat (length c) <= Z.max 0 capacity)%Z.
  Proof.
    induction 1 as [|s q b c c' H IH E]; [cbn; lia|]. unfold cached_call in E.
    destruct (Z.leb_spec capacity 0) as [Hc|Hc].
    - destruct (known s q); [|discriminate]. cbn in E. injection E as <- <-. exact IH.
    - destruct (cache_find (s, q) c) as [b'|] eqn:Ef.
      + injection E as <- <-. cbn [length]. rewrite <- (drop_length _ _ _ Ef). exact IH.
      + destruct (known s q); [|discriminate]. cbn [bind] in E. injection E as <- <-.
        rewrite firstn_length. lia.
  Qed.

  Lemma type_cells_plain cells : forall tot kn c, sound c ->
    match type_cells known capacity cells tot kn c with
    | Ok (t, k, c') => plain_cells known cells tot kn = Ok (t, k) /\ sound c'
    | Err e => plain_cells known cells tot kn = Err e
    end.
  Proof.
    induction cells as [|[s|s q] cells IH]; intros tot kn c Hc; cbn [type_cells plain_cells].
    - auto.
    - reflexivity.
    - pose proof (call_sound s q c Hc) as H. destruct (cached_call known capacity s q c) as [[b c']|e]; cbn [bind].
      + destruct H as [-> H]. cbn [bind]. now apply IH.
      + now rewrite H.
  Qed.
  Lemma compute_sound limit data d c : sound c ->
    match compute_type_score known limit capacity data d c with
    | Ok (T, c') => type_score known limit data d = Ok T /\ sound c'
    | Err e => type_score known limit data d = Err e
    end.
  Proof.
    intros Hc. unfold compute_type_score, type_score. destruct (parse_string limit data d true) as [rows en].
    pose proof (type_cells_plain (concat rows) 0 0 c Hc) as H.
    destruct (type_cells known capacity (concat rows) 0 0 c) as [[[t k] c']|e]; cbn [bind].
    - destruct H as [-> H]. cbn [bind]. destruct en; auto.
    - now rewrite H.
  Qed.
End Cache.

Definition strip_cache {A B} (x : res pyexc (A * B)) : res pyexc A :=
  match x with Ok (a, _) => Ok a | Err e => Err e end.
Lemma cache_transparent known capacity c limit data d : reached known capacity c ->
  strip_cache (compute_type_score known limit capacity data d c) = type_score known limit data d.
Proof.
  intros H. pose proof (compute_sound known capacity limit data d c (reached_sound _ _ _ H)) as K.
  destruct (compute_type_score _ _ _ _ _ _) as [[T c']|e]; cbn.
  - symmetry. apply K.
  - now symmetry.
Qed.

(** ** The type score as a share *)

Lemma plain_cells_count kb rows : forall tot kn,
  plain_cells (total_known kb) (map (mk_cell true) rows) tot kn =
  Ok ((tot + Z.of_nat (length rows))%Z, (kn + Z.of_nat (count_known kb rows))%Z).
Proof.
  induction rows as [|[s q] rows IH]; intros tot kn.
  - unfold count_known. cbn [map plain_cells length filter]. do 2 f_equal; lia.
  - cbn [map mk_cell plain_cells fst snd total_known bind]. rewrite IH. unfold count_known. cbn [filter fst snd].
    destruct (kb s q); cbn [length]; do 2 f_equal; lia.
Qed.

Lemma tuples rows : Forall (Forall (fun c => is_tuple c = true)) rows -> exists vs, rows = mk_rows true vs.
Proof.
  assert (H1 : forall r, Forall (fun c => is_tuple c = true) r -> exists v, r = map (mk_cell true) v).
  { induction 1 as [|[s|s q] r Hc H [v ->]]; [now exists []|discriminate|]. exists ((s, q) :: v). reflexivity. }
  induction 1 as [|r rows Hr H [vs ->]]; [now exists []|]. destruct (H1 r Hr) as [v ->]. exists (v :: vs). reflexivity.
Qed.
Lemma parse_tuples limit data d : validate d = true -> exists vs, fst (parse_string limit data d true) = mk_rows true vs.
Proof.
  intros Hv. destruct (simple_of_valid d Hv) as [D ->]. rewrite parse_string_conf. unfold py_result. cbn [fst].
  unfold parse_text, conf. apply tuples. apply quoting_info_irrelevant.
Qed.
Lemma concat_mk_rows rq vs : concat (mk_rows rq vs) = map (mk_cell rq) (concat vs).
Proof. unfold mk_rows. now rewrite concat_map. Qed.

Lemma ratio_share kb cells :
  type_ratio (0 + Z.of_nat (length cells)) (0 + Z.of_nat (count_known kb cells)) = type_share kb cells.
Proof.
  unfold type_ratio, type_share. rewrite !Z.add_0_l. destruct cells as [|c cells]; [reflexivity|].
  destruct (Z.eqb_spec (Z.of_nat (length (c :: cells))) 0) as [E|E]; [cbn [length] in E; lia|reflexivity].
Qed.

Lemma type_score_share kb limit data d : validate d = true -> sd_strict d = false ->
  (Z.of_nat (length data) <= limit)%Z -> ~ In NUL data ->
  exists rows, parse_string limit data d true = (mk_rows true rows, None) /\
    type_score (total_known kb) limit data d = Ok (type_share kb (concat rows)).
Proof.
  intros Hv Hs Hl Hn. destruct (parse_tuples limit data d Hv) as [vs E1].
  destruct (parse_string_total limit data d true Hv Hs Hl) as [_ H]. specialize (H Hn).
  exists vs. unfold type_score. destruct (parse_string limit data d true) as [rows en]. cbn [fst snd] in *. subst.
  split; [reflexivity|]. rewrite concat_mk_rows, plain_cells_count. cbn [bind]. now rewrite ratio_share.
Qed.

Lemma type_score_layout kb limit D dc :
  wf_chars D = true -> wf_doc D dc = true ->
  Forall (fun s => Z.of_nat (length s) <= limit)%Z (raw_cells D dc) ->
  type_score (total_known kb) limit (render D dc) (simple D false) = Ok (type_share kb (concat (denote D dc))).
Proof.
  intros H1 H2 H3. unfold type_score. rewrite parse_string_layout by assumption.
  rewrite concat_mk_rows, plain_cells_count. cbn [bind]. now rewrite ratio_share.
Qed.

(** ** Bounds *)
Lemma r_type_pos : (0 < r_type <= 1/2)%R.
Proof.
  pose proof r_type_bounds as [H1 H2]. pose proof (bpow_gt_0 radix2 (-34)).
  assert (bpow radix2 (-33) <= 1/2)%R by (replace (1/2)%R with (bpow radix2 (-1)); [apply bpow_le; lia|cbn; lra]). lra.
Qed.

Lemma count_known_le kb cells : count_known kb cells <= length cells.
Proof. unfold count_known. induction cells as [|c cells IH]; cbn; [lia|]. destruct (kb _ _); cbn; lia. Qed.
Lemma count_known_all kb cells : count_known kb cells = length cells <->
  forall s q, In (s, q) cells -> kb s q = true.
Proof.
  induction cells as [|[s q] cells IH].
  - unfold count_known. cbn. split; [intros _ ? ? []|reflexivity].
  - pose proof (count_known_le kb cells) as H. unfold count_known in *. cbn [filter fst snd].
    destruct (kb s q) eqn:E; cbn [length].
    + split.
      * intros K s' q' [X|X]; [injection X as <- <-; exact E|]. apply IH; [lia|exact X].
      * intros K. f_equal. apply IH. intros s' q' X. apply K. now right.
    + split; [lia|]. intros K. rewrite (K s q (or_introl eq_refl)) in E. discriminate.
Qed.

(** A proper fraction stays below 1 after rounding. *)
Lemma format_below_one : generic_format radix2 (SpecFloat.fexp fprec femax) (1 - bpow radix2 (-53)).
Proof.
  replace (1 - bpow radix2 (-53))%R with (F2R (Float radix2 (two53 - 1) (-53))).
  - apply generic_format_F2R. intros _. unfold cexp, SpecFloat.fexp, SpecFloat.emin, fprec, femax.
    rewrite mag_F2R by (unfold two53; lia).
    assert (H : (mag radix2 (IZR (two53 - 1)) <= 53)%Z).
    { apply mag_le_bpow; [apply IZR_neq; unfold two53; lia|]. rewrite <- abs_IZR.
      change (bpow radix2 53) with (IZR two53). apply IZR_lt. unfold two53. lia. }
    lia.
  - unfold F2R. cbn [Fnum Fexp]. rewrite minus_IZR. change (IZR two53) with (bpow radix2 53).
    rewrite Rmult_minus_distr_r, <- bpow_plus, Rmult_1_l. reflexivity.
Qed.
Lemma ratio_val k t : (0 <= k <= t)%Z -> (1 <= t <= two53)%Z ->
  exists r, val (fdiv (float_of_Z k) (float_of_Z t)) r /\ (0 <= r <= 1)%R /\ (r = 1%R <-> k = t).
Proof.
  intros Hk Ht.
  assert (Hvk : val (float_of_Z k) (IZR k)) by (apply val_Z; lia).
  assert (Hvt : val (float_of_Z t) (IZR t)) by (apply val_Z; lia).
  assert (Ht1 : (1 <= IZR t)%R) by (apply IZR_le; lia).
  assert (Hk0 : (0 <= IZR k <= IZR t)%R) by (split; apply IZR_le; lia).
  set (x := (IZR k / IZR t)%R).
  assert (Hx : (x * IZR t = IZR k)%R) by (unfold x; field; lra).
  assert (Hx01 : (0 <= x <= 1)%R).
  { split; apply Rmult_le_reg_r with (IZR t); try lra; rewrite Hx; lra. }
  exists (rnd x). split; [|split; [split|]].
  - apply val_div; [assumption..|lra|]. fold x. apply Rle_trans with (bpow radix2 0); [|apply bpow_le; lia].
    cbn. rewrite Rabs_pos_eq by lra. lra.
  - apply rnd_ge_format; [apply format_0|lra].
  - apply rnd_le_format; [apply format_1|lra].
  - split.
    + intros E. destruct (Z.eq_dec k t) as [e|n]; [exact e|exfalso].
      assert (Hlt : (x <= 1 - bpow radix2 (-53))%R).
      { apply Rmult_le_reg_r with (IZR t); [lra|]. rewrite Hx.
        assert (IZR k <= IZR t - 1)%R by (rewrite <- minus_IZR; apply IZR_le; lia).
        assert (bpow radix2 (-53) * IZR t <= 1)%R.
        { apply Rle_trans with (bpow radix2 (-53) * bpow radix2 53)%R.
          - apply Rmult_le_compat_l; [apply bpow_ge_0|]. change (bpow radix2 53) with (IZR two53). apply IZR_le. lia.
          - rewrite <- bpow_plus. change (bpow radix2 (-53 + 53)) with 1%R. lra. }
        lra. }
      apply (rnd_le_format _ _ format_below_one) in Hlt. pose proof (bpow_gt_0 radix2 (-53)). lra.
    + intros ->. replace x with 1%R by (unfold x; field; lra). apply format_rnd, format_1.
Qed.

Lemma share_val kb cells : (Z.of_nat (length cells) <= two53)%Z ->
  exists r, val (type_share kb cells) r /\ (r_type <= r <= 1)%R /\
    (r = 1%R <-> cells <> [] /\ forall s q, In (s, q) cells -> kb s q = true).
Proof.
  intros Hl. pose proof r_type_pos as Hp. destruct cells as [|c cells].
  - exists r_type. split; [exact val_eps_type|]. split; [lra|]. split; [lra|tauto].
  - cbn [type_share]. set (l := c :: cells) in *.
    destruct (ratio_val (Z.of_nat (count_known kb l)) (Z.of_nat (length l))) as (r & Hv & Hr & H1).
    + pose proof (count_known_le kb l). lia.
    + cbn [length l] in *. lia.
    + exists (Rmax r_type r). split; [apply fmax_val; [apply val_eps_type|exact Hv]|].
      split; [split; [apply Rmax_l|apply Rmax_lub; lra]|].
      transitivity (r = 1%R).
      { unfold Rmax. destruct (Rle_dec r_type r); [reflexivity|]. split; lra. }
      rewrite H1, <- count_known_all, Nat2Z.inj_iff. split; [|tauto]. intros H. split; [discriminate|exact H].
Qed.

Lemma share_bounds kb cells : (Z.of_nat (length cells) <= two53)%Z ->
  fleb eps_type (type_share kb cells) = true /\ fleb (type_share kb cells) fone = true /\
  (type_share kb cells = fone <-> cells <> [] /\ forall s q, In (s, q) cells -> kb s q = true).
Proof.
  intros Hl. destruct (share_val kb cells Hl) as (r & Hv & Hr & H1).
  assert (Hone : val fone 1) by (apply (val_Z 1); unfold two53; lia).
  rewrite (fleb_val _ _ _ _ val_eps_type Hv), (fleb_val _ _ _ _ Hv Hone). split; [lra|]. split; [lra|].
  rewrite <- H1. split.
  - intros E. rewrite E in Hv. apply (val_unique _ _ _ Hv Hone).
  - intros ->. apply (val_inj _ _ 1 Hv Hone). lra.
Qed.

(** ** How many cells a text can have *)
Section Count.
  Variable cf : pconf.
  Lemma save_len o tr : length (p_fields (save_field str_ops cf o tr)) = S (length (p_fields o)).
  Proof.
    destruct o as [st b fs dq]. destruct (save_fields st b fs dq cf tr) as (s & q & -> & _).
    rewrite app_length. cbn. lia.
  Qed.
  Lemma add_len o c o' : add_char str_ops cf o c = Ok o' -> p_fields o' = p_fields o.
  Proof. unfold add_char. cbn. destruct (str_add _ _ _); [|discriminate]. cbn. intros H. now injection H as <-. Qed.
  Lemma step_len o u v o' : process_char str_ops cf o u v = Ok o' ->
    length (p_fields o') <= S (length (p_fields o)).
  Proof.
    assert (A : forall o c (g : pobj str -> res perr (pobj str)) o' n,
      (forall x x', g x = Ok x' -> length (p_fields x') <= n + length (p_fields x)) ->
      bind (add_char str_ops cf o c) g = Ok o' -> length (p_fields o') <= n + length (p_fields o)).
    { clear. intros o c g o' n Hg H. destruct (add_char str_ops cf o c) as [x|] eqn:E; [|discriminate]. cbn in H.
      apply Hg in H. apply add_len in E. now rewrite E in H. }
    assert (B : forall o st x', Ok (set_state o st) = @Ok perr (pobj str) x' -> length (p_fields x') <= 0 + length (p_fields o)).
    { intros x st x' H. injection H as <-. reflexivity. }
    assert (C : forall o st x', Ok (set_state (save_field str_ops cf o false) st) = @Ok perr (pobj str) x' ->
      length (p_fields x') <= S (length (p_fields o))).
    { intros x st x' H. injection H as <-. cbn [set_state p_fields]. now rewrite save_len. }
    assert (D : forall o c x', add_char str_ops cf o c = Ok x' -> length (p_fields x') <= S (length (p_fields o))).
    { intros x c x' H. apply add_len in H. rewrite H. lia. }
    assert (E : forall n m : nat, n <= 0 + m -> n <= S m) by (intros; lia).
    assert (SF : forall o u o', do_start_field str_ops cf o u = Ok o' -> length (p_fields o') <= S (length (p_fields o))).
    { clear o u v o'. intros o u o'. unfold do_start_field.
      repeat match goal with |- context [if ?b then _ else _] => destruct b end; intros H.
      all: first [now apply C in H|now apply E, (A _ _ _ _ 0 (fun x x' Hx => B x _ x' Hx) H)|now apply E, (B _ _ _ H)|idtac].
      all: try (injection H as <-; now rewrite save_len). all: now apply C in H. }
    assert (IF : forall o u o', do_in_field str_ops cf o u = Ok o' -> length (p_fields o') <= S (length (p_fields o))).
    { clear o u v o'. intros o u o'. unfold do_in_field.
      repeat match goal with |- context [if ?b then _ else _] => destruct b end; intros H.
      all: first [now apply C in H|now apply E, (A _ _ _ _ 0 (fun x x' Hx => B x _ x' Hx) H)|now apply E, (B _ _ _ H)|now apply D in H]. }
    unfold process_char. destruct (p_state o).
    all: repeat match goal with |- context [if ?b then _ else _] => destruct b end; intros H.
    all: cbn [bind] in H.
    all: try (now apply SF in H); try (now apply IF in H); try (now apply C in H); try (now apply D in H);
      try (now apply E, (B _ _ _ H)); try discriminate; try (injection H as <-; cbn; lia).
    all: try now apply E, (A _ _ _ _ 0 (fun x x' Hx => B x _ x' Hx) H).
    all: apply E; refine (A _ _ _ _ 0 _ H); intros x x' Hx; exact (A _ _ _ _ 0 (fun y y' Hy => B y _ y' Hy) Hx).
  Qed.
  Definition cells_in (x : list (list cell) * ending) : nat := length (concat (fst x)).
  Lemma eof_len o : cells_in (at_eof cf o) <= S (length (p_fields o)).
  Proof.
    unfold at_eof. cbn [iternext_loop]. destruct (_ || _); [|cbn; lia].
    destruct (strict cf); [cbn; lia|]. unfold cells_in. cbn [fst concat]. rewrite app_nil_r, save_len. lia.
  Qed.
  Lemma eol_len o k n : (forall o', cells_in (k o') <= length (p_fields o') + n) ->
    cells_in (eol_event cf o k) <= S (length (p_fields o)) + n.
  Proof.
    intros Hk. unfold eol_event. destruct (process_char str_ops cf o 0 0) as [o'|] eqn:E; [|cbn; lia].
    apply step_len in E. pose proof (Hk o') as H1. pose proof (Hk (parse_reset str_ops o')) as H2. cbn [parse_reset p_fields length] in H2.
    destruct (p_state o'); try lia. unfold cons_row, cells_in in *. destruct (k (parse_reset str_ops o')) as [rows en].
    cbn [fst concat] in *. rewrite app_length. lia.
  Qed.
  Lemma trun_len t : forall o mid, cells_in (trun cf o mid t) <= length (p_fields o) + (2 * length t + 2).
  Proof.
    induction t as [|c t IH]; intros o mid; cbn [trun length].
    - destruct mid.
      + pose proof (eol_len o (at_eof cf) 1) as H. assert (forall o', cells_in (at_eof cf o') <= length (p_fields o') + 1).
        { intros o'. pose proof (eof_len o'). lia. }
        specialize (H H0). lia.
      + pose proof (eof_len o). lia.
    - destruct (c =? 0)%N; [cbn; lia|]. destruct (process_char str_ops cf o c (la c t)) as [o'|] eqn:E; [|cbn; lia].
      apply step_len in E. destruct (brk c t).
      + pose proof (eol_len o' (fun o'' => trun cf o'' false t) (2 * length t + 2) (fun o'' => IH o'' false)). lia.
      + specialize (IH o' true). lia.
  Qed.
End Count.

Lemma cells_bound limit data d rq : validate d = true ->
  length (concat (fst (parse_string limit data d rq))) <= 2 * length data + 2.
Proof.
  intros Hv. destruct (simple_of_valid d Hv) as [D ->]. rewrite parse_string_conf. unfold py_result. cbn [fst].
  rewrite parse_text_trun. apply (trun_len _ data pure_new false).
Qed.

Definition two50 : Z := 2 ^ 50.
Lemma type_score_val kb limit data d : validate d = true -> sd_strict d = false ->
  (Z.of_nat (length data) <= limit)%Z -> ~ In NUL data -> (Z.of_nat (length data) < two50)%Z ->
  exists T r, type_score (total_known kb) limit data d = Ok T /\ val T r /\ (0 < r <= 1)%R.
Proof.
  intros Hv Hs Hl Hn H50. destruct (type_score_share kb limit data d Hv Hs Hl Hn) as (rows & E & ET).
  pose proof (cells_bound limit data d true Hv) as Hc. rewrite E in Hc. cbn [fst] in Hc.
  rewrite concat_mk_rows, map_length in Hc.
  destruct (share_val kb (concat rows)) as (r & Hr & Hb & _).
  { unfold two50, two53 in *. lia. }
  exists (type_share kb (concat rows)), r. pose proof r_type_pos. split; [exact ET|]. split; [exact Hr|lra].
Qed.
