(** * DetectFacts: the consistency measure as a whole (C32-C35) *)
From Coq Require Import Reals Lra SpecFloat Permutation.
From Flocq Require Import Core IEEE754.BinarySingleNaN.
From Verif Require Import Base Parser Dialect SpecLayout SpecParse ParserLift Potential SpecPotential
  PotentialFacts MaskedFacts Abstraction AbstractionFacts ShapeFacts Floats FloatFacts Ties TieFacts Consistency SpecConsistency
  ScoreFacts TypeFacts.

(** ** The candidates *)
Definition candidates_ok (L : list SimpleDialect) : Prop :=
  Forall (fun d => validate d = true /\ sd_strict d = false /\ defined d) L.

Section Candidates.
  Variable cat : N -> str.
  Variable url : str -> str -> option nat.

  Lemma candidate_valid user text data d q e : candidate cat user text data d q e ->
    validate (dialect3 d q e) = true.
  Proof.
    intros (Hd & Hq & He). unfold validate, dialect3. cbn [sd_delimiter sd_quotechar sd_escapechar].
    assert (F : forall s, s = [] \/ (exists c, s = [c]) -> field_valid (Some s) = true).
    { intros s [->|[c ->]]; reflexivity. }
    rewrite !F; [reflexivity|..].
    - destruct He as [->|(u & v & -> & _)]; eauto.
    - destruct Hq as [->|(u & -> & _)]; eauto.
    - destruct Hd as [->|(u & -> & _)]; eauto.
  Qed.

  Definition clean (data : str) : Prop := forall x, In x (filter_urls url data) -> surrogate x = false.
  Lemma clean_dec data : clean data \/ exists x, In x (filter_urls url data) /\ surrogate x = true.
  Proof.
    unfold clean. induction (filter_urls url data) as [|x l IH]; [left; intros ? []|].
    destruct (surrogate x) eqn:E; [right; exists x; split; [now left|exact E]|].
    destruct IH as [IH|(y & Hy & E')]; [left|right; exists y; split; [now right|exact E']].
    intros y [<-|Hy]; auto.
  Qed.

  Lemma get_dialects_good O data user masked : any_orders O -> clean data ->
    exists L, get_dialects cat url O utf8 data user masked = Ok L /\ NoDup L /\ candidates_ok L.
  Proof.
    intros HO Hc. destruct (get_dialects_utf8 cat url O data user masked HO Hc) as (L & E & Hn & Hi).
    exists L. split; [exact E|]. split; [exact Hn|]. apply Forall_forall. intros d Hd.
    apply Hi in Hd as (a & b & c & -> & Hcand & _). split; [now apply candidate_valid in Hcand|].
    split; [reflexivity|]. repeat split; discriminate.
  Qed.
  Lemma get_dialects_perm O1 O2 data user masked : any_orders O1 -> any_orders O2 ->
    (exists L1 L2, get_dialects cat url O1 utf8 data user masked = Ok L1 /\
       get_dialects cat url O2 utf8 data user masked = Ok L2 /\ Permutation L1 L2 /\ candidates_ok L1 /\ candidates_ok L2) \/
    (get_dialects cat url O1 utf8 data user masked = Err UnicodeEncodeError /\
     get_dialects cat url O2 utf8 data user masked = Err UnicodeEncodeError).
  Proof.
    intros H1 H2. destruct (clean_dec data) as [Hc|Hc].
    - left. destruct (get_dialects_utf8 cat url O1 data user masked H1 Hc) as (L1 & E1 & N1 & I1).
      destruct (get_dialects_utf8 cat url O2 data user masked H2 Hc) as (L2 & E2 & N2 & I2).
      destruct (get_dialects_good O1 data user masked H1 Hc) as (L1' & E1' & _ & G1).
      destruct (get_dialects_good O2 data user masked H2 Hc) as (L2' & E2' & _ & G2).
      rewrite E1 in E1'. injection E1' as <-. rewrite E2 in E2'. injection E2' as <-.
      exists L1, L2. repeat split; auto. apply NoDup_Permutation; auto. intros d. now rewrite I1, I2.
    - right. split; apply get_dialects_surrogate; auto.
  Qed.
End Candidates.

Lemma candidates_defined L : candidates_ok L -> Forall defined L.
Proof. apply Forall_impl. tauto. Qed.
Lemma candidates_perm L L' : Permutation L L' -> candidates_ok L -> candidates_ok L'.
Proof. intros H. unfold candidates_ok. now apply Permutation_Forall. Qed.

(** ** Order does not matter (C32) *)
Lemma scores_perm known limit capacity skip data L1 L2 c : Forall defined L1 -> Permutation L2 L1 ->
  compute_consistency_scores known limit capacity skip data L2 c =
  compute_consistency_scores known limit capacity skip data L1 c.
Proof. intros Hd Hp. unfold compute_consistency_scores. now rewrite (sorted_perm L1 L2 Hd Hp). Qed.

Lemma scores_order cat url known O1 O2 limit capacity skip data user masked c :
  any_orders O1 -> any_orders O2 ->
  bind (get_dialects cat url O1 utf8 data user masked) (fun L => compute_consistency_scores known limit capacity skip data L c) =
  bind (get_dialects cat url O2 utf8 data user masked) (fun L => compute_consistency_scores known limit capacity skip data L c).
Proof.
  intros H1 H2. destruct (get_dialects_perm cat url O1 O2 data user masked H1 H2)
    as [(L1 & L2 & -> & -> & Hp & G1 & G2)|[-> ->]]; [|reflexivity].
  cbn [bind]. apply scores_perm; [now apply candidates_defined|exact Hp].
Qed.

Lemma detect_order cat url known O1 O2 o_set capacity skip data user old :
  any_orders O1 -> any_orders O2 ->
  detect cat url known O1 o_set capacity skip data user old =
  detect cat url known O2 o_set capacity skip data user old.
Proof.
  intros H1 H2. unfold detect. destruct (get_dialects_perm cat url O1 O2 data user false H1 H2)
    as [(L1 & L2 & -> & -> & Hp & G1 & G2)|[-> ->]]; [|reflexivity].
  cbn zeta. rewrite (scores_perm known _ capacity skip data L2 L1 []) by (try apply candidates_defined; assumption).
  reflexivity.
Qed.

(** ** The loop without exceptions *)
Definition get_or {A} (dflt : A) (x : res pyexc A) : A := match x with Ok a => a | Err _ => dflt end.

  (** Keys keep their place. *)
  Lemma keys_set d s s' m m' : map fst m = map fst m' ->
    map fst (scores_set d s m) = map fst (scores_set d s' m').
  Proof.
    revert m'. induction m as [|[k x] m IH]; intros [|[k' x'] m'] H; try discriminate; [reflexivity|].
    cbn [map fst] in H. injection H as <- H. cbn [scores_set]. destruct (dialect_eqb d k); cbn [map fst]; f_equal; auto.
  Qed.
  Lemma set_in d s m k x : NoDup (map fst m) -> In (k, x) (scores_set d s m) ->
    (k = d /\ x = s) \/ (k <> d /\ In (k, x) m).
  Proof.
    induction m as [|[k' x'] m IH]; intros Hn H.
    - destruct H as [H|[]]. injection H as <- <-. now left.
    - cbn [map fst] in Hn. inversion Hn as [|? ? Hk Hn']; subst. cbn [scores_set] in H.
      destruct (dialect_eqb d k') eqn:E.
      + apply eqb_eq in E as ->. destruct H as [H|H]; [injection H as <- <-; now left|].
        right. split; [|now right]. intros ->. apply Hk. now apply (in_map fst) in H.
      + destruct H as [H|H].
        * injection H as <- <-. right. split; [|now left]. intros ->. now rewrite eqb_refl_d in E.
        * apply IH in H as [H|[H1 H2]]; [now left| |exact Hn']. right. split; [exact H1|now right].
  Qed.
  Lemma set_keys d s m : forall k, In k (map fst (scores_set d s m)) <-> k = d \/ In k (map fst m).
  Proof.
    induction m as [|[k' x'] m IH]; intros k; [cbn; intuition|]. cbn [scores_set]. destruct (dialect_eqb d k') eqn:E.
    - apply eqb_eq in E as ->. cbn. intuition.
    - cbn [map fst In]. rewrite IH. cbn. intuition.
  Qed.
  Lemma set_NoDup d s m : NoDup (map fst m) -> NoDup (map fst (scores_set d s m)).
  Proof.
    induction m as [|[k' x'] m IH]; intros Hn; [repeat constructor; easy|]. cbn [scores_set].
    cbn [map fst] in Hn. inversion Hn as [|? ? Hk Hn']; subst. destruct (dialect_eqb d k') eqn:E.
    - cbn [map fst]. now constructor.
    - cbn [map fst]. constructor; [|auto]. rewrite set_keys. intros [->|H]; [|contradiction]. now rewrite eqb_refl_d in E.
  Qed.
  Lemma set_mem d s m : In (d, s) (scores_set d s m).
  Proof.
    induction m as [|[k' x'] m IH]; [now left|]. cbn [scores_set]. destruct (dialect_eqb d k') eqn:E.
    - apply eqb_eq in E as ->. now left.
    - now right.
  Qed.
  Lemma set_other d s m k x : k <> d -> In (k, x) m -> In (k, x) (scores_set d s m).
  Proof.
    intros Hk. induction m as [|[k' x'] m IH]; intros H; [destruct H|]. cbn [scores_set]. destruct (dialect_eqb d k') eqn:E.
    - apply eqb_eq in E as ->. destruct H as [H|H]; [injection H as <- <-; congruence|now right].
    - destruct H as [H|H]; [now left|right; auto].
  Qed.

Section Loop.
  Variable known : str -> bool -> res pyexc bool.
  Variables limit capacity : Z.
  Variable data : str.
  Definition fP (d : SimpleDialect) : float := get_or fzero (pattern_score data d).
  Definition fT (d : SimpleDialect) : float := get_or fzero (type_score known limit data d).
  Definition fQ (d : SimpleDialect) : float := fmul (fP d) (fT d).
  Definition entry (skipped : bool) (d : SimpleDialect) : score :=
    if skipped then mk_score (fP d) None None else mk_score (fP d) (Some (fT d)) (Some (fQ d)).

  Fixpoint pure_loop (skip : bool) (ds : list SimpleDialect) (inc : float) (m : list (SimpleDialect * score))
    : list (SimpleDialect * score) :=
    match ds with
    | [] => m
    | d :: ds' =>
        if fltb (fP d) inc && skip then pure_loop skip ds' inc (scores_set d (entry true d) m)
        else pure_loop skip ds' (fmax inc (fQ d)) (scores_set d (entry false d) m)
    end.

  Definition scored (d : SimpleDialect) : Prop :=
    pattern_score data d = Ok (fP d) /\ type_score known limit data d = Ok (fT d).

  Lemma loop_pure skip ds : forall inc m c, Forall scored ds -> sound known c ->
    scores_loop known limit capacity skip data ds inc m c = Ok (pure_loop skip ds inc m).
  Proof.
    induction ds as [|d ds IH]; intros inc m c Hs Hc; [reflexivity|].
    apply Forall_cons_iff in Hs as [[HP HT] Hs]. cbn [scores_loop pure_loop]. rewrite HP. cbn [bind].
    destruct (fltb (fP d) inc && skip); [now apply IH|].
    pose proof (compute_sound known capacity limit data d c Hc) as H.
    destruct (compute_type_score known limit capacity data d c) as [[T c']|e].
    - destruct H as [H Hc']. rewrite HT in H. injection H as <-. cbn [bind]. now apply IH.
    - congruence.
  Qed.

  (** Values of the scores. *)
  Variables rP rQ : SimpleDialect -> R.
  Definition valued (d : SimpleDialect) : Prop :=
    val (fP d) (rP d) /\ val (fQ d) (rQ d) /\ (rQ d <= rP d)%R.

  (** [inc] is the largest score so far, reached by a scored entry; entries
      without a score are below it. *)
  Record state_ok (inc : float) (m : list (SimpleDialect * score)) : Prop := {
    st_nodup : NoDup (map fst m);
    st_valued : forall k, In k (map fst m) -> valued k;
    st_entry : forall k x, In (k, x) m ->
      (x = entry false k /\ (inc = minus_inf -> False) /\ fltb inc (fQ k) = false) \/
      (x = entry true k /\ fltb (fQ k) inc = true);
    st_max : (m = [] /\ inc = minus_inf) \/
             exists k, In (k, entry false k) m /\ inc = fQ k
  }.

  Lemma state_init : state_ok minus_inf [].
  Proof. split; try easy; [constructor|now left]. Qed.

  Lemma fltb_trans_le x y z a b c : val x a -> val y b -> val z c -> fltb y x = false -> fltb z y = false -> fltb z x = false.
  Proof.
    intros Hx Hy Hz. rewrite (fltb_val_false _ _ _ _ Hy Hx), (fltb_val_false _ _ _ _ Hz Hy), (fltb_val_false _ _ _ _ Hz Hx). lra.
  Qed.
  Lemma inf_not_val a : ~ val minus_inf a.
  Proof. intros (b & E & Hb & _). destruct b as [[]|[]| |[]]; discriminate. Qed.

  Lemma state_step inc m d (skipped : bool) : state_ok inc m -> valued d ->
    (skipped = true -> fltb (fP d) inc = true) ->
    state_ok (if skipped then inc else fmax inc (fQ d)) (scores_set d (entry skipped d) m).
  Proof.
    intros [Hn Hv He Hm] Hd Hs. destruct Hd as (HvP & HvQ & Hle).
    assert (Hinc : (m = [] /\ inc = minus_inf) \/ exists r, val inc r).
    { destruct Hm as [Hm|(k & Hk & ->)]; [now left|right]. exists (rQ k). apply Hv. now apply (in_map fst) in Hk. }
    destruct skipped.
    - specialize (Hs eq_refl).
      destruct Hm as [[-> ->]|(k & Hk & Ek)].
      { now rewrite (lt_minus_inf _ _ HvP) in Hs. }
      assert (Hkv : valued k) by (apply Hv; now apply (in_map fst) in Hk). destruct Hkv as (HkP & HkQ & Hkle).
      assert (Hdk : d <> k).
      { intros ->. rewrite Ek in Hs. rewrite (fltb_val _ _ _ _ HvP HkQ) in Hs. lra. }
      assert (Hlt : fltb (fQ d) inc = true).
      { rewrite Ek in *. rewrite (fltb_val _ _ _ _ HvP HkQ) in Hs. rewrite (fltb_val _ _ _ _ HvQ HkQ). lra. }
      split.
      + now apply set_NoDup.
      + intros k' Hk'. apply set_keys in Hk' as [->|Hk']; [split; auto|now apply Hv].
      + intros k' x Hk'. apply set_in in Hk' as [[-> ->]|[Hne Hk']]; [|now apply He|exact Hn]. now right.
      + right. exists k. split; [|exact Ek]. apply set_other; [congruence|exact Hk].
    - assert (Hd : valued d) by (split; auto).
      assert (Hmax : fltb (fmax inc (fQ d)) (fQ d) = false /\ (fmax inc (fQ d) = minus_inf -> False) /\
                     exists r, val (fmax inc (fQ d)) r).
      { unfold fmax. destruct (fltb inc (fQ d)) eqn:E.
        - split; [|split; [|eauto]].
          + rewrite (fltb_val_false _ _ _ _ HvQ HvQ). lra.
          + intros K. rewrite K in HvQ. now apply inf_not_val in HvQ.
        - destruct Hinc as [[_ ->]|[r Hr]]; [rewrite (minus_inf_lt _ _ HvQ) in E; discriminate|].
          split; [exact E|]. split; [|eauto]. intros ->. now apply inf_not_val in Hr. }
      destruct Hmax as (Hm1 & Hm2 & rm & Hrm).
      split.
      + now apply set_NoDup.
      + intros k' Hk'. apply set_keys in Hk' as [->|Hk']; [exact Hd|now apply Hv].
      + intros k' x Hk'. apply set_in in Hk' as [[-> ->]|[Hne Hk']]; [now left| |exact Hn].
        assert (Hkv : valued k') by (apply Hv; now apply (in_map fst) in Hk'). destruct Hkv as (HkP & HkQ & Hkle).
        destruct (He k' x Hk') as [(-> & H1 & H2)|[-> H]].
        * left. split; [reflexivity|]. split; [exact Hm2|]. unfold fmax. destruct (fltb inc (fQ d)) eqn:E; [|exact H2].
          destruct Hinc as [[-> _]|[r Hr]]; [destruct Hk'|].
          rewrite (fltb_val _ _ _ _ Hr HvQ) in E. rewrite (fltb_val_false _ _ _ _ Hr HkQ) in H2.
          rewrite (fltb_val_false _ _ _ _ HvQ HkQ). lra.
        * right. split; [reflexivity|]. unfold fmax. destruct (fltb inc (fQ d)) eqn:E; [|exact H].
          destruct Hinc as [[-> _]|[r Hr]]; [destruct Hk'|].
          rewrite (fltb_val _ _ _ _ Hr HvQ) in E. rewrite (fltb_val _ _ _ _ HkQ Hr) in H.
          rewrite (fltb_val _ _ _ _ HkQ HvQ). lra.
      + right. unfold fmax. destruct (fltb inc (fQ d)) eqn:E; [exists d; split; [apply set_mem|reflexivity]|].
        destruct Hm as [[-> ->]|(k & Hk & Ek)]; [rewrite (minus_inf_lt _ _ HvQ) in E; discriminate|].
        exists k. split; [|exact Ek]. destruct (dialect_eqb k d) eqn:Ekd; [apply eqb_eq in Ekd as ->; apply set_mem|].
        apply set_other; [|exact Hk]. intros ->. now rewrite eqb_refl_d in Ekd.
  Qed.

  (** Both loops agree on the incumbent and on the best entries. *)
  Lemma loop_states ds : forall inc inc' m m', Forall valued ds ->
    state_ok inc m -> state_ok inc' m' -> map fst m = map fst m' ->
    exists i i', state_ok i (pure_loop true ds inc m) /\ state_ok i' (pure_loop false ds inc' m') /\
      map fst (pure_loop true ds inc m) = map fst (pure_loop false ds inc' m').
  Proof.
    induction ds as [|d ds IH]; intros inc inc' m m' Hv H1 H2 Hk; [exists inc, inc'; auto|].
    apply Forall_cons_iff in Hv as [Hd Hv]. cbn [pure_loop]. rewrite andb_false_r, andb_true_r.
    pose proof (state_step inc' m' d false H2 Hd ltac:(discriminate)) as H2'.
    destruct (fltb (fP d) inc) eqn:E.
    - apply IH; auto; [|now apply keys_set]. apply (state_step inc m d true); auto.
    - apply IH; auto; [|now apply keys_set]. apply (state_step inc m d false); auto. discriminate.
  Qed.

  (** ** The best dialects of a finished state *)
  Definition best_value (k : SimpleDialect) (ds : list SimpleDialect) : Prop :=
    forall k', In k' ds -> (rQ k' <= rQ k)%R.

  Lemma q_max_fold m : forall z zr, val z zr \/ z = minus_inf ->
    (forall k x, In (k, x) m -> val (fQ k) (rQ k) /\ (x = entry false k \/ x = entry true k)) ->
    let r := fold_left (fun m q => match q with None => m | Some q => fmax m q end) (map (fun p => s_Q (snd p)) m) z in
    (z = r \/ exists k, In (k, entry false k) m /\ r = fQ k) /\
    (forall k, In (k, entry false k) m -> fltb r (fQ k) = false) /\
    (z = minus_inf \/ fltb r z = false).
  Proof.
    induction m as [|[k x] m IH]; intros z zr Hz Hm r.
    - cbn in r. subst r. split; [now left|]. split; [intros ? []|].
      destruct Hz as [Hz|Hz]; [right|now left]. rewrite (fltb_val_false _ _ _ _ Hz Hz). lra.
    - destruct (Hm k x (or_introl eq_refl)) as [Hk Hx].
      assert (Hm' : forall k x, In (k, x) m -> val (fQ k) (rQ k) /\ (x = entry false k \/ x = entry true k))
        by (intros; apply Hm; now right).
      destruct Hx as [->| ->].
      + cbn [map snd entry s_Q fold_left] in r.
        assert (Hz' : val (fmax z (fQ k)) (if fltb z (fQ k) then rQ k else zr)).
        { unfold fmax. destruct (fltb z (fQ k)) eqn:E; [exact Hk|]. destruct Hz as [Hz| ->]; [exact Hz|].
          now rewrite (minus_inf_lt _ _ Hk) in E. }
        destruct (IH (fmax z (fQ k)) _ (or_introl Hz') Hm') as (R1 & R2 & R3). fold r in R1, R2, R3.
        assert (Hr : exists rr, val r rr).
        { destruct R1 as [<-|(k' & Hk' & ->)]; [eauto|]. exists (rQ k'). now apply Hm' in Hk'. }
        destruct Hr as [rr Hr]. destruct R3 as [R3|R3]; [rewrite R3 in Hz'; now apply inf_not_val in Hz'|].
        rewrite (fltb_val_false _ _ _ _ Hr Hz') in R3.
        assert (Hge : (rQ k <= rr)%R).
        { destruct (fltb z (fQ k)) eqn:E; [lra|]. destruct Hz as [Hz| ->]; [|now rewrite (minus_inf_lt _ _ Hk) in E].
          rewrite (fltb_val_false _ _ _ _ Hz Hk) in E. lra. }
        split; [|split].
        * destruct R1 as [R1|(k' & Hk' & R1)]; [|right; exists k'; split; [now right|exact R1]].
          unfold fmax in R1. destruct (fltb z (fQ k)); [right; exists k; split; [now left|now symmetry]|now left].
        * intros k' [Hk'|Hk']; [|now apply R2]. injection Hk' as <- _. rewrite (fltb_val_false _ _ _ _ Hr Hk). exact Hge.
        * destruct Hz as [Hz|Hz]; [right|now left]. rewrite (fltb_val_false _ _ _ _ Hr Hz).
          destruct (fltb z (fQ k)) eqn:E; [|lra]. rewrite (fltb_val _ _ _ _ Hz Hk) in E. lra.
      + cbn [map snd entry s_Q fold_left] in r. destruct (IH z zr Hz Hm') as (R1 & R2 & R3). fold r in R1, R2, R3.
        split; [|split; [|exact R3]].
        * destruct R1 as [R1|(k' & Hk' & R1)]; [now left|right; exists k'; split; [now right|exact R1]].
        * intros k' [Hk'|Hk']; [|now apply R2]. injection Hk' as <- Hk'. discriminate.
  Qed.

  Lemma best_char inc m : state_ok inc m ->
    get_best_dialects m = filter (fun k => feqb (fQ k) inc) (map fst m).
  Proof.
    intros [Hn Hv He Hm]. unfold get_best_dialects.
    destruct Hm as [[-> ->]|(k0 & Hk0 & Ei)]; [reflexivity|].
    assert (Hall : forall k x, In (k, x) m -> val (fQ k) (rQ k) /\ (x = entry false k \/ x = entry true k)).
    { intros k x H. split; [apply Hv; now apply (in_map fst) in H|]. destruct (He k x H) as [[-> _]|[-> _]]; auto. }
    destruct (q_max_fold m minus_inf 0 (or_intror eq_refl) Hall) as (Q1 & Q2 & _).
    unfold q_max. set (r := fold_left _ _ minus_inf) in *.
    destruct (Hall k0 _ Hk0) as [Hv0 _].
    assert (Hr : val r (rQ k0)).
    { destruct Q1 as [Q1|(k & Hk & Q1)].
      - specialize (Q2 k0 Hk0). rewrite <- Q1 in Q2. now rewrite (minus_inf_lt _ _ Hv0) in Q2.
      - destruct (Hall k _ Hk) as [Hvk _]. specialize (Q2 k0 Hk0). rewrite Q1, (fltb_val_false _ _ _ _ Hvk Hv0) in Q2.
        destruct (He k _ Hk) as [(_ & _ & H)|[H _]]; [|discriminate].
        rewrite Ei, (fltb_val_false _ _ _ _ Hv0 Hvk) in H. rewrite Q1. replace (rQ k0) with (rQ k) by lra. exact Hvk. }
    clear Q1 Q2. rewrite <- Ei in Hv0. clear Hn Hk0 Ei. clearbody r.
    induction m as [|[k x] m IH]; [reflexivity|]. cbn [filter map fst snd].
    rewrite <- IH; [|intros; apply Hv; now right|intros; apply He; now right|intros; apply Hall; now right].
    destruct (Hall k x (or_introl eq_refl)) as [Hvk _].
    destruct (He k x (or_introl eq_refl)) as [(-> & _ & H)|[-> H]]; cbn [entry s_Q].
    - replace (feqb (fQ k) inc) with (feqb (fQ k) r); [now destruct (feqb (fQ k) r)|].
      apply bool_ext. now rewrite (feqb_val _ _ _ _ Hvk Hr), (feqb_val _ _ _ _ Hvk Hv0).
    - assert (feqb (fQ k) inc = false) as ->; [|reflexivity].
      destruct (feqb (fQ k) inc) eqn:E; [|reflexivity]. rewrite (feqb_val _ _ _ _ Hvk Hv0) in E.
      rewrite (fltb_val _ _ _ _ Hvk Hv0) in H. lra.
  Qed.

  (** The incumbents of both loops have the same value. *)
  Lemma best_same i i' m m' : state_ok i m -> state_ok i' m' -> map fst m = map fst m' ->
    get_best_dialects m = get_best_dialects m'.
  Proof.
    intros H H' Hk. rewrite (best_char i m H), (best_char i' m' H'), <- Hk.
    destruct H as [Hn Hv He Hm], H' as [Hn' Hv' He' Hm'].
    destruct Hm as [[-> ->]|(k & Hkm & ->)]; [reflexivity|].
    destruct Hm' as [[-> _]|(k' & Hkm' & ->)].
    { destruct m as [|[? ?] ?]; [destruct Hkm|discriminate]. }
    assert (V : forall x, In x (map fst m) -> valued x) by exact Hv.
    assert (I1 : In k (map fst m)) by now apply (in_map fst) in Hkm.
    assert (I2 : In k' (map fst m)) by (rewrite Hk; now apply (in_map fst) in Hkm').
    assert (Hge : forall x, In x (map fst m) -> (rQ x <= rQ k)%R).
    { intros x Hx. apply in_map_iff in Hx as ((x' & s) & Ex & Hx). cbn in Ex. subst x'.
      assert (Hvx : valued x) by (apply V; now apply (in_map fst) in Hx). destruct Hvx as (_ & HxQ & _). destruct (V k I1) as (_ & HkQ & _).
      destruct (He x s Hx) as [(_ & _ & K)|[_ K]].
      - now rewrite (fltb_val_false _ _ _ _ HkQ HxQ) in K.
      - rewrite (fltb_val _ _ _ _ HxQ HkQ) in K. lra. }
    assert (Hge' : forall x, In x (map fst m) -> (rQ x <= rQ k')%R).
    { intros x Hx. rewrite Hk in Hx. apply in_map_iff in Hx as ((x' & s) & Ex & Hx). cbn in Ex. subst x'.
      assert (Hvx : valued x) by (apply Hv'; now apply (in_map fst) in Hx). destruct Hvx as (_ & HxQ & _). destruct (V k' I2) as (_ & HkQ & _).
      destruct (He' x s Hx) as [(_ & _ & K)|[_ K]].
      - now rewrite (fltb_val_false _ _ _ _ HkQ HxQ) in K.
      - rewrite (fltb_val _ _ _ _ HxQ HkQ) in K. lra. }
    assert (E : rQ k = rQ k') by (pose proof (Hge k' I2); pose proof (Hge' k I1); lra).
    apply filter_ext_in. intros x Hx. destruct (V x Hx) as (_ & HxQ & _). destruct (V k I1) as (_ & HkQ & _).
    destruct (V k' I2) as (_ & HkQ' & _). apply bool_ext. rewrite (feqb_val _ _ _ _ HxQ HkQ), (feqb_val _ _ _ _ HxQ HkQ'). now rewrite E.
  Qed.
End Loop.

(** ** The best dialects are those with the largest score *)
Lemma val_SF2R x r : val x r -> r = SF2R radix2 x.
Proof. intros (b & <- & _ & <-). symmetry. apply SF2R_B2SF. Qed.

Definition ready (limit : Z) (data : str) : Prop :=
  ~ In NUL data /\ (Z.of_nat (length data) < two50)%Z /\ (Z.of_nat (length data) <= limit)%Z.

Section Ready.
  Variable kb : str -> bool -> bool.
  Variables limit capacity : Z.
  Variable data : str.
  Hypothesis Hr : ready limit data.
  Notation known := (total_known kb).
  Notation P := (fP data).
  Notation T := (fT known limit data).
  Notation Q := (fQ known limit data).
  Definition rP (d : SimpleDialect) : R := SF2R radix2 (P d).
  Definition rQ (d : SimpleDialect) : R := SF2R radix2 (Q d).
  Definition fine (d : SimpleDialect) : Prop := validate d = true /\ sd_strict d = false.

  Lemma fine_scored d : fine d -> scored known limit data d /\ valued known limit data rP rQ d.
  Proof.
    intros [Hv Hs]. destruct Hr as (Hn & H50 & Hl).
    assert (EP : exists p, pattern_score data d = Ok p).
    { destruct (simple_of_valid d Hv) as [D ->]. apply pattern_score_ok. }
    destruct EP as [p EP]. destruct (pattern_score_val data d p EP) as (rp & Vp & Bp).
    { unfold two50, two53 in *. lia. }
    destruct (type_score_val kb limit data d Hv Hs Hl Hn H50) as (t & rt & ET & Vt & Bt).
    assert (FP : P d = p) by (unfold fP; now rewrite EP).
    assert (FT : T d = t) by (unfold fT; now rewrite ET).
    split; [split; [now rewrite FP|now rewrite FT]|].
    assert (Hlen : (0 < rp <= bpow radix2 52)%R).
    { split; [lra|]. apply Rle_trans with (IZR (Zpower radix2 52)); [|now rewrite IZR_Zpower by lia; apply Rle_refl].
      destruct Bp as [_ Bp]. apply (Rle_trans _ _ _ Bp). try (rewrite <- plus_IZR); try apply IZR_le; unfold two50 in *; change (Zpower radix2 52) with (2 ^ 52)%Z; lia. }
    assert (VQ : val (Q d) (rnd (rp * rt))).
    { unfold fQ. rewrite FP, FT. apply val_mul; auto. rewrite Rabs_pos_eq by (apply Rmult_le_pos; lra).
      apply Rle_trans with (bpow radix2 52); [|now apply bpow_le]. nra. }
    assert (EQ : rQ d = rnd (rp * rt)) by (unfold rQ; now rewrite (val_SF2R _ _ VQ)).
    assert (EPr : rP d = rp) by (unfold rP; rewrite FP; symmetry; now apply val_SF2R).
    unfold valued. rewrite EQ, EPr, FP. split; [exact Vp|]. split; [exact VQ|].
    apply rnd_le_format; [now apply val_format in Vp|]. nra.
  Qed.

  Lemma fine_all ds : Forall fine ds -> Forall (scored known limit data) ds /\ Forall (valued known limit data rP rQ) ds.
  Proof.
    intros H. split; (eapply Forall_impl; [|exact H]); intros d Hd; now apply fine_scored in Hd.
  Qed.

  Lemma loop_keys skip ds : forall inc m k,
    In k (map fst (pure_loop known limit data skip ds inc m)) <-> In k ds \/ In k (map fst m).
  Proof.
    induction ds as [|d ds IH]; intros inc m k; [cbn; tauto|]. cbn [pure_loop].
    assert (Hs : k = d <-> d = k) by (split; congruence).
    destruct (fltb (P d) inc && skip); rewrite IH, set_keys; cbn [In]; tauto.
  Qed.

  Lemma scores_pure skip ds c : Forall fine ds -> Forall defined ds -> sound known c ->
    exists r m m', py_sorted ds = Ok r /\
      compute_consistency_scores known limit capacity skip data ds c = Ok (pure_loop known limit data skip r minus_inf []) /\
      m = pure_loop known limit data true r minus_inf [] /\ m' = pure_loop known limit data false r minus_inf [] /\
      (exists i, state_ok known limit data rP rQ i m) /\ (exists i, state_ok known limit data rP rQ i m') /\
      map fst m = map fst m' /\ forall k, In k (map fst m) <-> In k ds.
  Proof.
    intros Hf Hd Hc. destruct (sorted_ok ds Hd) as (r & E & Hp & _).
    assert (Hf' : Forall fine r) by apply (Permutation_Forall (Permutation_sym Hp) Hf).
    destruct (fine_all r Hf') as [HS HV].
    destruct (loop_states known limit data rP rQ r minus_inf minus_inf [] [] HV
                (state_init known limit data rP rQ) (state_init known limit data rP rQ) eq_refl)
      as (i & i' & S1 & S2 & K).
    exists r. do 2 eexists. split; [exact E|]. split.
    { unfold compute_consistency_scores. rewrite E. cbn [bind]. now apply loop_pure. }
    split; [reflexivity|]. split; [reflexivity|]. repeat split; eauto.
    - intros H. apply loop_keys in H as [H|[]]. now apply (Permutation_in _ Hp).
    - intros H. apply loop_keys. left. now apply (Permutation_in _ (Permutation_sym Hp)).
  Qed.

  (** Skipping does not change the best dialects. *)
  Lemma skip_same ds c c' : Forall fine ds -> Forall defined ds -> sound known c -> sound known c' ->
    exists m m', compute_consistency_scores known limit capacity true data ds c = Ok m /\
      compute_consistency_scores known limit capacity false data ds c' = Ok m' /\
      get_best_dialects m = get_best_dialects m'.
  Proof.
    intros Hf Hd Hc Hc'. destruct (scores_pure true ds c Hf Hd Hc) as (r & m & m' & E & E1 & -> & -> & [i S1] & [i' S2] & K & _).
    destruct (scores_pure false ds c' Hf Hd Hc') as (r' & ? & ? & E' & E2 & _). rewrite E in E'. injection E' as <-.
    do 2 eexists. split; [exact E1|]. split; [exact E2|].
    now apply (best_same known limit data rP rQ i i').
  Qed.

  (** A state's best entries are the maximal ones. *)
  Lemma best_max i m : state_ok known limit data rP rQ i m ->
    NoDup (get_best_dialects m) /\ (m <> [] -> get_best_dialects m <> []) /\
    forall k, In k (get_best_dialects m) <->
      In k (map fst m) /\ forall k', In k' (map fst m) -> fleb (Q k') (Q k) = true.
  Proof.
    intros S. rewrite (best_char known limit data rP rQ i m S). destruct S as [Hn Hv He Hm].
    split; [now apply NoDup_filter|]. split.
    { intros Hne E. destruct Hm as [[Hm _]|(k0 & Hk0 & ->)]; [contradiction|].
      assert (I0 : In k0 (map fst m)) by now apply (in_map fst) in Hk0.
      destruct (Hv k0 I0) as (_ & V0 & _).
      assert (Hin : In k0 (filter (fun k => feqb (Q k) (Q k0)) (map fst m))).
      { apply filter_In. split; [exact I0|]. now rewrite (feqb_val _ _ _ _ V0 V0). }
      rewrite E in Hin. destruct Hin. }
    intros k. rewrite filter_In. split.
    - intros [Hk E]. split; [exact Hk|]. intros k' Hk'.
      destruct Hm as [[-> _]|(k0 & Hk0 & ->)]; [destruct Hk|].
      destruct (Hv k Hk) as (_ & Vk & _). destruct (Hv k' Hk') as (_ & Vk' & _).
      assert (V0 : valued known limit data rP rQ k0) by (apply Hv; now apply (in_map fst) in Hk0). destruct V0 as (_ & V0 & _).
      rewrite (feqb_val _ _ _ _ Vk V0) in E. rewrite (fleb_val _ _ _ _ Vk' Vk).
      apply in_map_iff in Hk' as ((x & s) & Ex & Hk'). cbn in Ex. subst x.
      destruct (He k' s Hk') as [(_ & _ & K)|[_ K]].
      + rewrite (fltb_val_false _ _ _ _ V0 Vk') in K. lra.
      + rewrite (fltb_val _ _ _ _ Vk' V0) in K. lra.
    - intros [Hk Hmax]. split; [exact Hk|].
      destruct Hm as [[-> _]|(k0 & Hk0 & ->)]; [destruct Hk|].
      assert (I0 : In k0 (map fst m)) by now apply (in_map fst) in Hk0.
      destruct (Hv k Hk) as (_ & Vk & _). destruct (Hv k0 I0) as (_ & V0 & _).
      specialize (Hmax k0 I0). rewrite (fleb_val _ _ _ _ V0 Vk) in Hmax.
      apply in_map_iff in Hk as ((x & s) & Ex & Hk). cbn in Ex. subst x.
      rewrite (feqb_val _ _ _ _ Vk V0).
      destruct (He k s Hk) as [(_ & _ & K)|[_ K]].
      + rewrite (fltb_val_false _ _ _ _ V0 Vk) in K. lra.
      + rewrite (fltb_val _ _ _ _ Vk V0) in K. lra.
  Qed.

  Lemma best_scores skip ds c : Forall fine ds -> Forall defined ds -> sound known c ->
    exists m, compute_consistency_scores known limit capacity skip data ds c = Ok m /\
      NoDup (get_best_dialects m) /\ (ds <> [] -> get_best_dialects m <> []) /\
      forall k, In k (get_best_dialects m) <-> In k ds /\ forall k', In k' ds -> fleb (Q k') (Q k) = true.
  Proof.
    intros Hf Hd Hc. destruct (scores_pure skip ds c Hf Hd Hc) as (r & m & m' & E & E1 & Em & Em' & [i S1] & [i' S2] & K & Hk).
    eexists. split; [exact E1|].
    assert (G : forall j x, state_ok known limit data rP rQ j x -> (forall k, In k (map fst x) <-> In k ds) ->
      NoDup (get_best_dialects x) /\ (ds <> [] -> get_best_dialects x <> []) /\
      forall k, In k (get_best_dialects x) <-> In k ds /\ forall k', In k' ds -> fleb (Q k') (Q k) = true).
    { intros j x Sx Hx. destruct (best_max j x Sx) as (B1 & B0 & B2). split; [exact B1|]. split.
      { intros Hds. apply B0. intros ->. destruct ds as [|d ds]; [contradiction|]. apply (Hx d). now left. }
      intros k. rewrite B2, Hx.
      split; intros [H1 H2]; (split; [exact H1|]); intros k' Hk'; apply H2; now apply Hx. }
    destruct skip.
    - rewrite <- Em. now apply (G i).
    - rewrite <- Em'. apply (G i'); [exact S2|]. intros k. now rewrite <- K.
  Qed.
End Ready.

(** ** Detection as a whole *)
Lemma candidates_fine L : candidates_ok L -> Forall fine L /\ Forall defined L.
Proof. intros H. split; (eapply Forall_impl; [|exact H]); intros d (H1 & H2 & H3); [split|]; assumption. Qed.

Lemma ready_detect data : ~ In NUL data -> (Z.of_nat (length data) < two50)%Z ->
  ready (Z.of_nat (length data) + 1) data.
Proof. intros H1 H2. split; [exact H1|]. split; [exact H2|lia]. Qed.

Lemma sound_nil known : sound known [].
Proof. intros k b []. Qed.

Definition empty_dialect : SimpleDialect := dialect3 [] [] [].
Lemma empty_in cat url O data user L : any_orders O -> clean url data ->
  get_dialects cat url O utf8 data user false = Ok L -> In empty_dialect L.
Proof.
  intros HO Hc E. destruct (get_dialects_utf8 cat url O data user false HO Hc) as (L' & E' & _ & H).
  rewrite E in E'. injection E' as <-. apply H. exists [], [], []. split; [reflexivity|]. split; [|reflexivity].
  repeat split; now left.
Qed.

Lemma fine_score kb limit data d : ready limit data -> fine d ->
  has_score (total_known kb) limit data d (fQ (total_known kb) limit data d).
Proof.
  intros Hr Hf. destruct (fine_scored kb limit data Hr d Hf) as [[H1 H2] _]. repeat eexists; eassumption.
Qed.

(** The answer is found among the candidates with the largest score. *)
Lemma detect_best cat url kb O o_set capacity skip data user old :
  any_orders O -> clean url data -> (forall l, Permutation (o_set l) l) ->
  ~ In NUL data -> (Z.of_nat (length data) < two50)%Z ->
  let limit := (Z.of_nat (length data) + 1)%Z in
  exists L Q best r, get_dialects cat url O utf8 data user false = Ok L /\
    (forall k, In k L -> has_score (total_known kb) limit data k (Q k)) /\
    NoDup best /\ best <> [] /\
    (forall k, In k best <-> In k L /\ forall k', In k' L -> fleb (Q k') (Q k) = true) /\
    detect cat url (total_known kb) O o_set capacity skip data user old = (Ok r, old) /\
    match best with [d] => r = Some d | _ => tie_breaker limit data o_set best = Ok r end /\
    match r with Some d => In d best | None => True end.
Proof.
  intros HO Hc Hp Hn H50 limit. destruct (get_dialects_good cat url O data user false HO Hc) as (L & E & HN & HL).
  pose proof (ready_detect data Hn H50) as Hr. fold limit in Hr. destruct (candidates_fine L HL) as [Hf Hd].
  destruct (best_scores kb _ capacity data Hr skip L [] Hf Hd (sound_nil _)) as (m & Em & HB & HE & HM).
  set (best := get_best_dialects m) in *.
  assert (HP : Forall (parses limit data) best).
  { apply Forall_forall. intros d Hd'. apply HM in Hd' as [Hd' _]. rewrite Forall_forall in Hf.
    destruct (Hf d Hd') as [F1 F2]. apply parses_valid; auto. unfold limit. lia. }
  destruct (tie_breaker_ok limit data o_set Hp best HP) as (r & Er & Hmem).
  assert (HEb : best <> []).
  { apply HE. intros ->. apply (empty_in cat url O data user [] HO Hc E). }
  exists L, (fQ (total_known kb) limit data), best. unfold detect. rewrite E. fold limit. rewrite Em. cbn [bind]. fold best.
  assert (HS : forall k, In k L -> has_score (total_known kb) limit data k (fQ (total_known kb) limit data k)).
  { intros k Hk. apply fine_score; [exact Hr|]. rewrite Forall_forall in Hf. now apply Hf. }
  clearbody best. destruct best as [|d [|d' l]]; [contradiction| |].
  - exists (Some d). split; [reflexivity|]. split; [exact HS|]. split; [exact HB|]. split; [exact HEb|].
    split; [exact HM|]. split; [reflexivity|]. split; [reflexivity|now left].
  - exists r. split; [reflexivity|]. split; [exact HS|]. split; [exact HB|]. split; [exact HEb|].
    split; [exact HM|]. rewrite Er. split; [reflexivity|]. split; [reflexivity|exact Hmem].
Qed.

(** ** Exceptions and the limit *)
Lemma detect_limit cat url known O o_set capacity skip data user old r new :
  detect cat url known O o_set capacity skip data user old = (r, new) ->
  match r with
  | Ok _ => new = old
  | Err _ => new = old \/ new = (Z.of_nat (length data) + 1)%Z
  end.
Proof.
  unfold detect. destruct (get_dialects cat url O utf8 data user false) as [L|e].
  - destruct (bind _ _) as [x|e]; intros H; injection H as <- <-; auto.
  - intros H. injection H as <- <-. auto.
Qed.

Lemma detect_surrogate cat url known O o_set capacity skip data user old : any_orders O ->
  (exists x, In x (filter_urls url data) /\ surrogate x = true) ->
  detect cat url known O o_set capacity skip data user old = (Err UnicodeEncodeError, old).
Proof. intros HO H. unfold detect. now rewrite get_dialects_surrogate. Qed.

Lemma type_score_null kb limit data d c capacity : validate d = true -> sd_strict d = false ->
  (Z.of_nat (length data) <= limit)%Z -> In NUL data -> sound (total_known kb) c ->
  compute_type_score (total_known kb) limit capacity data d c = Err (CleverError ENull).
Proof.
  intros Hv Hs Hl Hn Hc. pose proof (compute_sound (total_known kb) capacity limit data d c Hc) as H.
  assert (E : type_score (total_known kb) limit data d = Err (CleverError ENull)).
  { destruct (parse_tuples limit data d Hv) as [vs E1].
    destruct (parse_string_total limit data d true Hv Hs Hl) as [E2 _]. specialize (E2 Hn).
    unfold type_score. destruct (parse_string limit data d true) as [rows en]. cbn [fst snd] in *. subst.
    now rewrite concat_mk_rows, plain_cells_count. }
  destruct (compute_type_score (total_known kb) limit capacity data d c) as [[T c']|e].
  - destruct H as [H _]. congruence.
  - congruence.
Qed.

Lemma not_lt_minus_inf x : fltb x minus_inf = false.
Proof. now destruct x as [[]|[]| |[] m e]. Qed.

(** A NUL makes detection fail, and the limit is left changed. *)
Lemma detect_null cat url kb O o_set capacity skip data user old :
  any_orders O -> clean url data -> In NUL data ->
  detect cat url (total_known kb) O o_set capacity skip data user old =
  (Err (CleverError ENull), (Z.of_nat (length data) + 1)%Z).
Proof.
  intros HO Hc Hn. destruct (get_dialects_good cat url O data user false HO Hc) as (L & E & HN & HL).
  destruct (candidates_fine L HL) as [Hf Hd]. unfold detect. rewrite E. unfold compute_consistency_scores.
  destruct (sorted_ok L Hd) as (r & Er & Hp & _). rewrite Er. cbn [bind].
  assert (Hf' : Forall fine r) by apply (Permutation_Forall (Permutation_sym Hp) Hf).
  assert (Hne : In empty_dialect r).
  { apply (Permutation_in _ (Permutation_sym Hp)). now apply (empty_in cat url O data user). }
  destruct r as [|d r]; [destruct Hne|]. apply Forall_cons_iff in Hf' as [[F1 F2] _].
  cbn [scores_loop].
  assert (EP : exists p, pattern_score data d = Ok p).
  { destruct (simple_of_valid d F1) as [D ->]. apply pattern_score_ok. }
  destruct EP as [p ->]. cbn [bind]. rewrite not_lt_minus_inf. cbn [andb].
  rewrite type_score_null; [reflexivity|assumption..| |assumption|apply sound_nil]. lia.
Qed.
Lemma detect_lone cat url known O o_set capacity skip data user old : any_orders O -> (exists x, In x (filter_urls url data) /\ 0xD800 <= x /\ x <= 0xDFFF)%N ->
  detect cat url known O o_set capacity skip data user old = (Err UnicodeEncodeError, old).
Proof. intros HO H. apply detect_surrogate; [exact HO|now apply in_surrogates]. Qed.
