(** * VerboseScores: the scores that are printed *)
From Coq Require Import String SpecFloat Permutation Sorting.Sorted Reals Lra.
From Verif Require Import Base Parser Dialect Potential Floats Ties Consistency Console.
From Verif Require Import SpecPotential PotentialFacts MaskedFacts SpecConsistency FloatFacts TypeFacts TieFacts DetectFacts Verbose SpecVerbose VerboseFacts.
Local Notation len := List.length.

Section Lines.
Variable kb : str -> bool -> bool.
Variable printable : N -> bool.
Variable f6 : float -> str.
Variables limit capacity : Z.
Variable data : str.
Hypothesis Hr : ready limit data.
Notation known := (total_known kb).
Notation P := (fP data).
Notation T := (fT known limit data).
Notation Q := (fQ known limit data).
Notation valued := (valued known limit data (rP data) (rQ kb limit data)).

Definition the_line (skip : bool) (seen : list SimpleDialect) (d : SimpleDialect) : str :=
  dialect_line printable f6 d (P d) (if skip && existsb (fun k => fltb (P d) (Q k)) seen then None else Some (T d, Q d)).
Fixpoint report (skip : bool) (seen ds : list SimpleDialect) : list str :=
  match ds with
  | [] => []
  | d :: ds' => the_line skip seen d :: report skip (seen ++ [d]) ds'
  end.

(** The incumbent is the largest score so far. *)
Definition leads (inc : float) (seen : list SimpleDialect) : Prop :=
  Forall valued seen /\
  ((inc = minus_inf /\ seen = []) \/ (exists k, In k seen /\ inc = Q k /\ forall k', In k' seen -> (rQ kb limit data k' <= rQ kb limit data k)%R)).
Lemma leads_exists inc seen d : leads inc seen -> valued d -> fltb (P d) inc = existsb (fun k => fltb (P d) (Q k)) seen.
Proof.
  intros (HV & H) (Vp & Vq & _). rewrite Forall_forall in HV. destruct H as [(-> & ->)|(k & Hk & -> & Hmax)].
  - exact (lt_minus_inf _ _ Vp).
  - destruct (HV k Hk) as (_ & Vk & _). destruct (existsb _ seen) eqn:E.
    + apply existsb_exists in E as (k' & Hk' & E). destruct (HV k' Hk') as (_ & Vk' & _). apply (fltb_val _ _ _ _ Vp Vk') in E. apply (fltb_val _ _ _ _ Vp Vk).
      specialize (Hmax k' Hk'). lra.
    + destruct (fltb (P d) (Q k)) eqn:E'; [|reflexivity]. assert (X : existsb (fun k => fltb (P d) (Q k)) seen = true) by (apply existsb_exists; eauto). congruence.
Qed.
Lemma leads_skip inc seen d : leads inc seen -> valued d -> fltb (P d) inc = true -> leads inc (seen ++ [d]).
Proof.
  intros (HV & H) Hd E. split; [apply Forall_app; auto|]. destruct Hd as (Vp & Vq & Hle). destruct H as [(-> & ->)|(k & Hk & -> & Hmax)].
  - rewrite (lt_minus_inf _ _ Vp) in E. discriminate.
  - right. exists k. split; [apply in_or_app; now left|split; [reflexivity|]]. intros k' Hk'. apply in_app_or in Hk' as [Hk'|[<-|[]]]; [auto|].
    rewrite Forall_forall in HV. destruct (HV k Hk) as (_ & Vk & _). apply (fltb_val _ _ _ _ Vp Vk) in E. lra.
Qed.
Lemma leads_step inc seen d : leads inc seen -> valued d -> leads (fmax inc (Q d)) (seen ++ [d]).
Proof.
  intros (HV & H) Hd. split; [apply Forall_app; auto|]. right. destruct Hd as (Vp & Vq & Hle). rewrite Forall_forall in HV. unfold fmax.
  destruct H as [(-> & ->)|(k & Hk & -> & Hmax)].
  - rewrite (minus_inf_lt _ _ Vq). exists d. split; [now left|split; [reflexivity|]]. intros k' [<-|[]]. lra.
  - destruct (HV k Hk) as (_ & Vk & _). destruct (fltb (Q k) (Q d)) eqn:E.
    + apply (fltb_val _ _ _ _ Vk Vq) in E. exists d. split; [apply in_or_app; right; now left|split; [reflexivity|]].
      intros k' Hk'. apply in_app_or in Hk' as [Hk'|[<-|[]]]; [|lra]. specialize (Hmax k' Hk'). lra.
    + apply (fltb_val_false _ _ _ _ Vk Vq) in E. exists k. split; [apply in_or_app; now left|split; [reflexivity|]].
      intros k' Hk'. apply in_app_or in Hk' as [Hk'|[<-|[]]]; [auto|exact E].
Qed.

Lemma loop_lines skip ds : forall inc seen m c, Forall fine ds -> leads inc seen -> sound known c ->
  fst (scores_loop_v known printable f6 takes_all true limit capacity skip data ds inc m c) = report skip seen ds.
Proof.
  induction ds as [|d ds IH]; intros inc seen m c Hf HL Hc; [reflexivity|]. apply Forall_cons_iff in Hf as (Hd & Hf).
  destruct (fine_scored kb limit data Hr d Hd) as ((EP & ET) & HV). cbn [scores_loop_v report]. rewrite EP. unfold the_line.
  rewrite <- (leads_exists inc seen d HL HV). destruct (fltb (P d) inc && skip) eqn:E.
  - apply andb_true_iff in E as (E1 & ->). rewrite E1. cbn [andb say takes_all fst]. rewrite skip_text_line. f_equal. apply IH; auto. now apply leads_skip.
  - rewrite andb_comm, E. pose proof (compute_sound known capacity limit data d c Hc) as H.
    destruct (compute_type_score known limit capacity data d c) as [[T' c']|x]; [|congruence]. destruct H as (H & Hc'). assert (T' = T d) as -> by congruence.
    cbn [say takes_all fst]. rewrite score_text_line. f_equal. apply IH; auto. now apply leads_step.
Qed.
Lemma report_length skip ds : forall seen, len (report skip seen ds) = len ds.
Proof. induction ds as [|d ds IH]; intros seen; [reflexivity|]. cbn [report len]. now rewrite IH. Qed.
Lemma report_nth skip ds : forall seen i d, nth_error ds i = Some d -> nth_error (report skip seen ds) i = Some (the_line skip (seen ++ firstn i ds) d).
Proof.
  induction ds as [|x ds IH]; intros seen i d H; [destruct i; discriminate|]. destruct i as [|i]; cbn in H |- *.
  - injection H as ->. now rewrite app_nil_r.
  - rewrite (IH _ _ _ H). now rewrite <- app_assoc.
Qed.
End Lines.

Section Whole.
Variable cat : N -> str.
Variable url : str -> str -> option nat.
Variable kb : str -> bool -> bool.
Variable O : orders.
Variable o_set : list SimpleDialect -> list SimpleDialect.
Variable printable : N -> bool.
Variable f6 : float -> str.
Variable capacity : Z.
Variable data : str.
Variable user : option (list str).
Hypothesis HO : any_orders O.
Hypothesis Hc : clean url data.
Hypothesis Hn : ~ In NUL data.
Hypothesis H50 : (Z.of_nat (len data) < two50)%Z.
Notation limit := (Z.of_nat (len data) + 1)%Z.
Notation known := (total_known kb).
Notation lines skip old := (fst (detect_v cat url known O o_set printable f6 takes_all true capacity skip data user old)).

Lemma detect_report skip old : exists L ds, get_dialects cat url O utf8 data user false = Ok L /\ Forall fine L /\
  Permutation ds L /\ StronglySorted (fun a b => ~ dlt b a) ds /\ lines skip old = report kb printable f6 limit data skip [] ds.
Proof.
  destruct (get_dialects_good cat url O data user false HO Hc) as (L & E & HN & HL). destruct (candidates_fine L HL) as [Hf Hd].
  destruct (sorted_ok L Hd) as (ds & Es & Hp & Hs). exists L, ds. split; [exact E|split; [exact Hf|split; [exact Hp|split; [exact Hs|]]]].
  unfold detect_v. rewrite E, Es. pose proof (ready_detect data Hn H50) as Hr.
  assert (HL0 : leads kb limit data minus_inf []) by (split; [constructor|left; auto]).
  pose proof (loop_lines kb printable f6 limit capacity data Hr skip ds minus_inf [] [] [] (Permutation_Forall (Permutation_sym Hp) Hf) HL0 (sound_nil _)) as EL.
  match goal with |- context [let '(a, b) := ?x in _] => destruct x as [ls r] end. cbn [fst] in EL. rewrite <- EL. destruct (bind r _); reflexivity.
Qed.

Lemma printed_scores skip old : exists L ds P T, get_dialects cat url O utf8 data user false = Ok L /\
  Permutation ds L /\ StronglySorted (fun a b => ~ dlt b a) ds /\
  (forall d, In d L -> pattern_score data d = Ok (P d) /\ type_score known limit data d = Ok (T d)) /\
  len (lines skip old) = len ds /\
  forall i d, nth_error ds i = Some d -> nth_error (lines skip old) i =
    Some (dialect_line printable f6 d (P d)
      (if skip && existsb (fun k => fltb (P d) (fmul (P k) (T k))) (firstn i ds) then None else Some (T d, fmul (P d) (T d)))).
Proof.
  destruct (detect_report skip old) as (L & ds & E & Hf & Hp & Hs & EL). exists L, ds, (fP data), (fT known limit data).
  split; [exact E|split; [exact Hp|split; [exact Hs|split; [|split]]]].
  - intros d Hd. rewrite Forall_forall in Hf. destruct (fine_scored kb limit data (ready_detect data Hn H50) d (Hf d Hd)) as (H & _). exact H.
  - rewrite EL. apply report_length.
  - intros i d Hi. rewrite EL. apply (report_nth kb printable f6 limit data skip ds [] i d Hi).
Qed.

(** The dialect that is detected is not skipped. *)
Lemma detected_line skip old d : (forall l, Permutation (o_set l) l) ->
  fst (detect cat url known O o_set capacity skip data user old) = Ok (Some d) ->
  exists P T, pattern_score data d = Ok P /\ type_score known limit data d = Ok T /\
    In (dialect_line printable f6 d P (Some (T, fmul P T))) (lines skip old).
Proof.
  intros Ho ED. pose proof (ready_detect data Hn H50) as Hr.
  destruct (detect_report skip old) as (L & ds & E & Hf & Hp & Hs & EL).
  destruct (detect_best cat url kb O o_set capacity skip data user old HO Hc Ho Hn H50) as (L' & Q' & best & r & E' & HQ & _ & _ & HB & Er & _ & Hin).
  rewrite E in E'. injection E' as <-. rewrite Er in ED. cbn [fst] in ED. injection ED as ->. apply HB in Hin as (Hd & Hmax).
  rewrite Forall_forall in Hf. exists (fP data d), (fT known limit data d).
  destruct (fine_scored kb limit data Hr d (Hf d Hd)) as ((EP & ET) & (Vp & Vq & Hle)). split; [exact EP|split; [exact ET|]].
  assert (Hd' : In d ds) by apply (Permutation_in _ (Permutation_sym Hp) Hd). apply In_nth_error in Hd' as (i & Hi).
  rewrite EL. pose proof (report_nth kb printable f6 limit data skip ds [] i d Hi) as HN. apply nth_error_In in HN. unfold the_line in HN.
  destruct (skip && existsb (fun k => fltb (fP data d) (fQ known limit data k)) ([] ++ firstn i ds)) eqn:EX; [|exact HN]. exfalso.
  apply andb_true_iff in EX as (_ & EX). apply existsb_exists in EX as (k & Hk & EX).
  assert (HkL : In k L). { apply (Permutation_in _ Hp). cbn [app] in Hk. rewrite <- (firstn_skipn i ds). apply in_or_app. now left. }
  destruct (fine_scored kb limit data Hr k (Hf k HkL)) as ((EPk & ETk) & (_ & Vk & _)).
  assert (FQ : forall x, In x L -> Q' x = fQ known limit data x).
  { intros x Hx. destruct (HQ x Hx) as (p & t & H1 & H2 & ->). destruct (fine_scored kb limit data Hr x (Hf x Hx)) as ((H3 & H4) & _).
    unfold fQ. congruence. }
  specialize (Hmax k HkL). rewrite (FQ k HkL), (FQ d Hd) in Hmax. apply (fleb_val _ _ _ _ Vk Vq) in Hmax. apply (fltb_val _ _ _ _ Vp Vk) in EX. lra.
Qed.
End Whole.
