(** * NormalFacts: lines, rows and forms (C40) *)
From Coq Require Import String.
From Verif Require Import Base Parser Dialect Potential SpecPotential PotentialFacts MaskedFacts SpecTies TieRules
  SpecText LayoutMore NormalForm SpecNormal.

(** ** Splitting *)
Lemma starts_with_spec p s : starts_with p s = true <-> exists r, s = p ++ r.
Proof.
  revert s. induction p as [|a p IH]; intros s; [cbn; split; eauto|]. destruct s as [|b s]; cbn.
  - split; [discriminate|]. intros [r H]. discriminate.
  - rewrite andb_true_iff, N.eqb_eq, IH. split; [intros [-> [r ->]]; eauto|].
    intros [r H]. injection H as -> ->. split; eauto.
Qed.
Lemma contains_false p s : contains p s = false <-> ~ substring p s.
Proof. rewrite <- contains_substring. destruct (contains p s); intuition congruence. Qed.
Lemma contains_one c s : contains [c] s = true <-> In c s.
Proof.
  rewrite contains_substring. split.
  - intros (p & r & ->). apply in_app_iff. right. now left.
  - intros H. apply in_split in H as (p & r & ->). exists p, r. reflexivity.
Qed.

Lemma split_aux_nonempty sep : forall s skip cur, py_split_aux sep skip cur s <> [].
Proof.
  induction s as [|c s IH]; intros [|k] cur; try discriminate; cbn.
  - destruct (starts_with sep (c :: s)); [discriminate|apply IH].
  - apply IH.
Qed.
Lemma join_cons sep x l : l <> [] -> join sep (x :: l) = x ++ sep ++ join sep l.
Proof. destruct l; [congruence|reflexivity]. Qed.

(** No occurrence of [sep] starts inside [cur], when followed by [s]. *)
Definition clean (sep cur s : str) : Prop :=
  forall a b, cur = a ++ b -> b <> [] -> starts_with sep (b ++ s) = false.
Lemma clean_substring sep cur s : sep <> [] -> clean sep cur s -> ~ substring sep cur.
Proof.
  intros Hs H (p & r & ->). specialize (H p (sep ++ r) eq_refl).
  assert (K : sep ++ r <> []) by (destruct sep; [congruence|discriminate]). specialize (H K).
  apply not_true_iff_false in H. apply H, starts_with_spec. exists (r ++ s). now rewrite app_assoc.
Qed.
Lemma split_aux_spec sep : sep <> [] -> forall s skip cur, skip <= length s -> clean sep cur (skipn skip s) ->
  (skip = 0 \/ cur = []) ->
  join sep (py_split_aux sep skip cur s) = cur ++ skipn skip s /\
  Forall (fun l => ~ substring sep l) (py_split_aux sep skip cur s).
Proof.
  intros Hsep. induction s as [|c s IH]; intros skip cur Hk Hc Hz.
  - cbn in Hk. assert (skip = 0) by lia. subst. cbn. split; [now rewrite app_nil_r|].
    constructor; [|constructor]. eapply clean_substring; eauto.
  - destruct skip as [|k]; cbn [py_split_aux].
    + destruct (starts_with sep (c :: s)) eqn:E.
      * apply starts_with_spec in E as [r E]. destruct sep as [|x sep]; [congruence|]. cbn in E. injection E as -> E.
        cbn [List.length Nat.sub]. rewrite Nat.sub_0_r.
        assert (Hr : skipn (List.length sep) s = r).
        { rewrite E, skipn_app, skipn_all, Nat.sub_diag. reflexivity. }
        destruct (IH (List.length sep) []) as [H1 H2].
        { rewrite E, app_length. lia. }
        { intros a b Hab Hb. destruct a; [|discriminate]. cbn in Hab. congruence. }
        { now right. }
        split.
        -- rewrite join_cons by apply split_aux_nonempty. rewrite H1, Hr, E. cbn [skipn]. reflexivity.
        -- constructor; [|exact H2]. eapply clean_substring; [discriminate|exact Hc].
      * destruct (IH 0 (cur ++ [c])) as [H1 H2]; [lia| |now left|].
        { cbn [skipn]. intros a b Hab Hb. destruct (list_eq_dec N.eq_dec b [c]) as [->|Hn]; [exact E|].
          destruct (exists_last Hb) as (b' & x & ->). rewrite app_assoc in Hab. apply app_inj_tail in Hab as [-> <-].
          rewrite <- app_assoc. cbn [app]. apply (Hc a b' eq_refl). intros ->. now apply Hn. }
        split; [|exact H2]. rewrite H1. cbn [skipn]. now rewrite <- app_assoc.
    + destruct Hz as [Hz|Hz]; [discriminate|]. subst. destruct (IH k []) as [H1 H2].
      { cbn in Hk. lia. }
      { intros a b Hab Hb. destruct a; [|discriminate]. cbn in Hab. congruence. }
      { now right. }
      split; [exact H1|exact H2].
Qed.
Lemma split_spec sep s : sep <> [] ->
  join sep (py_split sep s) = s /\ Forall (fun l => ~ substring sep l) (py_split sep s).
Proof.
  intros H. destruct (split_aux_spec sep H s 0 []) as [H1 H2]; [lia| |now left|now split].
  intros a b Hab Hb. destruct a; [|discriminate]. cbn in Hab. congruence.
Qed.
Lemma split_one d s : py_split [d] s = split_at d [] s.
Proof.
  unfold py_split. enough (H : forall cur, py_split_aux [d] 0 cur s = split_at d cur s) by apply H.
  induction s as [|c s IH]; intros cur; [reflexivity|].
  assert (E : starts_with [d] (c :: s) = (c =? d)%N) by (cbn; rewrite andb_true_r; apply N.eqb_sym).
  cbn [py_split_aux split_at]. rewrite E. cbn [List.length Nat.sub].
  destruct (c =? d)%N; [f_equal; apply IH|apply IH].
Qed.

(** ** Lines *)
Lemma rev_repeat' (c : N) k : rev (repeat c k) = repeat c k.
Proof.
  induction k as [|k IH]; [reflexivity|]. cbn. rewrite IH. clear.
  induction k as [|k IH]; [reflexivity|]. cbn. now rewrite IH.
Qed.
Lemma rstrip_spec c s : exists k, s = rstrip_by (N.eqb c) s ++ repeat c k /\ no_end c (rstrip_by (N.eqb c) s).
Proof.
  unfold rstrip_by. remember (rev s) as t eqn:Et. assert (Es : s = rev t) by now rewrite Et, rev_involutive.
  clear Et.
  assert (H : exists k, t = repeat c k ++ lstrip_by (N.eqb c) t /\ forall r, lstrip_by (N.eqb c) t <> c :: r).
  { clear. induction t as [|x s IH]; [exists 0; split; [reflexivity|discriminate]|]. cbn [lstrip_by].
    destruct (N.eqb c x) eqn:E.
    - apply N.eqb_eq in E as <-. destruct IH as (k & H1 & H2). exists (S k). split; [cbn; now rewrite <- H1|exact H2].
    - exists 0. split; [reflexivity|]. intros r H. injection H as -> _. now rewrite N.eqb_refl in E. }
  destruct H as (k & H1 & H2). exists k. split.
  - rewrite Es, H1 at 1. rewrite rev_app_distr, rev_repeat'. reflexivity.
  - intros p Hp. apply (f_equal (@rev N)) in Hp. rewrite rev_involutive, rev_app_distr in Hp. now apply H2 in Hp.
Qed.
Lemma split_file_lines data : file_lines data (split_file data).
Proof.
  unfold file_lines, split_file, strip_trailing_crnl.
  destruct (rstrip_spec LF data) as (b & Eb & Hb). set (s1 := rstrip_by (N.eqb LF) data) in *.
  destruct (rstrip_spec CR s1) as (a & Ea & Ha). set (s := rstrip_by (N.eqb CR) s1) in *.
  assert (HD : data = s ++ repeat CR a ++ repeat LF b) by (rewrite app_assoc, <- Ea; exact Eb).
  assert (HL : a = 0 -> no_end LF s). { intros ->. cbn in Ea. rewrite app_nil_r in Ea. now rewrite <- Ea. }
  clearbody s1 s.
  assert (R : forall eol lines, lines <> [] -> s = join eol lines -> Forall (fun l => ~ substring eol l) lines ->
     ((eol = [CR; LF] /\ substring [CR; LF] s) \/ (eol = [LF] /\ ~ substring [CR; LF] s /\ In LF s) \/ (eol = [CR] /\ ~ In LF s)) ->
     exists s a b eol, data = s ++ repeat CR a ++ repeat LF b /\
    no_end CR s /\ (a = 0 -> no_end LF s) /\ lines <> [] /\ s = join eol lines /\ Forall (fun l => ~ substring eol l) lines /\
    ((eol = [CR; LF] /\ substring [CR; LF] s) \/ (eol = [LF] /\ ~ substring [CR; LF] s /\ In LF s) \/ (eol = [CR] /\ ~ In LF s))).
  { intros eol lines H1 H2 H3 H4. exists s, a, b, eol. tauto. }
  destruct (contains [CR; LF] s) eqn:E1.
  { apply contains_substring in E1. destruct (split_spec [CR; LF] s) as [H1 H2]; [discriminate|].
    apply (R [CR; LF]); auto. apply split_aux_nonempty. }
  apply contains_false in E1. destruct (contains [LF] s) eqn:E2.
  { apply contains_one in E2. destruct (split_spec [LF] s) as [H1 H2]; [discriminate|].
    apply (R [LF]); auto. apply split_aux_nonempty. }
  assert (E2' : ~ In LF s) by (rewrite <- contains_one; congruence).
  destruct (contains [CR] s) eqn:E3.
  - destruct (split_spec [CR] s) as [H1 H2]; [discriminate|]. apply (R [CR]); auto. apply split_aux_nonempty.
  - apply (R [CR]); auto; [discriminate|]. constructor; [|constructor]. now apply contains_false.
Qed.
