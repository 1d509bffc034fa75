(** * ArgErrors: words that are not understood, and the help *)
From Coq Require Import String Lia.
From Verif Require Import Base Json ArgParse SpecArgs ArgLoop ArgWords ArgDashed ArgLines ArgMeaning ArgSound ArgCommands.
Open Scope nat_scope.

Section Errors.
Variables (digit : N -> bool) (int_of : str -> option Z) (P : parser).
Hypothesis G : good P.
Hypothesis XH : ~ In (s2l "help") (p_exclusive P).

Lemma mark_ambiguous w : ambiguous (sheet_of P) w -> mark_word digit P w = None.
Proof.
  intros [q rest l l' r r' H0 Hq HR HN Hl Hl' Hne E E'].
  change (s2l "--" ++ q ++ rest) with (DASH :: DASH :: q ++ rest).
  rewrite (mark_long_word digit P G); [|exact Hq|exact HR|intros x Hx ->; now apply HN].
  destruct (long_tuples digit P q rest Hq HR) as (e & ->).
  assert (HI : forall x s, In x (long_names (sheet_of P)) -> x = q ++ s ->
    exists o, o_long o = x /\ In (DASH :: DASH :: x, o) (filter (fun no => starts_with (DASH :: DASH :: q) (fst no)) (option_map_of P))).
  { intros x s Hx Es. destruct (listed_long P x Hx) as (o & Ho & Eo). exists o. split; [exact Eo|]. apply filter_In. split.
    - apply in_option_map. split; [exact Ho|]. rewrite <- Eo. apply long_name.
    - apply starts_with_iff. exists s. cbn [fst]. now rewrite Es. }
  destruct (HI l r Hl E) as (o & Eo & Ho). destruct (HI l' r' Hl' E') as (o' & Eo' & Ho').
  destruct (filter _ (option_map_of P)) as [|x [|y L]]; [destruct Ho| |reflexivity].
  exfalso. destruct Ho as [->|[]], Ho' as [K|[]]. injection K as K _. now apply Hne.
Qed.

(** ** Refusal *)
Lemma marks_split ws1 w ws2 : ~ In [DASH; DASH] ws1 -> str_eqb w [DASH; DASH] = false ->
  match mark_words digit P (ws1 ++ w :: ws2) with
  | Some l => exists m, mark_word digit P w = Some m /\ In (w, m) l
  | None => True
  end.
Proof.
  intros HN Hw. induction ws1 as [|x ws1 IH]; simpl.
  - rewrite Hw. destruct (mark_word digit P w) as [m|]; [|exact I]. destruct (mark_words digit P ws2); [|exact I]. exists m. split; [reflexivity|now left].
  - destruct (str_eqb x [DASH; DASH]) eqn:E; [apply str_eqb_eq in E; subst x; destruct HN; now left|].
    destruct (mark_word digit P x) as [m|]; [|exact I].
    assert (HI : ~ In [DASH; DASH] ws1) by (intros K; apply HN; now right). specialize (IH HI).
    destruct (mark_words digit P (ws1 ++ w :: ws2)) as [l|]; [|exact I]. destruct IH as (m' & E1 & E2). exists m'. split; [exact E1|now right].
Qed.
Theorem ambiguous_refused ws1 w ws2 : ~ In [DASH; DASH] ws1 -> ambiguous (sheet_of P) w -> parse_args digit int_of P (ws1 ++ w :: ws2) = Usage.
Proof.
  intros HN HA. rewrite parse_args_eq. pose proof (marks_split ws1 w ws2 HN) as H. rewrite (mark_ambiguous w HA) in H.
  destruct (mark_words digit P (ws1 ++ w :: ws2)) as [l|]; [|reflexivity]. exfalso.
  destruct H as (m & H & _); [|discriminate]. destruct HA as [q rest l0 l' r r' H0 _ _ _ _ _ _ _ _]. apply str_eqb_neq. destruct q; [easy|discriminate].
Qed.
Lemma prefix_dashes ws : Forall (fun x => is_opt x = false) (firstn (prefix_length is_dashes ws) ws).
Proof. induction ws as [|[w m] ws IH]; simpl; [constructor|]. destruct m; simpl; constructor; [reflexivity|exact IH]. Qed.
Lemma prefix_args many ws : Forall (fun x => is_opt x = false) (firstn (prefix_length (fun x => (many && is_arg x) || is_dashes x)%bool ws) ws).
Proof. induction ws as [|[w m] ws IH]; simpl; [constructor|]. destruct m, many; simpl; constructor; try reflexivity; exact IH. Qed.
Lemma path_no_option many ws n : path_length many ws = Some n -> Forall (fun x => is_opt x = false) (firstn n ws).
Proof.
  unfold path_length. set (k := prefix_length is_dashes ws). destruct (skipn k ws) as [|wm rest] eqn:E; [discriminate|].
  destruct (is_arg wm) eqn:EA; [|discriminate]. intros H. injection H as <-.
  assert (HF : forall j, firstn (k + j) ws = firstn k ws ++ firstn j (skipn k ws)).
  { intros j. rewrite <- (firstn_skipn k ws) at 1. assert (HK : List.length (firstn k ws) = k).
    { apply firstn_length_le. pose proof (f_equal (@List.length _) E) as HL. rewrite skipn_length in HL. simpl in HL. lia. }
    rewrite firstn_app, HK, firstn_all2 by lia. f_equal. f_equal. lia. }
  rewrite <- Nat.add_assoc, HF, E. apply Forall_app. split; [apply prefix_dashes|]. simpl. constructor; [|apply prefix_args].
  unfold is_arg, is_opt in *. now destruct (snd wm).
Qed.
Lemma prefix_no_option ws : Forall (fun x => is_opt x = false) (firstn (prefix_length (fun x => negb (is_opt x)) ws) ws).
Proof. induction ws as [|x ws IH]; simpl; [constructor|]. destruct (is_opt x) eqn:E; simpl; constructor; [exact E|exact IH]. Qed.
Lemma in_skipped (x : str * mark) n ws : is_opt x = true -> Forall (fun x => is_opt x = false) (firstn n ws) -> In x ws -> In x (skipn n ws).
Proof.
  intros Hx HF HI. rewrite <- (firstn_skipn n ws) in HI. apply in_app_or in HI as [HI|HI]; [|exact HI].
  rewrite Forall_forall in HF. specialize (HF x HI). congruence.
Qed.
Lemma options_extras acts : forall st, match take_options int_of P st acts with
  | inl r => forall ns, r <> Parsed ns | inr st' => st_extras st' = st_extras st end.
Proof.
  induction acts as [|[o args] acts IH]; intros st; [reflexivity|]. cbn [take_options].
  assert (HO : match take_option int_of P st o args with inl r => forall ns, r <> Parsed ns | inr st' => st_extras st' = st_extras st end).
  { unfold take_option. destruct (_ && _)%bool; [discriminate|]. destruct (o_kind o), args as [|a [|]]; try discriminate; try reflexivity.
    destruct (int_of a); [reflexivity|discriminate]. }
  destruct (take_option int_of P st o args) as [r|st']; [exact HO|]. specialize (IH st'). destruct (take_options int_of P st' acts); [exact IH|congruence].
Qed.
Lemma extras_refused w : forall n st ws ns, List.length ws < n -> Forall (hit_known P) ws -> st_extras st = true \/ In (w, MOption None) ws ->
  run int_of P st ws <> Parsed ns.
Proof.
  induction n as [|n IH]; intros st ws ns Hn HK HQ; [lia|]. rewrite run_eq.
  assert (HP : forall st' rest, consume_path P st ws = Some (st', rest) ->
    st_extras st' = st_extras st /\ Forall (hit_known P) rest /\ (In (w, MOption None) ws -> In (w, MOption None) rest)).
  { intros st' rest. unfold consume_path. destruct (st_path st); [discriminate|]. destruct (path_length _ ws) as [k|] eqn:EK; [|discriminate].
    intros H. injection H as <- <-. split; [reflexivity|]. split; [now apply skip_hits|]. intros HI. apply in_skipped; [reflexivity|exact (path_no_option _ _ _ EK)|exact HI]. }
  destruct (existsb is_opt ws) eqn:EO.
  - cbv zeta. set (k := prefix_length _ ws).
    destruct (if Nat.eqb k 0 then None else consume_path P st ws) as [[st' rest]|] eqn:E.
    + destruct (Nat.eqb k 0); [discriminate|]. pose proof (consume_path_shorter _ _ _ _ _ E). destruct (HP _ _ E) as (H1 & H2 & H3).
      apply IH; [lia|exact H2|]. rewrite H1. tauto.
    + destruct (skip_to_option ws EO) as (w' & h & rest & ES). fold k in ES. rewrite ES.
      pose proof (f_equal (@List.length _) ES) as HL. rewrite skipn_length in HL. simpl in HL.
      set (st1 := if Nat.eqb k 0 then st else extra st).
      assert (H1 : st_extras st1 = true \/ In (w, MOption None) ((w', MOption h) :: rest)).
      { destruct HQ as [HQ|HQ]; [left; unfold st1; now destruct (Nat.eqb k 0)|]. right. rewrite <- ES. apply in_skipped; [reflexivity|apply prefix_no_option|exact HQ]. }
      pose proof (skip_hits P k ws HK) as HK'. rewrite ES in HK'. inversion HK' as [|? ? HK1 HK2]; subst.
      rewrite consume_optional_eq. destruct h as [h|].
      * destruct (actions P h rest) as [[[acts x] r]|] eqn:EA; [|discriminate].
        destruct (actions_shorter _ _ _ _ _ _ EA) as [HA1 _]. assert (HA2 : after rest r) by exact (proj1 (actions_after int_of P h rest acts x r HK1 EA)).
        pose proof (options_extras acts (if x then extra st1 else st1)) as HO.
        destruct (take_options int_of P _ acts) as [r'|st'']; [apply HO|]. apply IH; [lia| |].
        -- destruct HA2 as [->|(w0 & ->)]; [exact HK2|now inversion HK2].
        -- rewrite HO. destruct H1 as [H1|[H1|H1]]; [left; now destruct x|discriminate|]. right.
           destruct HA2 as [->|(w0 & ->)]; [exact H1|]. destruct H1 as [H1|H1]; [discriminate|exact H1].
      * apply IH; [lia|exact HK2|]. now left.
  - assert (HE : st_extras st = true).
    { destruct HQ as [HQ|HQ]; [exact HQ|]. apply not_true_iff_false in EO. destruct EO. apply existsb_exists. now exists (w, MOption None). }
    assert (HF : forall st', st_extras st' = true -> finish st' <> Parsed ns) by (intros st' K; unfold finish; rewrite K; now destruct (st_path st')).
    unfold conclude. destruct (consume_path P st ws) as [[st' rest]|] eqn:E.
    + destruct (HP _ _ eq_refl) as (H1 & _). apply HF. destruct (is_nil rest); [congruence|reflexivity].
    + apply HF. now destruct (is_nil ws).
Qed.
Theorem unknown_refused ws1 w ws2 ns : sensible digit -> ~ In [DASH; DASH] ws1 -> unknown digit (sheet_of P) w -> parse_args digit int_of P (ws1 ++ w :: ws2) <> Parsed ns.
Proof.
  intros HS HN HU. rewrite parse_args_eq. pose proof (marks_split ws1 w ws2 HN (nameless_dashes P w (proj1 HU))) as H. rewrite (mark_unknown digit P G w HS HU) in H.
  destruct (mark_words digit P (ws1 ++ w :: ws2)) as [l|] eqn:EM; [|discriminate].
  destruct H as (m & E & HI). injection E as <-.
  apply (extras_refused w (S (List.length l))); [lia| |now right]. apply (wf_hits P). now apply (marks_wf digit int_of P (ws1 ++ w :: ws2)).
Qed.
Theorem dashed_accepted w : sensible digit -> dashed_name digit (sheet_of P) w ->
  parse_args digit int_of P [w] = Parsed (dict_set (s2l "path") (if p_many P then AList [w] else AStr w) (initial P)).
Proof.
  intros HS HD. pose proof (nameless_dashes P w (proj1 HD)) as H1. rewrite parse_args_eq, (mark_cons digit P w MArg [] [] H1 (mark_dashed digit P G w HS HD) eq_refl).
  rewrite run_eq. cbn [existsb is_opt snd orb]. unfold conclude, consume_path. cbn [start st_path].
  unfold path_length. cbn [prefix_length is_dashes snd skipn is_arg List.length Nat.add firstn map fst remove_dashes is_nil]. rewrite H1. now destruct (p_many P).
Qed.

(** ** The help *)
Theorem help_first items ws : line digit (sheet_of P) items ws ->
  parse_args digit int_of P (s2l "-h" :: ws) = Helped /\
  forall q, abbreviates (sheet_of P) q (s2l "help") -> parse_args digit int_of P ((s2l "--" ++ q) :: ws) = Helped.
Proof.
  intros HL. destruct (line_run digit int_of P G items ws HL) as (m & HM & _).
  assert (HX : existsb (str_eqb (s2l "help")) (p_exclusive P) = false).
  { apply not_true_iff_false. intros K. apply existsb_exists in K as (l & Hl & E). apply str_eqb_eq in E. subst l. exact (XH Hl). }
  assert (HR : forall w n, str_eqb w [DASH; DASH] = false -> mark_word digit P w = Some (MOption (Some (mk_hit help n None))) ->
    parse_args digit int_of P (w :: ws) = Helped).
  { intros w n H1 H2. rewrite parse_args_eq, (mark_cons digit P w _ ws m H1 H2 HM). rewrite run_option. unfold actions, following. cbn [h_explicit h_opt].
    change (arity help) with 0. cbv iota. cbn [take_options take_option help o_long o_kind]. unfold take_option. cbn [help o_long o_kind]. now rewrite HX. }
  split.
  - apply (HR _ (s2l "-h")); [reflexivity|]. exact (mark_short digit P G help 104%N (or_introl eq_refl) eq_refl).
  - intros q (Hq & HP & HU).
    assert (HF : stands_for P q help).
    { split; [exact Hq|]. split; [exact HP|]. destruct HU as [HU|HU]; [now left|]. right. intros o' Ho' (r & E).
      pose proof (HU (o_long o') r (long_listed P o' Ho') E) as El. apply (same_long P G); [exact Ho'|now left|exact El]. }
    destruct (mark_long digit P G q help (or_introl eq_refl) HF) as (n & HW). apply (HR _ n); [|exact HW].
    apply str_eqb_neq. destruct q; [easy|discriminate].
Qed.
End Errors.

(** ** The five commands *)
Definition described (P : parser) (S : sheet) : Prop :=
  In (P, S) [(detect_parser, detect_sheet); (view_parser, view_sheet); (standardize_parser, standardize_sheet);
             (code_parser, code_sheet); (explore_parser, code_sheet)].
Lemma described_good P S : described P S -> good P /\ sheet_of P = S /\ ~ In (s2l "help") (p_exclusive P).
Proof.
  intros [E|[E|[E|[E|[E|[]]]]]]; injection E as <- <-; (split; [|split; [reflexivity|]]).
  - apply (checked_ok _ detect_checked).
  - intros [E|[E|[]]]; discriminate E.
  - apply (checked_ok _ view_checked).
  - intros [].
  - apply (checked_ok _ standardize_checked).
  - intros [].
  - apply (checked_ok _ code_checked).
  - intros [].
  - apply (checked_ok _ explore_checked).
  - intros [].
Qed.
Theorem five_unknown digit int_of P S ws1 w ws2 ns : described P S -> sensible digit -> ~ In (s2l "--") ws1 -> unknown digit S w ->
  parse_args digit int_of P (ws1 ++ w :: ws2) <> Parsed ns.
Proof. intros HD HS HN HU. destruct (described_good P S HD) as (G & <- & _). now apply unknown_refused. Qed.
Theorem five_dashed digit int_of P S w : described P S -> sensible digit -> dashed_name digit S w ->
  exists ns, parse_args digit int_of P [w] = Parsed ns /\ dict_get (s2l "path") ns = Some (if p_many P then AList [w] else AStr w).
Proof.
  intros HD HS HU. destruct (described_good P S HD) as (G & <- & _). eexists. split; [now apply dashed_accepted|].
  apply get_set.
Qed.
Theorem five_ambiguous digit int_of P S ws1 w ws2 : described P S -> ~ In (s2l "--") ws1 -> ambiguous S w ->
  parse_args digit int_of P (ws1 ++ w :: ws2) = Usage.
Proof. intros HD HN HU. destruct (described_good P S HD) as (G & <- & _). now apply ambiguous_refused. Qed.
Theorem five_help digit int_of P S items ws : described P S -> line digit S items ws ->
  parse_args digit int_of P (s2l "-h" :: ws) = Helped /\
  forall q, abbreviates S q (s2l "help") -> parse_args digit int_of P ((s2l "--" ++ q) :: ws) = Helped.
Proof. intros HD HL. destruct (described_good P S HD) as (G & <- & X). now apply (help_first digit int_of P G X items). Qed.
