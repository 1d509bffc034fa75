(** * ArgOrigin: the arguments are taken from the words of the command line *)
From Coq Require Import String Lia.
From Verif Require Import Base Json ArgParse SpecArgs ArgLoop ArgWords ArgLines ArgMeaning ArgSound.
Open Scope nat_scope.

Section Origin.
Variables (digit : N -> bool) (int_of : str -> option Z) (P : parser) (words : list str).
Hypothesis G : good P.

Definition ending (s : str) : Prop := exists a, In (a ++ s) words.
Lemma ending_tail c s : ending (c :: s) -> ending s.
Proof. intros (a & H). exists (a ++ [c]). now rewrite <- app_assoc. Qed.
Lemma ending_word w : In w words -> ending w.
Proof. now exists []. Qed.
Lemma partition_ending w : forall a v, partition_equals w = (a, Some v) -> exists b, w = b ++ v.
Proof.
  induction w as [|c w IH]; intros a v; simpl; [discriminate|]. destruct (N.eqb c EQUALS).
  - intros H. injection H as <- <-. now exists [c].
  - destruct (partition_equals w) as [a' b'] eqn:E. intros H. injection H as <- ->. destruct (IH a' v eq_refl) as (b & ->). now exists (c :: b).
Qed.
Lemma partition_written w a v : In w words -> partition_equals w = (a, Some v) -> ending v.
Proof. intros HI H. destruct (partition_ending w a v H) as (b & ->). now exists b. Qed.

Definition from_hit (h : hit) : Prop := match h_explicit h with Some (_, e) => ending e | None => True end.
Definition from_mark (wm : str * mark) : Prop :=
  In (fst wm) words /\ match snd wm with MOption (Some h) => from_hit h | _ => True end.
Lemma tuples_from w h : In w words -> In h (option_tuples P w) -> from_hit h.
Proof.
  intros HI. unfold option_tuples. destruct w as [|a [|c tail]]; try easy. destruct (N.eqb c DASH).
  - destruct (partition_equals (a :: c :: tail)) as [prefix explicit] eqn:E. intros H. apply in_map_iff in H as ([n o] & <- & H).
    unfold from_hit. destruct explicit as [v|]; [|exact I]. exact (partition_written _ _ _ HI E).
  - intros H. apply in_flat_map in H as ([n o] & _ & H). cbn [fst snd] in H.
    destruct (str_eqb n [DASH; c]); [|destruct (starts_with _ n)]; [destruct H as [<-|[]]..|easy].
    + exact (ending_tail _ _ (ending_tail _ _ (ending_word _ HI))).
    + exact I.
Qed.
Lemma mark_from w m : In w words -> mark_word digit P w = Some m -> from_mark (w, m).
Proof.
  intros HI H. split; [exact HI|]. revert H. cbn [snd]. unfold mark_word. destruct w as [|c tail]; [intros H; now injection H as <-|].
  destruct (negb (N.eqb c DASH)); [intros H; now injection H as <-|].
  destruct (dict_get (c :: tail) (option_map_of P)) as [o|]; [intros H; now injection H as <-|].
  destruct (is_nil tail); [intros H; now injection H as <-|].
  destruct (partition_equals (c :: tail)) as [name explicit] eqn:EP.
  assert (HT : forall m, match option_tuples P (c :: tail) with
              | _ :: _ :: _ => None
              | [h] => Some (MOption (Some h))
              | [] => if negative_number digit (c :: tail) then Some MArg else if mem_char 32 (c :: tail) then Some MArg else Some (MOption None)
              end = Some m -> match m with MOption (Some h) => from_hit h | _ => True end).
  { intros m'. pose proof (tuples_from (c :: tail)) as HK. destruct (option_tuples P (c :: tail)) as [|h [|]].
    - destruct (negative_number _ _); [intros H; now injection H as <-|]. destruct (mem_char _ _); intros H; now injection H as <-.
    - intros H. injection H as <-. apply (HK h HI). now left.
    - discriminate. }
  destruct explicit as [v|]; [|apply HT].
  destruct (dict_get name (option_map_of P)) as [o|]; [|apply HT].
  intros H. injection H as <-. exact (partition_written _ _ _ HI EP).
Qed.
Lemma marks_from ws l : incl ws words -> mark_words digit P ws = Some l -> Forall from_mark l.
Proof.
  revert l. induction ws as [|w ws IH]; intros l HI; simpl; [intros H; injection H as <-; constructor|].
  assert (HW : In w words) by (apply HI; now left). assert (HR : incl ws words) by (intros x Hx; apply HI; now right).
  destruct (str_eqb w [DASH; DASH]).
  - intros H. injection H as <-. constructor; [now split|]. apply Forall_map. apply Forall_forall. intros x Hx. split; [now apply HR|exact I].
  - destruct (mark_word digit P w) as [m|] eqn:EM; [|discriminate].
    destruct (mark_words digit P ws) as [l'|]; [|discriminate]. intros H. injection H as <-.
    constructor; [now apply mark_from|now apply IH].
Qed.

Definition from_act (oa : opt * list str) : Prop := Forall ending (snd oa).
Lemma following_from o rest args rest' : Forall from_mark rest -> following o rest = Some (args, rest') -> Forall ending args.
Proof.
  intros HR. unfold following. destruct (arity o) as [|n]; [intros H; injection H as <- _; constructor|].
  destruct rest as [|[w []] rest0]; try discriminate. intros H. injection H as <- _. inversion HR as [|? ? [H1 _] _]. constructor; [now apply ending_word|constructor].
Qed.
Lemma chain_from n : forall e, List.length e < n -> forall o name sep rest acts x rest', ending e -> Forall from_mark rest ->
  chain P o name sep e rest = Some (acts, x, rest') -> Forall from_act acts.
Proof.
  induction n as [|n IH]; intros e Hn o name sep rest acts x rest' He HR H; [lia|].
  destruct (arity o) as [|k] eqn:E.
  2:{ destruct e; simpl in H; rewrite E in H; injection H as <- <- <-; (constructor; [constructor; [exact He|constructor]|constructor]). }
  assert (HO : from_act (o, [])) by constructor.
  destruct e as [|c e']; simpl in H; rewrite E in H; [discriminate|].
  destruct name as [|n0 [|d name]]; try discriminate. destruct (N.eqb d DASH); [discriminate|].
  destruct (sep || N.eqb c DASH)%bool; [discriminate|].
  destruct (dict_get [DASH; c] (option_map_of P)) as [o'|] eqn:EG.
  2:{ injection H as <- <- <-. now constructor. }
  match type of H with match ?T with _ => _ end = _ => destruct T as [[[acts0 x0] rest0]|] eqn:ET; [|discriminate] end.
  injection H as <- <- <-. constructor; [exact HO|].
  pose proof (ending_tail _ _ He) as He'.
  destruct e' as [|s e''].
  - destruct (following o' rest) as [[args r]|] eqn:EF; [|discriminate]. injection ET as <- <- <-.
    constructor; [exact (following_from _ _ _ _ HR EF)|constructor].
  - simpl in Hn. destruct (N.eqb s EQUALS).
    + eapply IH; [|exact (ending_tail _ _ He')|exact HR|exact ET]. lia.
    + eapply IH; [|exact He'|exact HR|exact ET]. simpl. lia.
Qed.
Lemma actions_from h rest acts x rest' : from_hit h -> Forall from_mark rest -> actions P h rest = Some (acts, x, rest') -> Forall from_act acts.
Proof.
  intros HH HR. unfold actions. unfold from_hit in HH. destruct (h_explicit h) as [[sep e]|].
  - apply (chain_from (S (List.length e)) e (Nat.lt_succ_diag_r _)); assumption.
  - destruct (following (h_opt h) rest) as [[args r]|] eqn:E; [|discriminate]. intros H. injection H as <- <- <-.
    constructor; [exact (following_from _ _ _ _ HR E)|constructor].
Qed.

(** *** The states *)
Definition strings (v : avalue) : list str := match v with AStr s => [s] | AList l => l | _ => [] end.
Record origin (ns : namespace) : Prop := mk_origin {
  or_any : forall k v, dict_get k ns = Some v -> Forall ending (strings v);
  or_path : forall v, dict_get (s2l "path") ns = Some v -> incl (strings v) words
}.
Lemma initial_origin : origin (initial P).
Proof.
  assert (H : forall k v, dict_get k (initial P) = Some v -> strings v = []).
  { intros k v HK. apply get_in in HK. destruct HK as [HK|HK]; [now injection HK as _ <-|].
    apply in_map_iff in HK as (o & HK & _). injection HK as _ <-. now destruct (o_kind o). }
  split.
  - intros k v HK. rewrite (H k v HK). constructor.
  - intros v HK. rewrite (H _ v HK). easy.
Qed.
Lemma set_origin st o v : In o (p_options P) -> origin (st_ns st) -> Forall ending (strings v) -> origin (st_ns (set_value st (o_long o) v)).
Proof.
  intros Ho [H1 H2] Hv. split; simpl.
  - intros k v' HK. destruct (str_eqb k (dest (o_long o))) eqn:E.
    + apply str_eqb_eq in E. subst k. rewrite get_set in HK. now injection HK as <-.
    + apply str_eqb_neq in E. rewrite get_set_other in HK; [now apply (H1 k)|exact E] || (rewrite get_set_other in HK; [now apply (H1 k)|congruence]).
  - intros v' HK. rewrite get_set_other in HK; [now apply H2|]. intros E. (now apply (dest_path P G o Ho)) || (symmetry in E; now apply (dest_path P G o Ho)).
Qed.
Lemma option_origin st o args : In o (all_options P) -> origin (st_ns st) -> Forall ending args ->
  match take_option int_of P st o args with inl r => forall ns, r <> Parsed ns | inr st' => origin (st_ns st') end.
Proof.
  intros Ho HS HA. unfold take_option.
  destruct (existsb (str_eqb (o_long o)) (p_exclusive P) && _); [easy|].
  assert (HO : o_kind o <> KHelp -> In o (p_options P)) by (intros H; destruct Ho as [<-|Ho]; [now destruct H|exact Ho]).
  destruct (o_kind o) eqn:HK.
  - easy.
  - apply set_origin; [now apply HO|exact HS|constructor].
  - destruct args as [|w [|]]; try easy. apply set_origin; [now apply HO|exact HS|exact HA].
  - destruct args as [|w [|]]; try easy. destruct (int_of w); [|easy]. apply set_origin; [now apply HO|exact HS|constructor].
  - destruct args as [|w [|]]; try easy. apply set_origin; [now apply HO|exact HS|].
    destruct (dict_get _ (st_ns st)) as [v|] eqn:E; [|exact HA]. destruct v; try exact HA.
    cbn [strings]. apply Forall_app. split; [exact (or_any _ HS _ _ E)|exact HA].
Qed.
Lemma options_origin acts : forall st, known_acts P acts -> Forall from_act acts -> origin (st_ns st) ->
  match take_options int_of P st acts with inl r => forall ns, r <> Parsed ns | inr st' => origin (st_ns st') end.
Proof.
  induction acts as [|[o args] acts IH]; intros st HK HF HS; simpl; [exact HS|]. inversion HK; subst. inversion HF; subst.
  pose proof (option_origin st o args H1 HS H3) as HO. destruct (take_option int_of P st o args) as [r|st']; [exact HO|].
  exact (IH st' H2 H4 HO).
Qed.
Lemma removed_in ws w : In w (remove_dashes ws) -> In w ws.
Proof. induction ws as [|x ws IH]; simpl; [easy|]. destruct (str_eqb x _); [now right|]. intros [H|H]; [now left|right; now apply IH]. Qed.
Lemma path_strings many ws : strings (path_value many ws) = ws.
Proof. unfold path_value. now destruct many, ws as [|w [|]]. Qed.

Theorem parse_origin ns : parse_args digit int_of P words = Parsed ns -> origin ns.
Proof.
  rewrite parse_args_eq. destruct (mark_words digit P words) as [l|] eqn:EM; [|discriminate].
  revert ns. apply (run_keeps int_of P (fun st ws => origin (st_ns st) /\ Forall (hit_known P) ws /\ Forall from_mark ws)
    (fun r => forall ns, r = Parsed ns -> origin ns)); try discriminate.
  - intros st ws0 st' rest (HS & HH & HM) H. unfold consume_path in H. destruct (st_path st); [discriminate|].
    destruct (path_length (p_many P) ws0) as [n|]; [|discriminate]. injection H as <- <-.
    assert (HI : incl (remove_dashes (map fst (firstn n ws0))) words).
    { intros w Hw. apply removed_in in Hw. apply in_map_iff in Hw as (wm & <- & Hw). rewrite Forall_forall in HM. apply HM.
      rewrite <- (firstn_skipn n ws0). apply in_or_app. now left. }
    split; [|split; [now apply skip_hits|]].
    + destruct HS as [S1 S2]. split; simpl.
      * intros k v HK. destruct (str_eqb k (s2l "path")) eqn:E.
        -- apply str_eqb_eq in E. subst k. rewrite get_set in HK. injection HK as <-. rewrite path_strings. apply Forall_forall.
           intros w Hw. apply ending_word. now apply HI.
        -- apply str_eqb_neq in E. rewrite get_set_other in HK by congruence. now apply (S1 k).
      * intros v HK. rewrite get_set in HK. injection HK as <-. now rewrite path_strings.
    + rewrite <- (firstn_skipn n ws0) in HM. now apply Forall_app in HM.
  - intros st ws0 H. exact H.
  - intros st ws0 n w h rest (HS & HH & HM) E. split; [exact HS|]. rewrite <- E. split; [now apply skip_hits|].
    rewrite <- (firstn_skipn n ws0) in HM. now apply Forall_app in HM.
  - intros st w rest (HS & HH & HM). inversion HH; subst. inversion HM; subst. now split.
  - intros st w h rest acts x rest' (HS & HH & HM) HA HF. inversion HH as [|? ? HH1 HH2]; subst. inversion HM as [|? ? HM1 HM2]; subst.
    destruct (actions_after int_of P h rest acts x rest') as [HA1 HA2]; [assumption..|].
    pose proof (actions_from h rest acts x rest' (proj2 HM1) HM2 HA) as HA3.
    assert (HS' : origin (st_ns (if x then extra st else st))) by now destruct x.
    pose proof (options_origin acts _ HA2 HA3 HS') as HO. destruct (take_options int_of P _ acts) as [r|st'].
    + intros ns ->. now destruct (HO ns).
    + split; [exact HO|]. destruct HA1 as [->|(w' & ->)]; [now split|]. inversion HH2; subst. inversion HM2; subst. now split.
  - intros st ws0 (HS & _) ns. unfold finish. destruct (st_path st); [|discriminate]. destruct (st_extras st); [discriminate|].
    intros H. now injection H as <-.
  - split; [exact initial_origin|]. split; [exact (wf_hits P l (marks_wf digit int_of P words l EM))|]. exact (marks_from words l (incl_refl _) EM).
Qed.
End Origin.
