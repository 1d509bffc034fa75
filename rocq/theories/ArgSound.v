(** * ArgSound: what holds for every command line that is accepted *)
From Coq Require Import String Lia.
From Verif Require Import Base Json ArgParse SpecArgs ArgLoop ArgWords ArgLines ArgMeaning.
Open Scope nat_scope.

Definition dd : str := [DASH; DASH].
Section Sound.
Variables (digit : N -> bool) (int_of : str -> option Z) (P : parser).
Hypothesis G : good P.
Hypothesis X : forall l, In l (p_exclusive P) -> exists o, In o (p_options P) /\ o_long o = l /\ arity o = 0.

Definition known_mark (m : mark) : Prop :=
  match m with MDashes => False | MOption (Some h) => In (h_opt h) (all_options P) | _ => True end.
Inductive wf : list (str * mark) -> Prop :=
| wf_nil : wf []
| wf_dashes l : wf ((dd, MDashes) :: args_of l)
| wf_cons w m rest : w <> dd -> known_mark m -> wf rest -> wf ((w, m) :: rest).

Lemma get_known n o : dict_get n (option_map_of P) = Some o -> In o (all_options P).
Proof. intros H. apply get_in in H. apply in_option_map in H. tauto. Qed.
Lemma tuples_known w h : In h (option_tuples P w) -> In (h_opt h) (all_options P).
Proof.
  unfold option_tuples. destruct w as [|a [|c tail]]; try easy. destruct (N.eqb c DASH).
  - destruct (partition_equals (a :: c :: tail)) as [prefix explicit]. intros H. apply in_map_iff in H as ([n o] & <- & H).
    apply filter_In in H as [H _]. simpl. apply in_option_map in H. tauto.
  - intros H. apply in_flat_map in H as ([n o] & H1 & H2). apply in_option_map in H1. cbn [fst snd] in H2.
    destruct (str_eqb n [DASH; c]); [destruct H2 as [<-|[]]; tauto|]. destruct (starts_with (a :: c :: tail) n); [destruct H2 as [<-|[]]; tauto|easy].
Qed.
Lemma mark_known w m : mark_word digit P w = Some m -> known_mark m.
Proof.
  unfold mark_word. destruct w as [|c tail]; [intros H; now injection H as <-|].
  destruct (negb (N.eqb c DASH)); [intros H; now injection H as <-|].
  destruct (dict_get (c :: tail) (option_map_of P)) as [o|] eqn:E.
  { intros H. injection H as <-. simpl. now apply (get_known (c :: tail)). }
  destruct (is_nil tail); [intros H; now injection H as <-|].
  destruct (partition_equals (c :: tail)) as [name explicit].
  assert (HT : forall m, match option_tuples P (c :: tail) with
              | _ :: _ :: _ => None
              | [h] => Some (MOption (Some h))
              | [] => if negative_number digit (c :: tail) then Some MArg else if mem_char 32 (c :: tail) then Some MArg else Some (MOption None)
              end = Some m -> known_mark m).
  { intros m'. pose proof (tuples_known (c :: tail)) as HK. destruct (option_tuples P (c :: tail)) as [|h [|]].
    - destruct (negative_number _ _); [intros H; now injection H as <-|]. destruct (mem_char _ _); intros H; now injection H as <-.
    - intros H. injection H as <-. simpl. apply HK. now left.
    - discriminate. }
  destruct explicit as [v|]; [|apply HT].
  destruct (dict_get name (option_map_of P)) as [o|] eqn:E2; [|apply HT].
  intros H. injection H as <-. simpl. now apply (get_known name).
Qed.
Lemma marks_wf ws l : mark_words digit P ws = Some l -> wf l.
Proof.
  revert l. induction ws as [|w ws IH]; intros l; simpl; [intros H; injection H as <-; constructor|].
  destruct (str_eqb w [DASH; DASH]) eqn:E.
  - apply str_eqb_eq in E. subst w. intros H. injection H as <-. exact (wf_dashes ws).
  - apply str_eqb_neq in E. destruct (mark_word digit P w) as [m|] eqn:EM; [|discriminate].
    destruct (mark_words digit P ws) as [l'|]; [|discriminate]. intros H. injection H as <-.
    constructor; [exact E|now apply (mark_known w)|now apply IH].
Qed.
Lemma wf_skip n : forall ws w h rest, wf ws -> skipn n ws = (w, MOption h) :: rest -> wf ((w, MOption h) :: rest).
Proof.
  induction n as [|n IH]; intros ws w h rest HW; [simpl; now intros <-|].
  destruct HW as [|l|w0 m rest0 H1 H2 H3]; simpl; [discriminate| |now apply IH].
  intros E. exfalso. assert (HI : In (w, MOption h) (args_of l)).
  { rewrite <- (firstn_skipn n (args_of l)), E. apply in_or_app. right. now left. }
  apply in_map_iff in HI as (x & HI & _). discriminate.
Qed.

Definition hit_known (wm : str * mark) : Prop :=
  match snd wm with MOption (Some h) => In (h_opt h) (all_options P) | _ => True end.
Lemma wf_hits ws : wf ws -> Forall hit_known ws.
Proof.
  induction 1 as [|l|w m rest H1 H2 H3 IH]; constructor; try exact I; try assumption.
  - unfold args_of. apply Forall_map. now apply Forall_forall.
  - unfold hit_known. simpl. destruct m as [| |[h|]]; easy.
Qed.
Lemma skip_hits n ws : Forall hit_known ws -> Forall hit_known (skipn n ws).
Proof.
  intros H. rewrite <- (firstn_skipn n ws) in H. now apply Forall_app in H.
Qed.

(** *** The actions *)
Definition after (rest rest' : list (str * mark)) : Prop := rest' = rest \/ exists w, rest = (w, MArg) :: rest'.
Lemma following_after o rest args rest' : following o rest = Some (args, rest') -> after rest rest'.
Proof.
  unfold following. destruct (arity o) as [|n]; [intros H; injection H as _ <-; now left|].
  destruct rest as [|[w []] rest0]; try discriminate. intros H. injection H as _ <-. right. now exists w.
Qed.
Definition known_acts (acts : list (opt * list str)) : Prop := Forall (fun oa => In (fst oa) (all_options P)) acts.
Lemma chain_after n : forall e, List.length e < n -> forall o name sep rest acts x rest', In o (all_options P) ->
  chain P o name sep e rest = Some (acts, x, rest') -> after rest rest' /\ known_acts acts.
Proof.
  induction n as [|n IH]; intros e Hn o name sep rest acts x rest' Ho H; [lia|].
  destruct (arity o) as [|k] eqn:E.
  2:{ destruct e; simpl in H; rewrite E in H; injection H as <- <- <-; (split; [now left|constructor; [exact Ho|constructor]]). }
  destruct e as [|c e']; simpl in H; rewrite E in H; [discriminate|].
  destruct name as [|n0 [|d name]]; try discriminate. destruct (N.eqb d DASH); [discriminate|].
  destruct (sep || N.eqb c DASH)%bool; [discriminate|].
  destruct (dict_get [DASH; c] (option_map_of P)) as [o'|] eqn:EG.
  2:{ injection H as <- <- <-. split; [now left|constructor; [exact Ho|constructor]]. }
  pose proof (get_known _ _ EG) as Ho'.
  match type of H with match ?T with _ => _ end = _ => destruct T as [[[acts0 x0] rest0]|] eqn:ET; [|discriminate] end.
  injection H as <- <- <-.
  enough (HH : after rest rest0 /\ known_acts acts0) by (destruct HH; split; [assumption|now constructor]).
  destruct e' as [|s e''].
  - destruct (following o' rest) as [[args r]|] eqn:EF; [|discriminate]. injection ET as <- <- <-.
    split; [exact (following_after _ _ _ _ EF)|constructor; [exact Ho'|constructor]].
  - simpl in Hn. destruct (N.eqb s EQUALS).
    + eapply IH; [|exact Ho'|exact ET]. lia.
    + eapply IH; [|exact Ho'|exact ET]. simpl. lia.
Qed.
Lemma actions_after h rest acts x rest' : In (h_opt h) (all_options P) -> actions P h rest = Some (acts, x, rest') ->
  after rest rest' /\ known_acts acts.
Proof.
  intros Ho. unfold actions. destruct (h_explicit h) as [[sep e]|]; [apply (chain_after (S (List.length e)) e (Nat.lt_succ_diag_r _)); exact Ho|].
  destruct (following (h_opt h) rest) as [[args r]|] eqn:E; [|discriminate]. intros H. injection H as <- <- <-.
  split; [exact (following_after _ _ _ _ E)|constructor; [exact Ho|constructor]].
Qed.

(** *** The states *)
Definition of_kind (k : okind) (v : avalue) : Prop :=
  match k with
  | KHelp => True
  | KFlag => exists b, v = ABool b
  | KStr => v = ANone \/ exists s, v = AStr s
  | KInt => v = ANone \/ exists z, v = AInt z
  | KAppend => exists l, v = AList l
  end.
Definition path_ok (v : avalue) : Prop := if p_many P then exists l, v = AList l /\ l <> [] else exists s, v = AStr s.
Definition typed (ns : namespace) : Prop :=
  forall o, In o (p_options P) -> exists v, dict_get (dest (o_long o)) ns = Some v /\ of_kind (o_kind o) v.
Definition chosen (ns : namespace) (l : str) : Prop := dict_get (dest l) ns = Some (ABool true).
Record sound (st : state) : Prop := mk_sound {
  s_typed : typed (st_ns st);
  s_path : st_path st = true -> exists v, dict_get (s2l "path") (st_ns st) = Some v /\ path_ok v;
  s_chosen : forall l, In l (p_exclusive P) -> chosen (st_ns st) l -> In l (st_seen st);
  s_one : forall l l', In l (p_exclusive P) -> In l' (p_exclusive P) -> In l (st_seen st) -> In l' (st_seen st) -> l = l'
}.
Lemma sound_start : sound (start P).
Proof.
  split; simpl; try easy.
  - intros o Ho. exists (default (o_kind o)). split; [now apply get_initial|]. destruct (o_kind o); simpl; eauto.
  - intros l Hl. destruct (X l Hl) as (o & Ho & <- & Ha). unfold chosen. rewrite (get_initial P G o Ho).
    unfold arity in Ha. destruct (o_kind o); try discriminate.
Qed.
Lemma sound_extra st : sound st -> sound (extra st).
Proof. intros [H1 H2 H3 H4]. now split. Qed.

Lemma sound_set st o v : In o (p_options P) -> sound st -> of_kind (o_kind o) v ->
  existsb (str_eqb (o_long o)) (p_exclusive P) &&
  existsb (fun x => negb (str_eqb x (o_long o)) && existsb (str_eqb x) (st_seen st)) (p_exclusive P) = false ->
  sound (set_value st (o_long o) v).
Proof.
  intros Ho [H1 H2 H3 H4] Hv HX. split; simpl.
  - intros o' Ho'. destruct (str_eqb (o_long o) (o_long o')) eqn:E.
    + apply str_eqb_eq in E. rewrite <- (long_inj P G o o' Ho Ho' E). exists v. split; [apply get_set|exact Hv].
    + apply str_eqb_neq in E. rewrite get_set_other; [now apply H1|]. intros ED. apply E. now rewrite (dest_inj P G o o' Ho Ho' ED).
  - intros HP. destruct (H2 HP) as (v' & Hv' & Hok). exists v'. split; [|exact Hok]. rewrite get_set_other; [exact Hv'|].
    intros E. symmetry in E. now apply (dest_path P G o Ho).
  - intros l Hl HC. destruct (str_eqb (o_long o) l) eqn:E; [left; now apply str_eqb_eq|right]. apply str_eqb_neq in E.
    apply H3; [exact Hl|]. destruct (X l Hl) as (o' & Ho' & <- & _). unfold chosen in *. rewrite get_set_other in HC; [exact HC|].
    intros ED. apply E. now rewrite (dest_inj P G o o' Ho Ho' ED).
  - assert (HA : forall l, In (o_long o) (p_exclusive P) -> In l (p_exclusive P) -> In l (st_seen st) -> l = o_long o).
    { intros l HI Hl HS. destruct (str_eqb l (o_long o)) eqn:E; [now apply str_eqb_eq|]. exfalso.
      apply not_true_iff_false in HX. apply HX. apply andb_true_iff. split.
      - apply existsb_exists. exists (o_long o). split; [exact HI|apply str_eqb_refl].
      - apply existsb_exists. exists l. split; [exact Hl|]. rewrite E. simpl. apply existsb_exists. exists l.
        split; [exact HS|apply str_eqb_refl]. }
    intros l l' Hl Hl' [E|E] [E'|E'].
    + congruence.
    + subst l. symmetry. now apply HA.
    + subst l'. now apply HA.
    + now apply H4.
Qed.
Lemma sound_option st o args : In o (all_options P) -> sound st -> List.length args = arity o ->
  match take_option int_of P st o args with inl r => r = Usage \/ r = Helped | inr st' => sound st' /\ st_path st' = st_path st end.
Proof.
  intros Ho HS HL. unfold take_option.
  destruct (existsb (str_eqb (o_long o)) (p_exclusive P) && _) eqn:EX; [now left|].
  assert (HO : o_kind o <> KHelp -> In o (p_options P)) by (intros H; destruct Ho as [<-|Ho]; [now destruct H|exact Ho]).
  unfold arity in HL. destruct (o_kind o) eqn:HK.
  - now right.
  - split; [|reflexivity]. apply sound_set; [now apply HO|exact HS|rewrite HK; simpl; eauto|exact EX].
  - destruct args as [|w [|]]; try discriminate HL.
    split; [|reflexivity]. apply sound_set; [now apply HO|exact HS|rewrite HK; simpl; eauto|exact EX].
  - destruct args as [|w [|]]; try discriminate HL. destruct (int_of w); [|now left].
    split; [|reflexivity]. apply sound_set; [now apply HO|exact HS|rewrite HK; simpl; eauto|exact EX].
  - destruct args as [|w [|]]; try discriminate HL.
    split; [|reflexivity]. apply sound_set; [now apply HO|exact HS|rewrite HK; simpl|exact EX].
    destruct (dict_get _ (st_ns st)) as [[]|]; eauto.
Qed.
Lemma sound_options acts : forall st, known_acts acts -> Forall fits acts -> sound st ->
  match take_options int_of P st acts with inl r => r = Usage \/ r = Helped | inr st' => sound st' /\ st_path st' = st_path st end.
Proof.
  induction acts as [|[o args] acts IH]; intros st HK HF HS; simpl; [now split|]. inversion HK; subst. inversion HF; subst.
  pose proof (sound_option st o args H1 HS H3) as HO. destruct (take_option int_of P st o args) as [r|st']; [exact HO|].
  destruct HO as [HO1 HO2]. pose proof (IH st' H2 H4 HO1) as HI. destruct (take_options int_of P st' acts); [exact HI|].
  destruct HI. split; [assumption|congruence].
Qed.
Lemma prefix_dashes_args l : prefix_length is_dashes (args_of l) = 0.
Proof. now destruct l. Qed.
Lemma path_good ws n : wf ws -> path_length (p_many P) ws = Some n ->
  path_ok (path_value (p_many P) (remove_dashes (map fst (firstn n ws)))).
Proof.
  intros HW HN. unfold path_ok.
  destruct HW as [|l|w m rest H1 H2 H3].
  - discriminate.
  - unfold path_length in HN. simpl in HN. rewrite prefix_dashes_args in HN. simpl in HN.
    destruct l as [|w l]; [discriminate|]. simpl in HN. injection HN as <-.
    destruct (p_many P).
    + simpl. eexists. split; [reflexivity|discriminate].
    + replace (prefix_length (fun x => false && is_arg x || is_dashes x)%bool (args_of l)) with 0 by now destruct l.
      simpl. now exists w.
  - apply str_eqb_neq in H1. unfold dd in H1. destruct m as [| |h]; [|now destruct H2|discriminate HN].
    unfold path_length in HN. simpl in HN. injection HN as <-. simpl. rewrite H1. destruct (p_many P).
    + simpl. eexists. split; [reflexivity|discriminate].
    + destruct H3 as [|l|w' m' rest' K1 K2 K3].
      * simpl. now exists w.
      * simpl. rewrite prefix_dashes_args || idtac.
        replace (prefix_length (fun x => false && is_arg x || is_dashes x)%bool (args_of l)) with 0 by now destruct l.
        simpl. now exists w.
      * destruct m' as [| |h']; [| now destruct K2 |]; simpl; now exists w.
Qed.

Definition answer_ok (r : parsed) : Prop :=
  match r with
  | Parsed ns => typed ns /\ (exists v, dict_get (s2l "path") ns = Some v /\ path_ok v) /\
                 (forall l l', In l (p_exclusive P) -> In l' (p_exclusive P) -> chosen ns l -> chosen ns l' -> l = l')
  | _ => True
  end.
Theorem parse_sound ws : answer_ok (parse_args digit int_of P ws).
Proof.
  rewrite parse_args_eq. destruct (mark_words digit P ws) as [l|] eqn:EM; [|exact I].
  apply (run_keeps int_of P (fun st ws => sound st /\ Forall hit_known ws /\ (st_path st = false -> wf ws)) answer_ok); try exact I.
  - intros st ws0 st' rest (HS & HH & HW) H. unfold consume_path in H. destruct (st_path st) eqn:EP; [discriminate|].
    destruct (path_length (p_many P) ws0) as [n|] eqn:EN; [|discriminate]. injection H as <- <-. split; [|split; [now apply skip_hits|simpl; discriminate]].
    destruct HS as [S1 S2 S3 S4]. split; simpl.
    + intros o Ho. rewrite get_set_other by now apply (dest_path P G). now apply S1.
    + intros _. eexists. split; [apply get_set|]. now apply path_good; [apply HW|].
    + intros l0 Hl0 HC. apply S3; [exact Hl0|]. unfold chosen in *. destruct (X l0 Hl0) as (o & Ho & <- & _).
      rewrite get_set_other in HC by now apply (dest_path P G). exact HC.
    + exact S4.
  - intros st ws0 (HS & HH & HW). split; [now apply sound_extra|now split].
  - intros st ws0 n w h rest (HS & HH & HW) E. split; [exact HS|]. split; [rewrite <- E; now apply skip_hits|]. intros HP. now apply (wf_skip n ws0); [apply HW|].
  - intros st w rest (HS & HH & HW). split; [exact HS|]. inversion HH; subst. split; [assumption|]. intros HP. specialize (HW HP). now inversion HW.
  - intros st w h rest acts x rest' (HS & HH & HW) HA HF. inversion HH; subst.
    destruct (actions_after h rest acts x rest') as [HA1 HA2]; [assumption..|].
    assert (HS' : sound (if x then extra st else st)) by (destruct x; [now apply sound_extra|exact HS]).
    assert (HP : st_path (if x then extra st else st) = st_path st) by now destruct x.
    pose proof (sound_options acts _ HA2 HF HS') as HO. destruct (take_options int_of P _ acts) as [r|st'].
    + destruct HO as [-> | ->]; exact I.
    + destruct HO as [HO1 HO2]. split; [exact HO1|]. rewrite HO2, HP. split.
      * destruct HA1 as [->|(w' & ->)]; [assumption|]. now inversion H2.
      * intros EP. specialize (HW EP). inversion HW; subst. destruct HA1 as [->|(w' & ->)]; [assumption|].
        match goal with H : wf ((w', MArg) :: rest') |- _ => now inversion H end.
  - intros st ws0 (HS & _). unfold finish. destruct (st_path st) eqn:EP; [|exact I]. destruct (st_extras st); [exact I|].
    destruct HS as [S1 S2 S3 S4]. split; [exact S1|]. split; [now apply S2|]. intros l0 l0' H1 H2 C1 C2.
    apply S4; [assumption..|now apply S3|now apply S3].
  - pose proof (marks_wf ws l EM) as HW. split; [exact sound_start|]. split; [now apply wf_hits|]. now intros _.
Qed.
End Sound.
