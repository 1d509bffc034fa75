(** * ParserProps: proofs of the parser properties that hold for arbitrary
      (also degenerate) dialects and arbitrary iterables *)
From Verif Require Import Base Parser ParserFacts Dialect SpecLayout SpecParse.
From Coq Require Import ZifyBool ZifyNat.

(** ** Totality (C02) *)
Section Totality.
  Variable cf : pconf.
  Hypothesis NS : strict cf = false.

  (** Characters read but not yet stored. *)
  Definition pend (st : pstate) : nat :=
    match st with
    | ESCAPED_CHAR | ESCAPE_IN_QUOTED_FIELD | QUOTE_IN_QUOTED_FIELD => 1 | _ => 0 end.

  Definition room (n : nat) (o : pobj str) : Prop :=
    (Z.of_nat (length (p_buf o) + pend (p_state o) + n) <= field_limit cf)%Z.

  Definition lf_next (t : str) : bool := match t with c :: _ => (c =? LF)%N | [] => false end.

  Definition eat_ok (o : pobj str) (t : str) : Prop :=
    p_state o = EAT_CRNL -> lf_next t = true.

  Lemma add_room st b fs dq c : (Z.of_nat (length b) + 1 <= field_limit cf)%Z ->
    add_char str_ops cf (mk_pobj st b fs dq) c = Ok (mk_pobj st (b ++ [c]) fs dq).
  Proof.
    intros H. unfold add_char. cbn. unfold str_add.
    destruct (_ <=? _)%Z eqn:E; [lia|]. reflexivity.
  Qed.

  Lemma save_room st b fs dq tr : exists fs',
    save_field str_ops cf (mk_pobj st b fs dq) tr = mk_pobj st [] fs' dq.
  Proof.
    unfold save_field. cbn. destruct (if quotecond _ _ then _ else _) as [f1 q1].
    destruct (if tr && _ then _ else _) as [f2 q2]. eexists. reflexivity.
  Qed.

  (** One character: no error, room preserved, EAT_CRNL only after a newline. *)
  Lemma step_ok o u v n : u <> 0%N -> room (S n) o ->
    (p_state o = EAT_CRNL -> is_nl u = true) ->
    exists o', process_char str_ops cf o u v = Ok o' /\ room n o' /\
               (p_state o' = EAT_CRNL -> is_nl u = true).
  Proof.
    intros Hu Hr He. destruct o as [st b fs dq]. unfold room in *. cbn [p_buf p_state] in *.
    apply N.eqb_neq in Hu.
    destruct (save_room st b fs dq false) as [fs' Hs'].
    destruct (save_room START_FIELD b fs dq false) as [fs'' Hs''].
    unfold process_char, do_start_field, do_in_field, set_state, set_doublequote, bind.
    cbn [p_state p_buf p_fields p_doublequote].
    rewrite ?Hu, ?NS, ?Hs', ?Hs''.
    assert (Hadd : forall st b c, (Z.of_nat (length b) + 1 <= field_limit cf)%Z ->
      add_char str_ops cf (mk_pobj st b fs dq) c = Ok (mk_pobj st (b ++ [c]) fs dq))
      by (intros; now apply add_room).
    destruct st; cbn [pend] in *;
      repeat (first
        [ rewrite Hadd by (rewrite ?app_length; cbn [length]; lia)
        | progress cbn [p_state p_buf p_fields p_doublequote negb andb orb]
        | match goal with
          | |- context [if ?b then _ else _] => destruct b eqn:?
          end ]);
      try (eexists; split; [reflexivity|]; cbn [p_buf p_state pend]; rewrite ?app_length; cbn [length];
           split; [lia|]; first [discriminate | intros _; first [assumption|reflexivity|
             repeat match goal with H : (_ || false) = true |- _ => rewrite orb_false_r in H end; assumption]|idtac]).
    all: try (rewrite orb_false_r in *; congruence).
    all: try (specialize (He eq_refl); congruence).
    all: try now apply He.
  Qed.

  Lemma eol_ok o n : room n o ->
    exists o', process_char str_ops cf o 0 0 = Ok o' /\ room n o' /\ p_state o' <> EAT_CRNL.
  Proof.
    intros Hr. destruct o as [st b fs dq]. unfold room in *. cbn [p_buf p_state] in *.
    destruct (save_room st b fs dq false) as [fs' Hs'].
    unfold process_char, do_start_field, do_in_field, set_state, bind.
    cbn [p_state p_buf p_fields p_doublequote].
    change (0 =? 0)%N with true. change (is_nl 0) with false.
    cbn [negb andb orb]. rewrite ?andb_false_r, ?Hs', ?NS.
    assert (Hadd : forall st b c, (Z.of_nat (length b) + 1 <= field_limit cf)%Z ->
      add_char str_ops cf (mk_pobj st b fs dq) c = Ok (mk_pobj st (b ++ [c]) fs dq))
      by (intros; now apply add_room).
    destruct st; cbn [pend] in *;
      repeat (first
        [ rewrite Hadd by (rewrite ?app_length; cbn [length]; lia)
        | progress cbn [p_state p_buf p_fields p_doublequote negb andb orb]
        | match goal with
          | |- context [if ?b then _ else _] => destruct b eqn:?
          end ]);
      try (eexists; split; [reflexivity|]; cbn [p_buf p_state pend]; rewrite ?app_length; cbn [length];
           split; [lia|discriminate]).
  Qed.

  Lemma eof_ok o : snd (at_eof cf o) = Done.
  Proof.
    unfold at_eof. cbn [iternext_loop]. rewrite NS.
    destruct (_ || _); reflexivity.
  Qed.

  Lemma room_reset n o : room n o -> room n (parse_reset str_ops o).
  Proof. unfold room. cbn. lia. Qed.

  Lemma room_less n m o : (m <= n)%nat -> room n o -> room m o.
  Proof. unfold room. lia. Qed.

  Lemma trun_total t : forall o mid, room (length t) o -> eat_ok o t ->
    snd (trun cf o mid t) = (if mem_char NUL t then Raised ENull else Done).
  Proof.
    assert (Heol : forall n o k e, room n o ->
      (forall o', room n o' -> p_state o' <> EAT_CRNL -> snd (k o') = e) ->
      snd (eol_event cf o k) = e).
    { intros n o k e Hr Hk. unfold eol_event.
      destruct (eol_ok o n Hr) as (o' & -> & Hr' & Hne).
      assert (Hk' := Hk o' Hr' Hne).
      destruct (p_state o') eqn:E; try exact Hk'.
      cbn. apply Hk; [now apply room_reset|discriminate]. }
    induction t as [|c t IH]; intros o mid Hr He.
    - cbn. destruct mid; [|apply eof_ok]. apply (Heol 0%nat); [exact Hr|].
      intros. apply eof_ok.
    - cbn [trun]. unfold mem_char. cbn [existsb]. unfold NUL at 1.
      rewrite (N.eqb_sym 0 c). destruct (c =? 0)%N eqn:Ec; [reflexivity|].
      apply N.eqb_neq in Ec. cbn [orb].
      destruct (step_ok o c (la c t) (length t)) as (o' & -> & Hr' & He'); auto.
      { intros E. specialize (He E). cbn in He. apply N.eqb_eq in He. subst. reflexivity. }
      destruct (brk c t) eqn:Eb.
      + apply (Heol (length t)); [exact Hr'|]. intros o'' Hr'' Hne. apply IH; [exact Hr''|].
        intros E. contradiction.
      + apply IH; [exact Hr'|]. intros E. specialize (He' E).
        unfold is_nl, brk in *. destruct (c =? LF)%N eqn:E1; [discriminate|].
        destruct (c =? CR)%N; [|discriminate]. cbn in Eb.
        apply negb_false_iff in Eb. exact Eb.
  Qed.
End Totality.

Theorem parse_text_total cf t : strict cf = false ->
  (Z.of_nat (length t) <= field_limit cf)%Z ->
  snd (parse_text cf t) = (if mem_char NUL t then Raised ENull else Done).
Proof.
  intros NS HL. rewrite parse_text_trun. apply trun_total; auto. discriminate.
Qed.

(** ** Objects that differ in the doublequote flag or the cell format (C06, C12) *)
Section Format.
  Variables cf cf' : pconf.
  Variable f : cell -> cell.
  Hypothesis Hd : delimiter cf = delimiter cf'.
  Hypothesis Hq : quotechar cf = quotechar cf'.
  Hypothesis He : escapechar cf = escapechar cf'.
  Hypothesis Hl : field_limit cf = field_limit cf'.
  Hypothesis Hs : strict cf = strict cf'.
  Hypothesis Hf : forall s b,
    f (if return_quoted cf then CTuple s b else CStr s) =
    f (if return_quoted cf' then CTuple s b else CStr s).

  Definition fsim (o p : pobj str) : Prop :=
    p_state o = p_state p /\ p_buf o = p_buf p /\ map f (p_fields o) = map f (p_fields p).
  Definition rfsim (x y : res perr (pobj str)) : Prop :=
    match x, y with Ok o, Ok p => fsim o p | Err e, Err e' => e = e' | _, _ => False end.

  Lemma rfsim_bind x y g h :
    rfsim x y -> (forall o p, fsim o p -> rfsim (g o) (h p)) -> rfsim (bind x g) (bind y h).
  Proof. destruct x, y; cbn; intros H K; try tauto. now apply K. Qed.

  Lemma add_char_f o p c : fsim o p -> rfsim (add_char str_ops cf o c) (add_char str_ops cf' p c).
  Proof.
    intros (H1 & H2 & H3). unfold add_char; cbn. unfold str_add. rewrite H2, Hl.
    destruct (_ <=? _)%Z; [reflexivity|]. repeat split; auto.
  Qed.
  Lemma set_state_f o p st : fsim o p -> fsim (set_state o st) (set_state p st).
  Proof. intros (H1 & H2 & H3). repeat split; auto. Qed.
  Lemma set_dq_f o p : fsim o p -> fsim (set_doublequote o) (set_doublequote p).
  Proof. intros (H1 & H2 & H3). repeat split; auto. Qed.
  Lemma save_field_f o p t : fsim o p -> fsim (save_field str_ops cf o t) (save_field str_ops cf' p t).
  Proof.
    intros (H1 & H2 & H3). unfold save_field. cbn [b_str str_ops]. rewrite H2, Hq.
    destruct (if quotecond _ _ then _ else _) as [f1 q1].
    destruct (if t && _ then _ else _) as [f2 q2].
    repeat split; cbn; auto. rewrite !map_app. cbn. now rewrite H3, Hf.
  Qed.
  Local Hint Resolve set_state_f set_dq_f save_field_f add_char_f : pf.
  Ltac fstep :=
    match goal with
    | |- rfsim (bind _ _) (bind _ _) => apply rfsim_bind; [|intros ? ? ?]
    | |- rfsim (if ?b then _ else _) (if ?b then _ else _) => destruct b
    | |- rfsim (Ok _) (Ok _) => cbn [rfsim]
    | |- rfsim (Err _) (Err _) => reflexivity
    | |- fsim (set_state _ (if ?b then _ else _)) _ => destruct b
    | |- _ => solve [eauto 6 with pf]
    end.
  Lemma do_start_field_f o p u : fsim o p -> rfsim (do_start_field str_ops cf o u) (do_start_field str_ops cf' p u).
  Proof. intros H. unfold do_start_field. rewrite <- Hd, <- Hq, <- He. repeat fstep. Qed.
  Lemma do_in_field_f o p u : fsim o p -> rfsim (do_in_field str_ops cf o u) (do_in_field str_ops cf' p u).
  Proof. intros H. unfold do_in_field. rewrite <- Hd, <- Hq, <- He. repeat fstep. Qed.
  Local Hint Resolve do_start_field_f do_in_field_f : pf.
  Lemma process_char_f o p u v : fsim o p -> rfsim (process_char str_ops cf o u v) (process_char str_ops cf' p u v).
  Proof.
    intros H. unfold process_char. assert (E : p_state o = p_state p) by apply H.
    rewrite <- Hd, <- Hq, <- He, <- Hs, <- E. destruct (p_state o); repeat fstep.
  Qed.
  Lemma process_chars_f line : forall o p v, fsim o p ->
    rfsim (process_chars str_ops cf o v line) (process_chars str_ops cf' p v line).
  Proof.
    induction line as [|x line IH]; intros o p v H; cbn; [exact H|].
    destruct (_ =? 0)%N; [reflexivity|].
    apply rfsim_bind; [now apply process_char_f|]. intros. now apply IH.
  Qed.
  Lemma process_line_f o p line : fsim o p ->
    rfsim (process_line str_ops cf o line) (process_line str_ops cf' p line).
  Proof.
    intros H. unfold process_line. apply rfsim_bind; [now apply process_chars_f|].
    intros. now apply process_char_f.
  Qed.

  Definition fout (r : outcome) : outcome :=
    match r with Row l => Row (map f l) | x => x end.
  Definition ofsim (x y : outcome * pobj str * list item) : Prop :=
    fout (fst (fst x)) = fout (fst (fst y)) /\ snd x = snd y.

  Lemma iternext_loop_f input : forall o p, fsim o p ->
    ofsim (iternext_loop str_ops cf o input) (iternext_loop str_ops cf' p input).
  Proof.
    induction input as [|i input IH]; intros o p H; cbn.
    - pose proof H as (H1 & H2 & H3). rewrite H2, <- H1, <- Hs.
      destruct (_ || _); [|split; reflexivity].
      destruct (strict cf); [split; reflexivity|].
      pose proof (save_field_f o p true H) as K.
      split; [|reflexivity]. cbn. f_equal. apply K.
    - destruct i as [line| |]; try (split; reflexivity).
      pose proof (process_line_f o p line H) as K.
      destruct (process_line str_ops cf o line) as [o'|e],
               (process_line str_ops cf' p line) as [p'|e']; cbn in K; try tauto.
      + assert (E : p_state o' = p_state p') by apply K. rewrite <- E.
        destruct (p_state o'); try (now apply IH).
        split; [|reflexivity]. cbn. f_equal. apply K.
      + subst. split; reflexivity.
  Qed.

  Lemma iternext_f o p input :
    ofsim (iternext str_ops cf o input) (iternext str_ops cf' p input).
  Proof. apply iternext_loop_f. repeat split. Qed.

  Lemma drain_f fuel : forall o p input,
    map (map f) (fst (drain str_ops fuel cf o input)) = map (map f) (fst (drain str_ops fuel cf' p input))
    /\ snd (drain str_ops fuel cf o input) = snd (drain str_ops fuel cf' p input).
  Proof.
    induction fuel as [|n IH]; intros o p input; cbn; [split; reflexivity|].
    destruct (iternext_f o p input) as [H1 H2].
    destruct (iternext str_ops cf o input) as [[r o'] rest].
    destruct (iternext str_ops cf' p input) as [[r' p'] rest']. cbn in H1, H2. subst rest'.
    destruct r, r'; cbn in H1; try discriminate; try (split; [reflexivity|congruence]).
    injection H1 as H1. destruct (IH o' p' rest) as [E1 E2].
    destruct (drain str_ops n cf o' rest), (drain str_ops n cf' p' rest). cbn in *.
    split; congruence.
  Qed.
End Format.

(** ** Successive calls of next() *)

Lemma id_outcome r : fout (fun c => c) r = r.
Proof. destruct r; cbn; try reflexivity. now rewrite map_id. Qed.

Lemma iternext_str_any cf o p input :
  fst (fst (iternext str_ops cf o input)) = fst (fst (iternext str_ops cf p input)) /\
  snd (iternext str_ops cf o input) = snd (iternext str_ops cf p input).
Proof.
  destruct (iternext_f cf cf (fun c => c) eq_refl eq_refl eq_refl eq_refl eq_refl (fun _ _ => eq_refl) o p input)
    as [H1 H2].
  rewrite !id_outcome in H1. auto.
Qed.

(** An object in any state a history can leave behind. *)
Definition sane (o : pobj membuf) : Prop :=
  (0 <= m_size (p_buf o))%Z /\ (Z.of_nat (length (m_data (p_buf o))) <= m_size (p_buf o))%Z.

Lemma sane_osim o : sane o -> osim o (mk_pobj (p_state o) (m_data (p_buf o)) (p_fields o) (p_doublequote o)).
Proof. intros [H1 H2]. repeat split; auto. Qed.

Lemma osim_sane o p : osim o p -> sane o.
Proof. intros (?&?&?&?&?&?). split; assumption. Qed.

Lemma sane_new : sane new_parser.
Proof. split; cbn; lia. Qed.

Lemma iternext_any cf o p input : sane o -> sane p ->
  fst (fst (iternext mem_ops cf o input)) = fst (fst (iternext mem_ops cf p input)) /\
  snd (iternext mem_ops cf o input) = snd (iternext mem_ops cf p input) /\
  sane (snd (fst (iternext mem_ops cf o input))) /\
  fst (fst (iternext mem_ops cf o input)) <> Raise EOverrun.
Proof.
  intros Ho Hp.
  destruct (iternext_sim cf _ _ input (sane_osim o Ho)) as (A1 & A2 & A3 & A4).
  destruct (iternext_sim cf _ _ input (sane_osim p Hp)) as (B1 & B2 & B3 & B4).
  rewrite A1, A3, B1, B3.
  destruct (iternext_str_any cf
    (mk_pobj (p_state o) (m_data (p_buf o)) (p_fields o) (p_doublequote o))
    (mk_pobj (p_state p) (m_data (p_buf p)) (p_fields p) (p_doublequote p)) input) as [E1 E2].
  repeat split; auto; try (eapply osim_sane in A2; apply A2). congruence.
Qed.

Lemma nexts_any cf n : forall o p input, sane o -> sane p ->
  nexts_results mem_ops n cf o input = nexts_results mem_ops n cf p input /\
  nexts_rest mem_ops n cf o input = nexts_rest mem_ops n cf p input /\
  sane (snd (fst (nexts mem_ops n cf o input))) /\
  ~ In (Raise EOverrun) (nexts_results mem_ops n cf o input).
Proof.
  unfold nexts_results, nexts_rest.
  induction n as [|n IH]; intros o p input Ho Hp; cbn [nexts].
  - cbn. repeat split; try apply Ho. intros [].
  - destruct (iternext_any cf o p input Ho Hp) as (A1 & A2 & A3 & A4).
    destruct (iternext_any cf p p input Hp Hp) as (_ & _ & B3 & _).
    destruct (iternext mem_ops cf o input) as [[r o'] rest].
    destruct (iternext mem_ops cf p input) as [[r' p'] rest']. cbn in A1, A2, A3, A4, B3. subst r' rest'.
    destruct (IH o' p' rest A3 B3) as (E1 & E2 & E3 & E4).
    destruct (nexts mem_ops n cf o' rest) as [[rs o''] rest1].
    destruct (nexts mem_ops n cf p' rest) as [[rs' p''] rest2]. cbn in *. subst.
    repeat split; try apply E3. intros [H|H]; [congruence|tauto].
Qed.

Lemma nexts_app {B} (ops : bufops B) cf n m : forall o input,
  nexts_results ops (n + m) cf o input =
    nexts_results ops n cf o input ++
    nexts_results ops m cf (snd (fst (nexts ops n cf o input))) (nexts_rest ops n cf o input).
Proof.
  unfold nexts_results, nexts_rest.
  induction n as [|n IH]; intros o input; cbn [nexts plus]; [reflexivity|].
  destruct (iternext ops cf o input) as [[r o'] rest].
  specialize (IH o' rest).
  destruct (nexts ops (n + m) cf o' rest) as [[rs o''] rest1].
  destruct (nexts ops n cf o' rest) as [[rs1 o1] rest2]. cbn in *.
  now rewrite IH.
Qed.

(** After any [n] calls the parser is as good as new on the unread input. *)
Theorem parser_resumes cf n m input :
  nexts_results mem_ops (n + m) cf new_parser input =
    nexts_results mem_ops n cf new_parser input ++
    nexts_results mem_ops m cf new_parser (nexts_rest mem_ops n cf new_parser input).
Proof.
  rewrite nexts_app. f_equal.
  destruct (nexts_any cf n new_parser new_parser input sane_new sane_new) as (_ & _ & H & _).
  now apply nexts_any.
Qed.

Theorem nexts_no_overrun cf n input :
  ~ In (Raise EOverrun) (nexts_results mem_ops n cf new_parser input).
Proof. now apply (nexts_any cf n new_parser new_parser input sane_new sane_new). Qed.

(** The unread input is a suffix, at least one item shorter after each call. *)
Lemma nexts_rest_suffix cf n : forall (o : pobj membuf) input,
  exists k, nexts_rest mem_ops n cf o input = skipn k input /\
            (Nat.min n (length input) <= k)%nat.
Proof.
  unfold nexts_rest.
  induction n as [|n IH]; intros o input; cbn [nexts].
  - exists 0%nat. cbn. split; [reflexivity|lia].
  - destruct (iternext mem_ops cf o input) as [[r o'] rest] eqn:E.
    destruct (iternext_loop_rest mem_ops cf input _ _ _ _ E) as [[k Hk] Hlt].
    destruct (IH o' rest) as (k' & Hk' & Hle).
    destruct (nexts mem_ops n cf o' rest) as [[rs o''] rest1]. cbn in *.
    subst rest1. subst rest. rewrite skipn_add.
    destruct input as [|i input].
    + exists 0%nat. rewrite !skipn_nil. cbn. split; [reflexivity|lia].
    + exists (k' + k)%nat. split; [reflexivity|].
      specialize (Hlt ltac:(discriminate)). rewrite skipn_length in *.
      cbn [length] in *. lia.
Qed.

(** ** Composition (C07) *)
Lemma iternext_loop_app {B} (ops : bufops B) cf l1 : forall o l2 r o' rest,
  iternext_loop ops cf o l1 = (r, o', rest) -> rest <> [] ->
  iternext_loop ops cf o (l1 ++ l2) = (r, o', rest ++ l2).
Proof.
  induction l1 as [|i l1 IH]; intros o l2 r o' rest H Hne; cbn in H |- *.
  - exfalso. apply Hne. destruct (_ || _), (strict cf); now inversion H.
  - destruct i as [line| |]; try (injection H as <- <- <-; reflexivity).
    destruct (process_line ops cf o line) as [o1|e]; [|injection H as <- <- <-; reflexivity].
    destruct (p_state o1); try (now apply IH). injection H as <- <- <-. reflexivity.
Qed.

(** [n] successful calls that leave exactly the marker unread did not look
    past it: the same calls work with anything in its place. *)
Lemma iternext_loop_swap {B} (ops : bufops B) cf l1 : forall o k l2 r o' pre,
  iternext_loop ops cf o (l1 ++ [k]) = (r, o', pre ++ [k]) ->
  iternext_loop ops cf o (l1 ++ l2) = (r, o', pre ++ l2).
Proof.
  induction l1 as [|i l1 IH]; intros o k l2 r o' pre H; cbn in H |- *.
  - assert (Hlen : forall (a b : list item), a = b -> length a = length b) by congruence.
    exfalso.
    destruct k as [line| |].
    + destruct (process_line ops cf o line) as [o1|e].
      * destruct (p_state o1); cbn in H;
          try (injection H as _ _ H; apply Hlen in H; rewrite app_length in H; cbn in H; lia);
          destruct (_ || _), (strict cf); injection H as _ _ H;
          apply Hlen in H; rewrite app_length in H; cbn in H; lia.
      * injection H as _ _ H; apply Hlen in H; rewrite app_length in H; cbn in H; lia.
    + injection H as _ _ H; apply Hlen in H; rewrite app_length in H; cbn in H; lia.
    + injection H as _ _ H; apply Hlen in H; rewrite app_length in H; cbn in H; lia.
  - destruct i as [line| |];
      try (injection H as <- <- H; apply app_inj_tail in H as [<- _]; reflexivity).
    destruct (process_line ops cf o line) as [o1|e];
      [|injection H as <- <- H; apply app_inj_tail in H as [<- _]; reflexivity].
    destruct (p_state o1); try (now apply (IH _ k)).
    injection H as <- <- H; apply app_inj_tail in H as [<- _]; reflexivity.
Qed.

Lemma nexts_swap {B} (ops : bufops B) cf n : forall o l1 k l2 rs o',
  nexts ops n cf o (l1 ++ [k]) = (rs, o', [k]) ->
  nexts ops n cf o (l1 ++ l2) = (rs, o', l2).
Proof.
  induction n as [|n IH]; intros o l1 k l2 rs o' H; cbn [nexts] in H |- *.
  - injection H as <- <- H. change [k] with ([] ++ [k]) in H at 2.
    apply app_inj_tail in H as [-> _]. reflexivity.
  - destruct (iternext ops cf o (l1 ++ [k])) as [[r o1] rest] eqn:E.
    destruct (nexts ops n cf o1 rest) as [[rs1 o2] rest2] eqn:E2.
    injection H as <- <- ->.
    assert (Hp : exists pre, rest = pre ++ [k]).
    { destruct (iternext_loop_rest ops cf _ _ _ _ _ E) as [[j Hj] _].
      destruct (Nat.le_gt_cases j (length l1)) as [Hle|Hgt].
      - exists (skipn j l1). rewrite Hj, skipn_app.
        replace (j - length l1)%nat with 0%nat by lia. reflexivity.
      - exfalso. assert (rest = []).
        { rewrite Hj. apply skipn_all2. rewrite app_length. cbn. lia. }
        subst rest. rewrite H in E2.
        assert (Hnil : forall m (o : pobj B), snd (nexts ops m cf o []) = []).
        { clear. induction m as [|m IH]; intros o; cbn [nexts]; [reflexivity|].
          unfold iternext. cbn [iternext_loop].
          destruct (_ || _); [destruct (strict cf)|];
            match goal with |- context [nexts ops m cf ?x []] =>
              specialize (IH x); destruct (nexts ops m cf x []) as [[? ?] ?]; exact IH end. }
        specialize (Hnil n o1). rewrite E2 in Hnil. discriminate. }
    destruct Hp as [pre ->].
    unfold iternext at 1. rewrite (iternext_loop_swap ops cf l1 (parse_reset ops o) k l2 r o1 pre E).
    rewrite (IH _ _ _ l2 _ _ E2). reflexivity.
Qed.

(** [drain] is the list of rows of successive calls. *)
Lemma drain_rows {B} (ops : bufops B) cf n : forall o input rows o' rest fuel,
  nexts ops n cf o input = (map Row rows, o', rest) ->
  drain ops (n + fuel) cf o input =
    (rows ++ fst (drain ops fuel cf o' rest), snd (drain ops fuel cf o' rest)).
Proof.
  induction n as [|n IH]; intros o input rows o' rest fuel H; cbn [nexts plus] in H |- *.
  - destruct rows; [|discriminate]. injection H as <- <-. cbn. now destruct (drain _ _ _ _ _).
  - cbn [drain]. destruct (iternext ops cf o input) as [[r o1] rest1].
    destruct (nexts ops n cf o1 rest1) as [[rs o2] rest2] eqn:E.
    destruct rows as [|row rows]; [discriminate|]. cbn in H. injection H as -> -> <- <-.
    rewrite (IH _ _ _ _ _ fuel E). reflexivity.
Qed.

Lemma drain_any cf fuel o p input : sane o -> sane p ->
  drain mem_ops fuel cf o input = drain mem_ops fuel cf p input.
Proof.
  revert o p input. induction fuel as [|n IH]; intros o p input Ho Hp; [reflexivity|]. cbn [drain].
  destruct (iternext_any cf o p input Ho Hp) as (A1 & A2 & A3 & _).
  destruct (iternext_any cf p p input Hp Hp) as (_ & _ & B3 & _).
  destruct (iternext mem_ops cf o input) as [[r o'] rest].
  destruct (iternext mem_ops cf p input) as [[r' p'] rest']. cbn in A1, A2, A3, B3. subst.
  destruct r'; try reflexivity. rewrite (IH o' p'); auto.
Qed.

Theorem parse_items_compose cf l1 l2 n rows mark :
  nexts_results mem_ops n cf new_parser (l1 ++ [mark]) = map Row rows ->
  nexts_rest mem_ops n cf new_parser (l1 ++ [mark]) = [mark] ->
  parse_items cf (l1 ++ l2) =
    (rows ++ fst (parse_items cf l2), snd (parse_items cf l2)).
Proof.
  unfold nexts_results, nexts_rest. intros H1 H2.
  destruct (nexts mem_ops n cf new_parser (l1 ++ [mark])) as [[rs o'] rest] eqn:E.
  cbn in H1, H2. subst rs rest.
  pose proof (nexts_swap mem_ops cf n _ _ _ l2 _ _ E) as E2.
  assert (Hsane : sane o').
  { destruct (nexts_any cf n new_parser new_parser (l1 ++ [mark]) sane_new sane_new) as (_ & _ & H & _).
    rewrite E in H. exact H. }
  unfold parse_items.
  rewrite (drain_mono mem_ops ltac:(reflexivity) cf (S (length (l1 ++ l2))) (n + S (length (l1 ++ l2)))) by lia.
  rewrite (drain_rows mem_ops cf n _ _ _ _ _ _ E2).
  rewrite (drain_any cf _ o' new_parser l2 Hsane sane_new).
  rewrite (drain_mono mem_ops ltac:(reflexivity) cf (S (length (l1 ++ l2))) (S (length l2)))
    by (try rewrite app_length; lia).
  reflexivity.
Qed.

(** ** Invariants of the machine on a plain buffer *)
Section Inv.
  Variable cf : pconf.
  Variable I : str -> list cell -> Prop.     (* buffer and fields *)
  Hypothesis I_nil : I [] [].
  Hypothesis I_add : forall b fs c b', I b fs -> str_add (field_limit cf) b c = Ok b' -> I b' fs.
  Hypothesis I_save : forall st b fs dq tr, I b fs ->
    I [] (p_fields (save_field str_ops cf (mk_pobj st b fs dq) tr)).

  Definition inv (o : pobj str) : Prop := I (p_buf o) (p_fields o).
  Definition rinv (x : res perr (pobj str)) : Prop :=
    match x with Ok o => inv o | Err _ => True end.

  Lemma rinv_bind x g : rinv x -> (forall o, inv o -> rinv (g o)) -> rinv (bind x g).
  Proof. destruct x; cbn; auto. Qed.
  Lemma inv_add o c : inv o -> rinv (add_char str_ops cf o c).
  Proof.
    intros H. unfold add_char. cbn. destruct (str_add _ _ _) eqn:E; cbn; [|exact Logic.I].
    unfold inv in *. cbn. eapply I_add; eassumption.
  Qed.
  Lemma inv_save o t : inv o -> inv (save_field str_ops cf o t).
  Proof.
    intros H. destruct o as [st b fs dq]. pose proof (I_save st b fs dq t H) as K.
    unfold inv in *. revert K. unfold save_field. cbn.
    destruct (if quotecond _ _ then _ else _) as [f1 q1].
    destruct (if t && _ then _ else _) as [f2 q2]. auto.
  Qed.
  Lemma inv_set o s : inv o -> inv (set_state o s).
  Proof. auto. Qed.
  Lemma inv_dq o : inv o -> inv (set_doublequote o).
  Proof. auto. Qed.
  Local Hint Resolve inv_set inv_dq inv_save inv_add : pinv.
  Ltac istep :=
    match goal with
    | |- rinv (bind _ _) => apply rinv_bind; [|intros ? ?]
    | |- rinv (if ?b then _ else _) => destruct b
    | |- rinv (Ok _) => cbn [rinv]
    | |- rinv (Err _) => exact Logic.I
    | |- _ => solve [eauto 6 with pinv]
    end.
  Lemma inv_start o u : inv o -> rinv (do_start_field str_ops cf o u).
  Proof. intros H. unfold do_start_field. repeat istep. Qed.
  Lemma inv_in o u : inv o -> rinv (do_in_field str_ops cf o u).
  Proof. intros H. unfold do_in_field. repeat istep. Qed.
  Local Hint Resolve inv_start inv_in : pinv.
  Lemma inv_process o u v : inv o -> rinv (process_char str_ops cf o u v).
  Proof. intros H. unfold process_char. destruct (p_state o); repeat istep. Qed.
  Lemma inv_chars line : forall o v, inv o -> rinv (process_chars str_ops cf o v line).
  Proof.
    induction line as [|x line IH]; intros o v H; cbn; [exact H|].
    destruct (_ =? 0)%N; [exact Logic.I|]. apply rinv_bind; [now apply inv_process|]. auto.
  Qed.
  Lemma inv_line o line : inv o -> rinv (process_line str_ops cf o line).
  Proof. intros H. apply rinv_bind; [now apply inv_chars|]. intros. now apply inv_process. Qed.

  Lemma inv_iternext input : forall o r, inv o ->
    fst (fst (iternext_loop str_ops cf o input)) = Row r -> exists b, I b r.
  Proof.
    induction input as [|i input IH]; intros o r H; cbn.
    - destruct (_ || _); [|discriminate]. destruct (strict cf); [discriminate|].
      cbn. intros E. injection E as <-. eexists. exact (inv_save o true H).
    - destruct i as [line| |]; try discriminate.
      pose proof (inv_line o line H) as K.
      destruct (process_line str_ops cf o line) as [o'|e]; [|discriminate]. cbn in K.
      destruct (p_state o'); try (now apply IH). cbn. intros E. injection E as <-. eexists. exact K.
  Qed.

  Lemma inv_drain fuel : forall o input r,
    In r (fst (drain str_ops fuel cf o input)) -> exists b, I b r.
  Proof.
    induction fuel as [|n IH]; intros o input r H; cbn in H; [destruct H|].
    unfold iternext in H.
    pose proof (inv_iternext input (parse_reset str_ops o)) as K.
    destruct (iternext_loop str_ops cf (parse_reset str_ops o) input) as [[x o'] rest].
    destruct x; cbn in H; try (destruct H).
    specialize (IH o' rest r).
    destruct (drain str_ops n cf o' rest). cbn in *. destruct H as [<-|H]; [|auto].
    eapply K; [|reflexivity]. exact I_nil.
  Qed.

  Theorem inv_rows input r : In r (fst (parse_items cf input)) -> exists b, I b r.
  Proof. rewrite parse_items_pure. apply inv_drain. Qed.
End Inv.

(** Cells never exceed the limit (C05). *)
Lemma save_fields st b fs dq cf tr : exists s q,
  p_fields (save_field str_ops cf (mk_pobj st b fs dq) tr) =
    fs ++ [if return_quoted cf then CTuple s q else CStr s] /\ (length s <= length b)%nat.
Proof.
  unfold save_field. cbn.
  assert (Ht : forall x : str, (length (tl x) <= length x)%nat) by (intros []; cbn; lia).
  assert (Hr : forall x : str, (length (removelast x) <= length x)%nat).
  { induction x as [|a [|b' x] IH]; cbn in *; lia. }
  destruct (quotecond b (quotechar cf)).
  - destruct (tr && _).
    + eexists _, _. split; [reflexivity|]. unfold strip_front, strip_back.
      etransitivity; [apply Ht|]. etransitivity; [apply Hr|]. apply Ht.
    + eexists _, _. split; [reflexivity|]. unfold strip_front, strip_back.
      etransitivity; [apply Hr|]. apply Ht.
  - destruct (tr && _).
    + eexists _, _. split; [reflexivity|]. apply Ht.
    + eexists _, _. split; [reflexivity|]. lia.
Qed.

Theorem cells_within_limit cf input row c :
  In row (fst (parse_items cf input)) -> In c row ->
  (Z.of_nat (length (cell_str c)) <= Z.max 0 (field_limit cf))%Z.
Proof.
  intros Hr Hc.
  destruct (inv_rows cf (fun b fs =>
    (Z.of_nat (length b) <= Z.max 0 (field_limit cf))%Z /\
    forall c, In c fs -> (Z.of_nat (length (cell_str c)) <= Z.max 0 (field_limit cf))%Z)) with (4 := Hr)
    as [b [_ H]].
  - split; [cbn; lia|intros ? []].
  - intros b fs x b' [H1 H2] H. split; [|exact H2]. unfold str_add in H.
    destruct (_ <=? _)%Z eqn:E; [discriminate|]. injection H as <-. rewrite app_length. cbn. lia.
  - intros st b fs dq tr [H1 H2]. split; [cbn; lia|].
    destruct (save_fields st b fs dq cf tr) as (s & q & -> & Hlen).
    intros x Hx. apply in_app_or in Hx as [Hx|[<-|[]]]; [now apply H2|].
    destruct (return_quoted cf); cbn [cell_str]; lia.
  - now apply H.
Qed.

(** ** Where an error is raised (C12) *)
Lemma iternext_loop_error {B} (ops : bufops B) cf input : forall o e o' rest,
  iternext_loop ops cf o input = (Raise e, o', rest) ->
  (e = EUnexpectedEnd /\ rest = []) \/
  exists before i, input = before ++ i :: rest /\
    (forall later, fst (fst (iternext_loop ops cf o (before ++ i :: later))) = Raise e /\
                   snd (iternext_loop ops cf o (before ++ i :: later)) = later) /\
    (forall later, fst (fst (iternext_loop ops cf o (before ++ IExc :: later))) = Raise EIter /\
                   snd (iternext_loop ops cf o (before ++ IExc :: later)) = later).
Proof.
  induction input as [|i input IH]; intros o e o' rest H; cbn in H.
  - left. destruct (_ || _); [|discriminate]. destruct (strict cf); [|discriminate].
    injection H as <- _ <-. auto.
  - destruct i as [line| |].
    + destruct (process_line ops cf o line) as [o1|e1] eqn:E.
      * destruct (p_state o1) eqn:Es; try discriminate;
          (destruct (IH _ _ _ _ H) as [K|(before & i & -> & K1 & K2)]; [now left|]; right;
           exists (ILine line :: before), i; split; [reflexivity|];
           cbn; rewrite E, Es; split; intros later; [apply K1|apply K2]).
      * injection H as <- _ <-. right. exists [], (ILine line). cbn. rewrite E. repeat split.
    + injection H as <- _ <-. right. exists [], INotStr. cbn. repeat split.
    + injection H as <- _ <-. right. exists [], IExc. cbn. repeat split.
Qed.

Theorem error_is_local cf input e :
  nexts_results mem_ops 1 cf new_parser input = [Raise e] -> e <> EUnexpectedEnd ->
  exists before i, input = before ++ i :: nexts_rest mem_ops 1 cf new_parser input /\
    (forall later,
       nexts_results mem_ops 1 cf new_parser (before ++ i :: later) = [Raise e] /\
       nexts_rest mem_ops 1 cf new_parser (before ++ i :: later) = later) /\
    (forall later,
       nexts_results mem_ops 1 cf new_parser (before ++ IExc :: later) = [Raise EIter] /\
       nexts_rest mem_ops 1 cf new_parser (before ++ IExc :: later) = later).
Proof.
  assert (H1 : forall l, nexts_results mem_ops 1 cf new_parser l =
                 [fst (fst (iternext_loop mem_ops cf (parse_reset mem_ops new_parser) l))]).
  { intros l. unfold nexts_results. cbn [nexts]. unfold iternext.
    now destruct (iternext_loop mem_ops cf _ l) as [[? ?] ?]. }
  assert (H2 : forall l, nexts_rest mem_ops 1 cf new_parser l =
                 snd (iternext_loop mem_ops cf (parse_reset mem_ops new_parser) l)).
  { intros l. unfold nexts_rest. cbn [nexts]. unfold iternext.
    now destruct (iternext_loop mem_ops cf _ l) as [[? ?] ?]. }
  rewrite H1, H2. intros H Hne. injection H as H.
  destruct (iternext_loop mem_ops cf (parse_reset mem_ops new_parser) input) as [[r o'] rest] eqn:E.
  cbn in H |- *. subst r. apply iternext_loop_error in E as [[E _]|(before & i & E & K1 & K2)]; [tauto|].
  exists before, i. split; [exact E|].
  split; intros later; rewrite H1, H2; [destruct (K1 later)|destruct (K2 later)]; split; congruence.
Qed.

(** ** The two cell formats (C06) *)
Definition untag (c : cell) : cell := CStr (cell_str c).
Definition is_tuple (c : cell) : bool := match c with CTuple _ _ => true | CStr _ => false end.

Theorem quoting_info_irrelevant d q e L s input :
  let with_info := parse_items (mk_pconf d q e L s true) input in
  let plain := parse_items (mk_pconf d q e L s false) input in
  fst plain = map (map untag) (fst with_info) /\ snd plain = snd with_info /\
  Forall (Forall (fun c => is_tuple c = true)) (fst with_info).
Proof.
  cbn zeta.
  destruct (drain_f (mk_pconf d q e L s true) (mk_pconf d q e L s false) untag
    eq_refl eq_refl eq_refl eq_refl eq_refl (fun _ _ => eq_refl) (S (length input))
    (mk_pobj START_RECORD [] [] false) (mk_pobj START_RECORD [] [] false) input) as [H1 H2].
  assert (HI : forall rq r, In r (fst (parse_items (mk_pconf d q e L s rq) input)) ->
            Forall (fun c => is_tuple c = rq) r).
  { intros rq r Hr.
    destruct (inv_rows (mk_pconf d q e L s rq) (fun _ fs => Forall (fun c => is_tuple c = rq) fs))
      with (4 := Hr) as [_ H]; auto.
    intros st b fs dq tr H. destruct (save_fields st b fs dq (mk_pconf d q e L s rq) tr) as (x & y & -> & _).
    apply Forall_app. split; [exact H|]. constructor; [|constructor]. now destruct rq. }
  rewrite !parse_items_pure. unfold parse_items_s, pure_new in *. repeat split.
  - rewrite H1. symmetry.
    assert (HF : Forall (Forall (fun c => is_tuple c = false)) (fst (parse_items (mk_pconf d q e L s false) input))).
    { apply Forall_forall. intros r. apply HI. }
    rewrite parse_items_pure in HF. unfold parse_items_s, pure_new in HF.
    clear H1 H2 HI. induction HF as [|r rs Hr _ IHr]; [reflexivity|]. cbn. f_equal; [|exact IHr].
    induction Hr as [|c cs Hc _ IHc]; [reflexivity|]. cbn. f_equal; [|exact IHc].
    now destruct c.
  - now rewrite H2.
  - apply Forall_forall. intros r Hr. apply (HI true). now rewrite parse_items_pure.
Qed.
