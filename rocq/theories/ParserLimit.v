(** * ParserLimit: the field size limit and the strict flag only cut runs short *)
From Verif Require Import Base Parser Dialect SpecLayout SpecParse ParserFacts LayoutFacts
  LayoutTotal ParserProps.

(** Two configurations such that a step of the first either fails with an error
    of [Bad] or is the step of the second. *)
Section Cut.
  Variables cf cf' : pconf.
  Variable Bad : perr -> Prop.
  Hypothesis Hd : delimiter cf = delimiter cf'.
  Hypothesis Hq : quotechar cf = quotechar cf'.
  Hypothesis He : escapechar cf = escapechar cf'.
  Hypothesis Hr : return_quoted cf = return_quoted cf'.
  Hypothesis Hadd : forall b c,
    (exists e, str_add (field_limit cf) b c = Err e /\ Bad e) \/
    str_add (field_limit cf) b c = str_add (field_limit cf') b c.
  Hypothesis Hs : strict cf = strict cf' \/
    (strict cf = true /\ Bad EQuoteExpected /\ Bad EUnexpectedEnd /\ strict cf' = false).

  Definition cut {A} (x y : res perr A) : Prop := (exists e, x = Err e /\ Bad e) \/ x = y.

  Lemma cut_refl {A} (x : res perr A) : cut x x.
  Proof. now right. Qed.
  Lemma cut_bind {A A'} (x y : res perr A) (g h : A -> res perr A') :
    cut x y -> (forall a, cut (g a) (h a)) -> cut (bind x g) (bind y h).
  Proof.
    intros [(e & -> & H)| ->] K; [left; now exists e|]. destruct y; cbn; [apply K|now right].
  Qed.
  Lemma add_char_cut o c : cut (add_char str_ops cf o c) (add_char str_ops cf' o c).
  Proof.
    unfold add_char. apply cut_bind; [|intros; apply cut_refl]. cbn. apply Hadd.
  Qed.
  Lemma save_field_cut o t : save_field str_ops cf o t = save_field str_ops cf' o t.
  Proof. unfold save_field. now rewrite Hq, Hr. Qed.

  Ltac cstep :=
    match goal with
    | |- cut (bind _ _) (bind _ _) => apply cut_bind; [|intros ?]
    | |- cut (if ?b then _ else _) (if ?b then _ else _) => destruct b
    | |- cut (Ok _) (Ok _) => apply cut_refl
    | |- cut (Err _) (Err _) => apply cut_refl
    | |- cut (add_char _ _ _ _) (add_char _ _ _ _) => apply add_char_cut
    | |- _ => solve [auto using cut_refl]
    end.
  Lemma start_cut o u : cut (do_start_field str_ops cf o u) (do_start_field str_ops cf' o u).
  Proof. unfold do_start_field. rewrite save_field_cut, <- Hd, <- Hq, <- He. repeat cstep. Qed.
  Lemma in_cut o u : cut (do_in_field str_ops cf o u) (do_in_field str_ops cf' o u).
  Proof. unfold do_in_field. rewrite save_field_cut, <- Hd, <- Hq, <- He. repeat cstep. Qed.
  Lemma process_char_cut o u v : cut (process_char str_ops cf o u v) (process_char str_ops cf' o u v).
  Proof.
    unfold process_char. rewrite save_field_cut, <- Hd, <- Hq, <- He.
    assert (Hst : forall o', cut (if strict cf then Err EQuoteExpected
                        else bind (add_char str_ops cf o' u) (fun o => Ok (set_state o IN_FIELD)))
              (if strict cf' then Err EQuoteExpected
               else bind (add_char str_ops cf' o' u) (fun o => Ok (set_state o IN_FIELD)))).
    { intros o'. destruct (strict cf) eqn:E.
      - destruct Hs as [<-|(_ & H & _ & ->)]; [apply cut_refl|]. left. eexists. split; [reflexivity|exact H].
      - destruct Hs as [<-|(? & _)]; [|congruence]. repeat cstep. }
    destruct (p_state o); try solve [repeat (cstep || apply start_cut || apply in_cut || apply Hst)].
    repeat cstep. specialize (Hst o). destruct (strict cf), (strict cf'); exact Hst.
  Qed.
  Lemma process_chars_cut line : forall o v,
    cut (process_chars str_ops cf o v line) (process_chars str_ops cf' o v line).
  Proof.
    induction line as [|x line IH]; intros o v; cbn; [apply cut_refl|].
    destruct (_ =? 0)%N; [apply cut_refl|]. apply cut_bind; [apply process_char_cut|]. intros. apply IH.
  Qed.
  Lemma process_line_cut o line : cut (process_line str_ops cf o line) (process_line str_ops cf' o line).
  Proof. apply cut_bind; [apply process_chars_cut|]. intros. apply process_char_cut. Qed.

  Lemma iternext_cut input : forall o,
    (exists e, fst (fst (iternext_loop str_ops cf o input)) = Raise e /\ Bad e) \/
    iternext_loop str_ops cf o input = iternext_loop str_ops cf' o input.
  Proof.
    induction input as [|i input IH]; intros o; cbn.
    - rewrite save_field_cut. destruct (_ || _); [|now right].
      destruct Hs as [<-|(-> & _ & H & ->)]; [now right|]. left. eexists. split; [reflexivity|exact H].
    - destruct i as [line| |]; try (now right).
      destruct (process_line_cut o line) as [(e & -> & H)| ->].
      + left. exists e. auto.
      + destruct (process_line str_ops cf' o line) as [o'|e]; [|now right].
        destruct (p_state o'); auto.
  Qed.

  Lemma drain_cut fuel : forall o input,
    (exists e k, drain str_ops fuel cf o input = (firstn k (fst (drain str_ops fuel cf' o input)), Raised e)
        /\ Bad e) \/
    drain str_ops fuel cf o input = drain str_ops fuel cf' o input.
  Proof.
    induction fuel as [|n IH]; intros o input; cbn; [now right|].
    unfold iternext.
    destruct (iternext_cut input (parse_reset str_ops o)) as [(e & H & HB)|H].
    - destruct (iternext_loop str_ops cf (parse_reset str_ops o) input) as [[r o'] rest].
      cbn in H. subst r. left. exists e, 0%nat. auto.
    - rewrite H. destruct (iternext_loop str_ops cf' (parse_reset str_ops o) input) as [[r o'] rest].
      destruct r; [|now right|now right].
      destruct (IH o' rest) as [(e & k & -> & HB)| ->]; [|now right].
      left. exists e, (S k). destruct (drain str_ops n cf' o' rest). cbn. auto.
  Qed.

  Theorem parse_items_cut input :
    (exists e k, parse_items cf input = (firstn k (fst (parse_items cf' input)), Raised e) /\ Bad e) \/
    parse_items cf input = parse_items cf' input.
  Proof. rewrite !parse_items_pure. apply drain_cut. Qed.
End Cut.

(** Lowering the limit only cuts the result short. *)
Theorem lower_limit d q e s rq L L' input : (L <= L')%Z ->
  let small := parse_items (mk_pconf d q e L s rq) input in
  let big := parse_items (mk_pconf d q e L' s rq) input in
  small = big \/ exists k, small = (firstn k (fst big), Raised EFieldLimit).
Proof.
  intros HL. cbn zeta.
  destruct (parse_items_cut (mk_pconf d q e L s rq) (mk_pconf d q e L' s rq)
    (fun e => e = EFieldLimit) eq_refl eq_refl eq_refl eq_refl) with (input := input) as [(x & k & H & ->)|H].
  - intros b c. cbn. unfold str_add. destruct (L <=? _)%Z eqn:E1.
    + left. eexists. split; reflexivity.
    + destruct (L' <=? _)%Z eqn:E2; [lia|now right].
  - now left.
  - right. now exists k.
  - now left.
Qed.

(** Strict mode only cuts the result short. *)
Theorem strict_cuts d q e rq L input :
  let st := parse_items (mk_pconf d q e L true rq) input in
  let lax := parse_items (mk_pconf d q e L false rq) input in
  st = lax \/ exists k x, st = (firstn k (fst lax), Raised x) /\ (x = EQuoteExpected \/ x = EUnexpectedEnd).
Proof.
  cbn zeta.
  destruct (parse_items_cut (mk_pconf d q e L true rq) (mk_pconf d q e L false rq)
    (fun x => x = EQuoteExpected \/ x = EUnexpectedEnd) eq_refl eq_refl eq_refl eq_refl)
    with (input := input) as [(x & k & H & Hx)|H].
  - intros b c. now right.
  - right. repeat split; auto.
  - right. now exists k, x.
  - now left.
Qed.

