(** * CellChars: the characters of the cells, for every dialect *)
From Verif Require Import Base Parser Dialect SpecLayout SpecParse ParserFacts ParserLift TypeFacts.

Section Chars.
  Variable cf : pconf.
  Variable Q : N -> Prop.
  Hypothesis QLF : Q LF.
  Hypothesis Qesc : Q (escapechar cf).
  Definition all_in (o : pobj str) : Prop :=
    Forall Q (p_buf o) /\ Forall (fun c => Forall Q (cell_str c)) (p_fields o).

  Lemma front_in s : Forall Q s -> Forall Q (strip_front s).
  Proof. intros [|c s' Hc H]; [constructor|exact H]. Qed.
  Lemma back_in s : Forall Q s -> Forall Q (strip_back s).
  Proof.
    unfold strip_back. induction 1 as [|c s Hc H IH]; [constructor|]. cbn. destruct s; [constructor|]. now constructor.
  Qed.
  Lemma save_in o tr : all_in o -> all_in (save_field str_ops cf o tr).
  Proof.
    intros [Hb Hf]. unfold save_field. cbn [b_str str_ops b_clear].
    assert (H1 : exists f1 q1, (if quotecond (p_buf o) (quotechar cf) then (strip_back (strip_front (p_buf o)), true) else (p_buf o, false)) = (f1, q1) /\ Forall Q f1).
    { destruct (quotecond _ _); do 2 eexists; (split; [reflexivity|]); [now apply back_in, front_in|exact Hb]. }
    destruct H1 as (f1 & q1 & -> & H1).
    assert (H2 : exists f2 q2, (if tr && str_startswith f1 (quotechar cf) then (strip_front f1, true) else (f1, q1)) = (f2, q2) /\ Forall Q f2).
    { destruct (tr && _); do 2 eexists; (split; [reflexivity|]); [now apply front_in|exact H1]. }
    destruct H2 as (f2 & q2 & -> & H2). split; cbn [p_buf p_fields]; [constructor|].
    apply Forall_app. split; [exact Hf|]. constructor; [|constructor]. now destruct (return_quoted cf).
  Qed.
  Lemma state_in o st : all_in o -> all_in (set_state o st). Proof. exact (fun H => H). Qed.
  Lemma double_in o : all_in o -> all_in (set_doublequote o). Proof. exact (fun H => H). Qed.
  Lemma add_in o c o' : Q c -> all_in o -> add_char str_ops cf o c = Ok o' -> all_in o'.
  Proof.
    intros Hc [Hb Hf]. unfold add_char. cbn. unfold str_add. destruct (_ <=? _)%Z; [discriminate|]. cbn. intros [= <-].
    split; [|exact Hf]. cbn. apply Forall_app. split; [exact Hb|]. now constructor.
  Qed.
  Lemma start_in o u o' : Q u -> all_in o -> do_start_field str_ops cf o u = Ok o' -> all_in o'.
  Proof.
    intros Hu Ho. unfold do_start_field. destruct (_ || _); [intros [= <-]; now apply state_in, save_in|].
    destruct (_ =? quotechar cf)%N.
    { destruct (add_char str_ops cf o u) as [x|] eqn:E; [|discriminate]. intros [= <-]. apply state_in. now apply (add_in o u). }
    destruct (_ =? escapechar cf)%N; [intros [= <-]; exact Ho|]. destruct (_ =? delimiter cf)%N; [intros [= <-]; now apply save_in|].
    destruct (add_char str_ops cf o u) as [x|] eqn:E; [|discriminate]. intros [= <-]. apply state_in. now apply (add_in o u).
  Qed.
  Lemma field_in o u o' : Q u -> all_in o -> do_in_field str_ops cf o u = Ok o' -> all_in o'.
  Proof.
    intros Hu Ho. unfold do_in_field. destruct (_ || _); [intros [= <-]; now apply state_in, save_in|].
    destruct (_ =? escapechar cf)%N; [intros [= <-]; exact Ho|]. destruct (_ =? quotechar cf)%N.
    { destruct (add_char str_ops cf o u) as [x|] eqn:E; [|discriminate]. intros [= <-]. apply state_in. now apply (add_in o u). }
    destruct (_ =? delimiter cf)%N; [intros [= <-]; now apply state_in, save_in|]. now apply add_in.
  Qed.
  Lemma step_in o u v o' : Q u -> all_in o -> process_char str_ops cf o u v = Ok o' -> all_in o'.
  Proof.
    intros Hu Ho. unfold process_char.
    assert (A : forall c (g : pobj str -> res perr (pobj str)) x x', Q c -> all_in x -> (forall y y', all_in y -> g y = Ok y' -> all_in y') ->
      bind (add_char str_ops cf x c) g = Ok x' -> all_in x').
    { intros c g x x' Hc Hx Hg. destruct (add_char str_ops cf x c) as [y|] eqn:E; [|discriminate]. cbn [bind]. apply Hg. now apply (add_in x c). }
    assert (B : forall st y y', all_in y -> Ok (set_state y st) = @Ok perr (pobj str) y' -> all_in y') by (intros st y y' Hy [= <-]; exact Hy).
    assert (C : forall (b : bool) c (g : pobj str -> res perr (pobj str)) x x', Q c -> all_in x -> (forall y y', all_in y -> g y = Ok y' -> all_in y') ->
      bind (if b then add_char str_ops cf x c else Ok x) g = Ok x' -> all_in x').
    { intros b c g x x' Hc Hx Hg. destruct b; [now apply A|]. cbn [bind]. now apply Hg. }
    assert (C' : forall (b : bool) c (g : pobj str -> res perr (pobj str)) x x', Q c -> all_in x -> (forall y y', all_in y -> g y = Ok y' -> all_in y') ->
      bind (if b then Ok x else add_char str_ops cf x c) g = Ok x' -> all_in x').
    { intros b c g x x' Hc Hx Hg. destruct b; [cbn [bind]; now apply Hg|]. now apply A. }
    destruct (p_state o).
    - destruct (u =? 0)%N; [intros [= <-]; exact Ho|]. destruct (is_nl u); [intros [= <-]; exact Ho|]. now apply start_in.
    - now apply start_in.
    - destruct (is_nl u); [apply A; auto; apply B|]. apply C; auto. intros y y' Hy. apply C'; auto. apply B.
    - now apply field_in.
    - destruct (u =? 0)%N; [intros [= <-]; exact Ho|]. destruct (u =? escapechar cf)%N; [intros [= <-]; exact Ho|].
      destruct (u =? quotechar cf)%N; [|now apply add_in]. destruct (v =? quotechar cf)%N; [intros [= <-]; exact Ho|].
      destruct (strict cf); [discriminate|]. apply A; auto. apply B.
    - apply C; auto. intros y y' Hy. apply A; auto; [now destruct (u =? 0)%N|]. apply B.
    - destruct (u =? quotechar cf)%N; [apply A; auto; apply B|]. destruct (u =? delimiter cf)%N; [intros [= <-]; now apply state_in, save_in|].
      destruct (_ || _); [intros [= <-]; now apply state_in, save_in|]. destruct (negb _); [apply A; auto; apply B|discriminate].
    - destruct (is_nl u); [intros [= <-]; exact Ho|]. destruct (u =? 0)%N; [intros [= <-]; exact Ho|discriminate].
    - destruct (u =? 0)%N; [intros [= <-]; exact Ho|]. now apply field_in.
  Qed.
  Definition rows_in (x : list (list cell) * ending) : Prop := Forall (fun c => Forall Q (cell_str c)) (concat (fst x)).
  Hypothesis QNUL : Q 0%N.
  Lemma eof_in o : all_in o -> rows_in (at_eof cf o).
  Proof.
    intros Ho. unfold at_eof. cbn [iternext_loop]. destruct (_ || _); [|constructor]. destruct (strict cf); [constructor|].
    unfold rows_in. cbn [fst concat]. rewrite app_nil_r. apply (save_in o true Ho).
  Qed.
  Lemma eol_in o k : all_in o -> (forall o', all_in o' -> rows_in (k o')) -> rows_in (eol_event cf o k).
  Proof.
    intros Ho Hk. unfold eol_event. destruct (process_char str_ops cf o 0 0) as [o'|] eqn:E; [|constructor].
    apply step_in in E; auto.
    assert (H : all_in (parse_reset str_ops o')) by (split; constructor).
    destruct (p_state o'); try now apply Hk. unfold cons_row, rows_in in *. pose proof (Hk _ H) as Hr.
    destruct (k (parse_reset str_ops o')) as [rows en]. cbn [fst concat] in *. apply Forall_app. split; [apply E|exact Hr].
  Qed.
  Lemma trun_in t : Forall Q t -> forall o mid, all_in o -> rows_in (trun cf o mid t).
  Proof.
    induction 1 as [|c t Hc Ht IH]; intros o mid Ho; cbn [trun].
    - destruct mid; [apply eol_in; [exact Ho|apply eof_in]|now apply eof_in].
    - destruct (c =? 0)%N; [constructor|]. destruct (process_char str_ops cf o c (la c t)) as [o'|] eqn:E; [|constructor].
      apply step_in in E; auto. destruct (brk c t); [apply eol_in; auto|now apply IH].
  Qed.
End Chars.

Lemma parse_chars limit data d rq (Q : N -> Prop) : validate d = true -> Forall Q data -> Q LF -> Q NUL ->
  (forall e, sd_escapechar d = Some [e] -> Q e) ->
  Forall (fun c => Forall Q (cell_str c)) (concat (fst (parse_string limit data d rq))).
Proof.
  intros Hv Hd H1 H2 He. destruct (simple_of_valid d Hv) as [D E].
  assert (E' : sd_escapechar d = Some (opt_str (ce D))) by (rewrite E; reflexivity). rewrite E, parse_string_conf. unfold py_result. cbn [fst].
  rewrite parse_text_trun. apply trun_in; auto.
  - cbn. destruct D as [? ? [e|]]; [apply He; exact E'|exact H2].
  - split; constructor.
Qed.
