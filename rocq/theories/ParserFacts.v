(** * ParserFacts: the parser on a plain buffer and on a whole text

    Two proof devices.  [parse_items_pure] removes the allocated buffer from
    the parser; [parse_text_trun] turns the line-by-line parser into one
    structural recursion over the text. *)
From Verif Require Import Base Parser.

(** ** The real buffer behaves like a string and is never overrun *)
Section Sim.
  Definition osim (o : pobj membuf) (p : pobj str) : Prop :=
    p_state o = p_state p /\ m_data (p_buf o) = p_buf p /\
    p_fields o = p_fields p /\ p_doublequote o = p_doublequote p /\
    (0 <= m_size (p_buf o))%Z /\
    (Z.of_nat (length (m_data (p_buf o))) <= m_size (p_buf o))%Z.

  Definition rsim (x : res perr (pobj membuf)) (y : res perr (pobj str)) : Prop :=
    match x, y with
    | Ok o, Ok p => osim o p
    | Err e, Err e' => e = e' /\ e <> EOverrun
    | _, _ => False
    end.

  Lemma rsim_bind x y f g :
    rsim x y -> (forall o p, osim o p -> rsim (f o) (g p)) -> rsim (bind x f) (bind y g).
  Proof. destruct x, y; cbn; intros H K; try tauto. now apply K. Qed.

  Lemma add_char_sim cf o p c :
    osim o p -> rsim (add_char mem_ops cf o c) (add_char str_ops cf p c).
  Proof.
    intros (Hs & Hb & Hf & Hd & H0 & Hl).
    unfold add_char; cbn. unfold mem_add, str_add. rewrite <- Hb.
    destruct (_ <=? _)%Z eqn:E1; [split; [reflexivity|discriminate]|].
    destruct (Z.of_nat (length (m_data (p_buf o))) =? m_size (p_buf o))%Z eqn:E2.
    - apply Z.eqb_eq in E2.
      assert (HL : (Z.of_nat (length (m_data (p_buf o))) < m_size (grow_buff (p_buf o)))%Z).
      { unfold grow_buff; cbn [m_size]. destruct (m_size (p_buf o) =? 0)%Z eqn:E3; lia. }
      destruct (_ <? _)%Z eqn:E3; [|lia].
      cbn [bind rsim]. unfold osim. cbn [p_state p_buf p_fields p_doublequote m_data m_size].
      repeat split; auto; try lia.
      rewrite app_length; cbn [length]. unfold grow_buff at 1. cbn [m_data]. lia.
    - apply Z.eqb_neq in E2.
      destruct (_ <? _)%Z eqn:E3; [|lia].
      apply Z.ltb_lt in E3.
      cbn. repeat split; cbn; auto. rewrite app_length; cbn. lia.
  Qed.

  Lemma set_state_sim o p s : osim o p -> osim (set_state o s) (set_state p s).
  Proof. intros (?&?&?&?&?&?). repeat split; auto. Qed.

  Lemma set_doublequote_sim o p : osim o p -> osim (set_doublequote o) (set_doublequote p).
  Proof. intros (?&?&?&?&?&?). repeat split; auto. Qed.

  Lemma save_field_sim cf o p t :
    osim o p -> osim (save_field mem_ops cf o t) (save_field str_ops cf p t).
  Proof.
    intros (Hs & Hb & Hf & Hd & H0 & Hl). unfold save_field. cbn [b_str mem_ops str_ops].
    rewrite Hb.
    destruct (if quotecond _ _ then _ else _) as [f1 q1].
    destruct (if t && _ then _ else _) as [f2 q2].
    repeat split; cbn; auto. congruence.
  Qed.

  Local Hint Resolve set_state_sim set_doublequote_sim save_field_sim add_char_sim : psim.

  Ltac simstep :=
    match goal with
    | |- rsim (bind _ _) (bind _ _) => apply rsim_bind; [|intros ? ? ?]
    | |- rsim (if ?b then _ else _) (if ?b then _ else _) => destruct b
    | |- rsim (Ok _) (Ok _) => cbn [rsim]
    | |- rsim (Err _) (Err _) => split; [reflexivity|discriminate]
    | |- osim (set_state _ (if ?b then _ else _)) _ => destruct b
    | |- _ => solve [eauto 6 with psim]
    end.

  Lemma do_start_field_sim cf o p u :
    osim o p -> rsim (do_start_field mem_ops cf o u) (do_start_field str_ops cf p u).
  Proof. intros H. unfold do_start_field. repeat simstep. Qed.

  Lemma do_in_field_sim cf o p u :
    osim o p -> rsim (do_in_field mem_ops cf o u) (do_in_field str_ops cf p u).
  Proof. intros H. unfold do_in_field. repeat simstep. Qed.

  Local Hint Resolve do_start_field_sim do_in_field_sim : psim.

  Lemma process_char_sim cf o p u v :
    osim o p -> rsim (process_char mem_ops cf o u v) (process_char str_ops cf p u v).
  Proof.
    intros H. unfold process_char. assert (Hs : p_state o = p_state p) by apply H.
    rewrite <- Hs. destruct (p_state o); repeat simstep.
  Qed.

  Lemma process_chars_sim cf line : forall o p v,
    osim o p -> rsim (process_chars mem_ops cf o v line) (process_chars str_ops cf p v line).
  Proof.
    induction line as [|x line IH]; intros o p v H; cbn; [exact H|].
    destruct (_ =? 0)%N; [split; [reflexivity|discriminate]|].
    apply rsim_bind; [now apply process_char_sim|]. intros. now apply IH.
  Qed.

  Lemma process_line_sim cf o p line :
    osim o p -> rsim (process_line mem_ops cf o line) (process_line str_ops cf p line).
  Proof.
    intros H. unfold process_line. apply rsim_bind; [now apply process_chars_sim|].
    intros. now apply process_char_sim.
  Qed.

  Lemma parse_reset_sim o p : osim o p -> osim (parse_reset mem_ops o) (parse_reset str_ops p).
  Proof. intros (?&?&?&?&?&?). repeat split; cbn; auto. Qed.

  Definition out_sim (x : outcome * pobj membuf * list item)
                     (y : outcome * pobj str * list item) : Prop :=
    fst (fst x) = fst (fst y) /\ osim (snd (fst x)) (snd (fst y)) /\ snd x = snd y /\
    fst (fst x) <> Raise EOverrun.

  Lemma iternext_loop_sim cf input : forall o p,
    osim o p -> out_sim (iternext_loop mem_ops cf o input) (iternext_loop str_ops cf p input).
  Proof.
    induction input as [|i input IH]; intros o p H; cbn.
    - pose proof H as (Hs & Hb & Hf & Hd & H0 & Hl). rewrite Hb, <- Hs.
      destruct (_ || _); [|repeat split; cbn; auto; discriminate].
      destruct (strict cf); [repeat split; cbn; auto; discriminate|].
      pose proof (save_field_sim cf o p true H) as K.
      repeat split; try apply K; cbn; try discriminate.
      f_equal. apply K.
    - destruct i as [line| |]; try (repeat split; cbn; try apply H; discriminate).
      pose proof (process_line_sim cf o p line H) as K.
      destruct (process_line mem_ops cf o line) as [o'|e],
               (process_line str_ops cf p line) as [p'|e']; cbn in K; try tauto.
      + assert (Hs : p_state o' = p_state p') by apply K. rewrite <- Hs.
        destruct (p_state o'); try (now apply IH).
        repeat split; try apply K; cbn; try discriminate. f_equal. apply K.
      + destruct K as [-> K]. repeat split; cbn; try apply H. congruence.
  Qed.

  Lemma iternext_sim cf o p input :
    osim o p -> out_sim (iternext mem_ops cf o input) (iternext str_ops cf p input).
  Proof. intros H. apply iternext_loop_sim, parse_reset_sim, H. Qed.

  Lemma drain_sim cf fuel : forall o p input,
    osim o p -> drain mem_ops fuel cf o input = drain str_ops fuel cf p input /\
                snd (drain mem_ops fuel cf o input) <> Raised EOverrun.
  Proof.
    induction fuel as [|f IH]; intros o p input H; cbn; [split; [reflexivity|discriminate]|].
    destruct (iternext_sim cf o p input H) as (H1 & H2 & H3 & H4).
    destruct (iternext mem_ops cf o input) as [[r o'] rest].
    destruct (iternext str_ops cf p input) as [[r' p'] rest']. cbn in *. subst.
    destruct r' as [r| |e].
    - destruct (IH o' p' rest' H2) as [E K]. rewrite <- E.
      destruct (drain mem_ops f cf o' rest') as [rows e]. cbn in *. auto.
    - split; [reflexivity|discriminate].
    - split; [reflexivity|cbn; congruence].
  Qed.
End Sim.

Definition pure_new : pobj str := mk_pobj START_RECORD [] [] false.

Lemma new_parser_sim : osim new_parser pure_new.
Proof. repeat split; cbn; lia. Qed.

Definition parse_items_s (cf : pconf) (input : list item) : list (list cell) * ending :=
  drain str_ops (S (length input)) cf pure_new input.

Lemma parse_items_pure cf input : parse_items cf input = parse_items_s cf input.
Proof. apply drain_sim, new_parser_sim. Qed.

Lemma parse_items_no_overrun cf input :
  snd (parse_items cf input) <> Raised EOverrun.
Proof. apply drain_sim with (p := pure_new), new_parser_sim. Qed.

(** ** Fuel *)
Section Fuel.
  Context {B : Type} (ops : bufops B).
  Hypothesis clear_empty : forall b, b_str ops (b_clear ops b) = [].

  Lemma iternext_loop_rest cf input : forall o r o' rest,
    iternext_loop ops cf o input = (r, o', rest) ->
    (exists n, rest = skipn n input) /\ (input <> [] -> (length rest < length input)%nat).
  Proof.
    induction input as [|i input IH]; intros o r o' rest H; cbn in H.
    - split; [|congruence]. exists 0%nat. cbn.
      destruct (_ || _), (strict cf); now inversion H.
    - assert (Hgo : rest = input ->
        (exists n, rest = skipn n (i :: input)) /\
        (i :: input <> [] -> (length rest < length (i :: input))%nat)).
      { intros ->. split; [exists 1%nat; reflexivity|cbn; lia]. }
      destruct i as [line| |]; try (apply Hgo; congruence).
      destruct (process_line ops cf o line) as [o1|e]; [|apply Hgo; congruence].
      assert (Hrec : iternext_loop ops cf o1 input = (r, o', rest) ->
        (exists n, rest = skipn n (ILine line :: input)) /\
        (ILine line :: input <> [] -> (length rest < length (ILine line :: input))%nat)).
      { intros E. destruct (IH _ _ _ _ E) as [[n Hn] Hl]. split; [exists (S n); exact Hn|].
        intros _. subst rest. rewrite skipn_length. cbn. lia. }
      destruct (p_state o1); try (now apply Hrec). apply Hgo; congruence.
  Qed.

  Lemma drain_enough cf fuel : forall o input,
    (length input < fuel)%nat -> snd (drain ops fuel cf o input) <> OutOfFuel.
  Proof.
    induction fuel as [|f IH]; intros o input H; [lia|]. cbn.
    destruct (iternext ops cf o input) as [[r o'] rest] eqn:E.
    destruct r; try discriminate.
    destruct input as [|i input].
    - unfold iternext in E. cbn in E. rewrite clear_empty in E. cbn in E. discriminate.
    - destruct (iternext_loop_rest _ _ _ _ _ _ E) as [_ Hl].
      specialize (Hl ltac:(discriminate)).
      specialize (IH o' rest ltac:(cbn in *; lia)).
      destruct (drain ops f cf o' rest); exact IH.
  Qed.

  Lemma drain_mono cf f1 : forall f2 o input,
    (length input < f1)%nat -> (length input < f2)%nat ->
    drain ops f1 cf o input = drain ops f2 cf o input.
  Proof.
    induction f1 as [|f1 IH]; intros [|f2] o input H1 H2; try lia. cbn.
    destruct (iternext ops cf o input) as [[r o'] rest] eqn:E.
    destruct r; try reflexivity.
    destruct input as [|i input].
    - unfold iternext in E. cbn in E. rewrite clear_empty in E. cbn in E. discriminate.
    - destruct (iternext_loop_rest _ _ _ _ _ _ E) as [_ Hl].
      specialize (Hl ltac:(discriminate)).
      rewrite (IH f2 o' rest); [reflexivity| |]; cbn in *; lia.
  Qed.
End Fuel.

Lemma drain_fuel cf input : snd (parse_items cf input) <> OutOfFuel.
Proof. apply drain_enough; [reflexivity|lia]. Qed.

(** ** The parser on a whole text *)

(** The character [c], followed by [t], closes a line of the text. *)
Definition brk (c : N) (t : str) : bool :=
  (c =? LF)%N ||
  ((c =? CR)%N && negb (match t with d :: _ => (d =? LF)%N | [] => false end)).

(** The look-ahead character. *)
Definition la (c : N) (t : str) : N :=
  if brk c t then 0%N else match t with d :: _ => d | [] => 0%N end.

Definition cons_row (r : list cell) (x : list (list cell) * ending) :=
  (r :: fst x, snd x).

Definition at_eof (cf : pconf) (o : pobj str) : list (list cell) * ending :=
  match iternext_loop str_ops cf o [] with
  | (Row r, _, _) => ([r], Done)
  | (Stop, _, _) => ([], Done)
  | (Raise e, _, _) => ([], Raised e)
  end.

(** The end-of-line event. *)
Definition eol_event (cf : pconf) (o : pobj str)
    (k : pobj str -> list (list cell) * ending) : list (list cell) * ending :=
  match process_char str_ops cf o 0 0 with
  | Err e => ([], Raised e)
  | Ok o' =>
      match p_state o' with
      | START_RECORD => cons_row (p_fields o') (k (parse_reset str_ops o'))
      | _ => k o'
      end
  end.

(** [mid]: some character of the current line has been read. *)
Fixpoint trun (cf : pconf) (o : pobj str) (mid : bool) (t : str) : list (list cell) * ending :=
  match t with
  | [] => if mid then eol_event cf o (at_eof cf) else at_eof cf o
  | c :: t' =>
      if (c =? 0)%N then ([], Raised ENull) else
      match process_char str_ops cf o c (la c t') with
      | Err e => ([], Raised e)
      | Ok o' =>
          if brk c t' then eol_event cf o' (fun o'' => trun cf o'' false t')
          else trun cf o' true t'
      end
  end.

(** [t] starts with the line [l], and [rest] follows. *)
Inductive line_split : str -> str -> str -> Prop :=
| ls_brk c t : brk c t = true -> line_split (c :: t) [c] t
| ls_eof c : line_split [c] [c] []
| ls_more c t l rest : brk c t = false -> line_split t l rest -> line_split (c :: t) (c :: l) rest.

Lemma line_split_app t l rest : line_split t l rest -> t = l ++ rest /\ l <> [].
Proof.
  induction 1; cbn; split; try discriminate; auto.
  destruct IHline_split as [-> _]. reflexivity.
Qed.

Lemma univ_lines_split t : forall cur, t <> [] ->
  exists l rest, line_split t l rest /\
    univ_lines_aux cur t = (cur ++ l) :: univ_lines_aux [] rest.
Proof.
  induction t as [|c t IH]; intros cur Hne; [congruence|].
  cbn [univ_lines_aux].
  destruct (c =? LF)%N eqn:E1.
  { exists [c], t. split; [|reflexivity]. constructor. unfold brk. now rewrite E1. }
  destruct (c =? CR)%N eqn:E2.
  - destruct t as [|d t].
    + exists [c], []. split; [|reflexivity]. constructor. unfold brk. rewrite E1, E2. reflexivity.
    + destruct (d =? LF)%N eqn:E3.
      * exists [c; d], t. split; [|reflexivity]. constructor.
        -- unfold brk. rewrite E1, E2, E3. reflexivity.
        -- constructor. unfold brk. now rewrite E3.
      * exists [c], (d :: t). split; [|reflexivity]. constructor.
        unfold brk. rewrite E1, E2, E3. reflexivity.
  - destruct t as [|d t].
    + exists [c], []. split; [apply ls_eof|].
      cbn. destruct cur; reflexivity.
    + destruct (IH (cur ++ [c]) ltac:(discriminate)) as (l & rest & Hs & He).
      exists (c :: l), rest. split.
      * constructor; [|exact Hs]. unfold brk. rewrite E1, E2. reflexivity.
      * rewrite He. rewrite <- app_assoc. reflexivity.
Qed.

Lemma trun_line cf t l rest : line_split t l rest ->
  forall o v mid, (v = 0%N \/ exists l', l = v :: l') ->
  trun cf o mid t =
    match process_chars str_ops cf o v l with
    | Err e => ([], Raised e)
    | Ok o' => eol_event cf o' (fun o'' => trun cf o'' false rest)
    end.
Proof.
  induction 1 as [c t Hb|c|c t l rest Hb Hs IH]; intros o v mid Hv.
  - cbn.
    replace (if negb (v =? 0)%N then v else c) with c.
    2:{ destruct Hv as [->|[l' E]]; [reflexivity|]. injection E as <- _.
        destruct (c =? 0)%N; reflexivity. }
    destruct (c =? 0)%N; [reflexivity|]. unfold la. rewrite Hb.
    destruct (process_char _ _ _ _ _); reflexivity.
  - cbn.
    replace (if negb (v =? 0)%N then v else c) with c.
    2:{ destruct Hv as [->|[l' E]]; [reflexivity|]. injection E as <- _.
        destruct (c =? 0)%N; reflexivity. }
    destruct (c =? 0)%N; [reflexivity|]. unfold la.
    replace (if brk c [] then 0%N else 0%N) with 0%N by (destruct (brk c []); reflexivity).
    destruct (process_char _ _ _ _ _) as [o'|]; [|reflexivity]. cbn.
    destruct (brk c []); reflexivity.
  - destruct (line_split_app _ _ _ Hs) as [-> Hne].
    destruct l as [|d l]; [congruence|].
    change (trun cf o mid (c :: (d :: l) ++ rest)) with
      (if (c =? 0)%N then ([], Raised ENull) else
       match process_char str_ops cf o c (la c ((d :: l) ++ rest)) with
       | Err e => ([], Raised e)
       | Ok o' => if brk c ((d :: l) ++ rest)
                  then eol_event cf o' (fun o'' => trun cf o'' false ((d :: l) ++ rest))
                  else trun cf o' true ((d :: l) ++ rest)
       end).
    change (process_chars str_ops cf o v (c :: d :: l)) with
      (let u := if negb (v =? 0)%N then v else c in
       if (u =? 0)%N then Err ENull
       else bind (process_char str_ops cf o u d)
                 (fun o' => process_chars str_ops cf o' d (d :: l))).
    replace (if negb (v =? 0)%N then v else c) with c.
    2:{ destruct Hv as [->|[l' E]]; [reflexivity|]. injection E as <- _.
        destruct (c =? 0)%N; reflexivity. }
    cbv zeta. destruct (c =? 0)%N; [reflexivity|]. rewrite Hb.
    unfold la. rewrite Hb. cbn [app].
    destruct (process_char str_ops cf o c d) as [o'|]; [|reflexivity]. cbn [bind].
    apply IH. right. eauto.
Qed.

(** [drain] from inside a record. *)
Definition dloop (cf : pconf) (fuel : nat) (o : pobj str) (input : list item) :=
  match iternext_loop str_ops cf o input with
  | (Row r, o', rest) => cons_row r (drain str_ops fuel cf o' rest)
  | (Stop, _, _) => ([], Done)
  | (Raise e, _, _) => ([], Raised e)
  end.

Lemma drain_dloop cf fuel o input :
  drain str_ops (S fuel) cf o input = dloop cf fuel (parse_reset str_ops o) input.
Proof.
  cbn. unfold dloop, iternext.
  destruct (iternext_loop str_ops cf (parse_reset str_ops o) input) as [[r o'] rest].
  destruct r; try reflexivity. unfold cons_row.
  destruct (drain str_ops fuel cf o' rest); reflexivity.
Qed.

Lemma dloop_text cf n : forall t, (length t <= n)%nat ->
  forall fuel o, (length (univ_lines t) <= fuel)%nat -> (1 <= fuel)%nat ->
  dloop cf fuel o (map ILine (univ_lines t)) = trun cf o false t.
Proof.
  induction n as [|n IH]; intros t Hlen fuel o Hf H1.
  - destruct t; [|cbn in Hlen; lia]. cbn. unfold dloop, at_eof. cbn.
    destruct (_ || _); [|reflexivity]. destruct (strict cf); [reflexivity|].
    destruct fuel; [lia|]. cbn. reflexivity.
  - destruct t as [|c t].
    { cbn. unfold dloop, at_eof. cbn.
      destruct (_ || _); [|reflexivity]. destruct (strict cf); [reflexivity|].
      destruct fuel; [lia|]. cbn. reflexivity. }
    destruct (univ_lines_split (c :: t) [] ltac:(discriminate)) as (l & rest & Hs & He).
    destruct (line_split_app _ _ _ Hs) as [Happ Hne].
    unfold univ_lines in *. rewrite He in *. cbn [map app] in *.
    assert (Hlr : (length rest <= n)%nat).
    { apply (f_equal (@length N)) in Happ. rewrite app_length in Happ.
      destruct l; [congruence|]. cbn in *. lia. }
    rewrite (trun_line cf _ _ _ Hs o 0%N false) by now left.
    unfold dloop. cbn [iternext_loop]. unfold process_line.
    destruct (process_chars str_ops cf o 0%N l) as [o1|e]; [|reflexivity]. cbn [bind].
    unfold eol_event.
    destruct (process_char str_ops cf o1 0 0) as [o2|e]; [|reflexivity].
    cbn in Hf.
    assert (Hcont : match iternext_loop str_ops cf o2 (map ILine (univ_lines_aux [] rest)) with
      | (Row r, o', rest) => cons_row r (drain str_ops fuel cf o' rest)
      | (Stop, _, _) => ([], Done)
      | (Raise e, _, _) => ([], Raised e) end = trun cf o2 false rest).
    { apply (IH rest Hlr fuel o2); unfold univ_lines; lia. }
    destruct (p_state o2); try exact Hcont.
    f_equal.
    destruct fuel as [|fuel]; [lia|].
    rewrite drain_dloop.
    destruct rest as [|r0 rest].
    + cbn. reflexivity.
    + assert (Hlr' : univ_lines_aux [] (r0 :: rest) <> []).
      { destruct (univ_lines_split (r0 :: rest) [] ltac:(discriminate)) as (? & ? & _ & E).
        rewrite E. discriminate. }
      apply IH; auto; unfold univ_lines;
      destruct (univ_lines_aux [] (r0 :: rest)); try congruence; cbn in *; lia.
Qed.

Lemma parse_text_trun cf t :
  parse_text cf t = trun cf pure_new false t.
Proof.
  unfold parse_text. rewrite parse_items_pure. unfold parse_items_s.
  rewrite drain_dloop. rewrite map_length.
  destruct t as [|c t]; [reflexivity|].
  change (parse_reset str_ops pure_new) with pure_new.
  apply dloop_text with (n := length (c :: t)); auto.
  destruct (univ_lines_split (c :: t) [] ltac:(discriminate)) as (? & ? & _ & E).
  unfold univ_lines. rewrite E. cbn. lia.
Qed.
