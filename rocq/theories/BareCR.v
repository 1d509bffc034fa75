(** * BareCR: reading lines ended by LF from a text with a bare CR (C49) *)
From Coq Require Import String Permutation.
From Verif Require Import Base Parser Dialect SpecLayout SpecParse ParserFacts ParserProps ParserLift
  Detect SpecDetect HeaderFacts.

(** ** Lines *)
Lemma lf_app t : forall cur, exists init l, forall k, lf_lines_aux cur (t ++ k) = init ++ lf_lines_aux l k.
Proof.
  induction t as [|c t IH]; intros cur; [exists [], cur; reflexivity|]. cbn [app lf_lines_aux].
  destruct (c =? LF)%N.
  - destruct (IH []) as (init & l & H). exists ((cur ++ [c]) :: init), l. intros k. now rewrite H.
  - destruct (IH (cur ++ [c])) as (init & l & H). exists init, l. exact H.
Qed.
Lemma lf_pending k : forall cur, cur <> [] -> exists a more, lf_lines_aux cur k = (cur ++ a) :: more.
Proof.
  induction k as [|c k IH]; intros cur H.
  - exists [], []. rewrite app_nil_r. destruct cur; [congruence|reflexivity].
  - cbn [lf_lines_aux]. destruct (c =? LF)%N; [eauto|].
    destruct (IH (cur ++ [c])) as (a & more & E); [destruct cur; discriminate|].
    exists (c :: a), more. rewrite E. now rewrite <- app_assoc.
Qed.
Lemma univ_after_cr n c : c <> LF -> c <> CR -> forall t cur, (List.length t <= n)%nat ->
  univ_lines_aux cur (t ++ [CR; c]) = univ_lines_aux cur (t ++ [CR]) ++ [[c]].
Proof.
  intros Hl Hc. apply N.eqb_neq in Hl. apply N.eqb_neq in Hc.
  induction n as [|n IH]; intros t cur Hn; (destruct t as [|x t]; [|cbn in Hn; try lia]).
  1,2: cbn; rewrite Hl, Hc; reflexivity.
  cbn [app univ_lines_aux]. destruct (x =? LF)%N; [rewrite IH by lia; reflexivity|].
  destruct (x =? CR)%N; [|apply IH; lia].
  destruct t as [|y t]; [cbn; now rewrite Hl, Hc|]. cbn [app].
  cbn in Hn. destruct (y =? LF)%N; [rewrite IH by lia; reflexivity|].
  change (y :: t ++ [CR; c]) with ((y :: t) ++ [CR; c]). rewrite IH by (cbn; lia). reflexivity.
Qed.

Section Run.
Variable cf : pconf.
Hypothesis HD : delimiter cf <> CR.
Hypothesis HQ : quotechar cf <> CR.
Hypothesis HE : escapechar cf <> CR.

(** Reading complete lines. *)
Fixpoint irun (o : pobj str) (init : list str) : res perr (list (list cell) * pobj str) :=
  match init with
  | [] => Ok ([], o)
  | l :: init' =>
      bind (process_line str_ops cf o l) (fun o' =>
      match p_state o' with
      | START_RECORD => bind (irun (parse_reset str_ops o') init') (fun x => Ok (p_fields o' :: fst x, snd x))
      | _ => irun o' init'
      end)
  end.
Fixpoint feed (o : pobj str) (ls : list str) : list (list cell) * ending :=
  match ls with
  | [] => at_eof cf o
  | l :: ls' =>
      match process_line str_ops cf o l with
      | Err e => ([], Raised e)
      | Ok o' =>
          match p_state o' with
          | START_RECORD => cons_row (p_fields o') (feed (parse_reset str_ops o') ls')
          | _ => feed o' ls'
          end
      end
  end.
Lemma feed_cons o l ls : feed o (l :: ls) =
  match process_line str_ops cf o l with
  | Err e => ([], Raised e)
  | Ok o' =>
      match p_state o' with
      | START_RECORD => cons_row (p_fields o') (feed (parse_reset str_ops o') ls)
      | _ => feed o' ls
      end
  end.
Proof. reflexivity. Qed.
Lemma dloop_feed ls : forall fuel o, (List.length ls <= fuel)%nat -> (1 <= fuel)%nat ->
  dloop cf fuel o (map ILine ls) = feed o ls.
Proof.
  induction ls as [|l ls IH]; intros fuel o Hf H1.
  - cbn. unfold dloop, at_eof. cbn. destruct (_ || _); [|reflexivity]. destruct (strict cf); [reflexivity|].
    destruct fuel; [lia|]. reflexivity.
  - cbn in Hf. unfold dloop. cbn [map iternext_loop feed].
    destruct (process_line str_ops cf o l) as [o'|e]; [|reflexivity].
    assert (K : match iternext_loop str_ops cf o' (map ILine ls) with
      | (Row r, o'', rest) => cons_row r (drain str_ops fuel cf o'' rest)
      | (Stop, _, _) => ([], Done)
      | (Raise e, _, _) => ([], Raised e) end = feed o' ls) by (apply (IH fuel o'); lia).
    destruct (p_state o'); try exact K.
    destruct fuel as [|fuel]; [lia|]. rewrite drain_dloop. f_equal.
    destruct ls as [|l' ls]; [reflexivity|]. apply IH; cbn in *; lia.
Qed.
Lemma parse_feed ls : parse_items cf (map ILine ls) = feed pure_new ls.
Proof.
  rewrite parse_items_pure. unfold parse_items_s. rewrite drain_dloop, map_length.
  change (parse_reset str_ops pure_new) with pure_new.
  destruct ls as [|l ls]; [reflexivity|]. apply dloop_feed; cbn; lia.
Qed.
Lemma feed_irun init : forall o,
  match irun o init with
  | Ok (rows, o') => forall tl, feed o (init ++ tl) = (rows ++ fst (feed o' tl), snd (feed o' tl))
  | Err _ => forall tl, snd (feed o (init ++ tl)) <> Done
  end.
Proof.
  induction init as [|l init IH]; intros o; cbn [irun].
  - intros tl. cbn. now destruct (feed o tl).
  - destruct (process_line str_ops cf o l) as [o1|e] eqn:E; cbn [bind].
    2:{ intros tl. cbn [app feed]. rewrite E. discriminate. }
    assert (K : match irun o1 init with
      | Ok (rows, o') => forall tl, feed o1 (init ++ tl) = (rows ++ fst (feed o' tl), snd (feed o' tl))
      | Err _ => forall tl, snd (feed o1 (init ++ tl)) <> Done end) by apply IH.
    destruct (p_state o1) eqn:ES.
    { specialize (IH (parse_reset str_ops o1)). destruct (irun (parse_reset str_ops o1) init) as [[rows o']|e]; cbn [bind].
      - intros tl. cbn [fst snd app feed]. rewrite E, ES, IH. reflexivity.
      - intros tl. cbn [app feed]. rewrite E, ES. unfold cons_row. cbn [snd]. apply IH. }
    all: destruct (irun o1 init) as [[rows o']|e]; intros tl; cbn [app feed]; rewrite E, ES; apply K.
Qed.

(** The start of a line is read with one character of look-ahead. *)
Lemma chars_app l x : forall o v, exists F,
  match F with Err _ => True | Ok (_, v') => v' = x \/ (l = [] /\ v' = v) end /\
  forall k, process_chars str_ops cf o v (l ++ x :: k) =
  match F with Err e => Err e | Ok (o', v') => process_chars str_ops cf o' v' (x :: k) end.
Proof.
  induction l as [|y l IH]; intros o v; [exists (Ok (o, v)); split; [right; now split|reflexivity]|].
  set (u := if negb (v =? 0)%N then v else y).
  set (v' := match l with [] => x | z :: _ => z end).
  assert (V : forall k, match l ++ x :: k with [] => 0%N | z :: _ => z end = v') by (intros k; now destruct l).
  destruct (u =? 0)%N eqn:EU.
  { exists (Err ENull). split; [exact I|]. intros k. cbn [app process_chars]. fold u. now rewrite EU. }
  destruct (process_char str_ops cf o u v') as [o'|e] eqn:EP.
  - destruct (IH o' v') as (F & HV & HF). exists F. split.
    { destruct F as [[o2 v2]|]; [|exact I]. left. destruct HV as [HV|[-> HV]]; [exact HV|exact HV]. }
    intros k. cbn [app process_chars]. fold u. rewrite EU, V, EP. apply HF.
  - exists (Err e). split; [exact I|]. intros k. cbn [app process_chars]. fold u. rewrite EU, V, EP. reflexivity.
Qed.

(** Reading CR: the record is complete, or the field continues. *)
Lemma add_nonempty o c o' : add_char str_ops cf o c = Ok o' -> p_state o' = p_state o /\ p_buf o' <> [].
Proof.
  unfold add_char. cbn. unfold str_add. destruct (_ <=? _)%Z; cbn; [discriminate|]. intros [= <-]. cbn.
  split; [reflexivity|]. destruct (p_buf o); discriminate.
Qed.
Lemma read_cr o v o' : process_char str_ops cf o CR v = Ok o' ->
  (forall w, process_char str_ops cf o CR w = Ok o') /\
  (p_state o' = EAT_CRNL \/ ((p_state o' = AFTER_ESCAPED_CRNL \/ p_state o' = IN_QUOTED_FIELD) /\ p_buf o' <> [])).
Proof.
  apply not_eq_sym, N.eqb_neq in HD. apply not_eq_sym, N.eqb_neq in HQ. apply not_eq_sym, N.eqb_neq in HE.
  unfold process_char. destruct (p_state o) eqn:ES; unfold do_start_field, do_in_field;
    change (is_nl CR) with true; change (CR =? 0)%N with false; cbn [orb negb andb];
    rewrite ?HD, ?HQ, ?HE; cbn [negb andb]; intros H.
  - split; [auto|]. injection H as <-. now left.
  - split; [auto|]. injection H as <-. now left.
  - split; [auto|]. destruct (add_char str_ops cf o CR) as [o1|] eqn:E; [|discriminate]. cbn [bind] in H. injection H as <-.
    apply add_nonempty in E as [_ E]. cbn. auto.
  - split; [auto|]. injection H as <-. now left.
  - split; [auto|]. apply add_nonempty in H as [E1 E2]. rewrite ES in E1. auto.
  - split; [auto|]. destruct (add_char str_ops cf o (escapechar cf)) as [o1|] eqn:E; cbn [bind] in H; [|discriminate].
    destruct (add_char str_ops cf o1 CR) as [o2|] eqn:E2; cbn [bind] in H; [|discriminate]. injection H as <-.
    apply add_nonempty in E2 as [_ E2]. cbn. auto.
  - split; [auto|]. injection H as <-. now left.
  - split; [auto|]. injection H as <-. now left.
  - split; [auto|]. injection H as <-. now left.
Qed.

Hypothesis NS : strict cf = false.
Lemma eof_rows o : (List.length (fst (at_eof cf o)) <= 1)%nat.
Proof. unfold at_eof. cbn. destruct (_ || _); [|cbn; lia]. rewrite NS. cbn. lia. Qed.
Lemma eof_nonempty o : p_buf o <> [] -> List.length (fst (at_eof cf o)) = 1%nat.
Proof. intros H. unfold at_eof. destruct o as [st [|c b] fs dq]; [now elim H|]. cbn. now rewrite NS. Qed.
Lemma feed_one o l : (List.length (fst (feed o [l])) <= 1)%nat.
Proof.
  cbn [feed]. destruct (process_line str_ops cf o l) as [o'|]; [|cbn; lia].
  destruct (p_state o') eqn:E; try apply eof_rows. cbn. lia.
Qed.

(** If the CR at the end of the line [l ++ [CR]] closes a record, a character
    after it is an error. *)
Lemma bare_cr init l c c' rows r r' a more :
  is_nl c = false -> c <> NUL ->
  parse_items cf (map ILine (init ++ [l ++ [CR]])) = (rows ++ [r], Done) ->
  parse_items cf (map ILine ((init ++ [l ++ [CR]]) ++ [[c']])) = (rows ++ [r; r'], Done) ->
  parse_items cf (map ILine (init ++ (l ++ CR :: c :: a) :: more)) = (rows, Raised ENewline).
Proof.
  intros Hc H0 H1 H2. rewrite parse_feed in *. rewrite <- app_assoc in H2. cbn [app] in H2.
  pose proof (feed_irun init pure_new) as HI. destruct (irun pure_new init) as [[rows0 o]|e].
  2:{ elim (HI [l ++ [CR]]). exact (f_equal snd H1). }
  rewrite HI in H1, H2 |- *. assert (H1' := f_equal snd H1). apply (f_equal fst) in H1. apply (f_equal fst) in H2.
  cbn [fst snd] in H1, H1', H2.
  destruct (chars_app l CR o 0%N) as (F & HV & HF).
  rewrite feed_cons in H1, H1', H2 |- *. unfold process_line in H1, H1', H2 |- *.
  rewrite HF in H1, H1', H2 |- *.
  destruct F as [[o1 v1]|e]; [|discriminate].
  assert (EV : (if negb (v1 =? 0)%N then v1 else CR) = CR) by (destruct HV as [->|[_ ->]]; reflexivity).
  cbn [process_chars] in H1, H1', H2 |- *. rewrite EV in H1, H1', H2 |- *.
  change (CR =? 0)%N with false in *. cbv iota in H1, H1', H2 |- *.
  destruct (process_char str_ops cf o1 CR 0) as [o2|e] eqn:E2; cbn [bind] in H1, H1', H2; [|discriminate].
  destruct (read_cr _ _ _ E2) as [HW HS]. rewrite HW. cbn [bind].
  assert (H0' : (c =? 0)%N = false) by now apply N.eqb_neq. rewrite H0'. cbn [negb]. cbv iota. rewrite H0'.
  destruct HS as [HS|[HS HB]].
  - unfold process_char in H1 |- *. rewrite HS in H1 |- *. rewrite Hc, H0'. cbn [bind fst snd].
    change (is_nl 0) with false in H1. cbn [N.eqb] in H1. cbv iota in H1. cbn [p_state set_state] in H1.
    cbn [cons_row fst snd] in H1. unfold at_eof in H1. cbn in H1. apply app_inj_tail in H1 as [-> _].
    now rewrite app_nil_r.
  - exfalso. assert (E0 : exists o3, process_char str_ops cf o2 0 0 = Ok o3 /\ p_state o3 <> START_RECORD /\ p_buf o3 <> []).
    { exists o2. unfold process_char. destruct HS as [HS|HS]; rewrite HS; split; [reflexivity| |reflexivity|];
        (split; [congruence|exact HB]). }
    destruct E0 as (o3 & E3 & N3 & B3). rewrite E3 in H1, H2.
    assert (L1 : List.length (fst (feed o3 [])) = 1%nat) by (cbn [feed]; now apply eof_nonempty).
    pose proof (feed_one o3 [c']) as L2.
    apply (f_equal (@List.length _)) in H1. apply (f_equal (@List.length _)) in H2.
    rewrite !app_length in H1, H2. cbn [List.length] in H1, H2.
    assert (A : forall x a b y : nat, (x + a = y + 1 -> x + b = y + 2 -> a = 1 -> b <= 1 -> False)%nat) by lia.
    destruct (p_state o3); try congruence; exact (A _ _ _ _ H1 H2 L1 L2).
Qed.
End Run.

(** ** Layouts *)
Lemma fresh_char D : exists c, special D c = false /\ is_nl c = false /\ (c =? NUL)%N = false /\ c <> LF /\ c <> CR.
Proof.
  unfold special. destruct D as [d q e]. cbn [cd cq ce].
  assert (H : exists c, In c [97; 98; 99; 100]%N /\ d <> Some c /\ q <> Some c /\ e <> Some c).
  { assert (K : forall x y z : N, exists c, In c [97; 98; 99; 100]%N /\ x <> c /\ y <> c /\ z <> c).
    { intros x y z. 
      destruct (N.eq_dec x 97), (N.eq_dec y 97), (N.eq_dec z 97), (N.eq_dec x 98), (N.eq_dec y 98), (N.eq_dec z 98),
        (N.eq_dec x 99), (N.eq_dec y 99), (N.eq_dec z 99); subst; try discriminate;
        first [exists 97%N; cbn; repeat split; solve [auto 6|lia]|exists 98%N; cbn; repeat split; solve [auto 6|lia]
              |exists 99%N; cbn; repeat split; solve [auto 6|lia]|exists 100%N; cbn; repeat split; solve [auto 6|lia]]. }
    destruct (K (opt_n d) (opt_n q) (opt_n e)) as (c & H1 & H2 & H3 & H4). exists c. split; [exact H1|].
    repeat split; intros ->; cbn in *; congruence. }
  destruct H as (c & Hc & H1 & H2 & H3). exists c.
  assert (I : forall o, o <> Some c -> is_opt o c = false).
  { intros [x|] H; [|reflexivity]. cbn. apply N.eqb_neq. congruence. }
  rewrite !I by assumption. cbn in Hc. intuition subst; try reflexivity; discriminate.
Qed.

Lemma bare_cr_layout D rs cells limit c rest :
  let d := mk_doc (rs ++ [(cells, ECR)]) TEnd in
  wf_chars D = true -> wf_doc D d = true -> no_bare_cr (render D d) ->
  (1 <= limit)%Z -> Forall (fun s => Z.of_nat (List.length s) <= limit)%Z (raw_cells D d) ->
  is_nl c = false -> c <> NUL ->
  parse_data limit (map ILine (lf_lines (render D d ++ c :: rest))) (Some (simple D false)) None None None None false =
  (mk_rows false (map (fun r => row_value D (fst r)) rs), Some (CleverError ENewline)).
Proof.
  intros d HD Hd Hn Hl HL Hc H0.
  set (t := concat (map (render_record D) rs) ++ render_row D cells).
  assert (ET : render D d = t ++ [CR]).
  { unfold render, d, t. cbn [records last]. rewrite map_app, concat_app. cbn. unfold render_record. cbn.
    rewrite !app_nil_r, <- app_assoc. reflexivity. }
  destruct (fresh_char D) as (c' & S1 & S2 & S3 & S4 & S5).
  set (d' := mk_doc (rs ++ [(cells, ECR)]) (TRow [[PChar c']])).
  assert (Hd' : wf_doc D d' = true).
  { unfold wf_doc in *. cbn [records last d d'] in *. apply andb_true_iff in Hd as [-> _].
    cbn [andb wf_tail]. unfold wf_row, wf_cell. cbn [forallb wf_piece no_adjacent]. now rewrite S1, S2, S3. }
  assert (HL' : Forall (fun s => Z.of_nat (List.length s) <= limit)%Z (raw_cells D d')).
  { unfold raw_cells in *. cbn [records last d d'] in *. rewrite app_nil_r in HL. apply Forall_app. split; [exact HL|].
    repeat constructor. cbn. lia. }
  pose proof (parse_string_layout D d limit false HD Hd HL) as P1.
  pose proof (parse_string_layout D d' limit false HD Hd' HL') as P2.
  assert (ET' : render D d' = t ++ [CR; c']).
  { unfold render, d', t. cbn [records last]. rewrite map_app, concat_app. cbn. unfold render_record. cbn.
    rewrite !app_nil_r, <- !app_assoc. reflexivity. }
  rewrite parse_string_conf in P1, P2.
  assert (PD : forall ls, parse_data limit ls (Some (simple D false)) None None None None false =
    py_result (parse_items (conf D limit false false) ls)).
  { intros ls. unfold parse_data, parse_data_.
    cbn [or_else simple sd_delimiter sd_quotechar sd_escapechar sd_strict].
    assert (H : forall o, set_char (Some (opt_str o)) = Ok (opt_n o)) by (intros [x|]; reflexivity).
    unfold make_conf. rewrite !H. cbn [bind]. unfold conf, py_result. destruct (parse_items _ _); reflexivity. }
  rewrite PD. clear PD. unfold parse_text in P1, P2.
  destruct (lf_app t []) as (init & l & HA).
  assert (U1 : univ_lines (render D d) = init ++ [l ++ [CR]]).
  { rewrite <- lf_univ by assumption. rewrite ET. unfold lf_lines. rewrite HA. cbn. now destruct l. }
  assert (U2 : univ_lines (render D d') = (init ++ [l ++ [CR]]) ++ [[c']]).
  { rewrite <- U1, ET', ET. unfold univ_lines. apply (univ_after_cr (List.length t)); auto. }
  assert (U3 : exists a more, lf_lines (render D d ++ c :: rest) = init ++ (l ++ CR :: c :: a) :: more).
  { rewrite ET, <- app_assoc. unfold lf_lines. rewrite HA. cbn [app lf_lines_aux].
    change (CR =? LF)%N with false. cbv iota.
    assert (c =? LF = false)%N as -> by (unfold is_nl in Hc; destruct (c =? LF)%N; [rewrite ?orb_true_r in Hc; discriminate|reflexivity]).
    destruct (lf_pending rest ((l ++ [CR]) ++ [c])) as (a & more & ->); [destruct l; discriminate|].
    exists a, more. now rewrite <- !app_assoc. }
  destruct U3 as (a & more & ->). rewrite U1 in P1. rewrite U2 in P2.
  assert (E : forall x rows, py_result x = (rows, None) -> x = (rows, Done)).
  { intros [r [|e|]] rows; cbn; [now intros [= ->]|destruct e; discriminate|discriminate]. }
  apply E in P1. apply E in P2.
  assert (NC : forall o, char_ok o = true -> opt_n o <> CR).
  { intros [x|]; cbn; [|discriminate]. intros H ->. discriminate. }
  unfold wf_chars in HD. repeat (apply andb_true_iff in HD as [HD ?]).
  rewrite (bare_cr (conf D limit false false)) with (c' := c')
     (rows := mk_rows false (map (fun r => row_value D (fst r)) rs))
     (r := map (mk_cell false) (row_value D cells)) (r' := [CStr [c']]); try (cbn; auto; fail).
  - etransitivity; [exact P1|]. unfold denote, d, mk_rows. cbn [records last]. now rewrite !map_app, app_nil_r.
  - etransitivity; [exact P2|]. unfold denote, d', mk_rows. cbn [records last]. rewrite !map_app, <- app_assoc. reflexivity.
Qed.
