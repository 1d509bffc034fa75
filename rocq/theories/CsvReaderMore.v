(** * CsvReaderMore: bare texts, and written texts, with csv.reader *)
From Coq Require Import String.
From Verif Require Import Base Parser Dialect ParserFacts SpecLayout SpecParse LayoutFacts ParserLift CsvLib Reader Writer SpecWriter WriterFacts RoundTrip CsvReader SpecCsvReader CsvReaderFacts.

(** ** Texts without quote and escape characters *)
Section Bare.
Variables (w : wdialect) (D : chars) (s1 s2 : bool) (limit : Z).
Hypothesis CC : csv_chars w D.
Local Notation cf := (conf D limit s1 false).
Definition okc (c : N) : Prop := c <> NUL /\ is_opt (cq D) c = false /\ is_opt (ce D) c = false.
Definition plain_state (st : pstate) : bool := match st with START_RECORD | START_FIELD | IN_FIELD | EAT_CRNL => true | _ => false end.
Definition data (o : pobj str) (p : cobj) : Prop := p_buf o = c_field p /\ p_fields o = map CStr (c_fields p) /\ Forall okc (p_buf o).
Definition alike (o : pobj str) (p : cobj) : Prop := p_state o = c_state p /\ plain_state (p_state o) = true /\ data o p.
Definition same (x : list (list cell) * ending) (y : list (list str) * option pyexc) : Prop :=
  fst x = map (map CStr) (fst y) /\ same_end (py_ending (snd x)) (snd y).

Lemma okc_quotecond b : Forall okc b -> quotecond b (quotechar cf) = false.
Proof.
  intros H. unfold quotecond. cbn [conf quotechar]. destruct (opt_n (cq D) =? 0)%N eqn:E; [reflexivity|]. destruct (Nat.leb (List.length b) 1); [reflexivity|].
  destruct b as [|c b]; [reflexivity|]. inversion H as [|x xs (H1 & H2 & _) _]; subst x xs. cbn [str_startswith]. destruct (cq D) as [q|]; [|discriminate E]. cbn in *. now rewrite H2.
Qed.
Lemma save_data o p st : data o p -> data (save_field str_ops cf o false) (c_save p st) /\ p_state (save_field str_ops cf o false) = p_state o.
Proof.
  intros (H3 & H4 & H5). unfold save_field. cbn [b_str str_ops andb]. rewrite okc_quotecond by exact H5. unfold data, c_save. cbn.
  rewrite H3, H4, map_app. repeat split. constructor.
Qed.
Lemma save_alike o p st : data o p -> plain_state st = true -> alike (set_state (save_field str_ops cf o false) st) (c_save p st).
Proof. intros H Hs. apply (save_data o p st) in H as [H _]. split; [reflexivity|]. split; [exact Hs|exact H]. Qed.
Definition step_alike (x : res perr (pobj str)) (y : res pyexc cobj) : Prop :=
  match x, y with
  | Ok o, Ok p => alike o p
  | Err e, Err CsvError => same_end (py_ending (Raised e)) (Some CsvError)
  | _, _ => False
  end.
Lemma add_alike o p c st : data o p -> okc c -> plain_state st = true ->
  step_alike (bind (add_char str_ops cf o c) (fun o => Ok (set_state o st))) (c_add limit p c st).
Proof.
  intros (H3 & H4 & H5) Hc Hs. unfold add_char, c_add. cbn [b_add str_ops conf field_limit]. unfold str_add. rewrite H3.
  destruct (_ <=? _)%Z; cbn [bind step_alike]; [exact I|]. unfold alike, data, set_state. cbn. rewrite <- H3. repeat split; try assumption. apply Forall_app. split; [exact H5|constructor; [exact Hc|constructor]].
Qed.
Lemma q_eq c : c <> NUL -> (c =? quotechar cf)%N = is_opt (cq D) c.
Proof. intros H. cbn. destruct (cq D); cbn; [reflexivity|]. now apply N.eqb_neq. Qed.
Lemma e_eq c : c <> NUL -> (c =? escapechar cf)%N = is_opt (ce D) c.
Proof. intros H. cbn. destruct (ce D); cbn; [reflexivity|]. now apply N.eqb_neq. Qed.
Lemma d_eq c : c <> NUL -> (c =? delimiter cf)%N = is_opt (cd D) c.
Proof. intros H. cbn. destruct (cd D); cbn; [reflexivity|]. now apply N.eqb_neq. Qed.
Lemma start_alike o p c : okc c -> p_state o = START_FIELD -> data o p -> step_alike (do_start_field str_ops cf o c) (c_start_field w limit p (Some c)).
Proof.
  intros Hok Hs Ha. pose proof Hok as (C1 & C2 & C3). assert (E0 : (c =? 0)%N = false) by now apply N.eqb_neq. unfold do_start_field, c_start_field. cbn [c_end c_char c_after].
  rewrite E0, orb_false_r. destruct (is_nl c); [now apply save_alike|].
  rewrite q_eq, e_eq, d_eq, (is_quote w D CC), (is_escape w D CC), (no_skip w D CC), (is_delim w D CC), C2, C3 by exact C1.
  destruct (is_opt (cd D) c); [|now apply add_alike].
  destruct (save_data o p START_FIELD Ha) as [K1 K2]. cbn [step_alike]. split; [rewrite K2; exact Hs|]. split; [rewrite K2, Hs; reflexivity|exact K1].
Qed.
Lemma in_alike o p c : okc c -> p_state o = IN_FIELD -> c_state p = IN_FIELD -> data o p -> step_alike (do_in_field str_ops cf o c) (c_in_field w limit p (Some c)).
Proof.
  intros Hok Hs Hp Ha. pose proof Hok as (C1 & C2 & C3). assert (E0 : (c =? 0)%N = false) by now apply N.eqb_neq. unfold do_in_field, c_in_field. cbn [c_end c_char c_after].
  rewrite E0, orb_false_r. destruct (is_nl c); [now apply save_alike|].
  rewrite q_eq, e_eq, d_eq, (is_escape w D CC), (is_delim w D CC), C2, C3 by exact C1.
  destruct (is_opt (cd D) c); [now apply save_alike|]. rewrite Hp. pose proof (add_alike o p c IN_FIELD Ha Hok eq_refl) as K.
  unfold add_char in *. destruct (b_add _ _ _ _) as [b|e]; cbn [bind] in *; [|exact K]. unfold set_state in K. cbn in K. now rewrite Hs.
Qed.
Lemma char_alike o p c v : alike o p -> okc c -> step_alike (process_char str_ops cf o c v) (c_process w s2 limit p (Some c)).
Proof.
  intros (H1 & H2 & H3) Hok. pose proof Hok as (C1 & C2 & C3). assert (E0 : (c =? 0)%N = false) by now apply N.eqb_neq.
  unfold process_char, c_process. rewrite <- H1. destruct (p_state o) eqn:Es; try discriminate H2; cbn [c_nl]; rewrite ?E0.
  - destruct (is_nl c); [now split|]. now apply start_alike.
  - now apply start_alike.
  - now apply in_alike.
  - destruct (is_nl c); [|exact I]. split; [congruence|]. split; [now rewrite Es|exact H3].
Qed.
Lemma eol_alike o p k k' : alike o p -> same (k pure_new) (k' c_new) -> p_doublequote o = false -> same (eol_event cf o k) (ceol w s2 limit p k').
Proof.
  intros (H1 & H2 & H3) Hk Hd. pose proof H3 as (H4 & H5 & H6).
  assert (G : exists o' p', process_char str_ops cf o 0 0 = Ok o' /\ c_process w s2 limit p None = Ok p' /\ p_state o' = START_RECORD /\ c_state p' = START_RECORD /\ p_fields o' = map CStr (c_fields p') /\ p_doublequote o' = false).
  { unfold process_char, c_process. rewrite <- H1. destruct (save_data o p START_RECORD H3) as [(K1 & K2 & K3) K4].
    destruct (p_state o) eqn:Es; try discriminate H2; eexists _, _; (split; [reflexivity|]; split; [reflexivity|]); cbn; repeat split; try assumption; try congruence;
      try (unfold save_field; cbn; rewrite okc_quotecond by exact H6; cbn; rewrite H5, H4, map_app; reflexivity);
      try (unfold save_field; cbn; rewrite okc_quotecond by exact H6; exact Hd). }
  destruct G as (o' & p' & G1 & G2 & G3 & G4 & G5 & G6). unfold eol_event, ceol. rewrite G1, G2, G3, G4.
  assert (Hr : parse_reset str_ops o' = pure_new). { unfold parse_reset, pure_new. cbn. now rewrite G6. }
  rewrite Hr. destruct Hk as [K1 K2]. unfold same, cons_row, ccons. cbn [fst snd map]. destruct (k pure_new) as [r e]. cbn [fst snd] in *. rewrite K1, G5. split; [reflexivity|exact K2].
Qed.
Lemma dq_char o c v o' : plain_state (p_state o) = true -> okc c -> process_char str_ops cf o c v = Ok o' -> p_doublequote o' = p_doublequote o.
Proof.
  intros Hs (C1 & C2 & C3) H. assert (E0 : (c =? 0)%N = false) by now apply N.eqb_neq.
  assert (SV : forall o t, p_doublequote (save_field str_ops cf o t) = p_doublequote o).
  { intros o0 t0. unfold save_field. destruct (if quotecond _ _ then _ else _) as [f1 q1]. destruct (if t0 && _ then _ else _) as [f2 q2]. reflexivity. }
  unfold process_char, do_start_field, do_in_field in H. rewrite E0 in H. rewrite ?q_eq, ?e_eq, ?d_eq, ?C2, ?C3, ?orb_false_r in H by exact C1.
  unfold add_char in H. destruct (p_state o); try discriminate Hs; destruct (is_nl c); cbn [bind] in H;
    try (destruct (is_opt (cd D) c)); try (destruct (b_add _ _ _ _) as [b|e]; cbn [bind] in H); try discriminate H; injection H as <-; cbn; rewrite ?SV; reflexivity.
Qed.
Lemma bare_trun t : Forall okc t -> forall o p mid, alike o p -> p_doublequote o = false -> (mid = false -> o = pure_new /\ p = c_new) ->
  same (trun cf o mid t) (ctrun w s2 limit p mid t).
Proof.
  assert (Heof : same (at_eof cf pure_new) (c_eof s2 c_new)) by (split; [reflexivity|exact I]).
  induction 1 as [|c t Hc Ht IH]; intros o p mid Ha Hd Hm; cbn [trun ctrun].
  - destruct mid; [now apply eol_alike|]. destruct (Hm eq_refl) as [-> ->]. exact Heof.
  - pose proof Hc as (C1 & _). apply N.eqb_neq in C1. change NUL with 0%N in C1. rewrite C1.
    pose proof (char_alike o p c (la c t) Ha Hc) as K. pose proof (dq_char o c (la c t)) as Q. destruct (process_char str_ops cf o c (la c t)) as [o'|e]; cbn [step_alike] in K.
    + destruct (c_process w s2 limit p (Some c)) as [p'|]; [|destruct K]. specialize (Q o' (proj1 (proj2 Ha)) Hc eq_refl).
      destruct (brk c t); [|apply IH; [exact K|congruence|discriminate]]. apply eol_alike; [exact K| |congruence].
      apply IH; [|reflexivity|split; reflexivity]. repeat split. constructor.
    + destruct (c_process w s2 limit p (Some c)) as [p'|y]; [destruct K|]. destruct y; try destruct K. split; [reflexivity|exact K].
Qed.
Lemma bare_read t : bare D t -> fst (parse_string limit t (simple D s1) false) = map (map CStr) (fst (csv_reader w s2 limit t)) /\
  same_end (snd (parse_string limit t (simple D s1) false)) (snd (csv_reader w s2 limit t)).
Proof.
  intros Hb. rewrite parse_string_conf, parse_text_trun. unfold py_result. cbn [fst snd]. unfold csv_reader. rewrite (run_text w s2 limit (List.length t)) by lia.
  apply bare_trun; [apply Forall_forall; exact Hb|repeat split; constructor|reflexivity|split; reflexivity].
Qed.
End Bare.

(** ** Standard layouts *)
Lemma cval_le D ps : (List.length (cval D ps) <= List.length (raw_cell D ps))%nat.
Proof.
  destruct ps as [|[c|c|l] [|p ps]]; try (cbn [cval]; lia). cbn [cval]. unfold raw_cell. cbn [map concat piece_value]. rewrite app_nil_r, !app_length. lia.
Qed.
Lemma values_fit w D limit d : wf_chars D = true -> csv_chars w D -> wf_doc D d = true -> std_doc D d = true -> Forall (fun s => (Z.of_nat (List.length s) <= limit)%Z) (raw_cells D d) ->
  Forall (fun s => (Z.of_nat (List.length s) <= limit)%Z) (concat (map (map fst) (denote D d))).
Proof.
  intros HD CC Hw Hs HL. rewrite (cval_doc D HD d Hw Hs). apply Forall_forall. intros s Hin. apply in_concat in Hin as (row & Hr & Hin). apply in_map_iff in Hr as (cells & <- & Hc). apply in_map_iff in Hin as (ps & <- & Hp).
  assert (G : In (raw_cell D ps) (raw_cells D d)).
  { unfold raw_cells, cells_of in *. apply in_app_or in Hc as [Hc|Hc]; apply in_or_app.
    - left. apply in_map_iff in Hc as (r & <- & Hr). apply in_concat. exists (map (raw_cell D) (fst r)). split; [apply in_map_iff; exists r; now split|now apply in_map].
    - right. destruct (last d); try destruct Hc as [<-|[]]; try destruct Hc. now apply in_map. }
  apply (proj1 (Forall_forall _ _) HL) in G. pose proof (cval_le D ps). lia.
Qed.
Lemma both_read w D strict limit d : wf_chars D = true -> csv_chars w D -> wf_doc D d = true -> std_doc D d = true -> strict = false \/ last d = TEnd ->
  Forall (fun s => (Z.of_nat (List.length s) <= limit)%Z) (raw_cells D d) ->
  csv_reader w strict limit (render D d) = (map (map fst) (denote D d), None) /\
  parse_string limit (render D d) (simple D false) false = (map (map CStr) (map (map fst) (denote D d)), None).
Proof.
  intros HD CC Hw Hs Hst HL. split; [apply (csv_reads w strict limit D HD CC); try assumption; now apply (values_fit w)|]. rewrite parse_string_layout by assumption. f_equal. unfold mk_rows. rewrite map_map. apply map_ext. intros r. rewrite map_map. apply map_ext. now intros [s b].
Qed.

(** ** Written texts *)
Section Written.
Variables (w : wdialect) (q : N) (e : eol).
Local Notation D := (mk_chars (Some (wd_delim w)) (Some q) (wd_escape w)).
Hypothesis WF : wf_chars D = true.
Hypothesis Hq : wd_quote w = Some q.
Hypothesis Hdq : wd_doublequote w = true.
Hypothesis Hqt : wd_quoting w <> QUOTE_NONE.
Hypothesis Hsp : wd_skipspace w = false.
Hypothesis Hnn : wd_quoting w <> QUOTE_NONNUMERIC.
Hypothesis Ht : term_eol (wd_term w) = Some e.
Lemma written_cc : csv_chars w D.
Proof. constructor; try assumption; try reflexivity. cbn [cq]. rewrite Hq. destruct (wd_quoting w); try reflexivity. now elim Hqt. Qed.
Lemma esc_some c : esc_c w c = true -> wd_escape w = Some c.
Proof. unfold esc_c. destruct (wd_escape w); cbn; [|discriminate]. intros H. apply N.eqb_eq in H. now subst. Qed.
Lemma std_lay quoted s : std_cell D (lay w q quoted s) = true.
Proof.
  unfold lay. destruct quoted.
  - cbn [std_cell]. apply forallb_forall. intros i Hi. apply in_map_iff in Hi as (c & <- & _). unfold lay_q. destruct (c =? q)%N; [reflexivity|]. destruct (esc_c w c) eqn:E; [|reflexivity].
    cbn [std_qitem]. unfold special. cbn [cd cq ce]. rewrite (esc_some c E), is_opt_refl. now rewrite !orb_true_r.
  - assert (G : forallb (std_piece D) (map (lay_p w) s) = true).
    { apply forallb_forall. intros i Hi. apply in_map_iff in Hi as (c & <- & _). unfold lay_p. destruct (esc_c w c) eqn:E; [|reflexivity]. cbn [std_piece cd ce]. rewrite (esc_some c E), is_opt_refl. now rewrite orb_true_r. }
    unfold std_cell. destruct (map (lay_p w) s) as [|[c|c|l] [|p ps]]; try exact G. discriminate G.
Qed.
Lemma std_lay_row r : forallb (std_cell D) (lay_row w q r) = true.
Proof.
  assert (G : forallb (std_cell D) (map (fun v => lay w q (quoted_of w v) (value_str v)) r) = true).
  { apply forallb_forall. intros ps Hp. apply in_map_iff in Hp as (v & <- & _). apply std_lay. }
  unfold lay_row. destruct r as [|v [|v' r]]; try exact G. cbn [map forallb] in G. destruct (lay _ _ _ _); [reflexivity|exact G].
Qed.
Lemma written_csv rows limit strict : csv_fits limit (map (map value_str) rows) ->
  exists text, csv_writerows w rows = (text, None) /\ csv_reader w strict limit text = (map (map value_str) rows, None).
Proof.
  intros Hr. exists (render D (lay_doc w q e rows)). split; [now apply (writerows_eq w q e)|].
  assert (Hr2 : readable (limit + 2) rows).
  { intros r v Hi Hv. destruct (Hr (map value_str r) (value_str v) (in_map _ _ _ Hi) (in_map _ _ _ Hv)) as [K1 K2]. split; [exact K1|lia]. }
  destruct (lay_doc_facts w q e WF Hq Hdq rows (limit + 2) Hr2) as (H1 & H2 & _). rewrite <- H2.
  apply (csv_reads w strict limit D WF written_cc); [exact H1| |now right|].
  - unfold std_doc, lay_doc. cbn [records last]. rewrite andb_true_r. apply forallb_forall. intros r Hi. apply in_map_iff in Hi as (x & <- & _). apply std_lay_row.
  - rewrite H2. apply Forall_forall. intros s Hi. apply in_concat in Hi as (r & H3 & H4). exact (proj2 (Hr r s H3 H4)).
Qed.
End Written.
