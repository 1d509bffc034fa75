(** * CsvReaderFacts: csv.reader reads standard layouts as they are meant *)
From Verif Require Import Base Parser Dialect ParserFacts SpecLayout SpecParse LayoutFacts CsvLib CsvReader SpecCsvReader.

Section Text.
Variable w : wdialect.
Variable strict : bool.
Variable limit : Z.
Local Notation proc := (c_process w strict limit).
Local Notation run := (c_run w strict limit).
Local Notation eof := (c_eof strict).

Definition ccons (r : list str) (x : list (list str) * option pyexc) := (r :: fst x, snd x).
Definition ceol (o : cobj) (k : cobj -> list (list str) * option pyexc) : list (list str) * option pyexc :=
  match proc o None with
  | Err x => ([], Some x)
  | Ok o' => match c_state o' with START_RECORD => ccons (c_fields o') (k c_new) | _ => k o' end
  end.
Fixpoint ctrun (o : cobj) (mid : bool) (t : str) : list (list str) * option pyexc :=
  match t with
  | [] => if mid then ceol o eof else eof o
  | c :: t' =>
      match proc o (Some c) with
      | Err x => ([], Some x)
      | Ok o' => if brk c t' then ceol o' (fun o'' => ctrun o'' false t') else ctrun o' true t'
      end
  end.
Lemma ctrun_line t l rest : line_split t l rest -> forall o mid,
  ctrun o mid t = match c_chars w strict limit o l with
                  | Err x => ([], Some x)
                  | Ok o' => ceol o' (fun o'' => ctrun o'' false rest)
                  end.
Proof.
  induction 1 as [c t Hb|c|c t l rest Hb Hs IH]; intros o mid; cbn [ctrun c_chars].
  - destruct (proc o (Some c)) as [o'|x]; cbn [bind]; [|reflexivity]. now rewrite Hb.
  - destruct (proc o (Some c)) as [o'|x]; cbn [bind]; [|reflexivity]. now destruct (brk c []).
  - destruct (proc o (Some c)) as [o'|x]; cbn [bind]; [|reflexivity]. rewrite Hb. apply IH.
Qed.
Lemma run_text n : forall t, (length t <= n)%nat -> forall o, run o (univ_lines t) = ctrun o false t.
Proof.
  induction n as [|n IH]; intros t Hlen o; destruct t as [|c t]; try reflexivity; [cbn in Hlen; lia|].
  destruct (univ_lines_split (c :: t) [] ltac:(discriminate)) as (l & rest & Hs & He).
  destruct (line_split_app _ _ _ Hs) as [Happ Hne]. unfold univ_lines. rewrite He. cbn [app c_run].
  assert (Hlr : (length rest <= n)%nat).
  { apply (f_equal (@length N)) in Happ. rewrite app_length in Happ. destruct l; [congruence|]. cbn in *. lia. }
  rewrite (ctrun_line _ _ _ Hs). destruct (c_chars w strict limit o l) as [o1|x]; cbn [bind]; [|reflexivity].
  unfold ceol. destruct (proc o1 None) as [o2|x]; [|reflexivity].
  specialize (IH rest Hlr). unfold univ_lines in IH. rewrite !IH. destruct (c_state o2); try reflexivity.
  unfold ccons. now destruct (ctrun c_new false rest).
Qed.

Variable D : chars.
Hypothesis WF : wf_chars D = true.
Hypothesis CC : csv_chars w D.
Local Notation ob := mk_cobj (only parsing).

Lemma is_delim c : c_is (Some (wd_delim w)) (Some c) = is_opt (cd D) c.
Proof. now rewrite (cc_delim w D CC). Qed.
Lemma is_quote c : c_quote w (Some c) = is_opt (cq D) c.
Proof. rewrite (cc_quote w D CC). unfold c_quote. now destruct (wd_quoting w). Qed.
Lemma is_escape c : c_is (wd_escape w) (Some c) = is_opt (ce D) c.
Proof. now rewrite (cc_escape w D CC). Qed.
Lemma no_skip c : c_is (Some SPACE) c && wd_skipspace w = false.
Proof. rewrite (cc_space w D CC). apply andb_false_r. Qed.
Lemma c_add_ok o c st : (Z.of_nat (length (c_field o ++ [c])) <= limit)%Z -> c_add limit o c st = Ok (mk_cobj st (c_field o ++ [c]) (c_fields o)).
Proof.
  intros H. unfold c_add. rewrite app_length in H. cbn [length] in H. destruct (_ <=? _)%Z eqn:E; [apply Z.leb_le in E; lia|reflexivity].
Qed.

Lemma step o o' mid c t : proc o (Some c) = Ok o' -> is_nl c = false -> ctrun o mid (c :: t) = ctrun o' true t.
Proof. intros H Hn. cbn [ctrun]. now rewrite H, (not_nl_brk c t Hn). Qed.
Lemma ceol_noop st b fs k : noop st = true -> ceol (ob st b fs) k = k (ob st b fs).
Proof. intros H. unfold ceol. destruct st; try discriminate H; reflexivity. Qed.
Lemma mid_noop st b fs k : noop st = true -> ctrun (ob st b fs) false k = ctrun (ob st b fs) true k.
Proof. intros H. destruct k; [|reflexivity]. cbn [ctrun]. now rewrite ceol_noop. Qed.
Lemma step_noop o st b fs mid c t : proc o (Some c) = Ok (ob st b fs) -> noop st = true -> ctrun o mid (c :: t) = ctrun (ob st b fs) true t.
Proof. intros H Hn. cbn [ctrun]. rewrite H. destruct (brk c t); [|reflexivity]. rewrite ceol_noop by exact Hn. now apply mid_noop. Qed.

(** ** Inside quotes *)
Lemma citem i b fs mid k : wf_qitem D i = true -> std_qitem D i = true -> is_set (cq D) = true ->
  (Z.of_nat (length (b ++ qitem_value D i)) <= limit)%Z ->
  ctrun (ob IN_QUOTED_FIELD b fs) mid (render_qitem D i ++ k) = ctrun (ob IN_QUOTED_FIELD (b ++ qitem_value D i) fs) true k.
Proof.
  intros Hw Hs Hq HL. destruct i as [c| |c]; cbn in Hw.
  - bool_split. apply step_noop; [|reflexivity]. cbn [c_process c_state]. rewrite is_escape, is_quote, H0, H1. now rewrite c_add_ok.
  - destruct (cq D) as [q|] eqn:Eq; [|discriminate Hq]. destruct (quote_facts D WF q Eq) as (_ & Hqn & _ & Hqe).
    cbn [render_qitem]. rewrite Eq. cbn [opt_str app]. rewrite (step _ (ob QUOTE_IN_QUOTED_FIELD b fs)); [|cbn [c_process c_state]|exact Hqn].
    + apply step_noop; [|reflexivity]. cbn [c_process c_state]. rewrite is_quote, Eq, is_opt_refl. cbn [qitem_value] in HL |- *. rewrite Eq in HL |- *. now rewrite c_add_ok.
    + rewrite is_escape, Hqe, is_quote, Eq, is_opt_refl, (cc_double w D CC). reflexivity.
  - bool_split. destruct (ce D) as [e|] eqn:Ee; [|discriminate]. destruct (esc_facts D WF e Ee) as (_ & Hen & _ & _). cbn [std_qitem] in Hs.
    cbn [render_qitem]. rewrite Ee. cbn [opt_str app]. cbn [qitem_value] in HL |- *. rewrite Hs in HL |- *.
    rewrite (step _ (ob ESCAPE_IN_QUOTED_FIELD b fs)); [|cbn [c_process c_state]; now rewrite is_escape, Ee, is_opt_refl|exact Hen].
    apply step_noop; [|reflexivity]. cbn [c_process c_state]. now rewrite c_add_ok.
Qed.
Lemma citems l : forall b fs mid k, forallb (wf_qitem D) l = true -> forallb (std_qitem D) l = true -> is_set (cq D) = true ->
  (Z.of_nat (length (b ++ qitems_value D l)) <= limit)%Z ->
  ctrun (ob IN_QUOTED_FIELD b fs) mid (render_qitems D l ++ k) = ctrun (ob IN_QUOTED_FIELD (b ++ qitems_value D l) fs) true k.
Proof.
  induction l as [|i l IH]; intros b fs mid k Hw Hs Hq HL.
  - cbn. rewrite app_nil_r. destruct mid; [reflexivity|]. now apply mid_noop.
  - cbn [forallb] in Hw, Hs. apply andb_true_iff in Hw as [Hi Hl]. apply andb_true_iff in Hs as [Si Sl].
    unfold qitems_value, render_qitems in *. cbn [map concat] in *. rewrite !app_assoc in *. rewrite <- app_assoc.
    rewrite citem; [|exact Hi|exact Si|exact Hq|exact (len_app_le _ _ _ HL)]. now rewrite IH.
Qed.

(** ** Cells *)
Lemma cpiece p st b fs mid k : wf_piece D p = true -> std_piece D p = true -> uq st = true ->
  (Z.of_nat (length (b ++ piece_value D p)) <= limit)%Z ->
  ctrun (ob st b fs) mid (render_piece D p ++ k) = ctrun (ob (pst st p) (b ++ piece_value D p) fs) true k.
Proof.
  intros Hw Hs Hu HL. destruct p as [c|c|l]; [| |discriminate Hs].
  - cbn [wf_piece] in Hw. bool_split. unfold special in H0. bool_split. apply step; [|exact H1].
    cbn [pst piece_value]. cbn [piece_value] in HL.
    destruct st; try discriminate Hu; cbn [c_process c_state c_nl]; rewrite ?H1; unfold c_start_field, c_in_field; cbn [c_end c_state]; rewrite H1, ?no_skip, is_escape, is_delim, ?is_quote, ?H0, ?H2, ?H3; now rewrite c_add_ok.
  - cbn [wf_piece] in Hw. bool_split. destruct (ce D) as [e|] eqn:Ee; [|discriminate]. destruct (esc_facts D WF e Ee) as (_ & Hen & Hed & Heq). cbn [std_piece] in Hs.
    assert (Hv : piece_value D (PEsc c) = [c]).
    { cbn [piece_value]. unfold special. rewrite Ee in Hs |- *. destruct (is_opt (cd D) c), (is_opt (Some e) c), (is_nl c); try discriminate Hs; rewrite ?orb_true_r; reflexivity. }
    rewrite Hv in HL |- *. cbn [render_piece]. rewrite Ee. cbn [opt_str app].
    rewrite (step _ (ob ESCAPED_CHAR b fs)); [| |exact Hen].
    + cbn [pst]. destruct (is_nl c) eqn:En.
      * apply step_noop; [|reflexivity]. cbn [c_process c_state c_nl]. rewrite En. now rewrite c_add_ok.
      * apply step; [|exact En]. cbn [c_process c_state c_nl]. rewrite En. now rewrite c_add_ok.
    + destruct st; try discriminate Hu; cbn [c_process c_state c_nl]; rewrite ?Hen; unfold c_start_field, c_in_field; cbn [c_end]; rewrite Hen, ?is_quote, ?Heq, is_escape, Ee, is_opt_refl; reflexivity.
Qed.
Lemma cpieces ps : forall st b fs mid k, forallb (wf_piece D) ps = true -> forallb (std_piece D) ps = true -> uq st = true -> ps <> [] ->
  (Z.of_nat (length (b ++ raw_cell D ps)) <= limit)%Z ->
  ctrun (ob st b fs) mid (render_cell D ps ++ k) = ctrun (ob (fold_left pst ps st) (b ++ raw_cell D ps) fs) true k.
Proof.
  induction ps as [|p ps IH]; intros st b fs mid k Hw Hs Hu Hne HL; [now elim Hne|].
  cbn [forallb] in Hw, Hs. apply andb_true_iff in Hw as [Hp Hps]. apply andb_true_iff in Hs as [Sp Sps].
  unfold raw_cell, render_cell in *. cbn [map concat fold_left] in *. rewrite !app_assoc in *. rewrite <- app_assoc.
  rewrite cpiece; [|exact Hp|exact Sp|exact Hu|exact (len_app_le _ _ _ HL)].
  destruct ps as [|p' ps]; [cbn; now rewrite !app_nil_r|]. apply IH; [exact Hps|exact Sps|apply uq_pst|discriminate|exact HL].
Qed.

(** The value of a cell and the state behind it. *)
Definition cval (ps : list piece) : str := match ps with [PQuoted l] => qitems_value D l | _ => raw_cell D ps end.
Definition cst (st : pstate) (ps : list piece) : pstate := match ps with [PQuoted _] => QUOTE_IN_QUOTED_FIELD | _ => fold_left pst ps st end.
Definition closes (st : pstate) : bool := uq st || match st with QUOTE_IN_QUOTED_FIELD => true | _ => false end.
Definition raw_fits (s : str) : Prop := (Z.of_nat (length s) <= limit)%Z.
Definition std_or_quoted ps : std_cell D ps = true -> (exists l, ps = [PQuoted l] /\ forallb (std_qitem D) l = true) \/ (forallb (std_piece D) ps = true /\ cval ps = raw_cell D ps /\ forall st, cst st ps = fold_left pst ps st).
Proof.
  intros H. destruct ps as [|[c|c|l] ps]; try (right; repeat split; exact H). destruct ps as [|p ps]; [left; eauto|]. discriminate H.
Qed.
Lemma ccell ps st fs mid k : wf_cell D ps = true -> std_cell D ps = true -> st = START_RECORD \/ st = START_FIELD -> raw_fits (cval ps) ->
  ctrun (ob st [] fs) mid (render_cell D ps ++ k) = ctrun (ob (cst st ps) (cval ps) fs) (match ps with [] => mid | _ => true end) k.
Proof.
  intros Hw Hs Hst HL. assert (Hu : uq st = true) by now destruct Hst as [->| ->]. unfold wf_cell in Hw. apply andb_true_iff in Hw as [Hw _].
  destruct (std_or_quoted ps Hs) as [(l & -> & Hl)|(Hp & Ev & ->)].
  - cbn [forallb wf_piece] in Hw. rewrite andb_true_r in Hw. apply andb_true_iff in Hw as [Hq Hw]. cbn [cst cval] in *.
    destruct (cq D) as [q|] eqn:Eq; [|discriminate Hq]. destruct (quote_facts D WF q Eq) as (_ & Hqn & Hqd & Hqe).
    unfold raw_fits, render_cell in *. cbn [map concat render_piece]. rewrite !app_nil_r. rewrite Eq. cbn [opt_str app].
    rewrite (step _ (ob IN_QUOTED_FIELD [] fs)); [| |exact Hqn].
    + rewrite <- app_assoc. rewrite citems; [|exact Hw|exact Hl|now rewrite Eq|].
      * cbn [app]. apply step; [|exact Hqn]. cbn [c_process c_state]. rewrite is_escape, Hqe, is_quote, Eq, is_opt_refl, (cc_double w D CC). reflexivity.
      * exact HL.
    + destruct Hst as [->| ->]; cbn [c_process c_state c_nl]; rewrite ?Hqn; unfold c_start_field; cbn [c_end]; rewrite Hqn, is_quote, Eq, is_opt_refl; reflexivity.
  - rewrite Ev in HL |- *. destruct ps as [|p ps]; [reflexivity|]. now apply (cpieces (p :: ps) st [] fs mid k).
Qed.
Lemma closes_cst ps st : std_cell D ps = true -> uq st = true -> closes (cst st ps) = true.
Proof.
  intros Hs Hu. unfold closes. destruct (std_or_quoted ps Hs) as [(l & -> & _)|(_ & _ & ->)]; [reflexivity|]. rewrite uq_fold by exact Hu. reflexivity.
Qed.

(** ** Rows *)
Lemma cdelim st b fs mid d k : cd D = Some d -> closes st = true -> ctrun (ob st b fs) mid (d :: k) = ctrun (ob START_FIELD [] (fs ++ [b])) true k.
Proof.
  intros Ed Hc. destruct (delim_facts D WF d Ed) as (_ & Hdn & Hdq & Hde).
  apply step; [|exact Hdn].
  destruct st; try discriminate Hc; cbn [c_process c_state c_nl]; rewrite ?Hdn; unfold c_start_field, c_in_field; cbn [c_end]; rewrite ?Hdn, ?no_skip, ?is_quote, ?is_escape, ?is_delim, ?Hdq, ?Hde, Ed, is_opt_refl; reflexivity.
Qed.
Lemma nl_not_quote c : is_nl c = true -> is_opt (cq D) c = false.
Proof. intros H. destruct (is_opt (cq D) c) eqn:E; [|reflexivity]. apply is_opt_some in E. destruct (quote_facts D WF c E) as (_ & Hn & _). congruence. Qed.
Lemma nl_not_delim c : is_nl c = true -> is_opt (cd D) c = false.
Proof. intros H. destruct (is_opt (cd D) c) eqn:E; [|reflexivity]. apply is_opt_some in E. destruct (delim_facts D WF c E) as (_ & Hn & _). congruence. Qed.
Lemma ceol_run st b fs mid e k : closes st = true -> (e = ECR -> starts_lf k = false) ->
  ctrun (ob st b fs) mid (render_eol e ++ k) = ccons (match st with START_RECORD => fs | _ => fs ++ [b] end) (ctrun c_new false k).
Proof.
  intros Hc He.
  assert (Hnl : forall c, is_nl c = true -> exists b', proc (ob st b fs) (Some c) = Ok (ob EAT_CRNL b' (match st with START_RECORD => fs | _ => fs ++ [b] end))).
  { intros c Hn. destruct st; try discriminate Hc; cbn [c_process c_state c_nl]; rewrite ?Hn; unfold c_start_field, c_in_field; cbn [c_end c_after]; rewrite ?Hn, ?is_quote, ?is_delim, ?(nl_not_quote c Hn), ?(nl_not_delim c Hn); eexists; reflexivity. }
  assert (Heat : forall b' fs' k', ceol (ob EAT_CRNL b' fs') k' = ccons fs' (k' c_new)) by reflexivity.
  destruct e; cbn [render_eol app ctrun].
  - destruct (Hnl LF eq_refl) as [b' ->]. change (brk LF k) with true. apply Heat.
  - destruct (Hnl CR eq_refl) as [b' ->]. specialize (He eq_refl).
    assert (Hb : brk CR k = true). { unfold brk. destruct k as [|c k]; [reflexivity|]. cbn in He. now rewrite He. }
    rewrite Hb. apply Heat.
  - destruct (Hnl CR eq_refl) as [b' ->]. change (brk CR (LF :: k)) with false. cbv iota. cbn [c_process c_state c_nl]. change (is_nl LF) with true. cbv iota.
    change (brk LF k) with true. apply Heat.
Qed.
Lemma fold_pst_start p ps st : uq st = true -> fold_left pst (p :: ps) st <> START_RECORD.
Proof. intros Hu E. rewrite fold_pst_field in E; [|exact Hu|discriminate]. destruct (after_esc_nl _ _); discriminate E. Qed.
Lemma cst_start ps st : std_cell D ps = true -> uq st = true -> ps <> [] \/ st = START_FIELD -> cst st ps <> START_RECORD.
Proof.
  intros Hs Hu H. destruct (std_or_quoted ps Hs) as [(l & -> & _)|(_ & _ & ->)]; [discriminate|]. destruct ps as [|p ps]; [|now apply fold_pst_start].
  destruct H as [H| ->]; [now elim H|discriminate].
Qed.
Lemma crow_gen cells : forall st fs mid, st = START_RECORD \/ st = START_FIELD -> cells <> [] -> (st = START_RECORD -> cells <> [[]]) ->
  forallb (wf_cell D) cells = true -> forallb (std_cell D) cells = true -> Forall raw_fits (map cval cells) ->
  exists st' b fs' , fs' ++ [b] = fs ++ map cval cells /\ closes st' = true /\ st' <> START_RECORD /\
    (exists st0, (st0 = START_RECORD \/ st0 = START_FIELD) /\ (st0 = START_FIELD \/ List.last cells [] <> []) /\ st' = cst st0 (List.last cells [])) /\ b = cval (List.last cells []) /\
    forall k, ctrun (ob st [] fs) mid (render_row D cells ++ k) = ctrun (ob st' b fs') (match cells with [[]] => mid | _ => true end) k.
Proof.
  induction cells as [|ps cells IH]; intros st fs mid Hst Hne Hr Hw Hs HL; [now elim Hne|]. assert (Hu : uq st = true) by now destruct Hst as [->| ->].
  cbn [forallb] in Hw, Hs. apply andb_true_iff in Hw as [Hps Hcs]. apply andb_true_iff in Hs as [Sps Scs]. cbn [map] in HL. inversion HL as [|x xs HL1 HL2]; subst x xs.
  destruct cells as [|ps' cells].
  - assert (Hn : st = START_FIELD \/ ps <> []). { destruct ps; [|right; discriminate]. left. destruct Hst as [Hst|Hst]; [|exact Hst]. now elim (Hr Hst). }
    exists (cst st ps), (cval ps), fs. repeat split.
    + now apply closes_cst.
    + apply cst_start; [exact Sps|exact Hu|]. tauto.
    + exists st. repeat split; [exact Hst|exact Hn].
    + intros k. unfold render_row. cbn [map join]. rewrite ccell by assumption. now destruct ps.
  - destruct (cd D) as [d|] eqn:Ed; [|rewrite (cc_delim w D CC) in Ed; discriminate Ed].
    destruct (IH START_FIELD (fs ++ [cval ps]) true (or_intror eq_refl) ltac:(discriminate) ltac:(discriminate) Hcs Scs HL2) as (st' & b & fs' & E & H1 & H2 & H3 & H4 & H5).
    exists st', b, fs'. repeat split; try assumption.
    + rewrite E, <- app_assoc. reflexivity.
    + intros k. rewrite (render_row_cons D). rewrite Ed. cbn [opt_str]. rewrite <- !app_assoc. cbn [app]. rewrite ccell by assumption.
      rewrite (cdelim _ _ _ _ d); [|exact Ed|now apply closes_cst]. rewrite H5. destruct ps, ps', cells; reflexivity.
Qed.
Lemma wf_row_cells cells : wf_row D cells = true -> forallb (wf_cell D) cells = true /\ cells <> [[]].
Proof. unfold wf_row. intros H. apply andb_true_iff in H as [H1 H2]. split; [exact H1|]. intros ->. discriminate H2. Qed.
Lemma crow cells e k : wf_row D cells = true -> forallb (std_cell D) cells = true -> (e = ECR -> starts_lf k = false) -> Forall raw_fits (map cval cells) ->
  ctrun c_new false (render_row D cells ++ render_eol e ++ k) = ccons (map cval cells) (ctrun c_new false k).
Proof.
  intros Hw Hs He HL. destruct (wf_row_cells cells Hw) as [Hc Hn]. destruct cells as [|ps cells]; [exact (ceol_run START_RECORD [] [] false e k eq_refl He)|].
  destruct (crow_gen (ps :: cells) START_RECORD [] false (or_introl eq_refl) ltac:(discriminate) (fun _ => Hn) Hc Hs HL) as (st' & b & fs' & E & H1 & H2 & _ & _ & H5).
  unfold c_new at 1. rewrite H5, ceol_run by assumption. f_equal. cbn [app] in E. rewrite <- E. destruct st'; try reflexivity. now elim H2.
Qed.
Lemma ctail cells : wf_tail D (TRow cells) = true -> forallb (std_cell D) cells = true -> strict = false \/ after_esc_nl false (List.last cells []) = false ->
  Forall raw_fits (map cval cells) -> ctrun c_new false (render_row D cells) = ([map cval cells], None).
Proof.
  intros Hw Hs Hst HL. cbn [wf_tail] in Hw. apply andb_true_iff in Hw as [Hw Hne]. destruct (wf_row_cells cells Hw) as [Hc Hn]. assert (Hne' : cells <> []) by (destruct cells; [discriminate Hne|discriminate]).
  destruct (crow_gen cells START_RECORD [] false (or_introl eq_refl) Hne' (fun _ => Hn) Hc Hs HL) as (st' & b & fs' & E & H1 & H2 & (st0 & Hu0 & Hl & H3) & H4 & H5).
  rewrite <- (app_nil_r (render_row D cells)). unfold c_new. rewrite H5. cbn [app] in E. rewrite <- E. cbn [ctrun].
  replace (match cells with [[]] => false | _ => true end) with true by (destruct cells as [|[|p ps] [|ps' cells]]; try reflexivity; now elim Hn).
  assert (Hlast : In (List.last cells []) cells).
  { destruct (exists_last Hne') as (cs & c & ->). rewrite last_last. apply in_or_app. right. now left. }
  assert (Hend : forall st b fs, closes st = true -> st <> START_RECORD -> st <> AFTER_ESCAPED_CRNL -> ceol (ob st b fs) eof = ([fs ++ [b]], None)).
  { intros st b0 fs K1 K2 K3. destruct st; try discriminate K1; try (now elim K2); try (now elim K3); unfold ceol; cbn [c_process c_state]; try reflexivity.
    unfold c_quote. destruct (wd_quoting w); reflexivity. }
  assert (Hdec : st' = AFTER_ESCAPED_CRNL \/ st' <> AFTER_ESCAPED_CRNL) by (destruct st'; (now left) || (right; discriminate)).
  destruct Hdec as [Ha|Ha]; [|now apply Hend]. subst st'.
  (* behind an escaped newline *)
  assert (Hso := proj1 (forallb_forall _ _) Hs _ Hlast). assert (Hwo := proj1 (forallb_forall _ _) Hc _ Hlast).
  destruct (std_or_quoted _ Hso) as [(l & El & _)|(_ & Ev & Ec)]; [rewrite El in Ha; discriminate Ha|]. rewrite Ec in *.
  assert (Hln : List.last cells [] <> []). { intros El. rewrite El in Ha. cbn in Ha. destruct Hu0 as [->| ->]; discriminate Ha. }
  assert (Hb : b <> []). { rewrite H4, Ev. intros Eb. apply (raw_cell_nil D) in Eb; [now elim Hln|exact Hwo]. }
  rewrite Ha. rewrite ceol_noop by reflexivity. unfold c_eof. cbn [c_field c_state c_fields].
  destruct Hst as [->|Hst]; [destruct b; [now elim Hb|reflexivity]|exfalso].
  rewrite fold_pst_field in Ha; [|now destruct Hu0 as [->| ->]|exact Hln].
  replace (match st0 with AFTER_ESCAPED_CRNL => true | _ => false end) with false in Ha by now destruct Hu0 as [->| ->].
  rewrite Hst in Ha. discriminate Ha.
Qed.

(** ** Documents *)
Definition cells_of (d : doc) : list (list (list piece)) :=
  map fst (records d) ++ match last d with TRow cells => [cells] | _ => [] end.
Lemma crecords rs t : wf_records D rs = true -> wf_tail D t = true -> std_doc D (mk_doc rs t) = true ->
  (match t with TRow cells => strict = false \/ after_esc_nl false (List.last cells []) = false | _ => True end) ->
  Forall raw_fits (concat (map (map cval) (cells_of (mk_doc rs t)))) ->
  ctrun c_new false (render D (mk_doc rs t)) = (map (map cval) (cells_of (mk_doc rs t)), None).
Proof.
  intros Hw Ht Hs Hst HL. induction rs as [|[cells e] rs IH].
  - unfold std_doc in Hs. cbn [records last forallb andb] in Hs. unfold render, cells_of in *. cbn [records last map concat app] in *.
    destruct t as [|cells|cells ps|cells ps l|cells ps l]; try discriminate Hs; [reflexivity|]. cbn [map concat] in *. rewrite app_nil_r in HL. now apply ctail.
  - cbn [wf_records] in Hw. apply andb_true_iff in Hw as [Hw Hrs]. apply andb_true_iff in Hw as [Hrow Hcr].
    unfold std_doc in Hs. cbn [records last forallb fst] in Hs. rewrite <- andb_assoc in Hs. apply andb_true_iff in Hs as [Sc Hs].
    unfold cells_of in HL. cbn [records last map concat fst app] in HL. apply Forall_app in HL as [HL1 HL2].
    specialize (IH Hrs Hs HL2). unfold render in *. cbn [records last map concat] in *. unfold render_record at 1. cbn [fst snd]. rewrite <- !app_assoc.
    rewrite crow; [|exact Hrow|exact Sc| |exact HL1].
    + rewrite IH. reflexivity.
    + intros ->. destruct rs as [|[cells' e'] rs].
      * cbn [map concat app]. now apply (tail_starts_lf D WF).
      * cbn [map concat]. unfold render_record at 1. cbn [fst snd]. cbn [wf_records] in Hrs. apply andb_true_iff in Hrs as [Hrs _]. apply andb_true_iff in Hrs as [Hrs _].
        destruct cells' as [|c' cells']; [destruct e'; try discriminate Hcr; reflexivity|]. rewrite <- !app_assoc. apply (row_starts_lf D WF); [exact Hrs|discriminate].
Qed.

(** The values are those that the layout denotes. *)
Lemma not_enclosed s : (forall x, In x s -> is_opt (cq D) x = false) -> unquote D s = (s, false).
Proof.
  intros H. unfold unquote, enclosed. destruct s as [|c [|c' s]]; try reflexivity. now rewrite (H c (or_introl eq_refl)).
Qed.
Lemma special_quote c : is_opt (cd D) c || is_opt (ce D) c || is_nl c = true -> is_opt (cq D) c = false.
Proof.
  intros H. destruct (is_opt (cq D) c) eqn:E; [|reflexivity]. apply is_opt_some in E. destruct (quote_facts D WF c E) as (_ & H1 & H2 & H3). now rewrite H1, H2, H3 in H.
Qed.
Lemma std_no_quote ps : forallb (wf_piece D) ps = true -> forallb (std_piece D) ps = true -> forall x, In x (raw_cell D ps) -> is_opt (cq D) x = false.
Proof.
  intros Hw Hs x Hx. unfold raw_cell in Hx. apply in_concat in Hx as (v & Hv & Hx). apply in_map_iff in Hv as (p & <- & Hp).
  apply (proj1 (forallb_forall _ _)) with (x := p) in Hw; [|exact Hp]. apply (proj1 (forallb_forall _ _)) with (x := p) in Hs; [|exact Hp].
  destruct p as [c|c|l]; cbn [piece_value wf_piece std_piece] in *; [| |discriminate Hs].
  - destruct Hx as [<-|[]]. bool_split. unfold special in H0. bool_split. assumption.
  - assert (E : special D c || is_nl c = true). { unfold special. destruct (is_opt (cd D) c), (is_opt (ce D) c), (is_nl c); try discriminate Hs; now rewrite ?orb_true_r. }
    rewrite E in Hx. destruct Hx as [<-|[]]. now apply special_quote.
Qed.
Lemma cval_value ps : wf_cell D ps = true -> std_cell D ps = true ->
  fst (cell_value D ps) = cval ps /\ (after_esc_nl false ps = true -> fst (unquote_at_end D (raw_cell D ps)) = cval ps).
Proof.
  intros Hw Hs. unfold wf_cell in Hw. apply andb_true_iff in Hw as [Hw _]. destruct (std_or_quoted ps Hs) as [(l & -> & Hl)|(Hp & -> & _)].
  - split; [|discriminate]. cbn [forallb wf_piece] in Hw. destruct (cq D) as [q|] eqn:Eq; [|discriminate Hw].
    unfold cell_value, raw_cell. cbn [map concat piece_value cval]. rewrite app_nil_r, Eq. cbn [opt_str app]. unfold unquote, enclosed.
    destruct (qitems_value D l ++ [q]) as [|c s] eqn:Er; [now destruct (qitems_value D l)|]. rewrite <- Er. rewrite last_last, Eq, is_opt_refl. cbn [andb fst tl]. apply removelast_last.
  - assert (Hq := std_no_quote ps Hw Hp). split.
    + unfold cell_value. now rewrite not_enclosed.
    + intros _. unfold unquote_at_end. rewrite not_enclosed by exact Hq. destruct (raw_cell D ps) as [|c s]; [reflexivity|]. now rewrite (Hq c (or_introl eq_refl)).
Qed.
Lemma cval_row cells : forallb (wf_cell D) cells = true -> forallb (std_cell D) cells = true -> map fst (map (cell_value D) cells) = map cval cells.
Proof.
  intros Hw Hs. rewrite map_map. apply map_ext_in. intros ps Hp. apply (proj1 (forallb_forall _ _)) with (x := ps) in Hw; [|exact Hp]. apply (proj1 (forallb_forall _ _)) with (x := ps) in Hs; [|exact Hp].
  now apply cval_value.
Qed.
Lemma wf_records_rows rs : wf_records D rs = true -> forall r, In r rs -> forallb (wf_cell D) (fst r) = true.
Proof.
  induction rs as [|[cells e] rs IH]; intros H r Hr; [destruct Hr|]. cbn [wf_records] in H. apply andb_true_iff in H as [H H2]. apply andb_true_iff in H as [H _].
  destruct Hr as [<-|Hr]; [|now apply IH]. now apply wf_row_cells.
Qed.
Lemma cval_doc d : wf_doc D d = true -> std_doc D d = true -> map (map fst) (denote D d) = map (map cval) (cells_of d).
Proof.
  intros Hw Hs. unfold wf_doc in Hw. apply andb_true_iff in Hw as [Hw Ht]. unfold std_doc in Hs. apply andb_true_iff in Hs as [Hs St]. unfold denote, cells_of. rewrite !map_app. f_equal.
  - rewrite !map_map. apply map_ext_in. intros r Hr. apply cval_row; [now apply wf_records_rows with (records d)|]. exact (proj1 (forallb_forall _ _) Hs r Hr).
  - destruct (last d) as [|cells|cells ps|cells ps l|cells ps l]; try discriminate St; [reflexivity|]. cbn [wf_tail] in Ht. apply andb_true_iff in Ht as [Ht Hne].
    apply wf_row_cells in Ht as [Hc _]. destruct (exists_last (l := cells)) as (cs & ps & ->); [now destruct cells|]. cbn [tail_value]. rewrite removelast_last, last_last.
    rewrite forallb_app in Hc, St. apply andb_true_iff in Hc as [Hc Hp]. apply andb_true_iff in St as [Sc Sp]. cbn [forallb] in Hp, Sp. rewrite andb_true_r in Hp, Sp.
    cbn [map]. rewrite !map_app, cval_row by assumption. cbn [map]. destruct (cval_value ps Hp Sp) as [V1 V2]. destruct (after_esc_nl false ps); [now rewrite V2|now rewrite V1].
Qed.
Lemma csv_reads d : wf_doc D d = true -> std_doc D d = true -> strict = false \/ last d = TEnd ->
  Forall (fun s => (Z.of_nat (length s) <= limit)%Z) (concat (map (map fst) (denote D d))) ->
  csv_reader w strict limit (render D d) = (map (map fst) (denote D d), None).
Proof.
  intros Hw Hs Hst HL. rewrite cval_doc in HL |- * by assumption. unfold csv_reader. rewrite (run_text (length (render D d))) by lia.
  unfold wf_doc in Hw. apply andb_true_iff in Hw as [Hw Ht]. destruct d as [rs t]. apply crecords; try assumption. cbn [last] in Hst. destruct t; try exact I.
  destruct Hst as [Hst|Hst]; [now left|discriminate Hst].
Qed.
End Text.
