(** * CsvLayoutFacts: csv.reader reads layouts that it does not cut *)
From Verif Require Import Base Parser Dialect ParserFacts SpecLayout SpecParse LayoutFacts CsvLib CsvReader SpecCsvReader CsvReaderFacts SpecCsvLayout.

Section Text.
Variable w : wdialect.
Variable limit : Z.
Variable D : chars.
Hypothesis WF : wf_chars D = true.
Hypothesis CC : csv_chars w D.
Local Notation ob := mk_cobj (only parsing).
Local Notation proc := (c_process w false limit).
Local Notation ctrun := (ctrun w false limit).
Local Notation ceol := (ceol w false limit).
Local Notation fits s := (Z.of_nat (length s) <= limit)%Z (only parsing).

(** ** Single characters in a cell *)
Inductive atom := APlain (c : N) | AEsc (c : N).
Definition achar (a : atom) : N := match a with APlain c => c | AEsc c => c end.
Definition arender (a : atom) : str := match a with APlain c => [c] | AEsc c => opt_str (ce D) ++ [c] end.
Definition aok (a : atom) : bool :=
  match a with APlain c => negb (is_opt (ce D) c) && negb (is_opt (cd D) c) && negb (is_nl c) | AEsc _ => is_set (ce D) end.
Definition anext (st : pstate) (a : atom) : pstate :=
  match a with
  | APlain _ => match st with AFTER_ESCAPED_CRNL => AFTER_ESCAPED_CRNL | _ => IN_FIELD end
  | AEsc c => if is_nl c then AFTER_ESCAPED_CRNL else IN_FIELD
  end.
Definition infield (st : pstate) : bool := match st with IN_FIELD | AFTER_ESCAPED_CRNL => true | _ => false end.
Lemma infield_anext st a : infield (anext st a) = true.
Proof. destruct a as [c|c]; cbn; [now destruct st|now destruct (is_nl c)]. Qed.
Lemma infield_fold l : forall st, infield st = true -> infield (fold_left anext l st) = true.
Proof. induction l as [|a l IH]; intros st H; [exact H|]. cbn. apply IH, infield_anext. Qed.

Lemma fits_add o c st : fits (c_field o ++ [c]) -> c_add limit o c st = Ok (ob st (c_field o ++ [c]) (c_fields o)).
Proof. exact (c_add_ok limit o c st). Qed.
(** An escaped character, from any state in which the escape character is one. *)
Lemma escaped_run st b fs mid e c k : ce D = Some e -> proc (ob st b fs) (Some e) = Ok (ob ESCAPED_CHAR b fs) -> fits (b ++ [c]) ->
  ctrun (ob st b fs) mid (e :: c :: k) = ctrun (ob (if is_nl c then AFTER_ESCAPED_CRNL else IN_FIELD) (b ++ [c]) fs) true k.
Proof.
  intros Ee Hp HL. destruct (esc_facts D WF e Ee) as (_ & Hen & _). rewrite (step w false limit _ _ _ _ _ Hp Hen).
  destruct (is_nl c) eqn:En.
  - apply step_noop; [|reflexivity]. cbn [c_process c_state c_nl]. rewrite En. now rewrite fits_add.
  - apply step; [|exact En]. cbn [c_process c_state c_nl]. rewrite En. now rewrite fits_add.
Qed.
Lemma atom_run a st b fs k : aok a = true -> infield st = true -> fits (b ++ [achar a]) ->
  ctrun (ob st b fs) true (arender a ++ k) = ctrun (ob (anext st a) (b ++ [achar a]) fs) true k.
Proof.
  intros Ha Hs HL. destruct a as [c|c]; cbn [aok achar arender anext app] in *.
  - bool_split. apply step; [|assumption].
    destruct st; try discriminate Hs; cbn [c_process c_state]; unfold c_in_field; cbn [c_end c_state c_char]; rewrite H0, (is_escape w D CC), (is_delim w D CC), H, H1; now rewrite fits_add.
  - destruct (ce D) as [e|] eqn:Ee; [|discriminate Ha]. cbn [opt_str app]. apply escaped_run; [exact Ee| |exact HL]. destruct (esc_facts D WF e Ee) as (_ & Hen & _).
    destruct st; try discriminate Hs; cbn [c_process c_state]; unfold c_in_field; cbn [c_end]; rewrite Hen, (is_escape w D CC), Ee, is_opt_refl; reflexivity.
Qed.
Lemma atoms_run l : forall st b fs k, forallb aok l = true -> infield st = true -> fits (b ++ map achar l) ->
  ctrun (ob st b fs) true (concat (map arender l) ++ k) = ctrun (ob (fold_left anext l st) (b ++ map achar l) fs) true k.
Proof.
  induction l as [|a l IH]; intros st b fs k Ha Hs HL; cbn [map concat fold_left app]; [now rewrite app_nil_r|].
  cbn [forallb] in Ha. apply andb_true_iff in Ha as [H1 H2]. rewrite <- app_assoc.
  assert (E : b ++ map achar (a :: l) = (b ++ [achar a]) ++ map achar l) by (rewrite <- app_assoc; reflexivity).
  rewrite E in HL. rewrite atom_run; [|exact H1|exact Hs|exact (len_app_le _ _ _ HL)].
  rewrite IH; [|exact H2|apply infield_anext|exact HL]. rewrite <- app_assoc. reflexivity.
Qed.

(** ** Pieces behind the start of a cell *)
Definition atoms_item (i : qitem) : list atom :=
  match i with
  | QChar c => [APlain c]
  | QQuote => map APlain (opt_str (cq D) ++ opt_str (cq D))
  | QEsc c => [AEsc c]
  end.
Definition atoms_items (l : list qitem) : list atom := concat (map atoms_item l).
Definition atoms_piece (p : piece) : list atom :=
  match p with
  | PChar c => [APlain c]
  | PEsc c => [AEsc c]
  | PQuoted l => map APlain (opt_str (cq D)) ++ atoms_items l ++ map APlain (opt_str (cq D))
  end.
Definition atoms (ps : list piece) : list atom := concat (map atoms_piece ps).
Lemma plain_render s : concat (map arender (map APlain s)) = s.
Proof. induction s as [|c s IH]; [reflexivity|]. cbn. now rewrite IH. Qed.
Lemma plain_chars s : map achar (map APlain s) = s.
Proof. rewrite map_map. apply map_id. Qed.
Lemma items_atoms l : concat (map arender (atoms_items l)) = render_qitems D l /\ map achar (atoms_items l) = csv_items D l.
Proof.
  unfold atoms_items, render_qitems, csv_items. induction l as [|i l [IH1 IH2]]; [now split|]. cbn [map concat]. rewrite !map_app, concat_app, IH1, IH2.
  destruct i as [c| |c]; cbn [atoms_item render_qitem csv_item]; rewrite ?plain_render, ?plain_chars; cbn; rewrite ?app_nil_r; now split.
Qed.
Lemma piece_atoms p : concat (map arender (atoms_piece p)) = render_piece D p /\ map achar (atoms_piece p) = csv_piece D p.
Proof.
  destruct p as [c|c|l]; cbn [atoms_piece render_piece csv_piece]; [now split|cbn; now rewrite app_nil_r|]. destruct (items_atoms l) as [H1 H2]. rewrite !map_app, !concat_app, plain_render, plain_chars, H1, H2. now split.
Qed.
Lemma pieces_atoms ps : concat (map arender (atoms ps)) = render_cell D ps /\ map achar (atoms ps) = concat (map (csv_piece D) ps).
Proof.
  unfold atoms, render_cell. induction ps as [|p ps [IH1 IH2]]; [now split|]. cbn [map concat]. destruct (piece_atoms p) as [H1 H2]. rewrite !map_app, concat_app, IH1, IH2, H1, H2. now split.
Qed.
Lemma quote_aok : forallb aok (map APlain (opt_str (cq D))) = true.
Proof.
  destruct (cq D) as [q|] eqn:Eq; [|reflexivity]. destruct (quote_facts D WF q Eq) as (_ & H1 & H2 & H3). cbn. now rewrite H1, H2, H3.
Qed.
Lemma items_aok l : forallb (wf_qitem D) l = true -> forallb (uncut_item D) l = true -> forallb aok (atoms_items l) = true.
Proof.
  unfold atoms_items. induction l as [|i l IH]; intros Hw Hu; [reflexivity|]. cbn [forallb] in Hw, Hu. apply andb_true_iff in Hw as [W1 W2]. apply andb_true_iff in Hu as [U1 U2].
  cbn [map concat]. rewrite forallb_app, (IH W2 U2), andb_true_r. destruct i as [c| |c]; cbn [atoms_item wf_qitem uncut_item] in *.
  - bool_split. cbn. now rewrite H, H0, H2.
  - rewrite map_app, forallb_app, quote_aok. reflexivity.
  - bool_split. cbn. now rewrite H.
Qed.
Lemma pieces_aok ps : forallb (wf_piece D) ps = true -> forallb (uncut_piece D) ps = true -> forallb aok (atoms ps) = true.
Proof.
  unfold atoms. induction ps as [|p ps IH]; intros Hw Hu; [reflexivity|]. cbn [forallb] in Hw, Hu. apply andb_true_iff in Hw as [W1 W2]. apply andb_true_iff in Hu as [U1 U2].
  cbn [map concat]. rewrite forallb_app, (IH W2 U2), andb_true_r. destruct p as [c|c|l]; cbn [atoms_piece wf_piece uncut_piece] in *.
  - bool_split. unfold special in H0. bool_split. cbn. now rewrite H0, H1, H2.
  - bool_split. cbn. now rewrite H.
  - apply andb_true_iff in W1 as [_ W1]. now rewrite !forallb_app, quote_aok, items_aok.
Qed.

(** ** Quotes at the start of a cell *)
Lemma inside_run i b fs mid k : wf_qitem D i = true -> is_set (cq D) = true -> fits (b ++ csv_inside D i) ->
  ctrun (ob IN_QUOTED_FIELD b fs) mid (render_qitem D i ++ k) = ctrun (ob IN_QUOTED_FIELD (b ++ csv_inside D i) fs) true k.
Proof.
  intros Hw Hq HL. destruct i as [c| |c].
  - exact (citem w false limit D WF CC (QChar c) b fs mid k Hw eq_refl Hq HL).
  - exact (citem w false limit D WF CC QQuote b fs mid k Hw eq_refl Hq HL).
  - cbn [wf_qitem] in Hw. apply andb_true_iff in Hw as [Hw _]. cbn [csv_inside render_qitem] in *. destruct (ce D) as [e|] eqn:Ee; [|discriminate Hw]. cbn [opt_str app]. destruct (esc_facts D WF e Ee) as (_ & Hen & _).
    rewrite (step w false limit _ (ob ESCAPE_IN_QUOTED_FIELD b fs)); [|cbn [c_process c_state]; now rewrite (is_escape w D CC), Ee, is_opt_refl|exact Hen].
    apply step_noop; [|reflexivity]. cbn [c_process c_state]. now rewrite fits_add.
Qed.
Lemma insides_run l : forall b fs mid k, forallb (wf_qitem D) l = true -> is_set (cq D) = true -> fits (b ++ concat (map (csv_inside D) l)) ->
  ctrun (ob IN_QUOTED_FIELD b fs) mid (render_qitems D l ++ k) = ctrun (ob IN_QUOTED_FIELD (b ++ concat (map (csv_inside D) l)) fs) true k.
Proof.
  induction l as [|i l IH]; intros b fs mid k Hw Hq HL.
  - cbn. rewrite app_nil_r. destruct mid; [reflexivity|]. now apply mid_noop.
  - cbn [forallb] in Hw. apply andb_true_iff in Hw as [Hi Hl]. unfold render_qitems in *. cbn [map concat] in *. rewrite !app_assoc in *. rewrite <- app_assoc.
    rewrite inside_run; [|exact Hi|exact Hq|exact (len_app_le _ _ _ HL)]. now rewrite IH.
Qed.
Lemma open_run st fs mid q k : st = START_RECORD \/ st = START_FIELD -> cq D = Some q ->
  ctrun (ob st [] fs) mid (q :: k) = ctrun (ob IN_QUOTED_FIELD [] fs) true k.
Proof.
  intros Hst Eq. destruct (quote_facts D WF q Eq) as (_ & Hqn & _). apply step; [|exact Hqn].
  destruct Hst as [->| ->]; cbn [c_process c_state c_nl]; rewrite ?Hqn; unfold c_start_field; cbn [c_end]; rewrite Hqn, (is_quote w D CC), Eq, is_opt_refl; reflexivity.
Qed.
Lemma close_run b fs mid q k : cq D = Some q -> ctrun (ob IN_QUOTED_FIELD b fs) mid (q :: k) = ctrun (ob QUOTE_IN_QUOTED_FIELD b fs) true k.
Proof.
  intros Eq. destruct (quote_facts D WF q Eq) as (_ & Hqn & _ & Hqe). apply step; [|exact Hqn].
  cbn [c_process c_state]. rewrite (is_escape w D CC), Hqe, (is_quote w D CC), Eq, is_opt_refl, (cc_double w D CC). reflexivity.
Qed.

(** ** Cells *)
Definition cell_end (st : pstate) (ps : list piece) (st' : pstate) : Prop :=
  match ps with
  | [] => st' = st
  | [PQuoted _] => st' = QUOTE_IN_QUOTED_FIELD
  | _ => infield st' = true
  end.
Lemma start_piece p st fs mid k : wf_piece D p = true -> (forall l, p <> PQuoted l) -> st = START_RECORD \/ st = START_FIELD -> fits (csv_piece D p) ->
  exists st', infield st' = true /\ ctrun (ob st [] fs) mid (render_piece D p ++ k) = ctrun (ob st' (csv_piece D p) fs) true k.
Proof.
  intros Hw Hp Hst HL. destruct p as [c|c|l]; [| |now elim (Hp l)].
  - exists IN_FIELD. split; [reflexivity|]. cbn [wf_piece] in Hw. bool_split. unfold special in H0. bool_split. apply step; [|exact H1].
    destruct Hst as [->| ->]; cbn [c_process c_state c_nl]; rewrite ?H1; unfold c_start_field; cbn [c_end c_char]; rewrite H1, (no_skip w D CC), (is_escape w D CC), (is_delim w D CC), (is_quote w D CC), H0, H2, H3; exact (fits_add (ob _ [] fs) c IN_FIELD HL).
  - cbn [wf_piece] in Hw. apply andb_true_iff in Hw as [Hw _]. cbn [render_piece csv_piece] in *. destruct (ce D) as [e|] eqn:Ee; [|discriminate Hw]. cbn [opt_str app].
    destruct (esc_facts D WF e Ee) as (_ & Hen & Hed & Heq). exists (if is_nl c then AFTER_ESCAPED_CRNL else IN_FIELD). split; [now destruct (is_nl c)|]. apply (escaped_run st [] fs mid e c k Ee); [|exact HL].
    destruct Hst as [->| ->]; cbn [c_process c_state c_nl]; rewrite ?Hen; unfold c_start_field; cbn [c_end]; rewrite Hen, (is_quote w D CC), Heq, (is_escape w D CC), Ee, is_opt_refl; reflexivity.
Qed.
Lemma behind_quote c b fs k : wf_piece D (PChar c) = true -> fits (b ++ [c]) ->
  ctrun (ob QUOTE_IN_QUOTED_FIELD b fs) true (c :: k) = ctrun (ob IN_FIELD (b ++ [c]) fs) true k.
Proof.
  intros Hw HL. cbn [wf_piece] in Hw. bool_split. unfold special in H0. bool_split. apply step; [|exact H1].
  cbn [c_process c_state]. rewrite (is_quote w D CC), H3, (is_delim w D CC), H0. cbn [c_end negb c_char]. rewrite H1. now rewrite fits_add.
Qed.
Lemma cell_run ps st fs mid k : wf_cell D ps = true -> uncut_cell D ps = true -> st = START_RECORD \/ st = START_FIELD -> fits (csv_cell D ps) ->
  exists st', cell_end st ps st' /\ ctrun (ob st [] fs) mid (render_cell D ps ++ k) = ctrun (ob st' (csv_cell D ps) fs) (match ps with [] => mid | _ => true end) k.
Proof.
  intros Hw Hu Hst HL. unfold wf_cell in Hw. apply andb_true_iff in Hw as [Hw Ha]. destruct ps as [|p ps]; [exists st; now split|].
  cbn [forallb] in Hw. apply andb_true_iff in Hw as [Hp Hps].
  assert (Hlate : forall st1 b, infield st1 = true -> forallb (uncut_piece D) ps = true -> fits (b ++ concat (map (csv_piece D) ps)) ->
     exists st', infield st' = true /\ ctrun (ob st1 b fs) true (render_cell D ps ++ k) = ctrun (ob st' (b ++ concat (map (csv_piece D) ps)) fs) true k).
  { intros st1 b H1 H2 H3. exists (fold_left anext (atoms ps) st1). split; [now apply infield_fold|]. destruct (pieces_atoms ps) as [E1 E2]. rewrite <- E1, <- E2 in *. apply atoms_run; [now apply pieces_aok|exact H1|exact H3]. }
  unfold render_cell. cbn [map concat]. rewrite <- app_assoc.
  assert (Hgen : (forall l, p <> PQuoted l) -> exists st', infield st' = true /\ ctrun (ob st [] fs) mid (render_piece D p ++ concat (map (render_piece D) ps) ++ k) = ctrun (ob st' (csv_cell D (p :: ps)) fs) true k).
  { intros Hn. assert (EC : csv_cell D (p :: ps) = csv_piece D p ++ concat (map (csv_piece D) ps)) by (destruct p as [c|c|l]; try reflexivity; now elim (Hn l)).
    rewrite EC in *. destruct (start_piece p st fs mid (concat (map (render_piece D) ps) ++ k) Hp Hn Hst (len_app_le _ _ _ HL)) as (st1 & I1 & ->).
    apply Hlate; [exact I1| |exact HL]. destruct p as [c|c|l]; [exact Hu|exact Hu|now elim (Hn l)]. }
  destruct p as [c|c|l].
  - destruct Hgen as (st' & H1 & H2); [discriminate|]. exists st'. split; [exact H1|exact H2].
  - destruct Hgen as (st' & H1 & H2); [discriminate|]. exists st'. split; [exact H1|exact H2].
  - clear Hgen. cbn [wf_piece] in Hp. apply andb_true_iff in Hp as [Hq Hp]. destruct (cq D) as [q|] eqn:Eq; [|discriminate Hq]. cbn [csv_cell] in *.
    cbn [render_piece]. rewrite Eq. cbn [opt_str app]. rewrite (open_run st fs mid q _ Hst Eq). rewrite <- !app_assoc. rewrite insides_run; [|exact Hp|now rewrite Eq|exact (len_app_le _ _ _ HL)].
    cbn [app]. rewrite (close_run _ _ _ q _ Eq). destruct ps as [|p ps]; [exists QUOTE_IN_QUOTED_FIELD; split; [reflexivity|]; cbn; now rewrite app_nil_r|].
    destruct p as [c|c|l']; [|discriminate Hu|discriminate Ha]. cbn [forallb] in Hps. apply andb_true_iff in Hps as [Hc Hps].
    cbn [map concat render_piece csv_piece app] in *. assert (E : concat (map (csv_inside D) l) ++ c :: concat (map (csv_piece D) ps) = (concat (map (csv_inside D) l) ++ [c]) ++ concat (map (csv_piece D) ps)) by (rewrite <- app_assoc; reflexivity).
    rewrite E in *. rewrite behind_quote; [|exact Hc|exact (len_app_le _ _ _ HL)].
    exists (fold_left anext (atoms ps) IN_FIELD). split; [now apply infield_fold|]. destruct (pieces_atoms ps) as [E1 E2]. unfold render_cell in E1. rewrite <- E1, <- E2 in *. apply atoms_run; [|reflexivity|exact HL].
    apply pieces_aok; [exact Hps|]. cbn in Hu. exact Hu.
Qed.
Lemma cell_closes st ps st' : st = START_RECORD \/ st = START_FIELD -> cell_end st ps st' -> closes st' = true.
Proof.
  intros Hst H. unfold cell_end in H. destruct ps as [|[c|c|l] [|p ps]]; try (subst st'; reflexivity); try (destruct st'; (discriminate H || reflexivity)). subst st'. now destruct Hst as [->| ->].
Qed.
Definition after (st : pstate) (cells : list (list piece)) : pstate := match cells with [] => st | _ => START_FIELD end.
Lemma open_cells_run cells : forall st fs mid k, forallb (wf_cell D) cells = true -> forallb (uncut_cell D) cells = true -> st = START_RECORD \/ st = START_FIELD ->
  Forall (fun s => fits s) (map (csv_cell D) cells) ->
  ctrun (ob st [] fs) mid (render_cells_open D cells ++ k) = ctrun (ob (after st cells) [] (fs ++ map (csv_cell D) cells)) (match cells with [] => mid | _ => true end) k.
Proof.
  induction cells as [|ps cells IH]; intros st fs mid k Hw Hu Hst HL; [cbn; now rewrite app_nil_r|].
  cbn [forallb] in Hw, Hu. apply andb_true_iff in Hw as [W1 W2]. apply andb_true_iff in Hu as [U1 U2]. cbn [map] in HL. inversion HL as [|x xs L1 L2]; subst x xs.
  unfold render_cells_open. cbn [map concat]. rewrite <- !app_assoc. destruct (cell_run ps st fs mid (opt_str (cd D) ++ render_cells_open D cells ++ k) W1 U1 Hst L1) as (st' & E1 & E2).
  unfold render_cells_open in E2. rewrite E2. assert (Ed := cc_delim w D CC). rewrite Ed. cbn [opt_str app].
  rewrite (cdelim w false limit D WF CC _ _ _ _ _ _ Ed (cell_closes _ _ _ Hst E1)). unfold render_cells_open in IH. rewrite Ed in IH. cbn [opt_str] in IH. rewrite IH; [|exact W2|exact U2|now right|exact L2].
  rewrite <- app_assoc. now destruct cells.
Qed.

(** ** Rows and the end of the text *)
Lemma wf_row_last cells ps : wf_row D (cells ++ [ps]) = true -> cells = [] -> ps <> [].
Proof. intros H -> ->. unfold wf_row in H. discriminate H. Qed.
Lemma full_row cells e k : wf_row D cells = true -> forallb (uncut_cell D) cells = true -> (e = ECR -> starts_lf k = false) -> Forall (fun s => fits s) (map (csv_cell D) cells) ->
  ctrun c_new false (render_row D cells ++ render_eol e ++ k) = ccons (map (csv_cell D) cells) (ctrun c_new false k).
Proof.
  intros Hw Hu He HL. destruct cells as [|c0 cells0]; [exact (ceol_run w false limit D WF CC START_RECORD [] [] false e k eq_refl He)|].
  destruct (exists_last (l := c0 :: cells0) ltac:(discriminate)) as (cells & ps & E). rewrite E in *. clear E c0 cells0.
  assert (Hn := wf_row_last cells ps Hw). destruct (wf_row_cells D _ Hw) as [Hc _]. rewrite forallb_app in Hc, Hu. apply andb_true_iff in Hc as [C1 C2]. apply andb_true_iff in Hu as [U1 U2]. cbn [forallb] in C2, U2. rewrite andb_true_r in C2, U2.
  rewrite map_app in HL |- *. apply Forall_app in HL as [L1 L2]. cbn [map] in *. pose proof (Forall_inv L2) as L3; cbv beta in L3.
  rewrite render_row_snoc, <- app_assoc. unfold c_new at 1. rewrite open_cells_run; [|exact C1|exact U1|now left|exact L1]. cbn [app].
  assert (Ha : after START_RECORD cells = START_RECORD \/ after START_RECORD cells = START_FIELD) by (destruct cells; [now left|now right]).
  destruct (cell_run ps (after START_RECORD cells) (map (csv_cell D) cells) (match cells with [] => false | _ => true end) (render_eol e ++ k) C2 U2 Ha L3) as (st' & E1 & ->).
  rewrite (ceol_run w false limit D WF CC _ _ _ _ _ _ (cell_closes _ _ _ Ha E1) He). f_equal.
  assert (Hs : st' <> START_RECORD); [|now destruct st'; try reflexivity; elim Hs].
  intros ->. unfold cell_end in E1. destruct ps as [|[c|c|l] [|p ps]]; try discriminate E1. destruct cells; [now elim (Hn eq_refl)|discriminate E1].
Qed.
Lemma end_row st b fs : infield st = true \/ st = QUOTE_IN_QUOTED_FIELD \/ st = START_FIELD -> (st = AFTER_ESCAPED_CRNL -> b <> []) -> ctrun (ob st b fs) true [] = ([fs ++ [b]], None).
Proof.
  intros Hs Hb. cbn [CsvReaderFacts.ctrun]. unfold CsvReaderFacts.ceol. destruct st; try (destruct Hs as [Hs|[Hs|Hs]]; discriminate Hs); cbn [c_process c_state]; try reflexivity.
  - unfold c_quote. destruct (wd_quoting w); reflexivity.
  - unfold c_eof. cbn [c_field c_state c_fields]. destruct b; [now elim (Hb eq_refl)|reflexivity].
Qed.
Lemma csv_cell_nil ps st' : wf_cell D ps = true -> infield st' = true -> cell_end START_FIELD ps st' -> csv_cell D ps <> [].
Proof.
  intros Hw Hi He. unfold wf_cell in Hw. apply andb_true_iff in Hw as [Hw Ha]. destruct ps as [|p ps]; [cbn in He; subst st'; discriminate Hi|].
  destruct p as [c|c|l]; cbn; try discriminate. destruct ps as [|p ps]; [cbn in He; subst st'; discriminate Hi|]. destruct p as [c|c|l']; [| |discriminate Ha]; cbn; intros E; apply app_eq_nil in E as [_ E]; discriminate E.
Qed.
Lemma cell_end_not st ps st' : cell_end st ps st' -> ps <> [] \/ st = START_FIELD -> st = START_RECORD \/ st = START_FIELD -> infield st' = true \/ st' = QUOTE_IN_QUOTED_FIELD \/ st' = START_FIELD.
Proof. intros H Hn Hst. unfold cell_end in H. destruct ps as [|[c|c|l] [|p ps]]; auto. subst st'. destruct Hn as [Hn|Hn]; [now elim Hn|tauto]. Qed.

(** The open row at the end: cells, then pieces of an unfinished cell. *)
Lemma open_prefix cells ps k : forallb (wf_cell D) cells = true -> forallb (uncut_cell D) cells = true -> Forall (fun s => fits s) (map (csv_cell D) cells) ->
  wf_cell D ps = true -> uncut_cell D ps = true -> fits (csv_cell D ps) ->
  exists st mid, (cells <> [] \/ ps <> [] -> mid = true) /\ (exists st0, (st0 = START_RECORD \/ st0 = START_FIELD) /\ (cells <> [] -> st0 = START_FIELD) /\ cell_end st0 ps st) /\
    ctrun c_new false (render_cells_open D cells ++ render_cell D ps ++ k) = ctrun (ob st (csv_cell D ps) (map (csv_cell D) cells)) mid k.
Proof.
  intros W1 U1 L1 W2 U2 L2. unfold c_new. rewrite open_cells_run; [|exact W1|exact U1|now left|exact L1]. cbn [app].
  assert (Ha : after START_RECORD cells = START_RECORD \/ after START_RECORD cells = START_FIELD) by (destruct cells; [now left|now right]).
  destruct (cell_run ps (after START_RECORD cells) (map (csv_cell D) cells) (match cells with [] => false | _ => true end) k W2 U2 Ha L2) as (st' & E1 & ->).
  eexists st', _. split; [|split; [|reflexivity]].
  - intros H. destruct ps; [|reflexivity]. destruct cells; [destruct H as [H|H]; now elim H|reflexivity].
  - exists (after START_RECORD cells). split; [exact Ha|]. split; [|exact E1]. intros Hn. destruct cells; [now elim Hn|reflexivity].
Qed.
Lemma end_escape st b fs mid e : ce D = Some e -> proc (ob st b fs) (Some e) = Ok (ob ESCAPED_CHAR b fs) -> fits (b ++ [LF]) -> ctrun (ob st b fs) mid [e] = ([fs ++ [b ++ [LF]]], None).
Proof.
  intros Ee Hp HL. destruct (esc_facts D WF e Ee) as (_ & Hen & _). rewrite (step w false limit _ _ _ _ _ Hp Hen). cbn [CsvReaderFacts.ctrun]. unfold CsvReaderFacts.ceol. cbn [c_process c_state c_nl c_char].
  rewrite fits_add by exact HL. cbn [c_state c_field c_fields]. unfold c_eof. cbn [c_field c_state c_fields]. now destruct b.
Qed.
Lemma escape_from st b fs e : ce D = Some e -> uq st = true -> proc (ob st b fs) (Some e) = Ok (ob ESCAPED_CHAR b fs).
Proof.
  intros Ee Hu. destruct (esc_facts D WF e Ee) as (_ & Hen & _ & Heq).
  destruct st; try discriminate Hu; cbn [c_process c_state c_nl]; rewrite ?Hen; unfold c_start_field, c_in_field; cbn [c_end]; rewrite Hen, ?(is_quote w D CC), ?Heq, (is_escape w D CC), Ee, is_opt_refl; reflexivity.
Qed.
Lemma infield_uq st : infield st = true -> uq st = true.
Proof. now destruct st. Qed.
Lemma tail_run t : wf_tail D t = true -> uncut_tail D t = true -> Forall (fun s => fits s) (concat (csv_tail D t)) ->
  ctrun c_new false (render_tail D t) = (csv_tail D t, None).
Proof.
  intros Hw Hu HL. destruct t as [|cells|cells ps|cells ps l|cells ps l]; cbn [wf_tail uncut_tail csv_tail render_tail] in *.
  - reflexivity.
  - apply andb_true_iff in Hw as [Hw Hne]. assert (Hne' : cells <> []) by (destruct cells; discriminate). clear Hne.
    destruct (exists_last Hne') as (cs & ps & ->). assert (Hn := wf_row_last cs ps Hw). destruct (wf_row_cells D _ Hw) as [Hc _].
    rewrite forallb_app in Hc, Hu. apply andb_true_iff in Hc as [C1 C2]. apply andb_true_iff in Hu as [U1 U2]. cbn [forallb] in C2, U2. rewrite andb_true_r in C2, U2.
    cbn [concat] in HL. rewrite app_nil_r, map_app in HL. apply Forall_app in HL as [L1 L2]. cbn [map] in *. pose proof (Forall_inv L2) as L3; cbv beta in L3.
    rewrite render_row_snoc. rewrite <- (app_nil_r (render_cell D ps)). destruct (open_prefix cs ps [] C1 U1 L1 C2 U2 L3) as (st & mid & H1 & (st0 & H2 & H3 & H4) & ->).
    assert (Hp : ps <> [] \/ cs <> []) by (destruct cs; [left; now apply Hn|right; discriminate]). rewrite H1 by tauto. rewrite map_app. apply end_row.
    + apply (cell_end_not st0 ps st H4); [|exact H2]. destruct Hp as [Hp|Hp]; [now left|right; now apply H3].
    + intros ->. apply (csv_cell_nil ps AFTER_ESCAPED_CRNL C2 eq_refl). unfold cell_end in H4 |- *. destruct ps as [|[c|c|l] [|p ps]]; try assumption. destruct H2 as [H2|H2]; congruence.
  - apply andb_true_iff in Hw as [Hw He]. unfold wf_open in Hw. apply andb_true_iff in Hw as [Hw _]. apply andb_true_iff in Hw as [W1 W2].
    apply andb_true_iff in Hu as [Hu Hnq]. apply andb_true_iff in Hu as [U1 U2]. cbn [concat] in HL. rewrite app_nil_r in HL. apply Forall_app in HL as [L1 L2]. pose proof (Forall_inv L2) as L3; cbv beta in L3.
    destruct (open_prefix cells ps (opt_str (ce D)) W1 U1 L1 W2 U2 (len_app_le _ _ _ L3)) as (st & mid & H1 & (st0 & H2 & H3 & H4) & ->).
    destruct (ce D) as [e|] eqn:Ee; [|discriminate He]. cbn [opt_str]. apply end_escape; [exact Ee| |exact L3]. apply escape_from; [exact Ee|].
    unfold cell_end in H4. destruct ps as [|[c|c|l] [|p ps]]; try (now apply infield_uq); try discriminate Hnq. subst st. now destruct H2 as [->| ->].
  - apply andb_true_iff in Hw as [Hw Hl]. apply andb_true_iff in Hw as [Hw Heq]. apply andb_true_iff in Hw as [Hw Hq]. unfold wf_open in Hw. apply andb_true_iff in Hw as [Hw _]. apply andb_true_iff in Hw as [W1 W2].
    apply andb_true_iff in Hu as [Hu Hul]. apply andb_true_iff in Hu as [U1 U2]. destruct (cq D) as [q|] eqn:Eq; [|discriminate Hq]. cbn [opt_str app] in *.
    destruct ps as [|p ps]; cbn [concat] in HL; rewrite app_nil_r in HL; apply Forall_app in HL as [L1 L2]; pose proof (Forall_inv L2) as L3; cbv beta in L3.
    + destruct (open_prefix cells [] (q :: render_qitems D l) W1 U1 L1 W2 U2 (len_app_le [] _ _ L3)) as (st & mid & H1 & (st0 & H2 & H3 & H4) & ->). cbn in H4. subst st.
      change (csv_cell D []) with (@nil N). rewrite (open_run st0 _ mid q _ H2 Eq). rewrite <- (app_nil_r (render_qitems D l)). rewrite insides_run; [|exact Hl|now rewrite Eq|exact L3].
      cbn [CsvReaderFacts.ctrun]. unfold CsvReaderFacts.ceol. cbn [c_process c_state]. unfold c_eof. cbn [c_field c_state c_fields app]. rewrite orb_true_r. reflexivity.
    + remember (p :: ps) as ps0 eqn:E0. assert (Hne : ps0 <> []) by (subst; discriminate).
      destruct (open_prefix cells ps0 (q :: render_qitems D l) W1 U1 L1 W2 U2 (len_app_le _ _ _ L3)) as (st & mid & H1 & (st0 & H2 & H3 & H4) & ->). rewrite H1 by now right.
      assert (Hi : infield st = true). { unfold cell_end in H4. destruct ps0 as [|[c|c|l'] [|p' ps']]; try exact H4; [now elim Hne|discriminate Heq]. }
      destruct (items_atoms l) as [A1 A2]. assert (Ea : q :: render_qitems D l = concat (map arender (APlain q :: atoms_items l)) ++ []) by (rewrite app_nil_r; cbn; now rewrite A1).
      rewrite Ea. assert (Ok1 := quote_aok). rewrite Eq in Ok1. cbn [opt_str map forallb] in Ok1. rewrite andb_true_r in Ok1.
      assert (Hul' : forallb (uncut_item D) l = true) by (subst ps0; exact Hul).
      assert (Em : map achar (APlain q :: atoms_items l) = q :: csv_items D l) by (cbn; now rewrite A2).
      rewrite atoms_run; [|cbn [forallb]; now rewrite Ok1, items_aok|exact Hi|rewrite Em; exact L3]. rewrite Em. apply end_row; [left; now apply infield_fold|]. intros _ E. apply app_eq_nil in E as [_ E]. discriminate E.
  - apply andb_true_iff in Hw as [Hw He]. apply andb_true_iff in Hw as [Hw Hl]. apply andb_true_iff in Hw as [Hw Heq]. apply andb_true_iff in Hw as [Hw Hq]. unfold wf_open in Hw. apply andb_true_iff in Hw as [Hw _]. apply andb_true_iff in Hw as [W1 W2].
    apply andb_true_iff in Hu as [Hu Hul]. apply andb_true_iff in Hu as [U1 U2]. destruct (cq D) as [q|] eqn:Eq; [|discriminate Hq]. destruct (ce D) as [e|] eqn:Ee; [|discriminate He]. destruct (esc_facts D WF e Ee) as (_ & Hen & _). cbn [opt_str app] in *.
    destruct ps as [|p ps]; cbn [concat] in HL; rewrite app_nil_r in HL; apply Forall_app in HL as [L1 L2]; pose proof (Forall_inv L2) as L3; cbv beta in L3.
    + destruct (open_prefix cells [] (q :: render_qitems D l ++ [e]) W1 U1 L1 W2 U2 (len_app_le [] _ _ L3)) as (st & mid & H1 & (st0 & H2 & H3 & H4) & ->). cbn in H4. subst st.
      change (csv_cell D []) with (@nil N). rewrite (open_run st0 _ mid q _ H2 Eq). rewrite insides_run; [|exact Hl|now rewrite Eq|exact (len_app_le _ _ _ L3)]. cbn [app].
      rewrite (step w false limit _ (ob ESCAPE_IN_QUOTED_FIELD (concat (map (csv_inside D) l)) (map (csv_cell D) cells))); [|cbn [c_process c_state]; now rewrite (is_escape w D CC), Ee, is_opt_refl|exact Hen].
      cbn [CsvReaderFacts.ctrun]. unfold CsvReaderFacts.ceol. cbn [c_process c_state c_char]. rewrite fits_add by exact L3. cbn [c_state c_field c_fields]. unfold c_eof. cbn [c_field c_state c_fields]. rewrite orb_true_r. reflexivity.
    + remember (p :: ps) as ps0 eqn:E0. assert (Hne : ps0 <> []) by (subst; discriminate).
      destruct (open_prefix cells ps0 (q :: render_qitems D l ++ [e]) W1 U1 L1 W2 U2 (len_app_le _ _ _ L3)) as (st & mid & H1 & (st0 & H2 & H3 & H4) & ->). rewrite H1 by now right.
      assert (Hi : infield st = true). { unfold cell_end in H4. destruct ps0 as [|[c|c|l'] [|p' ps']]; try exact H4; [now elim Hne|discriminate Heq]. }
      destruct (items_atoms l) as [A1 A2]. assert (Ea : q :: render_qitems D l ++ [e] = concat (map arender (APlain q :: atoms_items l)) ++ [e]) by (cbn; now rewrite A1).
      rewrite Ea. assert (Ok1 := quote_aok). rewrite Eq in Ok1. cbn [opt_str map forallb] in Ok1. rewrite andb_true_r in Ok1.
      assert (Hul' : forallb (uncut_item D) l = true) by (subst ps0; exact Hul).
      assert (Em : map achar (APlain q :: atoms_items l) = q :: csv_items D l) by (cbn; now rewrite A2).
      assert (L4 : fits ((csv_cell D ps0 ++ q :: csv_items D l) ++ [LF])) by (rewrite <- app_assoc; exact L3).
      rewrite atoms_run; [|cbn [forallb]; now rewrite Ok1, items_aok|exact Hi|rewrite Em; exact (len_app_le _ _ _ L4)]. rewrite Em.
      rewrite (end_escape _ _ _ _ e Ee); [rewrite <- app_assoc; reflexivity| |exact L4]. apply escape_from; [exact Ee|]. apply infield_uq. now apply infield_fold.
Qed.
Lemma records_run rs t : wf_records D rs = true -> wf_tail D t = true -> uncut D (mk_doc rs t) = true ->
  Forall (fun s => fits s) (concat (csv_rows D (mk_doc rs t))) ->
  ctrun c_new false (render D (mk_doc rs t)) = (csv_rows D (mk_doc rs t), None).
Proof.
  intros Hw Ht Hu HL. unfold uncut, csv_rows in *. cbn [records last] in *. induction rs as [|[cells e] rs IH].
  - cbn [forallb andb map app] in *. unfold render. cbn [records last map concat app]. now apply tail_run.
  - cbn [wf_records] in Hw. apply andb_true_iff in Hw as [Hw Hrs]. apply andb_true_iff in Hw as [Hrow Hcr].
    cbn [forallb fst] in Hu. rewrite <- andb_assoc in Hu. apply andb_true_iff in Hu as [U1 U2]. cbn [map concat fst app] in HL. apply Forall_app in HL as [L1 L2].
    specialize (IH Hrs U2 L2). unfold render in *. cbn [records last map concat app fst] in *. unfold render_record at 1. cbn [fst snd]. rewrite <- !app_assoc.
    rewrite full_row; [|exact Hrow|exact U1| |exact L1].
    + rewrite IH. reflexivity.
    + intros ->. destruct rs as [|[cells' e'] rs].
      * cbn [map concat app]. now apply (tail_starts_lf D WF).
      * cbn [map concat]. unfold render_record at 1. cbn [fst snd]. cbn [wf_records] in Hrs. apply andb_true_iff in Hrs as [Hrs _]. apply andb_true_iff in Hrs as [Hrs _].
        destruct cells' as [|c' cells']; [destruct e'; try discriminate Hcr; reflexivity|]. rewrite <- !app_assoc. apply (row_starts_lf D WF); [exact Hrs|discriminate].
Qed.
Theorem csv_reads_layout d : wf_doc D d = true -> uncut D d = true -> Forall (fun s => fits s) (concat (csv_rows D d)) ->
  csv_reader w false limit (render D d) = (csv_rows D d, None).
Proof.
  intros Hw Hu HL. unfold csv_reader. rewrite (run_text w false limit (length (render D d))) by lia. unfold wf_doc in Hw. apply andb_true_iff in Hw as [Hw Ht]. destruct d as [rs t]. now apply records_run.
Qed.
End Text.
