(** * CsvAgree: when the two readers agree, for dialects without escape character *)
From Verif Require Import Base Parser Dialect ParserFacts SpecLayout SpecParse LayoutFacts LayoutMore LayoutTotal ParserLift CsvLib CsvReader SpecCsvReader CsvReaderFacts SpecCsvLayout CsvLayoutFacts.

Section First.
Variable w : wdialect.
Variable strict : bool.
Variable limit : Z.
Local Notation proc := (c_process w strict limit).
Local Notation ctrun := (ctrun w strict limit).
Local Notation ceol := (ceol w strict limit).

(** ** The first row that is returned continues the fields that are there *)
Definition grown (o o' : cobj) : Prop := exists x, c_fields o' = c_fields o ++ x.
Lemma grown_refl o : grown o o. Proof. exists []. now rewrite app_nil_r. Qed.
Lemma grown_trans a b c : grown a b -> grown b c -> grown a c.
Proof. intros [x Hx] [y Hy]. exists (x ++ y). now rewrite Hy, Hx, app_assoc. Qed.
Lemma grown_goto o st : grown o (c_goto o st). Proof. exists []. cbn. now rewrite app_nil_r. Qed.
Lemma grown_save o st : grown o (c_save o st). Proof. now exists [c_field o]. Qed.
Lemma grown_add o c st o' : c_add limit o c st = Ok o' -> grown o o'.
Proof. unfold c_add. destruct (_ <=? _)%Z; [discriminate|]. intros [= <-]. exists []. cbn. now rewrite app_nil_r. Qed.
Lemma grown_start o c o' : c_start_field w limit o c = Ok o' -> grown o o'.
Proof.
  unfold c_start_field. repeat match goal with |- context [if ?b then _ else _] => destruct b end; try apply grown_add; intros [= <-]; apply grown_save || apply grown_goto.
Qed.
Lemma grown_in o c o' : c_in_field w limit o c = Ok o' -> grown o o'.
Proof.
  unfold c_in_field. repeat match goal with |- context [if ?b then _ else _] => destruct b end; try apply grown_add; intros [= <-]; apply grown_save || apply grown_goto.
Qed.
Lemma grown_proc o c o' : proc o c = Ok o' -> grown o o'.
Proof.
  unfold c_process. destruct (c_state o).
  - destruct c as [c|]; [|intros [= <-]; apply grown_refl]. destruct (c_nl (Some c)); [intros [= <-]; apply grown_goto|apply grown_start].
  - apply grown_start.
  - apply grown_add.
  - apply grown_in.
  - destruct c as [c|]; [|intros [= <-]; apply grown_refl]. destruct (c_is (wd_escape w) (Some c)); [intros [= <-]; apply grown_goto|]. destruct (c_quote w (Some c)); [intros [= <-]; apply grown_goto|apply grown_add].
  - apply grown_add.
  - destruct (c_quote w c); [apply grown_add|]. destruct (c_is (Some (wd_delim w)) c); [intros [= <-]; apply grown_save|]. destruct (c_end c); [intros [= <-]; apply grown_save|]. destruct (negb strict); [apply grown_add|discriminate].
  - destruct c as [c|]; [|intros [= <-]; apply grown_goto]. destruct (c_nl (Some c)); [intros [= <-]; apply grown_refl|discriminate].
  - destruct c as [c|]; [apply grown_in|intros [= <-]; apply grown_refl].
Qed.
Definition continues (fs : list str) (x : list (list str) * option pyexc) : Prop :=
  forall r rs, fst x = r :: rs -> exists y, r = fs ++ y.
Lemma continues_grown o o' x : grown o o' -> continues (c_fields o') x -> continues (c_fields o) x.
Proof. intros [y Hy] H r rs E. destruct (H r rs E) as [z ->]. exists (y ++ z). now rewrite Hy, app_assoc. Qed.
Lemma ceol_continues o k : (forall o', continues (c_fields o') (k o')) -> continues (c_fields o) (ceol o k).
Proof.
  intros Hk. unfold CsvReaderFacts.ceol. destruct (proc o None) as [o'|x] eqn:E; [|intros r rs [=]]. apply grown_proc in E. apply (continues_grown o o' _ E).
  destruct (c_state o'); try apply Hk. intros r rs [= <- _]. exists []. now rewrite app_nil_r.
Qed.
Lemma eof_continues o : continues (c_fields o) (c_eof strict o).
Proof. intros r rs. unfold c_eof. destruct (_ || _); [|discriminate]. destruct strict; [discriminate|]. intros [= <- _]. now exists [c_field o]. Qed.
Lemma run_continues t : forall o mid, continues (c_fields o) (ctrun o mid t).
Proof.
  induction t as [|c t IH]; intros o mid; cbn [CsvReaderFacts.ctrun].
  - destruct mid; [|apply eof_continues]. apply ceol_continues. intros o'. apply eof_continues.
  - destruct (proc o (Some c)) as [o'|x] eqn:E; [|intros r rs [=]]. apply grown_proc in E. apply (continues_grown o o' _ E).
    destruct (brk c t); [|apply IH]. apply ceol_continues. intros o''. apply IH.
Qed.
Lemma step_continues o c o' mid t : proc o (Some c) = Ok o' -> continues (c_fields o') (ctrun o mid (c :: t)).
Proof.
  intros E. cbn [CsvReaderFacts.ctrun]. rewrite E. destruct (brk c t); [|apply run_continues]. apply ceol_continues. intros o''. apply run_continues.
Qed.

(** The field that is being read goes on, too. *)
Definition reading (st : pstate) : bool := match st with START_RECORD | EAT_CRNL => false | _ => true end.
Definition longer (o o' : cobj) : Prop :=
  (exists x, c_fields o' = c_fields o ++ c_field o :: x) \/
  (c_fields o' = c_fields o /\ reading (c_state o') = true /\ exists x, c_field o' = c_field o ++ x).
Lemma longer_goto o st : reading st = true -> longer o (c_goto o st).
Proof. intros H. right. cbn. repeat split; [exact H|]. exists []. now rewrite app_nil_r. Qed.
Lemma longer_save o st : longer o (c_save o st). Proof. left. now exists []. Qed.
Lemma longer_add o c st o' : reading st = true -> c_add limit o c st = Ok o' -> longer o o'.
Proof. intros H. unfold c_add. destruct (_ <=? _)%Z; [discriminate|]. intros [= <-]. right. cbn. repeat split; [exact H|]. now exists [c]. Qed.
Lemma longer_refl o : reading (c_state o) = true -> longer o o.
Proof. intros H. right. repeat split; [exact H|]. exists []. now rewrite app_nil_r. Qed.
Lemma longer_in o c o' : reading (c_state o) = true -> c_in_field w limit o c = Ok o' -> longer o o'.
Proof.
  intros H. unfold c_in_field. repeat match goal with |- context [if ?b then _ else _] => destruct b end; try (apply longer_add; exact H); intros [= <-]; apply longer_save || (apply longer_goto; reflexivity).
Qed.
Lemma longer_proc o c o' : reading (c_state o) = true -> proc o c = Ok o' -> longer o o'.
Proof.
  intros H. unfold c_process. destruct (c_state o) eqn:Es; try discriminate H.
  - unfold c_start_field. repeat match goal with |- context [if ?b then _ else _] => destruct b end; try (apply longer_add; reflexivity); intros [= <-]; apply longer_save || (apply longer_goto; reflexivity).
  - apply longer_add. now destruct (c_nl c).
  - apply longer_in. now rewrite Es.
  - destruct c as [c|]; [|intros [= <-]; apply longer_refl; now rewrite Es]. destruct (c_is (wd_escape w) (Some c)); [intros [= <-]; now apply longer_goto|]. destruct (c_quote w (Some c)); [intros [= <-]; apply longer_goto; now destruct (wd_doublequote w)|now apply longer_add].
  - now apply longer_add.
  - destruct (c_quote w c); [now apply longer_add|]. destruct (c_is (Some (wd_delim w)) c); [intros [= <-]; apply longer_save|]. destruct (c_end c); [intros [= <-]; apply longer_save|]. destruct (negb strict); [now apply longer_add|discriminate].
  - destruct c as [c|]; [apply longer_in; now rewrite Es|intros [= <-]; apply longer_refl; now rewrite Es].
Qed.
Definition goes_on (fs : list str) (b : str) (x : list (list str) * option pyexc) : Prop :=
  forall r rs, fst x = r :: rs -> exists y z, r = fs ++ (b ++ y) :: z.
Lemma saved_goes_on fs b x : continues (fs ++ [b]) x -> goes_on fs b x.
Proof. intros H r rs E. destruct (H r rs E) as [z ->]. exists [], z. now rewrite app_nil_r, <- app_assoc. Qed.
Lemma longer_goes_on o o' x : longer o o' -> continues (c_fields o') x -> (reading (c_state o') = true -> goes_on (c_fields o') (c_field o') x) -> goes_on (c_fields o) (c_field o) x.
Proof.
  intros [[y Hy]|(H1 & H2 & [y Hy])] Hc Hg.
  - intros r rs E. destruct (Hc r rs E) as [z ->]. exists [], (y ++ z). now rewrite app_nil_r, Hy, <- app_assoc.
  - intros r rs E. destruct (Hg H2 r rs E) as (y' & z & ->). rewrite H1, Hy. exists (y ++ y'), z. now rewrite <- app_assoc.
Qed.
Lemma ceol_goes_on o k : reading (c_state o) = true -> (forall o', continues (c_fields o') (k o')) -> (forall o', reading (c_state o') = true -> goes_on (c_fields o') (c_field o') (k o')) -> goes_on (c_fields o) (c_field o) (ceol o k).
Proof.
  intros H Hc Hk. unfold CsvReaderFacts.ceol. destruct (proc o None) as [o'|x] eqn:E; [|intros r rs [=]]. apply (longer_goes_on o o' _ (longer_proc o None o' H E)).
  - destruct (c_state o'); try apply Hc. intros r rs [= <- _]. exists []. now rewrite app_nil_r.
  - intros Hr. destruct (c_state o') eqn:Es; try discriminate Hr; apply Hk; now rewrite Es.
Qed.
Lemma eof_goes_on o : goes_on (c_fields o) (c_field o) (c_eof strict o).
Proof. intros r rs. unfold c_eof. destruct (_ || _); [|discriminate]. destruct strict; [discriminate|]. intros [= <- _]. exists [], []. now rewrite app_nil_r. Qed.
Lemma run_goes_on t : forall o mid, reading (c_state o) = true -> goes_on (c_fields o) (c_field o) (ctrun o mid t).
Proof.
  induction t as [|c t IH]; intros o mid H; cbn [CsvReaderFacts.ctrun].
  - destruct mid; [|apply eof_goes_on]. apply ceol_goes_on; [exact H|apply eof_continues|intros o' _; apply eof_goes_on].
  - destruct (proc o (Some c)) as [o'|x] eqn:E; [|intros r rs [=]]. apply (longer_goes_on o o' _ (longer_proc o (Some c) o' H E)).
    + destruct (brk c t); [|apply run_continues]. apply ceol_continues. intros o''. apply run_continues.
    + intros Hr. destruct (brk c t); [|now apply IH]. apply ceol_goes_on; [exact Hr|intros o''; apply run_continues|intros o'' Hr'; now apply IH].
Qed.
End First.

Lemma fit_head (n : Z) (a b : list N) : (Z.of_nat (length (a ++ b)) <= n -> Z.of_nat (length a) <= n)%Z.
Proof. rewrite app_length. lia. Qed.
Lemma fit_rest (n : Z) (a b : list N) : (Z.of_nat (length (a ++ b)) <= n -> Z.of_nat (length b) <= n)%Z.
Proof. rewrite app_length. lia. Qed.
Section Agree.
Variable w : wdialect.
Variable limit : Z.
Variable D : chars.
Hypothesis WF : wf_chars D = true.
Hypothesis CC : csv_chars w D.
Hypothesis NE : ce D = None.
Local Notation ob := mk_cobj (only parsing).
Local Notation proc := (c_process w false limit).
Local Notation ctrun := (ctrun w false limit).
Local Notation fits s := (Z.of_nat (length s) <= limit)%Z (only parsing).
Local Notation val ps := (fst (cell_value D ps)) (only parsing).

(** ** Values of cells *)
Lemma no_esc_piece p : wf_piece D p = true -> forall c, p <> PEsc c.
Proof. intros H c ->. cbn in H. rewrite NE in H. discriminate H. Qed.
Lemma no_esc_item i : wf_qitem D i = true -> forall c, i <> QEsc c.
Proof. intros H c ->. cbn in H. rewrite NE in H. discriminate H. Qed.
Lemma inside_value l : forallb (wf_qitem D) l = true -> concat (map (csv_inside D) l) = qitems_value D l.
Proof.
  intros H. unfold qitems_value. f_equal. apply map_ext_in. intros i Hi. rewrite forallb_forall in H. specialize (H i Hi). destruct i as [c| |c]; try reflexivity. now elim (no_esc_item _ H c).
Qed.
Lemma text_first c ps : wf_piece D (PChar c) = true -> val (PChar c :: ps) = raw_cell D (PChar c :: ps).
Proof.
  intros H. cbn [wf_piece] in H. bool_split. unfold special in H0. bool_split. unfold cell_value, raw_cell. cbn [map concat piece_value app]. unfold unquote, enclosed.
  destruct (concat (map (piece_value D) ps)) as [|x s]; [reflexivity|]. now rewrite H3.
Qed.
Lemma agreeing_uncut ps : agreeing_cell D ps = true -> uncut_cell D ps = true.
Proof.
  assert (G : forall ps, forallb (agreeing_piece D) ps = true -> forallb (uncut_piece D) ps = true).
  { intros qs H. rewrite forallb_forall in *. intros p Hp. specialize (H p Hp). destruct p as [c|c|l]; try reflexivity. cbn in *. rewrite forallb_forall in *. intros i Hi. specialize (H i Hi). destruct i as [c| |c]; try reflexivity. exact H. }
  intros H. destruct ps as [|[c|c|l] [|p ps]]; try reflexivity; cbn [agreeing_cell uncut_cell] in *; try (now apply G); discriminate H.
Qed.
Lemma agreeing_raw ps : forallb (wf_piece D) ps = true -> forallb (agreeing_piece D) ps = true -> concat (map (csv_piece D) ps) = raw_cell D ps.
Proof.
  intros Hw H. unfold raw_cell. f_equal. apply map_ext_in. intros p Hp. rewrite forallb_forall in Hw, H. specialize (Hw p Hp). specialize (H p Hp). destruct p as [c|c|l]; [reflexivity|now elim (no_esc_piece _ Hw c)|].
  cbn [csv_piece piece_value]. f_equal. f_equal. unfold csv_items, qitems_value. f_equal. apply map_ext_in. intros i Hi. cbn [agreeing_piece] in H. rewrite forallb_forall in H. specialize (H i Hi). destruct i as [c| |c]; (reflexivity || discriminate H).
Qed.
Lemma agreeing_value ps : wf_cell D ps = true -> agreeing_cell D ps = true -> val ps = csv_cell D ps.
Proof.
  intros Hw H. unfold wf_cell in Hw. apply andb_true_iff in Hw as [Hw Ha]. destruct ps as [|p ps]; [reflexivity|]. pose proof Hw as Hw0. cbn [forallb] in Hw. apply andb_true_iff in Hw as [Hp Hps].
  destruct p as [c|c|l]; [|now elim (no_esc_piece _ Hp c)|].
  - rewrite text_first by exact Hp. cbn [csv_cell]. symmetry. now apply agreeing_raw.
  - destruct ps as [|p ps]; [|discriminate H]. cbn [csv_cell map concat]. rewrite app_nil_r. cbn [wf_piece] in Hp. apply andb_true_iff in Hp as [Hq Hl]. rewrite inside_value by exact Hl.
    apply (cval_value D WF [PQuoted l]); [unfold wf_cell; rewrite Hw0; reflexivity|]. cbn. apply forallb_forall. intros i Hi. rewrite forallb_forall in Hl. specialize (Hl i Hi). destruct i as [c| |c]; try reflexivity. now elim (no_esc_item _ Hl c).
Qed.
Lemma no_after ps : forallb (wf_piece D) ps = true -> after_esc_nl false ps = false.
Proof.
  induction ps as [|p ps IH]; intros H; [reflexivity|]. cbn [forallb] in H. apply andb_true_iff in H as [H1 H2]. destruct p as [c|c|l]; cbn [after_esc_nl]; try (now apply IH). now elim (no_esc_piece _ H1 c).
Qed.
Lemma row_tail cells : wf_tail D (TRow cells) = true -> tail_value D (TRow cells) = [map (cell_value D) cells].
Proof.
  intros H. cbn [wf_tail] in H. apply andb_true_iff in H as [Hw Hn]. destruct (wf_row_cells D _ Hw) as [Hc _]. destruct (exists_last (l := cells)) as (cs & ps & ->); [now destruct cells|].
  cbn [tail_value]. rewrite removelast_last, last_last, map_app. rewrite forallb_app in Hc. apply andb_true_iff in Hc as [_ Hc]. cbn [forallb] in Hc. rewrite andb_true_r in Hc. unfold wf_cell in Hc. apply andb_true_iff in Hc as [Hc _].
  now rewrite no_after.
Qed.
(** *** Lengths *)
Lemma opt_len o : (length (opt_str o) <= 1)%nat.
Proof. destruct o; cbn; lia. Qed.
Lemma items_len l : (length (qitems_value D l) <= length (render_qitems D l))%nat /\
  (forallb (wf_qitem D) l = true -> is_set (cq D) = true -> length (qitems_value D l) = length (render_qitems D l) -> forall i, In i l -> i <> QQuote).
Proof.
  unfold qitems_value, render_qitems. induction l as [|i l [IH1 IH2]]; [split; [cbn; lia|intros _ _ _ i []]|]. cbn [map concat forallb]. rewrite !app_length.
  assert (G : (length (qitem_value D i) <= length (render_qitem D i))%nat /\ (i = QQuote -> is_set (cq D) = true -> length (qitem_value D i) < length (render_qitem D i))%nat).
  { destruct i as [c| |c]; cbn [qitem_value render_qitem]; rewrite ?app_length.
    - split; [lia|discriminate].
    - split; [lia|]. intros _ Hq. destruct (cq D); [cbn; lia|discriminate Hq].
    - split; [|discriminate]. destruct (special D c); rewrite ?app_length; cbn; lia. }
  destruct G as [G1 G2]. split; [lia|]. intros Hw Hq E j [<-|Hj].
  - intros ->. specialize (G2 eq_refl Hq). lia.
  - apply andb_true_iff in Hw as [_ Hw]. apply (IH2 Hw Hq); [lia|exact Hj].
Qed.
Lemma piece_len p : (length (piece_value D p) <= length (render_piece D p))%nat /\
  (wf_piece D p = true -> length (piece_value D p) = length (render_piece D p) -> forall l i, p = PQuoted l -> In i l -> i <> QQuote).
Proof.
  destruct p as [c|c|l]; cbn [piece_value render_piece].
  - split; [lia|discriminate].
  - split; [|discriminate]. destruct (special D c || is_nl c); rewrite ?app_length; cbn; lia.
  - destruct (items_len l) as [I1 I2]. rewrite !app_length. split; [lia|]. intros Hw E l' i [= <-]. cbn [wf_piece] in Hw. apply andb_true_iff in Hw as [Hq Hw]. apply I2; [exact Hw|exact Hq|lia].
Qed.
Lemma cell_len ps : (length (raw_cell D ps) <= length (render_cell D ps))%nat /\
  (forallb (wf_piece D) ps = true -> length (raw_cell D ps) = length (render_cell D ps) -> forall p l i, In p ps -> p = PQuoted l -> In i l -> i <> QQuote).
Proof.
  unfold raw_cell, render_cell. induction ps as [|p ps [IH1 IH2]]; [split; [cbn; lia|intros _ _ p l i []]|]. cbn [map concat forallb]. rewrite !app_length. destruct (piece_len p) as [P1 P2]. split; [lia|].
  intros Hw E p' l i [<-|Hp] El Hi; apply andb_true_iff in Hw as [W1 W2]; [apply (P2 W1) with l; [lia|exact El|exact Hi]|apply (IH2 W2) with p' l; [lia|exact Hp|exact El|exact Hi]].
Qed.
(** *** Characters of the text that are no quotes are characters of the value *)
Lemma items_chars l x : forallb (wf_qitem D) l = true -> is_opt (cq D) x = false -> In x (render_qitems D l) <-> In x (qitems_value D l).
Proof.
  intros Hw Hx. unfold render_qitems, qitems_value. rewrite !in_concat. setoid_rewrite in_map_iff.
  assert (G : forall i, In i l -> In x (render_qitem D i) <-> In x (qitem_value D i)).
  { intros i Hi. rewrite forallb_forall in Hw. specialize (Hw i Hi). destruct i as [c| |c]; [reflexivity| |now elim (no_esc_item _ Hw c)]. cbn [render_qitem qitem_value]. rewrite in_app_iff. destruct (cq D) as [q|]; cbn; [|tauto]. tauto. }
  split; intros (s & (i & <- & Hi) & Hs); [exists (qitem_value D i)|exists (render_qitem D i)]; (split; [exists i; now split|now apply G]).
Qed.
Lemma cell_chars ps x : forallb (wf_piece D) ps = true -> is_opt (cq D) x = false -> In x (render_cell D ps) -> In x (raw_cell D ps).
Proof.
  intros Hw Hx H. unfold render_cell, raw_cell in *. apply in_concat in H as (s & Hs & H). apply in_map_iff in Hs as (p & <- & Hp). apply in_concat. exists (piece_value D p). split; [now apply in_map|].
  rewrite forallb_forall in Hw. specialize (Hw p Hp). destruct p as [c|c|l]; [exact H|now elim (no_esc_piece _ Hw c)|]. cbn [render_piece piece_value wf_piece] in *. apply andb_true_iff in Hw as [_ Hw].
  rewrite !in_app_iff in *. rewrite (items_chars l x Hw Hx) in H. exact H.
Qed.

(** ** A cell on which they disagree *)
Definition clean (c : N) : bool := negb (is_opt (cd D) c) && negb (is_nl c).
Lemma copy_run s b fs k : forallb clean s = true -> fits (b ++ s) -> ctrun (ob IN_FIELD b fs) true (s ++ k) = ctrun (ob IN_FIELD (b ++ s) fs) true k.
Proof.
  intros Hs HL. assert (E1 := plain_render D s). assert (E2 := plain_chars s).
  assert (A : forallb (aok D) (map APlain s) = true).
  { rewrite forallb_forall in *. intros a Ha. apply in_map_iff in Ha as (c & <- & Hc). specialize (Hs c Hc). cbn. rewrite NE. exact Hs. }
  assert (F : forall l st, infield st = true -> st <> AFTER_ESCAPED_CRNL -> fold_left anext (map APlain l) st = IN_FIELD).
  { induction l as [|c l IH]; intros st H1 H2; cbn; [destruct st; try discriminate H1; [reflexivity|now elim H2]|]. apply IH; destruct st; try discriminate H1; (reflexivity || discriminate || now elim H2). }
  pose proof (atoms_run w limit D WF CC (map APlain s) IN_FIELD b fs k A eq_refl) as R. rewrite E1, E2, F in R; [|reflexivity|discriminate]. now apply R.
Qed.
Definition stops (k : str) : Prop := match k with [] => True | c :: _ => clean c = false end.
Lemma unclean_saves b fs c : clean c = false -> exists o', proc (ob IN_FIELD b fs) (Some c) = Ok o' /\ c_fields o' = fs ++ [b].
Proof.
  intros H. unfold clean in H. cbn [c_process c_state]. unfold c_in_field. cbn [c_end]. destruct (is_nl c) eqn:En; [eexists; split; reflexivity|]. rewrite (is_escape w D CC), NE. cbn [is_opt].
  rewrite (is_delim w D CC). destruct (is_opt (cd D) c); [|discriminate H]. eexists; split; reflexivity.
Qed.
Lemma stop_value b fs k : stops k -> forall r rs, fst (ctrun (ob IN_FIELD b fs) true k) = r :: rs -> exists y, r = fs ++ b :: y.
Proof.
  intros Hk r rs E. destruct k as [|c k].
  - cbn in E. injection E as <- _. now exists [].
  - destruct (unclean_saves b fs c Hk) as (o' & H1 & H2). destruct (step_continues w false limit _ c o' true k H1 r rs E) as (y & ->). exists y. rewrite H2, <- app_assoc. reflexivity.
Qed.
Lemma shifted (q c : N) X Y : forall L : str, q :: L ++ X = L ++ c :: Y -> q = c.
Proof. induction L as [|a L IH]; cbn; intros [= E1 E2]; [exact E1|]. subst a. apply IH. exact E2. Qed.
Lemma clean_split s : forallb clean s = true \/ exists s1 x s2, s = s1 ++ x :: s2 /\ forallb clean s1 = true /\ clean x = false.
Proof.
  induction s as [|c s IH]; [now left|]. cbn [forallb]. destruct (clean c) eqn:E; [|right; now exists [], c, s]. destruct IH as [IH|(s1 & x & s2 & -> & H1 & H2)]; [now left|]. right. exists (c :: s1), x, s2. cbn. now rewrite E.
Qed.
Lemma bad_cell_differs ps st fs mid k : wf_cell D ps = true -> agreeing_cell D ps = false -> st = START_RECORD \/ st = START_FIELD -> stops k -> fits (render_cell D ps) ->
  forall r rs, fst (ctrun (ob st [] fs) mid (render_cell D ps ++ k)) = r :: rs -> exists v y, r = fs ++ v :: y /\ v <> val ps.
Proof.
  intros Hw Hb Hst Hk HL r rs E. unfold wf_cell in Hw. apply andb_true_iff in Hw as [Hw Ha]. destruct ps as [|p ps]; [discriminate Hb|]. pose proof Hw as Hw0. cbn [forallb] in Hw. apply andb_true_iff in Hw as [Hp Hps].
  unfold render_cell in E, HL. cbn [map concat] in E, HL. rewrite <- app_assoc in E. destruct p as [c|c|l]; [|now elim (no_esc_piece _ Hp c)|].
  - (* text first *)
    pose proof (text_first c ps Hp) as EV. rewrite EV.
    assert (HL1 : fits (csv_piece D (PChar c))) by (rewrite app_length in HL; cbn in HL |- *; lia).
    assert (R : forall k', ctrun (ob st [] fs) mid (render_piece D (PChar c) ++ k') = ctrun (ob IN_FIELD [c] fs) true k').
    { intros k'. pose proof Hp as Hp'. cbn [wf_piece] in Hp'. bool_split. unfold special in H0. bool_split. apply step; [|assumption].
      destruct Hst as [->| ->]; cbn [c_process c_state c_nl]; rewrite ?H1; unfold c_start_field; cbn [c_end c_char]; rewrite H1, (no_skip w D CC), (is_escape w D CC), (is_delim w D CC), (is_quote w D CC), H0, H2, H3; exact (fits_add limit (ob _ [] fs) c IN_FIELD HL1). }
    rewrite R in E. clear R. fold (render_cell D ps) in E, HL. cbn [render_piece app length] in HL.
    assert (Hcc : clean c = true). { cbn [wf_piece] in Hp. bool_split. unfold special in H0. bool_split. unfold clean. now rewrite H0, H1. }
    destruct (clean_split (render_cell D ps)) as [Hc|(s1 & x & s2 & Es & H1 & H2)].
    + rewrite copy_run in E; [|exact Hc|exact HL]. destruct (stop_value _ _ _ Hk r rs E) as (y & ->). exists ([c] ++ render_cell D ps), y. split; [reflexivity|]. intros K.
      assert (El : length (raw_cell D (PChar c :: ps)) = length (render_cell D (PChar c :: ps))) by (rewrite <- K; reflexivity).
      pose proof (proj2 (cell_len (PChar c :: ps)) Hw0 El) as NQ. assert (HA : agreeing_cell D (PChar c :: ps) = true); [|congruence].
      cbn [agreeing_cell]. apply forallb_forall. intros p Hin. destruct p as [c'|c'|l]; try reflexivity. cbn [agreeing_piece]. apply forallb_forall. intros i Hi.
      rewrite forallb_forall in Hw0. pose proof (Hw0 _ Hin) as Hwp. cbn [wf_piece] in Hwp. apply andb_true_iff in Hwp as [_ Hwl]. rewrite forallb_forall in Hwl. specialize (Hwl i Hi).
      destruct i as [c'| |c']; [|now elim (NQ _ l QQuote Hin eq_refl Hi)|now elim (no_esc_item _ Hwl c')].
      cbn [agreeing_item]. destruct Hin as [[=]|Hin]. rewrite forallb_forall in Hc. apply (Hc c'). unfold render_cell. apply in_concat. exists (render_piece D (PQuoted l)). split; [now apply in_map|].
      cbn [render_piece]. apply in_or_app. right. apply in_or_app. left. unfold render_qitems. apply in_concat. exists [c']. split; [|now left]. exact (in_map (render_qitem D) l (QChar c') Hi).
    + assert (HL2 : fits ([c] ++ s1)) by (rewrite Es, app_length in HL; cbn in HL |- *; lia).
      rewrite Es, <- app_assoc in E. cbn [app] in E. change [c] with ([] ++ [c]) in E. rewrite copy_run in E; [|exact H1|exact HL2].
      destruct (stop_value (([] ++ [c]) ++ s1) fs (x :: s2 ++ k) H2 r rs E) as (y & ->). exists (c :: s1), y. split; [reflexivity|]. intros K.
      assert (Hx : In x (raw_cell D (PChar c :: ps))).
      { apply cell_chars; [exact Hw0| |].
        - destruct (is_opt (cq D) x) eqn:Q; [|reflexivity]. apply is_opt_some in Q. destruct (quote_facts D WF x Q) as (_ & Q1 & Q2 & _). unfold clean in H2. rewrite Q1, Q2 in H2. discriminate H2.
        - unfold render_cell in *. cbn [map concat]. apply in_or_app. right. rewrite Es. apply in_elt. }
      rewrite <- K in Hx. destruct Hx as [<-|Hx]; [congruence|]. rewrite forallb_forall in H1. specialize (H1 x Hx). congruence.
  - (* quotes first *)
    destruct ps as [|p ps]; [discriminate Hb|]. cbn [forallb] in Hps. apply andb_true_iff in Hps as [Hp2 Hps]. destruct p as [c|c|l2]; [|now elim (no_esc_piece _ Hp2 c)|discriminate Ha].
    cbn [wf_piece] in Hp. apply andb_true_iff in Hp as [Hq Hl]. destruct (cq D) as [q|] eqn:Eq; [|discriminate Hq].
    assert (HqN : q <> c). { intros ->. cbn [wf_piece] in Hp2. bool_split. unfold special in H0. bool_split. rewrite Eq, is_opt_refl in H3. discriminate H3. }
    set (L := qitems_value D l) in *. assert (HLen : (length L <= length (render_qitems D l))%nat) by apply items_len.
    cbn [map concat render_piece] in E, HL. rewrite Eq in E, HL. cbn [opt_str app] in E, HL. rewrite <- !app_assoc in E. cbn [app] in E. cbn [length] in HL. rewrite !app_length in HL. cbn [length] in HL.
    rewrite (open_run w limit D WF CC st fs mid q _ Hst Eq) in E. rewrite (insides_run w limit D WF CC l [] fs true) in E; [|exact Hl|now rewrite Eq|rewrite inside_value by exact Hl; cbn [app]; fold L; lia].
    rewrite (close_run w limit D WF CC _ fs true q _ Eq) in E. rewrite inside_value in E by exact Hl. fold L in E. cbn [app] in E. rewrite (behind_quote w limit D CC c L fs _ Hp2) in E by (rewrite app_length; cbn [length]; lia).
    destruct (run_goes_on w false limit _ (ob IN_FIELD (L ++ [c]) fs) true eq_refl r rs E) as (y & z & Er). cbn [c_fields c_field] in Er. exists ((L ++ [c]) ++ y), z. split; [exact Er|].
    unfold cell_value, raw_cell. cbn [map concat piece_value]. rewrite Eq. cbn [opt_str app]. fold L. rewrite <- !app_assoc. cbn [app]. set (R := concat (map (piece_value D) ps)).
    unfold unquote. destruct (enclosed D (q :: L ++ q :: c :: R)); cbn [fst tl].
    + assert (ER : removelast (L ++ q :: c :: R) = L ++ q :: removelast (c :: R)) by (rewrite removelast_app by discriminate; reflexivity).
      rewrite ER. intros K. apply app_inv_head in K. injection K as K _. congruence.
    + intros K. symmetry in K. apply shifted in K. congruence.
Qed.
Lemma row_split cells : forallb (agreeing_cell D) cells = false -> exists pre ps post, cells = pre ++ ps :: post /\ forallb (agreeing_cell D) pre = true /\ agreeing_cell D ps = false.
Proof.
  induction cells as [|ps cells IH]; [discriminate|]. cbn [forallb]. destruct (agreeing_cell D ps) eqn:E; [|intros _; now exists [], ps, cells]. intros H. destruct (IH H) as (pre & p & post & -> & H1 & H2). exists (ps :: pre), p, post. cbn. now rewrite E.
Qed.
Lemma row_parts pre ps post k : stops k -> exists k', stops k' /\ render_row D (pre ++ ps :: post) ++ k = render_cells_open D pre ++ render_cell D ps ++ k' .
Proof.
  intros Hk. destruct post as [|p post].
  - exists k. split; [exact Hk|]. now rewrite render_row_snoc, <- app_assoc.
  - assert (Ed := cc_delim w D CC). exists (opt_str (cd D) ++ render_row D (p :: post) ++ k). split.
    + rewrite Ed. cbn. unfold clean. rewrite Ed, is_opt_refl. reflexivity.
    + clear Hk. induction pre as [|c pre IH].
      * cbn [app]. rewrite render_row_cons. unfold render_cells_open. cbn [map concat app]. now rewrite <- !app_assoc.
      * cbn [app]. destruct pre as [|c' pre]; cbn [app] in *; rewrite render_row_cons; unfold render_cells_open in *; cbn [map concat] in *; rewrite <- !app_assoc in *; rewrite IH; reflexivity.
Qed.
Lemma csv_inside_len l : (length (concat (map (csv_inside D) l)) <= length (render_qitems D l))%nat.
Proof.
  unfold render_qitems. induction l as [|i l IH]; [cbn; lia|]. cbn [map concat]. rewrite !app_length. destruct i; cbn [csv_inside render_qitem]; rewrite ?app_length; cbn; lia.
Qed.
Lemma csv_items_len l : (length (csv_items D l) <= length (render_qitems D l))%nat.
Proof.
  unfold csv_items, render_qitems. induction l as [|i l IH]; [cbn; lia|]. cbn [map concat]. rewrite !app_length. destruct i; cbn [csv_item render_qitem]; rewrite ?app_length; cbn; lia.
Qed.
Lemma csv_cell_len ps : (length (csv_cell D ps) <= length (render_cell D ps))%nat.
Proof.
  assert (G : forall ps, (length (concat (map (csv_piece D) ps)) <= length (render_cell D ps))%nat).
  { clear ps. unfold render_cell. induction ps as [|p ps IH]; [cbn; lia|]. cbn [map concat]. rewrite !app_length. destruct p as [c|c|l]; cbn [csv_piece render_piece]; rewrite ?app_length; try (cbn; lia). pose proof (csv_items_len l). lia. }
  destruct ps as [|p ps]; [cbn; lia|]. destruct p as [c|c|l]; [exact (G (PChar c :: ps))|exact (G (PEsc c :: ps))|]. cbn [csv_cell]. rewrite app_length. specialize (G ps). pose proof (csv_inside_len l). unfold render_cell in *. cbn [map concat render_piece]. rewrite !app_length. lia.
Qed.
Lemma open_cells_fit cells n : (length (render_cells_open D cells) <= n)%nat -> Forall (fun s => (length s <= n)%nat) (map (csv_cell D) cells).
Proof.
  unfold render_cells_open. induction cells as [|ps cells IH]; intros H; cbn [map concat] in *; constructor; rewrite !app_length in H; [pose proof (csv_cell_len ps); lia|]. apply IH. lia.
Qed.
Lemma to_fit n l : (Z.of_nat n <= limit)%Z -> Forall (fun s : str => (length s <= n)%nat) l -> Forall (fun s => fits s) l.
Proof. intros H F. eapply Forall_impl; [|exact F]. intros s Hs. cbv beta in *. lia. Qed.
Lemma bad_row_differs cells k z rs : forallb (wf_cell D) cells = true -> forallb (agreeing_cell D) cells = false -> stops k -> fits (render_row D cells) ->
  fst (ctrun c_new false (render_row D cells ++ k)) <> (map fst (row_value D cells) ++ z) :: rs.
Proof.
  intros Hw Hb Hk HL E. destruct (row_split cells Hb) as (pre & ps & post & -> & H1 & H2). pose proof Hw as Hc. rewrite forallb_app in Hc. cbn [forallb] in Hc. apply andb_true_iff in Hc as [C1 C2]. apply andb_true_iff in C2 as [C2 C3].
  destruct (row_parts pre ps post [] I) as (k0 & _ & E0). rewrite app_nil_r in E0. rewrite E0 in HL. rewrite !app_length in HL.
  destruct (row_parts pre ps post k Hk) as (k' & Hk' & Ek). rewrite Ek in E. unfold c_new in E.
  assert (U1 : forallb (uncut_cell D) pre = true) by (apply forallb_forall; intros x Hx; apply agreeing_uncut; rewrite forallb_forall in H1; now apply H1).
  rewrite (open_cells_run w limit D WF CC pre START_RECORD [] false _ C1 U1 (or_introl eq_refl)) in E.
  2: { apply (to_fit (length (render_cells_open D pre))); [lia|]. now apply open_cells_fit. }
  cbn [app] in E. assert (Ha : after START_RECORD pre = START_RECORD \/ after START_RECORD pre = START_FIELD) by (destruct pre; [now left|now right]).
  destruct (bad_cell_differs ps _ _ _ k' C2 H2 Ha Hk' ltac:(lia) _ _ E) as (v & y & Ev & Hv).
  unfold row_value in Ev. rewrite !map_app in Ev. cbn [map] in Ev.
  assert (Ep : map fst (map (cell_value D) pre) = map (csv_cell D) pre).
  { rewrite map_map. apply map_ext_in. intros x Hx. rewrite forallb_forall in C1, H1. apply agreeing_value; [now apply C1|now apply H1]. }
  rewrite Ep, <- app_assoc in Ev. apply app_inv_head in Ev. injection Ev as Ev _. congruence.
Qed.
Lemma eol_stops e k : stops (render_eol e ++ k).
Proof. destruct e; cbn; unfold clean; cbn; apply andb_false_r. Qed.
Lemma row_cells_fit cells : fits (render_row D cells) -> Forall (fun s => fits s) (map (csv_cell D) cells).
Proof.
  intros H. destruct cells as [|c0 cells0]; [constructor|]. destruct (exists_last (l := c0 :: cells0) ltac:(discriminate)) as (cells & ps & Ec). rewrite Ec in *. rewrite render_row_snoc, app_length in H. rewrite map_app. apply Forall_app. split.
  - apply (to_fit (length (render_cells_open D cells))); [lia|]. now apply open_cells_fit.
  - constructor; [|constructor]. pose proof (csv_cell_len ps). lia.
Qed.
(** *** Open quotes at the end *)
Lemma quote_clean q : cq D = Some q -> clean q = true.
Proof. intros Q. destruct (quote_facts D WF q Q) as (_ & Q1 & Q2 & _). unfold clean. now rewrite Q1, Q2. Qed.
Lemma open_chars ps l x : forallb (wf_piece D) ps = true -> forallb (wf_qitem D) l = true -> is_opt (cq D) x = false -> In x (render_cell D ps ++ opt_str (cq D) ++ render_qitems D l) -> In x (raw_cell D ps ++ opt_str (cq D) ++ qitems_value D l).
Proof.
  intros Hw Hl Hx. rewrite !in_app_iff. rewrite (items_chars l x Hl Hx). intros [H|H]; [left; now apply cell_chars|now right].
Qed.
Lemma unclean_no_quote x : clean x = false -> is_opt (cq D) x = false.
Proof. intros H. destruct (is_opt (cq D) x) eqn:Q; [|reflexivity]. apply is_opt_some in Q. apply quote_clean in Q. congruence. Qed.
(** Behind text, the first row either contains the whole rest or stops in front
    of a delimiter or line end. *)
Lemma behind_text b fs s : fits (b ++ s) -> forall r rs, fst (ctrun (ob IN_FIELD b fs) true s) = r :: rs ->
  exists s1 y, r = fs ++ (b ++ s1) :: y /\ forallb clean s1 = true /\ (s1 = s \/ exists x, In x s /\ clean x = false).
Proof.
  intros HL r rs E. destruct (clean_split s) as [Hc|(s1 & x & s2 & -> & H1 & H2)].
  - rewrite <- (app_nil_r s) in E. rewrite copy_run in E; [|exact Hc|exact HL]. destruct (stop_value _ _ [] I r rs E) as (y & ->). exists s, y. repeat split; [exact Hc|now left].
  - rewrite copy_run in E; [|exact H1|]. 2: { rewrite app_assoc in HL. exact (fit_head _ _ _ HL). }
    destruct (stop_value (b ++ s1) fs (x :: s2) H2 r rs E) as (y & ->). exists s1, y. repeat split; [exact H1|]. right. exists x. split; [apply in_elt|exact H2].
Qed.
Lemma at_end_text c s : is_opt (cq D) c = false -> fst (unquote_at_end D (c :: s)) = c :: s.
Proof.
  intros H. unfold unquote_at_end, unquote. assert (E : enclosed D (c :: s) = false) by (destruct s; [reflexivity|]; cbn [enclosed]; now rewrite H). rewrite E. now rewrite H.
Qed.
Lemma shifted_tail (q : N) X Y : forall L : str, L ++ q :: X = q :: L ++ Y -> X = Y.
Proof. induction L as [|a L IH]; cbn; intros [= E]; [exact E|]. subst a. now apply IH. Qed.
Lemma last_cons (s : str) x d : s <> [] -> List.last (x :: s) d = List.last s d.
Proof. now destruct s. Qed.
Lemma last_behind (a s : str) d : s <> [] -> List.last (a ++ s) d = List.last s d.
Proof. intros H. induction a as [|x a IH]; [reflexivity|]. cbn [app]. rewrite last_cons; [exact IH|]. intros E. apply app_eq_nil in E as [_ E]. contradiction. Qed.
Lemma items_agree l : forallb (wf_qitem D) l = true -> (forall i, In i l -> i <> QQuote) -> forallb clean (render_qitems D l) = true -> forallb (agreeing_item D) l = true.
Proof.
  intros Hw NQ Hc. apply forallb_forall. intros i Hi. rewrite forallb_forall in Hw, Hc. specialize (Hw i Hi). destruct i as [c| |c]; [|now elim (NQ _ Hi)|now elim (no_esc_item _ Hw c)].
  cbn [agreeing_item]. apply (Hc c). unfold render_qitems. apply in_concat. exists [c]. split; [|now left]. exact (in_map (render_qitem D) l (QChar c) Hi).
Qed.
Lemma pieces_agree ps : forallb (wf_piece D) ps = true -> (forall p l i, In p ps -> p = PQuoted l -> In i l -> i <> QQuote) -> forallb clean (render_cell D ps) = true -> forallb (agreeing_piece D) ps = true.
Proof.
  intros Hw NQ Hc. apply forallb_forall. intros p Hp. rewrite forallb_forall in Hw. specialize (Hw p Hp). destruct p as [c|c|l]; try reflexivity. cbn [agreeing_piece]. cbn [wf_piece] in Hw. apply andb_true_iff in Hw as [_ Hl].
  apply items_agree; [exact Hl|intros i Hi; now apply (NQ _ l i Hp)|]. apply forallb_forall. intros x Hx. rewrite forallb_forall in Hc. apply Hc. unfold render_cell. apply in_concat. exists (render_piece D (PQuoted l)). split; [now apply in_map|].
  cbn [render_piece]. apply in_or_app. right. apply in_or_app. now left.
Qed.
Lemma open_cell_differs ps l st fs mid q : cq D = Some q -> wf_cell D ps = true -> forallb (wf_qitem D) l = true -> ends_quoted ps = false -> ps <> [] -> agreeing_open D ps l = false ->
  st = START_RECORD \/ st = START_FIELD -> fits (render_cell D ps ++ q :: render_qitems D l) ->
  forall r rs, fst (ctrun (ob st [] fs) mid (render_cell D ps ++ q :: render_qitems D l)) = r :: rs ->
  exists v y, r = fs ++ v :: y /\ v <> fst (unquote_at_end D (raw_cell D ps ++ q :: qitems_value D l)).
Proof.
  intros Eq Hw Hl He Hn Hb Hst HL r rs E. unfold wf_cell in Hw. apply andb_true_iff in Hw as [Hw Ha]. destruct ps as [|p ps]; [now elim Hn|]. clear Hn. cbn [forallb] in Hw. apply andb_true_iff in Hw as [Hp Hps].
  unfold render_cell in E, HL. cbn [map concat] in E, HL. rewrite <- app_assoc in E, HL. fold (render_cell D ps) in E, HL. destruct p as [c|c|l1]; [|now elim (no_esc_piece _ Hp c)|].
  - (* text first *)
    assert (Hcq : is_opt (cq D) c = false) by (cbn [wf_piece] in Hp; bool_split; unfold special in H0; now bool_split).
    assert (HL1 : fits (csv_piece D (PChar c))) by (rewrite app_length in HL; cbn in HL |- *; lia).
    assert (R : forall k', ctrun (ob st [] fs) mid (render_piece D (PChar c) ++ k') = ctrun (ob IN_FIELD [c] fs) true k').
    { intros k'. pose proof Hp as Hp'. cbn [wf_piece] in Hp'. bool_split. unfold special in H0. bool_split. apply step; [|assumption].
      destruct Hst as [->| ->]; cbn [c_process c_state c_nl]; rewrite ?H1; unfold c_start_field; cbn [c_end c_char]; rewrite H1, (no_skip w D CC), (is_escape w D CC), (is_delim w D CC), (is_quote w D CC), H0, H2, H3; exact (fits_add limit (ob _ [] fs) c IN_FIELD HL1). }
    rewrite R in E. clear R. cbn [render_piece] in HL.
    assert (Hcc : clean c = true). { cbn [wf_piece] in Hp. bool_split. unfold special in H0. bool_split. unfold clean. now rewrite H0, H1. }
    destruct (behind_text [c] fs _ HL r rs E) as (s1 & y & Er & C1 & C2). exists ([c] ++ s1), y. split; [exact Er|]. cbn [raw_cell map concat piece_value app]. fold (raw_cell D ps). rewrite at_end_text by exact Hcq. intros [= K].
    destruct C2 as [->|(x & Hx & Hu)].
    + assert (EL : length (render_cell D ps ++ q :: render_qitems D l) = length (raw_cell D ps ++ q :: qitems_value D l)) by now rewrite K. rewrite !app_length in EL. cbn [length] in EL.
      pose proof (cell_len ps) as [P1 P2]. pose proof (items_len l) as [I1 I2]. rewrite forallb_app in C1. apply andb_true_iff in C1 as [C1 C3]. cbn [forallb] in C3. apply andb_true_iff in C3 as [_ C3].
      assert (HA : agreeing_open D (PChar c :: ps) l = true); [|congruence]. cbn [agreeing_open forallb agreeing_piece andb].
      rewrite pieces_agree; [|exact Hps|apply P2; [exact Hps|lia]|exact C1]. apply items_agree; [exact Hl|apply I2; [exact Hl|now rewrite Eq|lia]|exact C3].
    + pose proof (open_chars ps l x Hps Hl (unclean_no_quote x Hu)) as O. rewrite Eq in O. cbn [opt_str app] in O. specialize (O Hx). rewrite <- K in O. rewrite forallb_forall in C1. specialize (C1 x O). congruence.
  - (* quotes first *)
    destruct ps as [|p ps]; [discriminate He|]. cbn [forallb] in Hps. apply andb_true_iff in Hps as [Hp2 Hps]. destruct p as [c|c|l2]; [|now elim (no_esc_piece _ Hp2 c)|discriminate Ha].
    cbn [wf_piece] in Hp. apply andb_true_iff in Hp as [Hq Hl1].
    assert (HqN : q <> c). { intros ->. cbn [wf_piece] in Hp2. bool_split. unfold special in H0. bool_split. rewrite Eq, is_opt_refl in H3. discriminate H3. }
    set (L := qitems_value D l1) in *. assert (HLen : (length L <= length (render_qitems D l1))%nat) by apply items_len.
    unfold render_cell in E, HL. cbn [map concat render_piece] in E, HL. fold (render_cell D ps) in E, HL. rewrite Eq in E, HL. cbn [opt_str app] in E, HL. rewrite <- !app_assoc in E. cbn [app] in E. rewrite <- !app_assoc in HL. cbn [app length] in HL. rewrite app_length in HL. cbn [length] in HL.
    rewrite (open_run w limit D WF CC st fs mid q _ Hst Eq) in E. rewrite (insides_run w limit D WF CC l1 [] fs true) in E; [|exact Hl1|now rewrite Eq|rewrite inside_value by exact Hl1; cbn [app]; fold L; lia].
    rewrite (close_run w limit D WF CC _ fs true q _ Eq) in E. rewrite inside_value in E by exact Hl1. fold L in E. cbn [app] in E. rewrite (behind_quote w limit D CC c L fs _ Hp2) in E by (rewrite app_length; cbn [length]; lia).
    destruct (behind_text (L ++ [c]) fs (render_cell D ps ++ q :: render_qitems D l)) with (r := r) (rs := rs) as (s1 & y & Er & C1 & C2); [rewrite !app_length in *; cbn [length] in *; lia|exact E|]. exists ((L ++ [c]) ++ s1), y. split; [exact Er|].
    unfold raw_cell. cbn [map concat piece_value]. fold (raw_cell D ps). rewrite Eq. cbn [opt_str app]. fold L. rewrite <- !app_assoc. cbn [app]. rewrite <- ?app_assoc. cbn [app]. set (W := raw_cell D ps ++ q :: qitems_value D l).
    assert (HW : W <> []) by (unfold W; destruct (raw_cell D ps); discriminate).
    unfold unquote_at_end, unquote. destruct (enclosed D (q :: L ++ q :: c :: W)) eqn:En.
    + cbn [tl]. assert (ER : removelast (L ++ q :: c :: W) = L ++ q :: c :: removelast W).
      { rewrite removelast_app by discriminate. f_equal. change (q :: c :: W) with ([q; c] ++ W). now rewrite removelast_app. }
      rewrite ER. assert (EW : s1 = removelast W -> False).
      { intros Es. destruct C2 as [C2|(x & Hx & Hu)].
        - assert (EL : length W = S (length (removelast W))). { rewrite (app_removelast_last 0%N HW) at 1. rewrite app_length. cbn. lia. }
          rewrite <- Es, C2 in EL. unfold W in EL. rewrite !app_length in EL. cbn [length] in EL. pose proof (proj1 (cell_len ps)). pose proof (proj1 (items_len l)). lia.
        - pose proof (open_chars ps l x Hps Hl (unclean_no_quote x Hu)) as O. rewrite Eq in O. cbn [opt_str app] in O. specialize (O Hx). fold W in O. rewrite (app_removelast_last 0%N HW) in O. apply in_app_or in O as [O|[O|[]]].
          + rewrite <- Es in O. rewrite forallb_forall in C1. specialize (C1 x O). congruence.
          + assert (Q : is_opt (cq D) (List.last W 0%N) = true).
            { destruct (L ++ q :: c :: W) as [|z Z] eqn:Ez; [destruct L; discriminate Ez|]. cbn [enclosed] in En. apply andb_true_iff in En as [_ En]. rewrite <- Ez in En. change (q :: c :: W) with ([q; c] ++ W) in En. rewrite !last_behind in En; [exact En|exact HW|discriminate]. }
            rewrite O in Q. rewrite (unclean_no_quote x Hu) in Q. discriminate Q. }
      destruct L as [|a L']; cbn [app].
      * rewrite Eq, is_opt_refl. cbn [fst]. intros [= K]. exact (EW K).
      * destruct (is_opt (cq D) a) eqn:Qa; cbn [fst].
        -- assert (a = q) by (apply is_opt_some in Qa; congruence). subst a. intros K. symmetry in K. change (q :: (L' ++ c :: s1)) with (q :: L' ++ c :: s1) in K. apply shifted_tail in K. injection K as K. symmetry in K. exact (EW K).
        -- intros [= K]. apply app_inv_head in K. injection K as K _. congruence.
    + rewrite Eq, is_opt_refl. cbn [fst]. intros K. apply app_inv_head in K. injection K as K _. congruence.
Qed.
Lemma open_row cells : cells <> [] -> render_cells_open D cells = render_row D cells ++ opt_str (cd D).
Proof.
  induction cells as [|c cells IH]; [now intros []|]. intros _. destruct cells as [|c' cells].
  - unfold render_cells_open. cbn [map concat]. unfold render_row. cbn. now rewrite !app_nil_r.
  - rewrite render_row_cons. unfold render_cells_open in *. cbn [map concat] in *. rewrite IH by discriminate. now rewrite <- !app_assoc.
Qed.
Lemma items_app l1 l2 : qitems_value D (l1 ++ l2) = qitems_value D l1 ++ qitems_value D l2.
Proof. unfold qitems_value. now rewrite map_app, concat_app. Qed.
Lemma open_tail_agrees cells ps l : wf_tail D (TOpen cells ps l) = true -> fits (render_tail D (TOpen cells ps l)) ->
  fst (ctrun c_new false (render_tail D (TOpen cells ps l))) = map (map fst) (tail_value D (TOpen cells ps l)) -> agreeing_tail D (TOpen cells ps l) = true.
Proof.
  intros Hw HL E. pose proof (tail_run w limit D WF CC (TOpen cells ps l) Hw) as R0. cbn [wf_tail render_tail tail_value agreeing_tail map] in *.
  apply andb_true_iff in Hw as [Hw Hl]. apply andb_true_iff in Hw as [Hw Heq]. apply andb_true_iff in Hw as [Hw Hq]. apply negb_true_iff in Heq. unfold wf_open in Hw. apply andb_true_iff in Hw as [Hw _]. apply andb_true_iff in Hw as [W1 W2].
  destruct (cq D) as [q|] eqn:Eq; [|discriminate Hq]. cbn [opt_str app] in *. rewrite map_app in E. cbn [map] in E.
  destruct (forallb (agreeing_cell D) cells) eqn:Eb; cbn [andb].
  2: { exfalso. assert (Hn : cells <> []) by (intros ->; discriminate Eb). rewrite (open_row cells Hn), <- app_assoc in E, HL. pose proof (fit_head _ _ _ HL) as HLr.
       refine (bad_row_differs cells _ _ _ W1 Eb _ HLr E). rewrite (cc_delim w D CC). cbn. unfold clean. rewrite (cc_delim w D CC), is_opt_refl. reflexivity. }
  assert (U1 : forallb (uncut_cell D) cells = true) by (apply forallb_forall; intros x Hx; apply agreeing_uncut; rewrite forallb_forall in Eb; now apply Eb).
  assert (F1 : Forall (fun s => fits s) (map (csv_cell D) cells)) by (apply (to_fit (length (render_cells_open D cells))); [rewrite app_length in HL; lia|now apply open_cells_fit]).
  assert (Ep : map fst (map (cell_value D) cells) = map (csv_cell D) cells).
  { rewrite map_map. apply map_ext_in. intros x Hx. rewrite forallb_forall in W1, Eb. apply agreeing_value; [now apply W1|now apply Eb]. }
  destruct ps as [|p ps].
  - cbn [agreeing_open]. destruct (ends_doubled l) eqn:Ed; [exfalso|reflexivity].
    cbn [uncut_tail csv_tail] in R0. rewrite R0 in E.
    2: { now rewrite U1. }
    2: { cbn [concat]. rewrite app_nil_r. apply Forall_app. split; [exact F1|]. constructor; [|constructor]. pose proof (csv_inside_len l). rewrite app_length in HL. cbn [render_cell map concat app length] in HL. lia. }
    cbn [fst] in E. injection E as E. rewrite Ep in E. apply app_inv_head in E. injection E as E. rewrite inside_value in E by exact Hl. cbn [raw_cell map concat app] in E.
    unfold ends_doubled in Ed. destruct (rev l) as [|i l'] eqn:El; [discriminate Ed|]. destruct i; try discriminate Ed. assert (El' : l = rev l' ++ [QQuote]) by (rewrite <- (rev_involutive l), El; reflexivity).
    rewrite El', items_app in E. unfold qitems_value at 2 4 in E. cbn [map concat qitem_value] in E. rewrite Eq in E. cbn [opt_str app] in E. set (V := qitems_value D (rev l')) in *.
    assert (En : enclosed D (q :: V ++ [q]) = true). { destruct (V ++ [q]) as [|z Z] eqn:Ez; [destruct V; discriminate Ez|]. cbn [enclosed]. rewrite <- Ez, last_last, Eq, is_opt_refl. reflexivity. }
    unfold unquote_at_end, unquote in E. rewrite En in E. cbn [tl] in E. rewrite removelast_last in E. apply (f_equal (@length N)) in E. rewrite app_length in E. destruct V as [|a V]; cbn in E; [discriminate E|]. destruct (is_opt (cq D) a); cbn in E; lia.
  - destruct (agreeing_open D (p :: ps) l) eqn:Eo; [reflexivity|exfalso].
    unfold c_new in E. rewrite (open_cells_run w limit D WF CC cells START_RECORD [] false _ W1 U1 (or_introl eq_refl) F1) in E. cbn [app] in E.
    assert (Ha : after START_RECORD cells = START_RECORD \/ after START_RECORD cells = START_FIELD) by (destruct cells; [now left|now right]).
    destruct (open_cell_differs (p :: ps) l _ _ _ q Eq W2 Hl Heq ltac:(discriminate) Eo Ha (fit_rest _ _ _ HL) _ _ E) as (v & y & Ev & Hv).
    rewrite Ep in Ev. apply app_inv_head in Ev. injection Ev as Ev _. congruence.
Qed.
Lemma row_tail_agrees cells : wf_tail D (TRow cells) = true -> fits (render_tail D (TRow cells)) ->
  fst (ctrun c_new false (render_tail D (TRow cells))) = map (map fst) (tail_value D (TRow cells)) -> agreeing_tail D (TRow cells) = true.
Proof.
  intros Ht HL E. cbn [agreeing_tail]. destruct (forallb (agreeing_cell D) cells) eqn:Eb; [reflexivity|exfalso]. rewrite row_tail in E by exact Ht. cbn [render_tail map] in *. rewrite <- (app_nil_r (render_row D cells)) in E.
  cbn [wf_tail] in Ht. apply andb_true_iff in Ht as [Ht _]. destruct (wf_row_cells D _ Ht) as [C _]. refine (bad_row_differs cells [] [] [] C Eb I HL _). rewrite E. now rewrite app_nil_r.
Qed.
Lemma tail_cases t : wf_tail D t = true -> t = TEnd \/ (exists cells, t = TRow cells) \/ exists cells ps l, t = TOpen cells ps l.
Proof.
  intros H. destruct t as [|cells|cells ps|cells ps l|cells ps l]; [now left|right; left; now exists cells| |right; right; now exists cells, ps, l|]; exfalso; cbn [wf_tail] in H; rewrite NE, andb_false_r in H; discriminate H.
Qed.
Lemma tail_agrees t : wf_tail D t = true -> fits (render_tail D t) -> fst (ctrun c_new false (render_tail D t)) = map (map fst) (tail_value D t) -> agreeing_tail D t = true.
Proof.
  intros H. destruct (tail_cases t H) as [->|[(cells & ->)|(cells & ps & l & ->)]]; [reflexivity|now apply row_tail_agrees|now apply open_tail_agrees].
Qed.
Lemma agree_docs rs t : wf_records D rs = true -> wf_tail D t = true -> fits (render D (mk_doc rs t)) ->
  fst (ctrun c_new false (render D (mk_doc rs t))) = map (map fst) (denote D (mk_doc rs t)) -> agreeing D (mk_doc rs t) = true.
Proof.
  intros Hw Ht. unfold agreeing, denote. cbn [records last]. induction rs as [|[cells e] rs IH]; intros HL E.
  - cbn [forallb andb map app] in *. unfold render in *. cbn [records last map concat app] in *. now apply tail_agrees.
  - cbn [wf_records] in Hw. apply andb_true_iff in Hw as [Hw Hrs]. apply andb_true_iff in Hw as [Hrow Hcr]. cbn [forallb fst map app] in *. specialize (IH Hrs).
    unfold render in *. cbn [records last map concat] in *. unfold render_record at 1 in HL. unfold render_record at 1 in E. cbn [fst snd] in *. rewrite <- !app_assoc in *.
    pose proof (fit_head _ _ _ HL : fits (render_row D cells)) as HLr. pose proof (fit_rest _ _ _ (fit_rest _ _ _ HL) : fits (concat (map (render_record D) rs) ++ render_tail D t)) as HLs.
    destruct (forallb (agreeing_cell D) cells) eqn:Eb; [|exfalso; refine (bad_row_differs cells _ [] _ (proj1 (wf_row_cells D _ Hrow)) Eb (eol_stops e _) HLr _); rewrite E; now rewrite app_nil_r]. cbn [andb]. apply IH; [exact HLs|].
    rewrite (full_row w limit D WF CC) in E.
    + injection E as _ E. exact E.
    + exact Hrow.
    + apply forallb_forall. intros x Hx. apply agreeing_uncut. rewrite forallb_forall in Eb. now apply Eb.
    + intros ->. destruct rs as [|[cells' e'] rs].
      * cbn [map concat app]. now apply (tail_starts_lf D WF).
      * cbn [map concat]. unfold render_record at 1. cbn [fst snd]. cbn [wf_records] in Hrs. apply andb_true_iff in Hrs as [Hrs _]. apply andb_true_iff in Hrs as [Hrs _].
        destruct cells' as [|c' cells']; [destruct e'; try discriminate Hcr; reflexivity|]. rewrite <- !app_assoc. apply (row_starts_lf D WF); [exact Hrs|discriminate].
    + now apply row_cells_fit.
Qed.
Lemma open_agrees cells ps l : wf_tail D (TOpen cells ps l) = true -> agreeing_tail D (TOpen cells ps l) = true ->
  csv_tail D (TOpen cells ps l) = map (map fst) (tail_value D (TOpen cells ps l)) /\ uncut_tail D (TOpen cells ps l) = true.
Proof.
  cbn [wf_tail agreeing_tail tail_value uncut_tail]. intros Hw Ha. apply andb_true_iff in Ha as [A1 A2].
  apply andb_true_iff in Hw as [Hw Hl]. apply andb_true_iff in Hw as [Hw Heq]. apply andb_true_iff in Hw as [Hw Hq]. apply negb_true_iff in Heq. unfold wf_open in Hw. apply andb_true_iff in Hw as [Hw _]. apply andb_true_iff in Hw as [W1 W2].
  assert (U1 : forallb (uncut_cell D) cells = true) by (apply forallb_forall; intros x Hx; apply agreeing_uncut; rewrite forallb_forall in A1; now apply A1).
  assert (Ep : map fst (map (cell_value D) cells) = map (csv_cell D) cells).
  { rewrite map_map. apply map_ext_in. intros x Hx. rewrite forallb_forall in W1, A1. apply agreeing_value; [now apply W1|now apply A1]. }
  cbn [map]. rewrite map_app, Ep, U1. cbn [map andb]. destruct (cq D) as [q|] eqn:Eq; [|discriminate Hq]. cbn [opt_str app].
  destruct ps as [|p ps].
  - split; [|reflexivity]. cbn [csv_tail raw_cell map concat app]. rewrite inside_value by exact Hl. do 3 f_equal. cbn [agreeing_open] in A2. apply negb_true_iff in A2.
    assert (En : enclosed D (q :: qitems_value D l) = false).
    { unfold ends_doubled in A2. destruct (rev l) as [|i l'] eqn:El; [assert (l = []) as -> by (rewrite <- (rev_involutive l), El; reflexivity); reflexivity|].
      assert (El' : l = rev l' ++ [i]) by (rewrite <- (rev_involutive l), El; reflexivity). rewrite forallb_forall in Hl. assert (Hi : wf_qitem D i = true) by (apply Hl; rewrite El'; apply in_elt).
      destruct i as [c| |c]; [|discriminate A2|now elim (no_esc_item _ Hi c)]. rewrite El', items_app. unfold qitems_value at 2. cbn [map concat qitem_value app]. destruct (qitems_value D (rev l') ++ [c]) as [|z Z] eqn:Ez; [reflexivity|]. cbn [enclosed]. rewrite <- Ez, last_last.
      cbn [wf_qitem] in Hi. bool_split. now rewrite H1, andb_false_r. }
    unfold unquote_at_end, unquote. rewrite En, Eq, is_opt_refl. reflexivity.
  - unfold wf_cell in W2. apply andb_true_iff in W2 as [W2 _]. cbn [agreeing_open] in A2. pose proof W2 as W2'. cbn [forallb] in W2'. apply andb_true_iff in W2' as [Wp _]. destruct p as [c|c|l1]; [|now elim (no_esc_piece _ Wp c)|discriminate A2].
    apply andb_true_iff in A2 as [A2 A3]. assert (Hcq : is_opt (cq D) c = false) by (cbn [wf_piece] in Wp; bool_split; unfold special in H0; now bool_split).
    cbn [csv_tail csv_cell]. rewrite (agreeing_raw (PChar c :: ps)) by assumption. cbn [raw_cell map concat piece_value app]. rewrite at_end_text by exact Hcq.
    assert (EI : csv_items D l = qitems_value D l). { unfold csv_items, qitems_value. f_equal. apply map_ext_in. intros i Hi. rewrite forallb_forall in A3. specialize (A3 i Hi). destruct i as [x| |x]; (reflexivity || discriminate A3). }
    rewrite Eq. cbn [opt_str app]. rewrite EI. split; [reflexivity|]. apply andb_true_iff. split.
    + apply agreeing_uncut. exact A2.
    + rewrite forallb_forall in *. intros i Hi. specialize (A3 i Hi). destruct i as [x| |x]; [exact A3|reflexivity|reflexivity].
Qed.
Lemma agreeing_rows d : wf_doc D d = true -> agreeing D d = true -> csv_rows D d = map (map fst) (denote D d) /\ uncut D d = true.
Proof.
  intros Hw Ha. unfold wf_doc in Hw. apply andb_true_iff in Hw as [Hw Ht]. unfold agreeing in Ha. apply andb_true_iff in Ha as [A1 A2].
  assert (Row : forall cells, forallb (wf_cell D) cells = true -> forallb (agreeing_cell D) cells = true -> map (csv_cell D) cells = map fst (map (cell_value D) cells) /\ forallb (uncut_cell D) cells = true).
  { intros cells W A. split.
    - rewrite map_map. apply map_ext_in. intros ps Hp. rewrite forallb_forall in W, A. symmetry. apply agreeing_value; [now apply W|now apply A].
    - apply forallb_forall. intros ps Hp. apply agreeing_uncut. rewrite forallb_forall in A. now apply A. }
  assert (T : csv_tail D (last d) = map (map fst) (tail_value D (last d)) /\ uncut_tail D (last d) = true).
  { destruct (tail_cases _ Ht) as [Et|[(cells & Et)|(cells & ps & l & Et)]]; rewrite Et in *; [now split| |].
    - rewrite row_tail by exact Ht. cbn [wf_tail] in Ht. apply andb_true_iff in Ht as [Ht _]. destruct (wf_row_cells D _ Ht) as [C _]. destruct (Row cells C A2) as [R1 R2]. cbn [csv_tail map uncut_tail]. now rewrite R1.
    - now apply open_agrees. }
  destruct T as [T1 T2]. unfold csv_rows, denote, uncut. rewrite T1, T2, andb_true_r, map_app. split.
  - f_equal. rewrite map_map. apply map_ext_in. intros r Hr. unfold row_value. apply Row; [now apply (wf_records_rows D (records d))|]. rewrite forallb_forall in A1. now apply A1.
  - apply forallb_forall. intros r Hr. apply Row; [now apply (wf_records_rows D (records d))|]. rewrite forallb_forall in A1. now apply A1.
Qed.
Lemma doc_cells_fit d : wf_doc D d = true -> fits (render D d) -> Forall (fun s => fits s) (concat (csv_rows D d)).
Proof.
  intros Hc HL. unfold csv_rows. rewrite concat_app. apply Forall_app. unfold render in HL. rewrite app_length in HL. split.
  - assert (G : fits (concat (map (render_record D) (records d)))) by lia. clear HL. clear Hc. induction (records d) as [|[cells e] rs IH]; [constructor|]. cbn [map concat fst] in *. unfold render_record at 1 in G. cbn [fst snd] in G. rewrite !app_length in G. apply Forall_app. split; [|apply IH; lia]. apply row_cells_fit. lia.
  - unfold wf_doc in Hc. apply andb_true_iff in Hc as [_ Ht]. destruct (tail_cases _ Ht) as [Et|[(cells & Et)|(cells & ps & l & Et)]]; rewrite Et in *; [constructor| |].
    + cbn [csv_tail concat render_tail] in *. rewrite app_nil_r. apply row_cells_fit. lia.
    + cbn [render_tail] in HL. rewrite !app_length in HL. assert (F1 : Forall (fun s => fits s) (map (csv_cell D) cells)) by (apply (to_fit (length (render_cells_open D cells))); [lia|now apply open_cells_fit]).
      pose proof (csv_inside_len l). pose proof (csv_items_len l). pose proof (csv_cell_len ps). destruct ps as [|p ps]; cbn [csv_tail concat]; rewrite app_nil_r; apply Forall_app; (split; [exact F1|]); constructor; try constructor; rewrite ?app_length; lia.
Qed.
Theorem readers_agree d : wf_doc D d = true -> (Z.of_nat (length (render D d)) < limit)%Z ->
  map (map CStr) (fst (csv_reader w false limit (render D d))) = fst (parse_string limit (render D d) (simple D false) false) <-> agreeing D d = true.
Proof.
  intros Hw HL.
  assert (EP : fst (parse_string limit (render D d) (simple D false) false) = map (map CStr) (map (map fst) (denote D d))).
  { rewrite parse_string_layout; [|exact WF|exact Hw|apply Forall_forall; intros x Hx; apply raw_cells_bound in Hx; lia]. cbn [fst]. unfold mk_rows. rewrite map_map. apply map_ext. intros r. rewrite map_map. apply map_ext. now intros [s b]. }
  rewrite EP. split.
  - intros E. assert (E' : fst (csv_reader w false limit (render D d)) = map (map fst) (denote D d)).
    { revert E. generalize (fst (csv_reader w false limit (render D d))) (map (map fst) (denote D d)). induction l as [|r l IH]; intros [|r' l'] E; try discriminate E; [reflexivity|]. injection E as E1 E2. f_equal; [|now apply IH].
      revert r' E1. induction r as [|s r IHr]; intros [|s' r'] E1; try discriminate E1; [reflexivity|]. injection E1 as -> E1. f_equal. now apply IHr. }
    unfold csv_reader in E'. rewrite (run_text w false limit (length (render D d))) in E' by lia. unfold wf_doc in Hw. apply andb_true_iff in Hw as [Hw Ht]. destruct d as [rs t]. apply agree_docs; try assumption. lia.
  - intros Ha. destruct (agreeing_rows d Hw Ha) as [R1 R2]. rewrite (csv_reads_layout w limit D WF CC d Hw R2); [cbn [fst]; now rewrite R1|]. apply doc_cells_fit; [exact Hw|lia].
Qed.
Theorem texts_agree t : no_nul t -> (Z.of_nat (length t) < limit)%Z ->
  exists d, wf_doc D d = true /\ render D d = t /\
    (map (map CStr) (fst (csv_reader w false limit t)) = fst (parse_string limit t (simple D false) false) <-> agreeing D d = true).
Proof.
  intros Hn HL. destruct (layout_total D t Hn) as (d & Hw & <-). exists d. split; [exact Hw|]. split; [reflexivity|]. now apply readers_agree.
Qed.
End Agree.
