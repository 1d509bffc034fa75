(** * HeaderTables: has_header on tables in simple form *)
From Coq Require Import String Permutation.
From Verif Require Import Base Parser Dialect CsvLib Reader SpecLayout SpecParse ParserLift BareCR Potential SpecPotential PotentialFacts SpecNormal NormalForm
  Consistency DetectFacts Detect SpecDetect SpecHeader DetectorFacts HeaderFacts SpecTables TablesFacts TablesNormal TablesFiles SpecQuoted QuotedLayout QuotedFiles Simple SimpleFiles.
Open Scope N_scope.
Local Notation len := List.length.

(** ** Votes *)
Section Votes.
Variable accepts : pytype -> str -> bool.
Lemma sum_const (vs : list Z) (x : Z) : Forall (eq x) vs -> fold_right Z.add 0%Z vs = (x * Z.of_nat (len vs))%Z.
Proof.
  induction 1 as [|y vs <- _ IH]; [cbn; lia|]. cbn [fold_right len]. rewrite IH. lia.
Qed.
Lemma vote_all header rows x vs :
  Forall2 (vote accepts header rows) (seq 0 (len header)) vs ->
  (forall i v, (i < len header)%nat -> vote accepts header rows i v -> v = x) -> fold_right Z.add 0%Z vs = (x * Z.of_nat (len header))%Z.
Proof.
  intros HF H. assert (HL : len vs = len header) by (rewrite <- (seq_length (len header) 0); clear - HF; induction HF; cbn; congruence).
  rewrite (sum_const vs x); [now rewrite HL|]. apply Forall_forall. intros v Hv. symmetry.
  assert (K : forall is, (forall i, In i is -> (i < len header)%nat) -> forall vs, Forall2 (vote accepts header rows) is vs -> forall v, In v vs -> v = x).
  { clear - H. intros is Hi vs HF. induction HF as [|i v is vs Hv HF IH]; intros w Hw; [destruct Hw|]. destruct Hw as [<-|Hw].
    - apply (H i); [apply Hi; now left|exact Hv].
    - apply IH; [|exact Hw]. intros j Hj. apply Hi. now right. }
  apply (K (seq 0 (len header))) with (vs := vs); [|exact HF|exact Hv]. intros i Hi. apply in_seq in Hi. lia.
Qed.
Lemma kept (header : list str) rows r : In r (filter (fun r : list str => Nat.eqb (len r) (len header)) rows) -> In r rows.
Proof. intros H. now apply filter_In in H. Qed.
Lemma numbers_vote header rows n b : numbers_below accepts header rows -> header_vote accepts header (firstn n rows) b -> b = true.
Proof.
  intros (Hn & HN) (vs & HF & HB). apply HB.
  rewrite (vote_all _ _ 1%Z vs HF); [destruct header; [congruence|cbn; lia]|].
  intros i v Hi Hv. destruct (HN i Hi) as (t & Ht & Ha). assert (HI : forall r, In r (filter (fun r : list str => Nat.eqb (len r) (len header)) (firstn n rows)) -> kind accepts (nth i r []) = TType t).
  { intros r Hr. apply Ht. apply kept in Hr. rewrite <- (firstn_skipn n rows). apply in_or_app. now left. }
  revert HI Hv. generalize (filter (fun r : list str => Nat.eqb (len r) (len header)) (firstn n rows)). intros rs HI [(_ & ->)|[(k & Hne & Hk & [(Hf & ->)|(_ & ->)])|(r1 & r2 & H1 & H2 & H3 & ->)]]; try reflexivity; exfalso.
  - destruct rs as [|r rs]; [congruence|]. rewrite <- (Hk r (or_introl eq_refl)), (HI r (or_introl eq_refl)) in Hf. cbn in Hf. congruence.
  - apply H3. now rewrite (HI r1 H1), (HI r2 H2).
Qed.
Lemma kind_fits s : fits accepts (kind accepts s) s.
Proof.
  unfold kind. destruct (accepts TInt s) eqn:E1; [exact E1|]. destruct (accepts TFloat s) eqn:E2; [exact E2|]. destruct (accepts TComplex s) eqn:E3; [exact E3|reflexivity].
Qed.
Lemma alike_vote header rows n b : all_alike accepts header rows -> (forall r, In r rows -> len r = len header) -> header_vote accepts header (firstn (S n) rows) b -> b = false.
Proof.
  intros (Hn & HN) HL (vs & HF & HB). destruct b; [|reflexivity]. exfalso. pose proof (proj1 HB eq_refl) as HB'.
  rewrite (vote_all _ _ (-1)%Z vs HF) in HB'; [lia|].
  intros i v Hi Hv. destruct (HN i Hi) as (k & Hk). destruct rows as [|r0 rows]; [congruence|]. cbn [firstn] in Hv.
  assert (E0 : filter (fun r : list str => Nat.eqb (len r) (len header)) (r0 :: firstn n rows) = r0 :: filter (fun r : list str => Nat.eqb (len r) (len header)) (firstn n rows)).
  { cbn [filter]. rewrite (HL r0) by now left. now rewrite Nat.eqb_refl. }
  rewrite E0 in Hv.
  assert (HI : forall r, In r (r0 :: filter (fun r : list str => Nat.eqb (len r) (len header)) (firstn n rows)) -> kind accepts (nth i r []) = k).
  { intros r [<-|Hr]; apply Hk; right; [now left|]. right. apply kept in Hr. rewrite <- (firstn_skipn n rows). apply in_or_app. now left. }
  revert HI Hv. generalize (filter (fun r : list str => Nat.eqb (len r) (len header)) (firstn n rows)). intros rs HI [(K & _)|[(k' & Hne & Hk' & [(_ & ->)|(Hf & ->)])|(r1 & r2 & H1 & H2 & H3 & ->)]]; try reflexivity; exfalso.
  - discriminate.
  - apply Hf. rewrite <- (Hk' r0 (or_introl eq_refl)), (HI r0 (or_introl eq_refl)), <- (Hk header (or_introl eq_refl)). apply kind_fits.
  - apply H3. now rewrite (HI r1 H1), (HI r2 H2).
Qed.
End Votes.

(** ** Line ends *)
Lemma no_bare_app s t : ~ In CR s -> no_bare_cr t -> no_bare_cr (s ++ t).
Proof.
  induction s as [|x s IH]; intros Hn Ht; [exact Ht|]. intros a c b E. destruct a as [|y a].
  - injection E as -> _. elim Hn. now left.
  - injection E as -> E. apply (IH (fun K => Hn (or_intror K)) Ht a c b E).
Qed.
Lemma no_bare_eol e t : e <> ECR -> no_bare_cr t -> no_bare_cr (render_eol e ++ t).
Proof.
  intros He Ht. destruct e; [|congruence|]; cbn [render_eol app].
  - intros a c b E. destruct a as [|y a]; [discriminate|]. injection E as <- E. exact (Ht a c b E).
  - intros a c b E. destruct a as [|y [|z a]].
    + injection E as <- _. reflexivity.
    + injection E as <- E. discriminate.
    + injection E as <- <- E. exact (Ht a c b E).
Qed.
Lemma no_bare_nil : no_bare_cr [].
Proof. intros [|x a] c b E; discriminate. Qed.
Lemma no_bare_text c e rows final : e <> ECR -> (forall r, In r rows -> snd r = e) -> (forall r, In r (table_of rows final) -> ~ In CR (join [c] r)) ->
  no_bare_cr (table_text c rows final).
Proof.
  intros He Hs Hr. unfold table_text. unfold table_of in Hr. induction rows as [|[r e'] rows IH].
  - cbn [map List.concat app]. destruct final as [r|]; [|exact no_bare_nil]. rewrite <- (app_nil_r (join [c] r)). apply no_bare_app; [apply Hr; now left|exact no_bare_nil].
  - cbn [map List.concat fst snd]. rewrite <- !app_assoc. apply no_bare_app; [apply Hr; now left|]. pose proof (Hs (r, e') (or_introl eq_refl)) as E. cbn in E. subst e'. apply no_bare_eol; [exact He|].
    apply IH; [intros x Hx; apply Hs; now right|intros x Hx; apply Hr; now right].
Qed.

(** ** The detector *)
Section Header.
Variables (cat : N -> str) (url : str -> str -> option nat) (known : str -> bool -> res pyexc bool) (O : orders) (o_set : list SimpleDialect -> list SimpleDialect).
Variable accepts : pytype -> str -> bool.
Local Notation has_header := (has_header cat url known O o_set (cast_of accepts)).
Lemma normal_header reg text max s D header rows : detect_dialect_normal cat text utf8 None = Ok (Some D) -> validate D = true -> no_bare_cr text ->
  parse_string (st_limit s) text D false = (map (map CStr) (header :: rows), None) ->
  exists b, has_header reg text max s = (Ok b, mk_state (Some NORMAL) (st_limit s)) /\ header_vote accepts header (firstn (Z.to_nat (max + 1)) rows) b.
Proof.
  intros HD HV HC HP. assert (ES : sniff cat url known O o_set text None s = (Ok (Some D), mk_state (Some NORMAL) (st_limit s))).
  { apply normal_method; [exact HD|cbn; tauto]. }
  unfold parse_string in HP. rewrite <- lf_univ in HP by exact HC.
  pose proof (has_header_lf cat url known O o_set accepts reg text max s D _ (header :: rows) None ES HV HP) as H. cbn zeta iota in H.
  destruct (Nat.ltb _ _); exact H.
Qed.
Lemma votes_answer k header rows max b : (forall r, In r (header :: rows) -> len r = k) ->
  header_vote accepts header (firstn (Z.to_nat (max + 1)) rows) b -> header_answer accepts header rows max b.
Proof.
  intros HL H. split; [exact H|]. split; [intros HN; exact (numbers_vote accepts header rows _ b HN H)|]. intros Hm HA.
  replace (Z.to_nat (max + 1)) with (S (Z.to_nat max)) in H by lia. apply (alike_vote accepts header rows (Z.to_nat max) b HA); [|exact H].
  intros r Hr. rewrite (HL r) by now right. symmetry. apply HL. now left.
Qed.
Theorem bare_header reg c k rows final e max s header below : In c common_delimiters ->
  table_of rows final <> [] -> (2 <= k)%nat -> Forall (fun r => len r = k /\ Forall (over elementary) r) (table_of rows final) ->
  (forall r, In r rows -> snd r = e) -> e <> ECR -> ~ escape_suspect cat common_delimiters (table_text c rows final) ->
  (forall r s', In r (table_of rows final) -> In s' r -> (Z.of_nat (len s') <= st_limit s)%Z) ->
  table_of rows final = header :: below ->
  exists b, has_header reg (table_text c rows final) max s = (Ok b, mk_state (Some NORMAL) (st_limit s)) /\ header_answer accepts header below max b.
Proof.
  intros Hd Hn Hk HF Hs He Hx Hl ET. pose proof (bare_parsed c k rows final (st_limit s) Hd (conj Hn (conj Hk HF)) Hl) as HP. rewrite ET in HP.
  destruct (common_nl c Hd) as (H1 & H2 & H3 & H4). rewrite Forall_forall in HF.
  destruct (normal_header reg (table_text c rows final) max s _ header below
    (bare_simple cat c k rows final e Hd (conj Hn (conj Hk (proj2 (Forall_forall _ _) HF))) Hs Hx)) as (b & HB & HV); [|  |exact HP|].
  - clear - Hd. repeat (destruct Hd as [<-|Hd]; [reflexivity|]). destruct Hd.
  - apply (no_bare_text c e); [exact He|exact Hs|]. intros r Hr Hi. destruct (HF r Hr) as (_ & HC). rewrite Forall_forall in HC.
    apply in_join_any in Hi as [(x & Hx' & Hi)|([Hi|[]] & _)]; [|congruence]. specialize (HC x Hx'). unfold over in HC. rewrite Forall_forall in HC. apply HC, elementary_nl in Hi. tauto.
  - exists b. split; [exact HB|]. apply (votes_answer k); [|exact HV]. intros r Hr. rewrite <- ET in Hr. now apply HF.
Qed.
Theorem simple_header reg c q k rows final e max s header below : a_quote q -> In c common_delimiters ->
  simple_grid k q (table_of rows final) -> simple_quotes (table_of rows final) ->
  (forall r, In r rows -> snd r = e) -> e <> ECR -> ~ escape_suspect cat common_delimiters (quoted_text c q rows final) ->
  (forall r x, In r (table_of rows final) -> In x r -> ~ In NUL (snd x) /\ (Z.of_nat (len (cell_text q x)) <= st_limit s)%Z) ->
  map (map snd) (table_of rows final) = header :: below ->
  exists b, has_header reg (quoted_text c q rows final) max s = (Ok b, mk_state (Some NORMAL) (st_limit s)) /\ header_answer accepts header below max b.
Proof.
  intros Hq Hd HG HQ Hs He Hx Hl ET.
  pose proof (simple_parsed c q k rows final Hq Hd HG (fun r x Hr Hx => proj1 (Hl r x Hr Hx)) (st_limit s) (fun r x Hr Hx => proj2 (Hl r x Hr Hx))) as HP.
  assert (EC : map (map (fun x : qcell => CStr (snd x))) (table_of rows final) = map (map CStr) (header :: below)).
  { rewrite <- ET, map_map. apply map_ext. intros r. now rewrite map_map. }
  rewrite EC in HP.
  destruct (normal_header reg (quoted_text c q rows final) max s _ header below (quoted_simple cat c q k rows final e Hq Hd HG Hs HQ Hx)) as (b & HB & HV); [|  |exact HP|].
  - clear - Hd Hq. destruct Hq as [->| ->]; repeat (destruct Hd as [<-|Hd]; [reflexivity|]); destruct Hd.
  - unfold quoted_text. apply (no_bare_text c e); [exact He| |].
    + intros r Hr. apply in_map_iff in Hr as (r' & <- & Hr). cbn [snd]. now apply Hs.
    + rewrite quoted_table. intros r Hr Hi. apply in_map_iff in Hr as (r' & <- & Hr). destruct (common_nl c Hd) as (H1 & _).
      apply in_join_any in Hi as [(x & Hx' & Hi)|([Hi|[]] & _)]; [|congruence]. apply in_map_iff in Hx' as (y & <- & Hy). now apply (simple_no_nl cat c q k rows final Hq HG r' y Hr Hy) in Hi.
  - exists b. split; [exact HB|]. apply (votes_answer k); [|exact HV]. intros r Hr. rewrite <- ET in Hr. apply in_map_iff in Hr as (r' & <- & Hr). rewrite map_length.
    now apply (simple_len q k rows final HG).
Qed.

(** *** Rows that end with a bare CR *)
Lemma cr_header reg text D cells x rest max s : text = render D (mk_doc [(cells, ECR)] TEnd) ++ x :: rest ->
  detect_dialect_normal cat text utf8 None = Ok (Some (simple D false)) -> wf_chars D = true -> wf_doc D (mk_doc [(cells, ECR)] TEnd) = true ->
  ~ In CR (render_row D cells) -> (1 <= st_limit s)%Z -> Forall (fun s' => Z.of_nat (len s') <= st_limit s)%Z (raw_cells D (mk_doc [(cells, ECR)] TEnd)) ->
  is_nl x = false -> x <> NUL ->
  has_header reg text max s = (Err (CleverError ENewline), mk_state (Some NORMAL) (st_limit s)).
Proof.
  intros ET HN HD Hd Hr Hl HL Hx H0. assert (ES : sniff cat url known O o_set text None s = (Ok (Some (simple D false)), mk_state (Some NORMAL) (st_limit s))).
  { apply normal_method; [exact HN|cbn; tauto]. }
  assert (HB : no_bare_cr (render D (mk_doc [(cells, ECR)] TEnd))).
  { unfold render. cbn [records SpecLayout.last map List.concat render_tail]. rewrite !app_nil_r. unfold render_record. cbn [fst snd render_eol]. apply no_bare_app; [exact Hr|].
    intros [|? [|? ?]] y b E; discriminate. }
  pose proof (bare_cr_layout D [] cells (st_limit s) x rest HD Hd HB Hl HL Hx H0) as HP. cbn [app map mk_rows] in HP. rewrite <- ET in HP.
  assert (HV : validate (simple D false) = true) by (clear; destruct D as [[|] [|] [|]]; reflexivity).
  exact (has_header_lf cat url known O o_set accepts reg text max s _ _ [] _ ES HV HP).
Qed.
Lemma head_of c r rest : (2 <= len r)%nat -> no_nl (join [c] r) -> ~ In NUL (join [c] r) -> exists x t, join [c] r ++ rest = x :: t /\ is_nl x = false /\ x <> NUL.
Proof.
  intros Hk (H1 & H2) H3. destruct (join [c] r) as [|x t] eqn:E; [elim (join_two_nil c r Hk E)|]. exists x, (t ++ rest). split; [reflexivity|].
  split; [|intros ->; apply H3; now left]. unfold is_nl. apply orb_false_iff. split; apply N.eqb_neq; intros ->; first [apply H2; left; reflexivity|apply H1; left; reflexivity].
Qed.
Theorem bare_header_cr reg c k rows final max s : In c common_delimiters ->
  (2 <= len (table_of rows final))%nat -> (2 <= k)%nat -> Forall (fun r => len r = k /\ Forall (over elementary) r) (table_of rows final) ->
  (forall r, In r rows -> snd r = ECR) -> ~ escape_suspect cat common_delimiters (table_text c rows final) ->
  (1 <= st_limit s)%Z -> (forall r s', In r (table_of rows final) -> In s' r -> (Z.of_nat (len s') <= st_limit s)%Z) ->
  has_header reg (table_text c rows final) max s = (Err (CleverError ENewline), mk_state (Some NORMAL) (st_limit s)).
Proof.
  intros Hd H2 Hk HF Hs Hx H1 Hl. set (D := mk_chars (Some c) None None). assert (Hn : table_of rows final <> []) by (intros E; rewrite E in H2; cbn in H2; lia).
  pose proof (bare_simple cat c k rows final ECR Hd (conj Hn (conj Hk HF)) Hs Hx) as HN.
  destruct (common_nl c Hd) as (C1 & C2 & C3 & C4). rewrite Forall_forall in HF.
  assert (HE : forall r s' y, In r (table_of rows final) -> In s' r -> In y s' -> In y elementary).
  { intros r s' y Hr Hs' Hy. destruct (HF r Hr) as (_ & HC). rewrite Forall_forall in HC. specialize (HC s' Hs'). unfold over in HC. rewrite Forall_forall in HC. now apply HC. }
  assert (HJ : forall r, In r (table_of rows final) -> no_nl (join [c] r) /\ ~ In NUL (join [c] r)).
  { intros r Hr. assert (K : forall y, In y (join [c] r) -> y <> CR /\ y <> LF /\ y <> NUL).
    { intros y Hy. apply in_join_any in Hy as [(s' & Hs' & Hy)|([Hy|[]] & _)]; [|subst y; auto]. pose proof (HE r s' y Hr Hs' Hy) as Hi. destruct (elementary_nl y Hi) as (K1 & K2 & _).
      split; [exact K1|]. split; [exact K2|]. intros ->. now apply (elementary_not NUL [NUL] Hi eq_refl); left. }
    split; [split|]; intros Hi; apply K in Hi; tauto. }
  destruct rows as [|[r0 e0] rows]; [destruct final; cbn in H2; lia|]. pose proof (Hs (r0, e0) (or_introl eq_refl)) as E0. cbn in E0. subst e0.
  assert (HI0 : In r0 (table_of ((r0, ECR) :: rows) final)) by now left.
  assert (HX : exists x t, table_text c rows final = x :: t /\ is_nl x = false /\ x <> NUL).
  { assert (K : forall r, In r (table_of rows final) -> forall rest, exists x t, join [c] r ++ rest = x :: t /\ is_nl x = false /\ x <> NUL).
    { intros r Hr rest. assert (Hr' : In r (table_of ((r0, ECR) :: rows) final)) by now right. destruct (HJ r Hr') as (K1 & K2). apply head_of; [|exact K1|exact K2]. now rewrite (proj1 (HF r Hr')). }
    unfold table_text. destruct rows as [|[r1 e1] rows].
    - destruct final as [r1|]; [|cbn in H2; lia]. cbn [map List.concat app]. rewrite <- (app_nil_r (join [c] r1)). apply K. now left.
    - cbn [map List.concat fst snd]. rewrite <- !app_assoc. apply K. now left. }
  destruct HX as (x & t & EX & X1 & X2).
  assert (HO : row_ok D r0).
  { destruct (HF r0 HI0) as (Hr & _). split; [intros ->; cbn in Hr; lia|]. split; [intros ->; cbn in Hr; lia|]. split; [reflexivity|].
    apply Forall_forall. intros s' Hs'. apply Forall_forall. intros y Hy. pose proof (HE r0 s' y HI0 Hs' Hy) as Hi. destruct (elementary_nl y Hi) as (K1 & K2 & K3 & K4).
    assert (K5 : y <> NUL) by (intros ->; now apply (elementary_not NUL [NUL] Hi eq_refl); left). assert (K6 : y <> c) by (intros ->; contradiction).
    apply N.eqb_neq in K1, K2, K5. unfold is_nl. rewrite K1, K2, K5. split; [reflexivity|]. split; [reflexivity|]. unfold special. cbn. destruct (N.eqb_spec y c); [contradiction|]. destruct (N.eqb_spec c y); [congruence|]. reflexivity. }
  assert (HD : wf_chars D = true).
  { apply N.eqb_neq in C1, C2, C4. unfold wf_chars, char_ok, is_nl. cbn [cd cq ce D]. now rewrite C1, C2, C4. }
  assert (HO' : Forall (row_ok D) (table_of [(r0, ECR)] None)) by (apply Forall_cons; [exact HO|apply Forall_nil]).
  change (mk_doc [(map (map PChar) r0, ECR)] TEnd) with (grid_doc [(r0, ECR)] None).
  assert (ER : render D (grid_doc [(r0, ECR)] None) = join [c] r0 ++ [CR]).
  { rewrite grid_render. cbn [map List.concat fst snd render_eol cd D opt_str]. now rewrite !app_nil_r. }
  apply (cr_header reg _ D (map (map PChar) r0) x t).
  - change (mk_doc [(map (map PChar) r0, ECR)] TEnd) with (grid_doc [(r0, ECR)] None). rewrite ER, <- EX, <- app_assoc. unfold table_text. cbn [map List.concat fst snd render_eol]. now rewrite <- !app_assoc.
  - exact HN.
  - exact HD.
  - exact (grid_wf D [(r0, ECR)] None HO').
  - intros Hi. destruct (HJ r0 HI0) as ((K & _) & _). apply K.
    assert (EQ : render_row D (map (map PChar) r0) ++ [CR] = join [c] r0 ++ [CR]) by (rewrite <- ER; unfold render, grid_doc, render_record; cbn [records SpecLayout.last map List.concat fst snd render_tail render_eol]; now rewrite !app_nil_r).
    apply app_inv_tail in EQ. now rewrite <- EQ.
  - exact H1.
  - apply Forall_forall. intros y Hy. apply (grid_raw D [(r0, ECR)] None) in Hy as (r & [<-|[]] & Hi). now apply (Hl r0).
  - exact X1.
  - exact X2.
Qed.
Theorem simple_header_cr reg c q k rows final max s : a_quote q -> In c common_delimiters ->
  (2 <= len (table_of rows final))%nat -> simple_grid k q (table_of rows final) -> simple_quotes (table_of rows final) ->
  (forall r, In r rows -> snd r = ECR) -> ~ escape_suspect cat common_delimiters (quoted_text c q rows final) ->
  (1 <= st_limit s)%Z -> (forall r x, In r (table_of rows final) -> In x r -> ~ In NUL (snd x) /\ (Z.of_nat (len (cell_text q x)) <= st_limit s)%Z) ->
  has_header reg (quoted_text c q rows final) max s = (Err (CleverError ENewline), mk_state (Some NORMAL) (st_limit s)).
Proof.
  intros Hq Hd H2 HG HQ Hs Hx H1 Hl. set (D := mk_chars (Some c) (Some q) None).
  pose proof (quoted_simple cat c q k rows final ECR Hq Hd HG Hs HQ Hx) as HN.
  destruct (common_nl c Hd) as (C1 & C2 & C3 & C4). assert (Hcq : c <> q) by (intros ->; contradiction).
  assert (Q0 : q <> NUL) by (destruct Hq as [E|E]; rewrite E; discriminate).
  assert (HJ : forall r, In r (table_of rows final) -> no_nl (join [c] (map (cell_text q) r)) /\ ~ In NUL (join [c] (map (cell_text q) r)) /\ (2 <= len (map (cell_text q) r))%nat).
  { intros r Hr. split; [|split].
    - apply join_no_nl; [exact C1|exact C2|]. apply Forall_map, Forall_forall. intros x Hx'. exact (simple_no_nl cat c q k rows final Hq HG r x Hr Hx').
    - intros Hi. apply in_join_any in Hi as [(s' & Hs' & Hi)|([Hi|[]] & _)]; [|congruence]. apply in_map_iff in Hs' as (x & <- & Hx'). destruct (Hl r x Hr Hx') as (K & _).
      unfold cell_text in Hi. destruct x as [[|] v]; cbn [fst snd] in *; [|contradiction]. destruct Hi as [Hi|Hi]; [congruence|]. apply in_app_or in Hi as [Hi|[Hi|[]]]; [contradiction|congruence].
    - rewrite map_length, (simple_len q k rows final HG r Hr). apply HG. }
  assert (HD : wf_chars D = true).
  { apply N.eqb_neq in C1, C2, C4, Hcq. unfold wf_chars, char_ok, is_nl, distinct_opt. cbn [cd cq ce D]. rewrite C1, C2, C4, Hcq. destruct Hq as [->| ->]; reflexivity. }
  pose proof (simple_row_ok c q k rows final Hq Hd HG (fun r x Hr Hx' => proj1 (Hl r x Hr Hx'))) as HRO.
  destruct rows as [|[r0 e0] rows]; [destruct final; cbn in H2; lia|]. pose proof (Hs (r0, e0) (or_introl eq_refl)) as E0. cbn in E0. subst e0.
  assert (HI0 : In r0 (table_of ((r0, ECR) :: rows) final)) by now left.
  assert (HX : exists x t, quoted_text c q rows final = x :: t /\ is_nl x = false /\ x <> NUL).
  { assert (K : forall r, In r (table_of rows final) -> forall rest, exists x t, join [c] (map (cell_text q) r) ++ rest = x :: t /\ is_nl x = false /\ x <> NUL).
    { intros r Hr rest. assert (Hr' : In r (table_of ((r0, ECR) :: rows) final)) by now right. destruct (HJ r Hr') as (K1 & K2 & K3). now apply head_of. }
    unfold quoted_text, table_text. destruct rows as [|[r1 e1] rows].
    - destruct final as [r1|]; [|cbn in H2; lia]. cbn [map List.concat app option_map]. rewrite <- (app_nil_r (join [c] (map (cell_text q) r1))). apply K. now left.
    - cbn [map List.concat fst snd]. rewrite <- !app_assoc. apply K. now left. }
  destruct HX as (x & t & EX & X1 & X2).
  specialize (HRO r0 HI0).
  assert (ER : render_row D (map cell_pieces r0) = join [c] (map (cell_text q) r0)).
  { rewrite <- (simple_cut c q k ((r0, ECR) :: rows) final Hd HG r0 HI0). change (Some c) with (cd D). rewrite cut_render. now apply row_pieces_render. }
  apply (cr_header reg _ D (map cell_pieces r0) x t).
  - unfold render, render_record. cbn [records SpecLayout.last map List.concat fst snd render_tail render_eol]. rewrite ER, !app_nil_r, <- EX, <- app_assoc.
    unfold quoted_text, table_text. cbn [map List.concat fst snd render_eol]. now rewrite <- !app_assoc.
  - exact HN.
  - exact HD.
  - apply (pieces_doc_wf D [(map cell_pieces r0, ECR)] None). apply Forall_cons; [exact HRO|apply Forall_nil].
  - rewrite ER. now destruct (HJ r0 HI0) as ((K & _) & _).
  - exact H1.
  - apply Forall_forall. intros y Hy.
    assert (Hy' : In y (raw_cells D (qdoc (Some c) c [(r0, ECR)] None))).
    { unfold qdoc, pieces_doc. cbn [map option_map fst snd]. rewrite (simple_cut c q k ((r0, ECR) :: rows) final Hd HG r0 HI0). exact Hy. }
    apply (raw_qdoc c q [(r0, ECR)] None y) in Hy' as (r & z & [<-|[]] & Hz & ->); [now apply (Hl r0)|].
    intros r [<-|[]]. exact (simple_cut c q k ((r0, ECR) :: rows) final Hd HG r0 HI0).
  - exact X1.
  - exact X2.
Qed.
End Header.
