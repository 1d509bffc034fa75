(** * Columns: files of one column *)
From Coq Require Import String Permutation.
From Verif Require Import Base Parser Dialect CsvLib Reader Writer Files Wrappers SpecLayout SpecParse SpecWriter SpecFiles ParserLift StandardizeFacts TableFacts Potential SpecPotential PotentialFacts
  SpecTies NormalForm SpecNormal NormalFacts NormalForms NormalParse Consistency DetectFacts Detect SpecTables TablesFacts TablesNormal TablesFiles SpecQuoted QuotedLayout QuotedNormal QuotedFiles Simple SimpleFiles SpecColumn.
Open Scope N_scope.
Local Notation len := List.length.

(** ** Lines *)
Lemma column_table c rows final :
  column_text rows final = table_text c (map (fun r => ([fst r], snd r)) rows) (option_map (fun s => [s]) final).
Proof.
  unfold column_text, table_text. rewrite map_map. f_equal. now destruct final.
Qed.
Lemma column_rows rows final :
  table_of (map (fun r : str * eol => ([fst r], snd r)) rows) (option_map (fun s : str => [s]) final) = map (fun s => [s]) (column_of rows final).
Proof. unfold table_of, column_of. rewrite map_app, !map_map. f_equal. now destruct final. Qed.
Lemma column_map (g : str -> str) rows final :
  column_of (map (fun r : str * eol => (g (fst r), snd r)) rows) (option_map g final) = map g (column_of rows final).
Proof. unfold column_of. rewrite map_app, !map_map. f_equal. now destruct final. Qed.
Lemma column_lines e rows final : column_of rows final <> [] -> (forall r, In r rows -> snd r = e) ->
  (forall s, In s (column_of rows final) -> no_nl s /\ s <> []) -> split_file (column_text rows final) = column_of rows final.
Proof.
  intros Hn He HR. rewrite (column_table COMMA). rewrite (split_rows COMMA e).
  - rewrite column_rows, map_map. cbn [join]. now rewrite map_id.
  - rewrite column_rows. destruct (column_of rows final); [congruence|discriminate].
  - intros r Hr. apply in_map_iff in Hr as (r0 & <- & Hr). cbn [snd]. now apply He.
  - rewrite column_rows. intros r Hr. apply in_map_iff in Hr as (s & <- & Hs). cbn [join]. now apply HR.
Qed.

(** ** Forms that need a delimiter *)
Lemma fit_skip l l' lines r : first_fit (l ++ l') lines r -> (forall D P, In (D, P) l -> ~ P lines) -> first_fit l' lines r.
Proof.
  induction l as [|[D P] l IH]; intros H HN; [exact H|]. cbn [app first_fit] in H. destruct H as [(H & _)|(_ & H)].
  - now apply (HN D P) in H; [|left].
  - apply IH; [exact H|]. intros D' P' Hi. apply (HN D' P'). now right.
Qed.
Definition undivided (d : N) (lines : list str) : Prop := exists l, In l lines /\ ~ In d l.
Lemma rect_divided d lines (R : str -> list str -> Prop) : (forall l cells, R l cells -> forall x, In x (join [d] cells) -> In x l) -> rectangular lines R -> ~ undivided d lines.
Proof.
  intros HR (_ & n & Hn & HF) (l & Hl & Hd). rewrite Forall_forall in HF. destruct (HF l Hl) as (cells & Hc & H). apply Hd, (HR l cells H).
  apply in_join_any. right. split; [now left|lia].
Qed.
Lemma undivided1 d q lines : form1 d q lines -> ~ undivided d lines.
Proof. apply rect_divided. intros l cells (vs & x & _ & _ & ->) y Hy. apply in_or_app. now left. Qed.
Lemma undivided2 d lines : form2 d lines -> ~ undivided d lines.
Proof. apply rect_divided. intros l cells (-> & _) y Hy. exact Hy. Qed.
Lemma undivided3 d q lines : form3 d q lines -> ~ undivided d lines.
Proof. intros (_ & H). revert H. apply rect_divided. intros l cells ((_ & _ & [->|(_ & _ & ->)]) & _) y Hy; [exact Hy|]. apply in_or_app. now left. Qed.
Lemma undivided5 d q lines : form5 d q lines -> ~ undivided d lines.
Proof.
  intros (_ & ls & -> & H) (l & Hl & Hd). apply (undivided2 d ls H). apply in_map_iff in Hl as (l' & <- & Hl). exists l'. split; [exact Hl|].
  intros Hi. apply Hd. unfold quoted. right. apply in_or_app. now left.
Qed.

Definition no_commons (s : str) : Prop := forall d, In d common_delimiters -> ~ In d s.
Section Normal.
Variable cat : N -> str.
Lemma column_fit text lines r : split_file text = lines -> lines <> [] -> (forall l, In l lines -> no_commons l) -> ~ escape_suspect cat common_delimiters text ->
  first_fit [(dialect3 [] [39] [], form4 39); (dialect3 [] [34] [], form4 34); (dialect3 [] [] [], form4_plain)] lines r -> 
  detect_dialect_normal cat text utf8 None = Ok r.
Proof.
  intros EL Hn HL HE H. destruct (detect_normal cat utf8 text common_delimiters) as (r' & E & _ & Hf); [now left|exact common_fine|]. specialize (Hf HE). rewrite EL in Hf.
  rewrite detect_normal_default. etransitivity; [exact E|]. f_equal. unfold attempts in Hf.
  assert (HU : forall d, In d common_delimiters -> undivided d lines).
  { intros d Hd. destruct lines as [|l lines]; [congruence|]. exists l. split; [now left|]. apply (HL l); [now left|exact Hd]. }
  apply fit_skip in Hf.
  - apply fit_skip in Hf.
    + revert H Hf. cbn [first_fit]. intros [(H1 & ->)|(H1 & [(H2 & ->)|(H2 & [(H3 & ->)|(H3 & ->)])])] [(K1 & ->)|(K1 & [(K2 & ->)|(K2 & [(K3 & ->)|(K3 & ->)])])]; try reflexivity; contradiction.
    + intros D P Hi HP. apply in_flat_map in Hi as (d & Hd & Hi). apply in_flat_map in Hi as (q & Hq & Hi). specialize (HU d Hd).
      destruct Hi as [Hi|[Hi|[Hi|[]]]]; injection Hi as <- <-; [apply undivided1 in HP|apply undivided3 in HP|apply undivided5 in HP]; contradiction.
  - intros D P Hi HP. apply in_map_iff in Hi as (d & [= <- <-] & Hd). apply undivided2 in HP. apply HP, HU, Hd.
Qed.
Lemma word_not x s : In x (SPACE :: word) -> forallb (fun y => negb (mem_char y (SPACE :: word))) s = true -> ~ In x s.
Proof.
  intros Hx HF Hi. rewrite forallb_forall in HF. specialize (HF x Hi). apply mem_char_In in Hx. rewrite Hx in HF. discriminate.
Qed.
Lemma word_commons x : In x (SPACE :: word) -> ~ In x (CR :: LF :: NUL :: 39 :: 34 :: common_delimiters).
Proof. intros H. apply word_not; [exact H|vm_compute; reflexivity]. Qed.
Lemma in_column x rows final e : (forall r, In r rows -> snd r = e) -> In x (column_text rows final) -> In x (render_eol e) \/ exists s, In s (column_of rows final) /\ In x s.
Proof.
  intros He. unfold column_text, column_of. rewrite in_app_iff. intros [H|H].
  - apply in_concat in H as (l & Hl & Hx). apply in_map_iff in Hl as ([s0 e0] & <- & Hr). pose proof (He (s0, e0) Hr) as E0. cbn [fst snd] in Hx, E0. subst e0. apply in_app_or in Hx as [Hx|Hx]; [|now left].
    right. exists s0. split; [|exact Hx]. apply in_or_app. left. apply in_map_iff. now exists (s0, e).
  - destruct final as [s|]; [|destruct H]. right. exists s. split; [|exact H]. apply in_or_app. right. now left.
Qed.
Theorem plain_column rows final e : (2 <= len (column_of rows final))%nat -> (forall r, In r rows -> snd r = e) ->
  (forall s, In s (column_of rows final) -> s <> [] /\ over word s) ->
  detect_dialect_normal cat (column_text rows final) utf8 None = Ok (Some (dialect3 [] [] [])).
Proof.
  intros H2 He HW. assert (HC : forall s x, In s (column_of rows final) -> In x s -> ~ In x (CR :: LF :: NUL :: 39 :: 34 :: common_delimiters)).
  { intros s x Hs Hx. apply word_commons. right. destruct (HW s Hs) as (_ & K). unfold over in K. rewrite Forall_forall in K. now apply K. }
  assert (Hn : column_of rows final <> []) by (intros E; rewrite E in H2; cbn in H2; lia).
  apply (column_fit _ (column_of rows final)).
  - apply (column_lines e); [exact Hn|exact He|]. intros s Hs. split; [|now apply HW]. split; intros Hi; apply (HC s _ Hs Hi); cbn; tauto.
  - exact Hn.
  - intros l Hl d Hd Hi. apply (HC l d Hl Hi). do 5 right. exact Hd.
  - intros (u & v & (a & b & E) & _ & _ & Hv).
    assert (Hi : In v (column_text rows final)) by (rewrite E; apply in_or_app; right; right; now left).
    apply (in_column v rows final e He) in Hi as [Hi|(s & Hs & Hi)].
    + destruct e; cbn in Hi; repeat (destruct Hi as [<-|Hi]); try destruct Hi; cbn in Hv; intuition discriminate.
    + apply (HC s v Hs Hi). do 3 right. exact Hv.
  - assert (HQ : forall q, In q [39; 34] -> ~ form4 q (column_of rows final)).
    { intros q Hq (_ & HF). destruct (column_of rows final) as [|l ls]; [congruence|]. apply Forall_inv in HF as (s & El & _).
      apply (HC l q); [now left|rewrite El; now left|]. do 3 right. cbn in *. tauto. }
    cbn [first_fit]. right. split; [apply HQ; now left|]. right. split; [apply HQ; right; now left|]. left. split; [|reflexivity].
    split; [exact H2|]. apply Forall_forall. intros s Hs. now apply HW.
Qed.
Theorem quoted_column_normal q rows final e : a_quote q -> (2 <= len (column_of rows final))%nat -> (forall r, In r rows -> snd r = e) ->
  (forall s, In s (column_of rows final) -> over (SPACE :: word) s) ->
  ~ escape_suspect cat common_delimiters (quoted_column q rows final) ->
  detect_dialect_normal cat (quoted_column q rows final) utf8 None = Ok (Some (dialect3 [] [q] [])).
Proof.
  intros Hq H2 He HW Hx. assert (HC : forall s x, In s (column_of rows final) -> In x s -> ~ In x (CR :: LF :: NUL :: 39 :: 34 :: common_delimiters)).
  { intros s x Hs Hi. apply word_commons. pose proof (HW s Hs) as K. unfold over in K. rewrite Forall_forall in K. now apply K. }
  assert (Hn : column_of rows final <> []) by (intros E; rewrite E in H2; cbn in H2; lia).
  assert (HI : forall s x, In x (quoted q s) -> x = q \/ In x s).
  { intros s x [Hi|Hi]; [left; now symmetry|]. apply in_app_or in Hi as [Hi|[Hi|[]]]; [now right|left; now symmetry]. }
  apply (column_fit _ (map (quoted q) (column_of rows final))).
  - unfold quoted_column. rewrite (column_lines e); rewrite ?column_map; [reflexivity| | |].
    + intros E. apply map_eq_nil in E. contradiction.
    + intros r Hr. apply in_map_iff in Hr as (r0 & <- & Hr). cbn [snd]. now apply He.
    + intros s Hs. apply in_map_iff in Hs as (s0 & <- & Hs). split; [|discriminate].
      split; intros Hi; apply HI in Hi as [Hi|Hi]; try (destruct Hq as [Hq|Hq]; rewrite Hq in Hi; discriminate); apply (HC s0 _ Hs Hi); cbn; tauto.
  - intros E. apply map_eq_nil in E. contradiction.
  - intros l Hl d Hd Hi. apply in_map_iff in Hl as (s & <- & Hs). apply HI in Hi as [Hi|Hi].
    + destruct (common_nl d Hd) as (_ & _ & K & _). apply K. now rewrite Hi.
    + apply (HC s d Hs Hi). do 5 right. exact Hd.
  - exact Hx.
  - assert (H4 : form4 q (map (quoted q) (column_of rows final))).
    { split; [now rewrite map_length|]. apply Forall_map, Forall_forall. intros s Hs. exists s. split; [reflexivity|now apply HW]. }
    cbn [first_fit]. destruct Hq as [->| ->]; [|left; split; [exact H4|reflexivity]]. right. split; [|left; split; [exact H4|reflexivity]].
    intros (_ & HF). destruct (column_of rows final) as [|l ls]; [congruence|]. apply Forall_inv in HF as (s & El & _). discriminate.
Qed.
End Normal.

(** ** Parsing *)
Section Parse.
Variables (D : chars) (pc : str -> list piece) (txt : str -> str) (rows : list (str * eol)) (final : option str) (limit : Z).
Hypothesis HD : wf_chars D = true.
Hypothesis cells : forall s, In s (column_of rows final) -> render_cell D (pc s) = txt s /\ wf_row D [pc s] = true /\ Forall no_esc (pc s) /\
  fst (cell_value D (pc s)) = s /\ (Z.of_nat (len (raw_cell D (pc s))) <= limit)%Z.
Local Notation doc := (pieces_doc (map (fun r => ([pc (fst r)], snd r)) rows) (option_map (fun s => [pc s]) final)).
Lemma in_rows r : In r rows -> In (fst r) (column_of rows final).
Proof. intros H. unfold column_of. apply in_or_app. left. now apply in_map. Qed.
Lemma column_parsed : parse_string limit (column_text (map (fun r => (txt (fst r), snd r)) rows) (option_map txt final)) (simple D false) false =
  (map (fun s => [CStr s]) (column_of rows final), None).
Proof.
  assert (ER : render D doc = column_text (map (fun r => (txt (fst r), snd r)) rows) (option_map txt final)).
  { unfold render, pieces_doc, column_text. cbn [records SpecLayout.last]. rewrite !map_map. f_equal.
    - f_equal. apply map_ext_in. intros r Hr. unfold render_record, render_row. cbn [fst snd map join]. now rewrite (proj1 (cells (fst r) (in_rows r Hr))).
    - pose proof cells as HC. unfold column_of in HC. clear -HC. destruct final as [s|]; [|reflexivity]. cbn [option_map render_tail]. unfold render_row. cbn [map join].
      apply HC. apply in_or_app. right. now left. }
  assert (ET : table_of (map (fun r => ([pc (fst r)], snd r)) rows) (option_map (fun s => [pc s]) final) = map (fun s => [pc s]) (column_of rows final)).
  { unfold table_of, column_of. rewrite map_app, !map_map. f_equal. clear. now destruct final. }
  assert (HR : Forall (prow_ok D) (table_of (map (fun r => ([pc (fst r)], snd r)) rows) (option_map (fun s => [pc s]) final))).
  { rewrite ET. apply Forall_map, Forall_forall. intros s Hs. destruct (cells s Hs) as (_ & H2 & H3 & _). split; [discriminate|]. split; [exact H2|]. apply Forall_cons; [exact H3|apply Forall_nil]. }
  rewrite <- ER. rewrite parse_string_layout; [|exact HD|now apply pieces_doc_wf|].
  - rewrite (pieces_doc_denote D) by exact HR. rewrite ET. f_equal. unfold mk_rows. rewrite !map_map. apply map_ext_in. intros s Hs. destruct (cells s Hs) as (_ & _ & _ & H4 & _).
    cbn [map]. destruct (cell_value D (pc s)) as [a b0]. cbn [fst] in H4. now rewrite H4.
  - assert (K : forall s x, In s (column_of rows final) -> In x (map (raw_cell D) [pc s]) -> (Z.of_nat (len x) <= limit)%Z).
    { intros s x Hs [<-|[]]. now apply cells. }
    apply Forall_forall. intros x Hx. unfold raw_cells, pieces_doc in Hx. cbn [records SpecLayout.last] in Hx. apply in_app_or in Hx as [Hx|Hx].
    + apply in_concat in Hx as (l & Hl & Hx). rewrite map_map in Hl. apply in_map_iff in Hl as (r & <- & Hr). apply (K (fst r)); [now apply in_rows|exact Hx].
    + unfold column_of in K. revert K Hx. clear. intros K Hx. destruct final as [s|]; [|destruct Hx]. apply (K s); [|exact Hx]. apply in_or_app. right. now left.
Qed.
End Parse.
Lemma wf_none : wf_chars (mk_chars None None None) = true.
Proof. reflexivity. Qed.
Lemma plain_parsed rows final limit : (forall s, In s (column_of rows final) -> s <> [] /\ over word s /\ (Z.of_nat (len s) <= limit)%Z) ->
  parse_string limit (column_text rows final) (dialect3 [] [] []) false = (map (fun s => [CStr s]) (column_of rows final), None).
Proof.
  intros H. pose proof (column_parsed (mk_chars None None None) (map PChar) (fun s => s) rows final limit wf_none) as K.
  assert (E1 : map (fun r : str * eol => (fst r, snd r)) rows = rows) by (rewrite <- (map_id rows) at 2; apply map_ext; now intros []).
  assert (E2 : option_map (fun s : str => s) final = final) by now destruct final.
  transitivity (parse_string limit (column_text (map (fun r : str * eol => (fst r, snd r)) rows) (option_map (fun s : str => s) final)) (dialect3 [] [] []) false).
  { f_equal. now rewrite E1, E2. }
  apply K. intros s Hs. destruct (H s Hs) as (Hn & Ho & Hl). unfold over in Ho. rewrite Forall_forall in Ho.
  split; [apply render_plain|]. split; [|split; [|split]].
  - unfold wf_row. cbn [forallb]. apply andb_true_iff. split; [|destruct s; [congruence|reflexivity]]. rewrite andb_true_r. unfold wf_cell. apply andb_true_iff. split.
    + rewrite forallb_forall. intros p Hp. apply in_map_iff in Hp as (x & <- & Hx). cbn [wf_piece]. pose proof (word_commons x (or_intror (Ho x Hx))) as HC.
      assert (x <> NUL /\ x <> CR /\ x <> LF) as (H1 & H2 & H3) by (repeat split; intros ->; apply HC; cbn; tauto). apply N.eqb_neq in H1, H2, H3.
      unfold is_nl, special. cbn [cd cq ce is_opt]. now rewrite H1, H2, H3.
    + rewrite <- (app_nil_r (map PChar s)). apply no_adjacent_chars.
  - apply Forall_map, Forall_forall. intros x _. exact I.
  - unfold cell_value. fold (raw_cell (mk_chars None None None) (map PChar s)). rewrite raw_plain. now destruct s as [|? [|? ?]].
  - now rewrite raw_plain.
Qed.
Lemma quoted_column_parsed q rows final limit : a_quote q -> (forall s, In s (column_of rows final) -> over (SPACE :: word) s /\ (Z.of_nat (len s) + 2 <= limit)%Z) ->
  parse_string limit (quoted_column q rows final) (dialect3 [] [q] []) false = (map (fun s => [CStr s]) (column_of rows final), None).
Proof.
  intros Hq H. set (D := mk_chars None (Some q) None). assert (HD : wf_chars D = true) by (unfold D; destruct Hq as [->| ->]; reflexivity).
  change (dialect3 [] [q] []) with (simple D false). unfold quoted_column.
  apply (column_parsed D (fun s => cell_pieces (true, s)) (quoted q) rows final limit HD). intros s Hs. destruct (H s Hs) as (Ho & Hl). unfold over in Ho. rewrite Forall_forall in Ho.
  split; [exact (cell_render D q (true, s) eq_refl)|]. split; [|split; [|split]].
  - unfold wf_row. cbn [cell_pieces fst snd forallb]. rewrite !andb_true_r. unfold wf_cell. cbn [forallb wf_piece cq is_set D andb]. rewrite !andb_true_r.
    rewrite forallb_forall. intros i Hi. apply in_map_iff in Hi as (y & <- & Hy). cbn [wf_qitem cq ce is_opt negb]. pose proof (word_commons y (Ho y Hy)) as HC.
    assert (y <> q /\ y <> NUL) as (H1 & H2) by (split; intros ->; apply HC; [destruct Hq as [->| ->]|]; cbn; tauto). apply N.eqb_neq in H1, H2.
    cbn. rewrite H1, H2. reflexivity.
  - apply Forall_cons; [|apply Forall_nil]. cbn [no_esc]. apply Forall_map, Forall_forall. intros y _. now exists y.
  - rewrite (cell_pieces_value D q (true, s) eq_refl); [reflexivity|]. intros Hi. cbn [snd] in Hi. apply (word_commons q (Ho q Hi)). destruct Hq as [->| ->]; cbn; tauto.
  - unfold raw_cell. cbn [cell_pieces fst snd map List.concat piece_value]. rewrite app_nil_r, qitems_value_plain. cbn [cq D opt_str app len]. rewrite app_length. cbn [len]. lia.
Qed.
