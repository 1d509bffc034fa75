(** * Sample: the first rows of a file in simple form are in simple form *)
From Coq Require Import String.
From Verif Require Import Base Parser Dialect SpecLayout SpecFiles Potential SpecPotential PotentialFacts NormalForm NormalForms Simple LineEnds LineNormal SpecNormal SpecTables SpecQuoted SpecColumn NormalParse SpecDocument SpecSample Documents.
Open Scope N_scope.
Local Notation len := List.length.

Lemma head_sample (sample rest : str) : sample <> [] -> head_chars (chars_of sample) (sample ++ rest) = sample.
Proof.
  intros H. unfold head_chars, chars_of. assert (K : (0 <? Z.of_nat (len sample))%Z = true) by (apply Z.ltb_lt; destruct sample; [now elim H|cbn [len]; lia]).
  rewrite K, Nat2Z.id, firstn_app, Nat.sub_diag, firstn_all. cbn [firstn]. apply app_nil_r.
Qed.
Lemma suspect_more cat ds sample rest : escape_suspect cat ds sample -> escape_suspect cat ds (sample ++ rest).
Proof. intros (u & v & (a & b & ->) & H). exists u, v. split; [|exact H]. exists a, (b ++ rest). now rewrite <- app_assoc. Qed.

(** ** Texts *)
Lemma table_text_app c rows1 rows2 final : table_text c (rows1 ++ rows2) final = table_text c rows1 None ++ table_text c rows2 final.
Proof. unfold table_text. rewrite map_app, concat_app, app_nil_r. now rewrite app_assoc. Qed.
Lemma table_text_final c rows r : table_text c rows (Some r) = table_text c rows None ++ join [c] r.
Proof. unfold table_text. now rewrite app_nil_r. Qed.
Lemma table_text_row c r e rows final : table_text c ((r, e) :: rows) final = join [c] r ++ render_eol e ++ table_text c rows final.
Proof. unfold table_text. cbn [map concat fst snd]. now rewrite <- !app_assoc. Qed.
Lemma table_prefix c rows final rows1 final1 : first_rows rows rows1 final1 -> exists rest, table_text c rows final = table_text c rows1 final1 ++ rest.
Proof.
  intros (rows2 & -> & [->|(r & e & rows3 & -> & ->)]); rewrite table_text_app; [eexists; reflexivity|].
  rewrite table_text_row, (table_text_final c rows1 r). eexists. rewrite <- app_assoc. reflexivity.
Qed.
Lemma column_text_app rows1 rows2 final : column_text (rows1 ++ rows2) final = column_text rows1 None ++ column_text rows2 final.
Proof. unfold column_text. rewrite map_app, concat_app, app_nil_r. now rewrite app_assoc. Qed.
Lemma column_prefix rows final rows1 final1 : first_rows rows rows1 final1 -> exists rest, column_text rows final = column_text rows1 final1 ++ rest.
Proof.
  intros (rows2 & -> & [->|(r & e & rows3 & -> & ->)]); rewrite column_text_app; [eexists; reflexivity|].
  assert (E : column_text rows1 (Some r) = column_text rows1 None ++ r) by (unfold column_text; now rewrite app_nil_r).
  assert (E2 : column_text ((r, e) :: rows3) final = r ++ render_eol e ++ column_text rows3 final) by (unfold column_text; cbn [map concat fst snd]; now rewrite <- !app_assoc).
  rewrite E, E2. eexists. rewrite <- app_assoc. reflexivity.
Qed.
(** ** Rows *)
Lemma first_in {A} (rows : list (A * eol)) rows1 final1 : first_rows rows rows1 final1 ->
  forall x, In x (map fst rows1 ++ match final1 with Some r => [r] | None => [] end) -> In x (map fst rows).
Proof.
  intros (rows2 & -> & H) x Hx. rewrite map_app. apply in_or_app. apply in_app_or in Hx as [Hx|Hx]; [now left|right].
  destruct H as [->|(r & e & rows3 & -> & ->)]; [destruct Hx|]. destruct Hx as [<-|[]]. now left.
Qed.
Lemma first_eol {A} (rows : list (A * eol)) rows1 final1 e : first_rows rows rows1 final1 -> (forall r, In r rows -> snd r = e) -> forall r, In r rows1 -> snd r = e.
Proof. intros (rows2 & -> & _) H r Hr. apply H. apply in_or_app. now left. Qed.
Lemma first_map {A B} (g : A -> B) rows rows1 final1 : first_rows rows rows1 final1 -> first_rows (map (fun r => (g (fst r), snd r)) rows) (map (fun r => (g (fst r), snd r)) rows1) (option_map g final1).
Proof.
  intros (rows2 & -> & H). rewrite map_app. eexists. split; [reflexivity|]. destruct H as [->|(r & e & rows3 & -> & ->)]; [now left|]. right. cbn. eexists _, _, _. split; reflexivity.
Qed.

Section Prefix.
Variable cat : N -> str.
Lemma sampled text sample rest d q cells : document cat sample d q cells -> text = sample ++ rest -> sample <> [] -> document cat sample d q cells /\ head_chars (chars_of sample) text = sample.
Proof. intros H -> Hn. split; [exact H|now apply head_sample]. Qed.
Lemma grid_not_empty c (rows : list (list str * eol)) final k : table_of rows final <> [] -> (2 <= k)%nat -> Forall (fun r => len r = k) (table_of rows final) -> table_text c rows final <> [].
Proof.
  intros Hn Hk HF E. assert (J : forall r : list str, len r = k -> join [c] r <> []). { intros [|a [|b r]] H; cbn in H; try lia. cbn. destruct a; discriminate. }
  destruct rows as [|[r e] rows].
  - unfold table_text in E. cbn in E. destruct final as [r|]; [|now elim Hn]. apply (J r); [|exact E]. exact (Forall_inv HF).
  - rewrite table_text_row in E. apply app_eq_nil in E as [E _]. apply (J r); [|exact E]. exact (Forall_inv HF).
Qed.
Theorem bare_rows c k rows final e rows1 final1 :
  In c common_delimiters -> (2 <= k)%nat -> Forall (fun r => len r = k /\ Forall (over elementary) r) (table_of rows final) ->
  (forall r, In r rows -> snd r = e) -> ~ escape_suspect cat common_delimiters (table_text c rows final) ->
  first_rows rows rows1 final1 -> table_of rows1 final1 <> [] ->
  let sample := table_text c rows1 final1 in
  document cat sample [c] [] (table_of rows1 final1) /\ head_chars (chars_of sample) (table_text c rows final) = sample.
Proof.
  intros Hc Hk HF He Hx H1 Hn. cbv zeta. destruct (table_prefix c rows final rows1 final1 H1) as (rest & Er).
  assert (HF1 : Forall (fun r => len r = k /\ Forall (over elementary) r) (table_of rows1 final1)).
  { rewrite Forall_forall in *. intros r Hr. apply HF. unfold table_of. apply in_or_app. left. exact (first_in _ _ _ H1 r Hr). }
  apply (sampled _ _ rest); [|exact Er|].
  - apply (bare_table cat c k rows1 final1 e); try assumption; [now apply (first_eol rows rows1 final1)|]. intros HS. apply Hx. rewrite Er. now apply suspect_more.
  - apply (grid_not_empty c rows1 final1 k Hn Hk). eapply Forall_impl; [|exact HF1]. now intros r [? _].
Qed.
Lemma join_more c r x y : join [c] (r ++ [x ++ y]) = join [c] (r ++ [x]) ++ y.
Proof. rewrite !join_snoc. now rewrite app_assoc. Qed.
Theorem bare_cell c k rows final e rows1 r x y :
  In c common_delimiters -> (2 <= k)%nat -> Forall (fun r => len r = k /\ Forall (over elementary) r) (table_of rows final) ->
  (forall r, In r rows -> snd r = e) -> ~ escape_suspect cat common_delimiters (table_text c rows final) ->
  first_rows rows rows1 (Some (r ++ [x ++ y])) \/ rows = rows1 /\ final = Some (r ++ [x ++ y]) ->
  let sample := table_text c rows1 (Some (r ++ [x])) in
  document cat sample [c] [] (table_of rows1 (Some (r ++ [x]))) /\ head_chars (chars_of sample) (table_text c rows final) = sample.
Proof.
  intros Hc Hk HF He Hx H1. cbv zeta.
  assert (P : exists rest, table_text c rows final = table_text c rows1 (Some (r ++ [x])) ++ rest).
  { assert (E : table_text c rows1 (Some (r ++ [x ++ y])) = table_text c rows1 (Some (r ++ [x])) ++ y) by (rewrite !(table_text_final c rows1), join_more, app_assoc; reflexivity).
    destruct H1 as [H1|[-> ->]]; [|exists y; exact E]. destruct (table_prefix c rows final _ _ H1) as (rest & ->). exists (y ++ rest). rewrite E, <- app_assoc. reflexivity. }
  assert (HI : forall z, In z (map fst rows1 ++ [r ++ [x ++ y]]) -> In z (table_of rows final)).
  { intros z Hz. unfold table_of. destruct H1 as [H1|[-> ->]]; [|exact Hz]. apply in_or_app. left. exact (first_in _ _ _ H1 z Hz). }
  assert (HE1 : forall z, In z rows1 -> snd z = e). { destruct H1 as [H1|[-> _]]; [now apply (first_eol _ _ _ e H1)|exact He]. }
  rewrite Forall_forall in HF.
  assert (HF1 : Forall (fun r => len r = k /\ Forall (over elementary) r) (table_of rows1 (Some (r ++ [x])))).
  { apply Forall_app. split.
    - apply Forall_forall. intros z Hz. apply HF, HI, in_or_app. now left.
    - apply Forall_cons; [|apply Forall_nil]. destruct (HF (r ++ [x ++ y])) as [K1 K2]; [apply HI, in_or_app; right; now left|]. split; [rewrite app_length in *; exact K1|].
      apply Forall_app in K2 as [K2 K3]. apply Forall_app. split; [exact K2|]. apply Forall_cons; [|apply Forall_nil]. pose proof (Forall_inv K3) as K4. unfold over in *. apply Forall_app in K4 as [K4 _]. exact K4. }
  assert (Hn : table_of rows1 (Some (r ++ [x])) <> []) by (unfold table_of; destruct (map fst rows1); discriminate).
  destruct P as (rest & Er). apply (sampled _ _ rest); [|exact Er|].
  - apply (bare_table cat c k rows1 _ e); try assumption. intros HS. apply Hx. rewrite Er. now apply suspect_more.
  - apply (grid_not_empty c rows1 _ k Hn Hk). eapply Forall_impl; [|exact HF1]. now intros z [? _].
Qed.
Theorem quoted_rows c q k rows final e rows1 final1 :
  a_quote q -> In c common_delimiters -> simple_grid k q (table_of rows final) -> all_cells (fun x => ~ In NUL (snd x)) (table_of rows final) ->
  (forall r, In r rows -> snd r = e) -> ~ escape_suspect cat common_delimiters (quoted_text c q rows final) ->
  first_rows rows rows1 final1 -> table_of rows1 final1 <> [] -> simple_quotes (table_of rows1 final1) ->
  let sample := quoted_text c q rows1 final1 in
  document cat sample [c] [q] (map (map snd) (table_of rows1 final1)) /\ head_chars (chars_of sample) (quoted_text c q rows final) = sample.
Proof.
  intros Hq Hc (_ & Hk & HF) H0 He Hx H1 Hn HS. cbv zeta.
  assert (HI : forall z, In z (table_of rows1 final1) -> In z (table_of rows final)) by (intros z Hz; unfold table_of at 1; apply in_or_app; left; exact (first_in _ _ _ H1 z Hz)).
  unfold all_cells in H0. rewrite Forall_forall in HF, H0.
  destruct (table_prefix c _ (option_map (map (cell_text q)) final) _ _ (first_map (map (cell_text q)) _ _ _ H1)) as (rest & Er). fold (quoted_text c q rows final) (quoted_text c q rows1 final1) in Er.
  apply (sampled _ _ rest); [|exact Er|].
  - apply (quoted_table cat c q k rows1 final1 e); try assumption.
    + split; [exact Hn|]. split; [exact Hk|]. apply Forall_forall. intros z Hz. now apply HF, HI.
    + apply Forall_forall. intros z Hz. now apply H0, HI.
    + now apply (first_eol rows rows1 final1).
    + intros HX. apply Hx. rewrite Er. now apply suspect_more.
  - unfold quoted_text.
    assert (ET : table_of (map (fun r => (map (cell_text q) (fst r), snd r)) rows1) (option_map (map (cell_text q)) final1) = map (map (cell_text q)) (table_of rows1 final1)).
    { unfold table_of. rewrite map_app, !map_map. f_equal. now destruct final1. }
    apply (grid_not_empty c _ _ k); rewrite ?ET; [|exact Hk|].
    + destruct (table_of rows1 final1); [now elim Hn|discriminate].
    + apply Forall_forall. intros z Hz. apply in_map_iff in Hz as (z' & <- & Hz). rewrite map_length. now apply HF, HI.
Qed.
Lemma column_not_empty rows final : (2 <= len (column_of rows final))%nat -> column_text rows final <> [].
Proof.
  intros H E. destruct rows as [|[r e] rows]; [unfold column_of in H; cbn in H; destruct final; cbn in H; lia|]. unfold column_text in E. cbn [map concat fst snd] in E. rewrite <- !app_assoc in E. apply app_eq_nil in E as [_ E]. apply app_eq_nil in E as [E _]. destruct e; discriminate E.
Qed.
Theorem line_rows rows final e rows1 final1 :
  (forall r, In r rows -> snd r = e) -> (forall s, In s (column_of rows final) -> s <> [] /\ over word s) ->
  first_rows rows rows1 final1 -> (2 <= len (column_of rows1 final1))%nat ->
  let sample := column_text rows1 final1 in
  document cat sample [] [] (map (fun s => [s]) (column_of rows1 final1)) /\ head_chars (chars_of sample) (column_text rows final) = sample.
Proof.
  intros He HW H1 H2. cbv zeta. destruct (column_prefix rows final rows1 final1 H1) as (rest & Er). apply (sampled _ _ rest); [|exact Er|now apply column_not_empty].
  apply (bare_lines cat rows1 final1 e); [exact H2|now apply (first_eol rows rows1 final1)|]. intros s Hs. apply HW. unfold column_of. apply in_or_app. left. exact (first_in _ _ _ H1 s Hs).
Qed.
Theorem quoted_line_rows q rows final e rows1 final1 :
  a_quote q -> (forall r, In r rows -> snd r = e) -> (forall s, In s (column_of rows final) -> over (SPACE :: word) s) ->
  ~ escape_suspect cat common_delimiters (quoted_column q rows final) ->
  first_rows rows rows1 final1 -> (2 <= len (column_of rows1 final1))%nat ->
  let sample := quoted_column q rows1 final1 in
  document cat sample [] [q] (map (fun s => [s]) (column_of rows1 final1)) /\ head_chars (chars_of sample) (quoted_column q rows final) = sample.
Proof.
  intros Hq He HW Hx H1 H2. cbv zeta. destruct (column_prefix _ (option_map (quoted q) final) _ _ (first_map (quoted q) _ _ _ H1)) as (rest & Er). fold (quoted_column q rows final) (quoted_column q rows1 final1) in Er.
  apply (sampled _ _ rest); [|exact Er|].
  - apply (quoted_lines cat q rows1 final1 e); [exact Hq|exact H2|now apply (first_eol rows rows1 final1)| |].
    + intros s Hs. apply HW. unfold column_of. apply in_or_app. left. exact (first_in _ _ _ H1 s Hs).
    + intros HX. apply Hx. rewrite Er. now apply suspect_more.
  - unfold quoted_column. apply column_not_empty. unfold column_of in *. rewrite map_map. rewrite app_length, map_length in *. destruct final1; exact H2.
Qed.
End Prefix.

(** ** A sample that ends between CR and LF *)
Lemma normal_cr cat s y : y <> CR -> y <> LF ->
  detect_dialect_normal cat ((s ++ [y]) ++ [CR]) utf8 None = detect_dialect_normal cat (s ++ [y]) utf8 None.
Proof.
  intros H1 H2. unfold detect_dialect_normal. rewrite !any_escape_ok by now left. cbn [bind].
  assert (ES : split_file ((s ++ [y]) ++ [CR]) = split_file (s ++ [y])).
  { pose proof (strip_text s y (Some ECR) H1 H2) as K1. pose proof (strip_text s y None H1 H2) as K2. rewrite app_nil_r in K2. cbn [render_eol] in K1.
    unfold split_file. now rewrite K1, K2. }
  rewrite ES. clear ES.
  assert (EX : forall l : list (str * str), incl l (list_prod DELIMS QUOTECHARS) ->
    existsb (fun '(d, q) => esc_pair cat ((s ++ [y]) ++ [CR]) d q) l = existsb (fun '(d, q) => esc_pair cat (s ++ [y]) d q) l).
  { induction l as [|[d q] l IH]; intros HI; [reflexivity|]. cbn [existsb]. rewrite IH by (intros x Hx; apply HI; now right). f_equal.
    assert (Hv : forall v, d = [v] \/ q = [v] -> v <> CR).
    { intros v Hv ->. specialize (HI (d, q) (or_introl eq_refl)). apply in_prod_iff in HI as (Hd & Hq). cbn in Hd, Hq.
      destruct Hv as [->| ->]; intuition discriminate. }
    assert (HB : forall u v, d = [v] \/ q = [v] -> before u v ((s ++ [y]) ++ [CR]) <-> before u v (s ++ [y])).
    { intros u v Hd. rewrite (before_app u v (s ++ [y]) [CR]). split; [|now left]. intros [H|[(a & b & E)|(a & b & _ & E)]]; [exact H| |].
      - destruct a as [|x [|x' a]]; discriminate E.
      - injection E as E _. symmetry in E. now elim (Hv v Hd). }
    apply eq_true_iff_eq. rewrite !esc_pair_iff. split; intros (u & v & K1 & K2 & K3); exists u, v; (split; [now apply (HB u v K3)|now split]). }
  now rewrite EX.
Qed.
Lemma simple_normal cat s d q : simple_sample cat s d q -> detect_dialect_normal cat s utf8 None = Ok (Some (dialect3 d q [])).
Proof.
  intros [s' d' q' cells HD|s' y d' q' cells HD H1 H2]; [exact (document_normal cat _ _ _ _ HD)|]. rewrite normal_cr by assumption. exact (document_normal cat _ _ _ _ HD).
Qed.
Lemma cut_head cat s y d q cells rest : document cat (s ++ [y]) d q cells -> y <> CR -> y <> LF ->
  let text := (s ++ [y]) ++ [CR] ++ rest in let sample := (s ++ [y]) ++ [CR] in
  simple_sample cat sample d q /\ head_chars (chars_of sample) text = sample.
Proof.
  intros HD H1 H2. split; [exact (cut_line_end cat s y d q cells HD H1 H2)|]. rewrite app_assoc. apply head_sample. now destruct s.
Qed.
