(** * Simple: tables in simple form and the normal forms *)
From Coq Require Import String Permutation.
From Verif Require Import Base Parser Dialect SpecLayout Potential SpecPotential PotentialFacts SpecTies NormalForm SpecNormal NormalFacts NormalForms MaskedFacts ScoreFacts
  Consistency DetectFacts Detect SpecTables TablesFacts TablesNormal SpecQuoted QuotedLayout QuotedNormal.
Open Scope N_scope.
Local Notation len := List.length.

(** ** The lines are the rows *)
Definition no_nl (s : str) : Prop := ~ In CR s /\ ~ In LF s.
Lemma rstrip_keep c s y : y <> c -> rstrip_by (N.eqb c) (s ++ [y]) = s ++ [y].
Proof.
  intros H. unfold rstrip_by. rewrite rev_app_distr. cbn [rev app lstrip_by]. assert (E : (c =? y) = false) by (apply N.eqb_neq; congruence). rewrite E. cbn [rev]. now rewrite rev_involutive.
Qed.
Lemma rstrip_drop c s : rstrip_by (N.eqb c) (s ++ [c]) = rstrip_by (N.eqb c) s.
Proof. unfold rstrip_by. rewrite rev_app_distr. cbn [rev app lstrip_by]. now rewrite N.eqb_refl. Qed.
Lemma strip_text s y e : y <> CR -> y <> LF -> strip_trailing_crnl ((s ++ [y]) ++ match e with Some e => render_eol e | None => [] end) = s ++ [y].
Proof.
  intros H1 H2. unfold strip_trailing_crnl. destruct e as [[| |]|]; cbn [render_eol].
  all: rewrite ?app_nil_r.
  - rewrite rstrip_drop, !rstrip_keep; auto.
  - rewrite (rstrip_keep LF (s ++ [y]) CR) by discriminate. now rewrite rstrip_drop, rstrip_keep.
  - change [CR; LF] with ([CR] ++ [LF]). rewrite app_assoc, rstrip_drop, (rstrip_keep LF (s ++ [y]) CR) by discriminate. now rewrite rstrip_drop, rstrip_keep.
  - rewrite !rstrip_keep; auto.
Qed.
Lemma split_crlf (ls : list str) : ls <> [] -> Forall no_nl ls -> py_split [CR; LF] (join [CR; LF] ls) = ls.
Proof.
  intros Hn HF. unfold py_split.
  assert (K : forall l cur rest, no_nl l -> py_split_aux [CR; LF] 0 cur (l ++ rest) = py_split_aux [CR; LF] 0 (cur ++ l) rest).
  { induction l as [|x l IH]; intros cur rest (H1 & H2); [now rewrite app_nil_r|]. cbn [app py_split_aux starts_with].
    assert (E : (CR =? x) = false) by (apply N.eqb_neq; intros E; apply H1; now left). rewrite E. cbn [andb].
    rewrite IH; [now rewrite <- app_assoc|]. split; intros H; [apply H1|apply H2]; now right. }
  induction ls as [|l [|l2 ls] IH]; [congruence| |].
  - cbn [join]. rewrite <- (app_nil_r l) at 1. rewrite K by exact (Forall_inv HF). reflexivity.
  - change (join [CR; LF] (l :: l2 :: ls)) with (l ++ CR :: LF :: join [CR; LF] (l2 :: ls)). rewrite K by exact (Forall_inv HF).
    cbn [app py_split_aux starts_with]. cbn [N.eqb andb List.length Nat.sub]. rewrite !N.eqb_refl. cbn [andb py_split_aux List.length Nat.sub app]. f_equal.
    apply IH; [discriminate|exact (Forall_inv_tail HF)].
Qed.
Lemma join_no x sep (ls : list str) : ~ In x sep -> Forall (fun l => ~ In x l) ls -> ~ In x (join sep ls).
Proof.
  intros H HF Hi. apply in_join_any in Hi as [(l & Hl & Hi)|(Hi & _)]; [|contradiction]. rewrite Forall_forall in HF. exact (HF l Hl Hi).
Qed.
Lemma join_has sep (ls : list str) x : (2 <= len ls)%nat -> In x sep -> In x (join sep ls).
Proof. intros H Hx. apply in_join_any. now right. Qed.
Lemma split_lines e (ls : list str) : ls <> [] -> Forall no_nl ls ->
  (if contains [CR; LF] (join (render_eol e) ls) then py_split [CR; LF] (join (render_eol e) ls)
   else if contains [LF] (join (render_eol e) ls) then py_split [LF] (join (render_eol e) ls)
   else if contains [CR] (join (render_eol e) ls) then py_split [CR] (join (render_eol e) ls) else [join (render_eol e) ls]) = ls.
Proof.
  intros Hn HF. assert (HC : Forall (fun l => ~ In CR l) ls) by (eapply Forall_impl; [|exact HF]; now intros l (H & _)).
  assert (HL : Forall (fun l => ~ In LF l) ls) by (eapply Forall_impl; [|exact HF]; now intros l (_ & H)).
  assert (HS : forall s, ~ In CR s \/ ~ In LF s -> contains [CR; LF] s = false).
  { intros s Hs. apply contains_false. intros (a & b & E). destruct Hs as [Hs|Hs]; apply Hs; rewrite E; apply in_or_app; right; [now left|right; now left]. }
  assert (HO : forall x s, ~ In x s -> contains [x] s = false).
  { intros x s Hs. destruct (contains [x] s) eqn:E; [|reflexivity]. apply contains_one in E. contradiction. }
  destruct ls as [|l [|l2 ls]]; [congruence| |].
  - cbn [join]. pose proof (Forall_inv HF) as (H1 & H2). rewrite HS by auto. now rewrite !HO.
  - assert (H2 : (2 <= len (l :: l2 :: ls))%nat) by (cbn; lia). revert H2 HC HL HF Hn. generalize (l :: l2 :: ls). clear -HS HO. intros ls H2 HC HL HF Hn. destruct e; cbn [render_eol].
    + rewrite HS by (left; apply join_no; [cbn; intuition discriminate|exact HC]).
      assert (E : contains [LF] (join [LF] ls) = true) by (apply contains_one, join_has; [exact H2|now left]). rewrite E. now apply split_join.
    + rewrite HS by (right; apply join_no; [cbn; intuition discriminate|exact HL]). rewrite HO by (apply join_no; [cbn; intuition discriminate|exact HL]).
      assert (E : contains [CR] (join [CR] ls) = true) by (apply contains_one, join_has; [exact H2|now left]). rewrite E. now apply split_join.
    + assert (E : contains [CR; LF] (join [CR; LF] ls) = true).
      { destruct ls as [|l [|l2 ls]]; cbn in H2; try lia. change (join [CR; LF] (l :: l2 :: ls)) with (l ++ [CR; LF] ++ join [CR; LF] (l2 :: ls)).
        destruct (contains [CR; LF] _) eqn:E; [reflexivity|]. apply contains_false in E. elim E. now exists l, (join [CR; LF] (l2 :: ls)). }
      rewrite E. now apply split_crlf.
Qed.
Lemma join_snoc eol (ls : list str) l : exists s, join eol (ls ++ [l]) = s ++ l.
Proof.
  induction ls as [|a [|b ls] (s & IH)]; [exists []; reflexivity|exists (a ++ eol); cbn; now rewrite app_assoc|].
  exists (a ++ eol ++ s). cbn [app] in *. change (join eol (a :: b :: ls ++ [l])) with (a ++ eol ++ join eol (b :: ls ++ [l])). rewrite IH. now rewrite !app_assoc.
Qed.
Lemma join_last eol (ls : list str) : ls <> [] -> Forall no_nl ls -> Forall (fun l => l <> []) ls -> exists s y, join eol ls = s ++ [y] /\ y <> CR /\ y <> LF.
Proof.
  intros Hn HF HE. destruct (exists_last Hn) as (pre & l & ->). destruct (join_snoc eol pre l) as (s & ->).
  rewrite Forall_forall in HF, HE. specialize (HF l (in_elt l pre [])). specialize (HE l (in_elt l pre [])). destruct (exists_last HE) as (l' & y & ->). destruct HF as (H1 & H2).
  exists (s ++ l'), y. split; [now rewrite app_assoc|]. split; intros ->; [apply H1|apply H2]; apply in_elt.
Qed.
Lemma text_join e (ls : list str) final : ls <> [] \/ final <> None ->
  List.concat (map (fun l => l ++ render_eol e) ls) ++ match final with Some l => l | None => [] end =
  join (render_eol e) (ls ++ match final with Some l => [l] | None => [] end) ++ match (match final with Some _ => None | None => Some e end) with Some e => render_eol e | None => [] end.
Proof.
  intros H. induction ls as [|l ls IH].
  - destruct final as [l|]; [cbn; now rewrite app_nil_r|]. destruct H; congruence.
  - cbn [map List.concat app]. rewrite <- !app_assoc. destruct ls as [|l2 ls].
    + destruct final as [l0|]; cbn; rewrite ?app_nil_r; reflexivity.
    + rewrite IH by (left; discriminate). cbn [app]. change (join (render_eol e) (l :: l2 :: ls ++ match final with Some l => [l] | None => [] end)) with
        (l ++ render_eol e ++ join (render_eol e) (l2 :: ls ++ match final with Some l => [l] | None => [] end)). now rewrite <- !app_assoc.
Qed.
Lemma split_rows c e (rows : list (list str * eol)) final : table_of rows final <> [] -> (forall r, In r rows -> snd r = e) ->
  (forall r, In r (table_of rows final) -> no_nl (join [c] r) /\ join [c] r <> []) ->
  split_file (table_text c rows final) = map (join [c]) (table_of rows final).
Proof.
  intros Hn He HR. assert (ET : table_text c rows final = List.concat (map (fun l => l ++ render_eol e) (map (fun r => join [c] (fst r)) rows)) ++ match option_map (join [c]) final with Some l => l | None => [] end).
  { unfold table_text. rewrite map_map. f_equal; [|now destruct final]. f_equal. apply map_ext_in. intros r Hr. now rewrite (He r Hr). }
  assert (EL : map (join [c]) (table_of rows final) = map (fun r => join [c] (fst r)) rows ++ match option_map (join [c]) final with Some l => [l] | None => [] end).
  { unfold table_of. rewrite map_app, map_map. f_equal. now destruct final. }
  set (ls := map (join [c]) (table_of rows final)).
  set (tl := match (match option_map (join [c]) final with Some _ => None | None => Some e end) with Some e => render_eol e | None => [] end).
  assert (EJ : table_text c rows final = join (render_eol e) ls ++ tl).
  { rewrite ET. etransitivity; [apply text_join|].
    - destruct rows as [|r rows]; [right|left; discriminate]. destruct final; [discriminate|]. now elim Hn.
    - unfold tl. f_equal. f_equal. symmetry. exact EL. }
  rewrite EJ.
  assert (Hls : ls <> []) by (unfold ls; destruct (table_of rows final); [congruence|discriminate]).
  assert (H1 : Forall no_nl ls) by (apply Forall_map, Forall_forall; intros r Hr; now apply HR).
  assert (H2 : Forall (fun l => l <> []) ls) by (apply Forall_map, Forall_forall; intros r Hr; now apply HR).
  unfold split_file. destruct (join_last (render_eol e) ls Hls H1 H2) as (s & y & E & Hy1 & Hy2).
  assert (ES : strip_trailing_crnl (join (render_eol e) ls ++ tl) = join (render_eol e) ls).
  { unfold tl. rewrite E. now apply strip_text. }
  cbv zeta. rewrite ES. now apply split_lines.
Qed.

(** ** Elementary characters *)
Lemma elementary_not x s : In x elementary -> forallb (fun y => negb (mem_char y elementary)) s = true -> ~ In x s.
Proof.
  intros Hx HF Hi. rewrite forallb_forall in HF. specialize (HF x Hi). apply mem_char_In in Hx. rewrite Hx in HF. discriminate.
Qed.
Lemma elementary_nl x : In x elementary -> x <> CR /\ x <> LF /\ ~ a_quote x /\ ~ In x common_delimiters.
Proof.
  intros H. pose proof (elementary_not x [CR; LF; 34; 39] H eq_refl) as H1. pose proof (elementary_not x common_delimiters H eq_refl) as H2.
  unfold a_quote. cbn [In] in H1. repeat split; try (intros ->; apply H1; tauto); [|exact H2]. intros [->| ->]; apply H1; tauto.
Qed.
Lemma common_nl c : In c common_delimiters -> c <> CR /\ c <> LF /\ ~ a_quote c /\ c <> NUL.
Proof.
  intros H. unfold a_quote. repeat (destruct H as [<-|H]; [repeat split; try discriminate; intros [K|K]; discriminate|]). destruct H.
Qed.
Lemma join_no_nl c (r : list str) : c <> CR -> c <> LF -> Forall no_nl r -> no_nl (join [c] r).
Proof.
  intros H1 H2 HF. rewrite Forall_forall in HF. split; intros Hi; apply in_join_any in Hi as [(l & Hl & Hi)|([Hi|[]] & _)]; try congruence; destruct (HF l Hl); contradiction.
Qed.
Lemma join_two_nil c (r : list str) : (2 <= len r)%nat -> join [c] r <> [].
Proof. destruct r as [|x [|y r]]; cbn [len]; try lia. intros _ H. destruct x; discriminate H. Qed.

(** ** What fits is answered *)
Lemma fit_never l lines r D P : first_fit l lines r -> In (D, P) l -> P lines -> r <> None.
Proof.
  induction l as [|[D1 P1] l IH]; cbn [first_fit]; intros H Hi HP; [destruct Hi|]. destruct Hi as [E|Hi].
  - injection E as -> ->. destruct H as [(_ & ->)|(K & _)]; [discriminate|contradiction].
  - destruct H as [(_ & ->)|(_ & H)]; [discriminate|]. now apply (IH H).
Qed.
Lemma fit_first l l' lines r D P : first_fit (l ++ l') lines r -> In (D, P) l -> P lines -> (forall D' P', In (D', P') l -> P' lines -> D' = D) -> r = Some D.
Proof.
  induction l as [|[D1 P1] l IH]; cbn [first_fit app]; intros H Hi HP HU; [destruct Hi|]. destruct H as [(H & ->)|(HN & H)].
  - f_equal. apply (HU D1 P1); [now left|exact H].
  - destruct Hi as [[= -> ->]|Hi]; [contradiction|]. apply IH; [exact H|exact Hi|exact HP|]. intros D' P' K. apply HU. now right.
Qed.
Section Answer.
Variables (cat : N -> str) (url : str -> str -> option nat) (known : str -> bool -> res pyexc bool) (O : orders) (o_set : list SimpleDialect -> list SimpleDialect).
Lemma normal_method text D method skip s : detect_dialect_normal cat text utf8 None = Ok (Some D) ->
  In method [MStr (s2l "normal"); MEnum NORMAL; MStr (s2l "auto"); MEnum AUTO] ->
  detector_detect cat url known O o_set text None method skip s = (Ok (Some D), mk_state (Some NORMAL) (st_limit s)).
Proof.
  intros E HM. unfold detector_detect. rewrite E. destruct HM as [<-|[<-|[<-|[<-|[]]]]]; reflexivity.
Qed.
End Answer.
Lemma common_fine : Forall (fun d => ~ In d [39; 34]) common_delimiters.
Proof. repeat apply Forall_cons; try apply Forall_nil; cbn; intuition discriminate. Qed.

(** ** No cell is quoted *)
Section Bare.
Variables (cat : N -> str) (c : N) (k : nat) (rows : list (list str * eol)) (final : option (list str)) (e : eol).
Local Notation T := (table_of rows final).
Local Notation text := (table_text c rows final).
Hypothesis delim : In c common_delimiters.
Hypothesis table : T <> [] /\ (2 <= k)%nat /\ Forall (fun r => len r = k /\ Forall (over elementary) r) T.
Hypothesis same : forall r, In r rows -> snd r = e.
Lemma bare_cell r s x : In r T -> In s r -> In x s -> In x elementary.
Proof.
  intros Hr Hs. destruct table as (_ & _ & HF). rewrite Forall_forall in HF. destruct (HF r Hr) as (_ & HC). rewrite Forall_forall in HC.
  specialize (HC s Hs). unfold over in HC. rewrite Forall_forall in HC. exact (HC x).
Qed.
Lemma bare_lines : split_file text = map (join [c]) T.
Proof.
  destruct (common_nl c delim) as (H1 & H2 & _). apply (split_rows c e); [exact (proj1 table)|exact same|]. intros r Hr. split.
  - apply join_no_nl; [exact H1|exact H2|]. apply Forall_forall. intros s Hs. split; intros Hi; apply (bare_cell r s _ Hr Hs), elementary_nl in Hi; tauto.
  - apply join_two_nil. destruct table as (_ & Hk & HF). rewrite Forall_forall in HF. destruct (HF r Hr) as (-> & _). exact Hk.
Qed.
Lemma bare_form2 : form2 c (split_file text).
Proof.
  rewrite bare_lines. destruct table as (Hn & Hk & HF). split; [destruct T; [congruence|discriminate]|]. exists k. split; [exact Hk|]. apply Forall_map, Forall_forall. intros r Hr.
  rewrite Forall_forall in HF. destruct (HF r Hr) as (Hl & HC). exists r. split; [exact Hl|]. split; [reflexivity|]. apply Forall_forall. intros s Hs. split.
  - rewrite Forall_forall in HC. now apply HC.
  - intros Hi. apply (bare_cell r s _ Hr Hs), elementary_nl in Hi. tauto.
Qed.
Theorem bare_simple : ~ escape_suspect cat common_delimiters text -> detect_dialect_normal cat text utf8 None = Ok (Some (dialect3 [c] [] [])).
Proof.
  intros HE. destruct (detect_normal cat utf8 text common_delimiters) as (r & E & _ & Hf); [now left|exact common_fine|]. specialize (Hf HE).
  rewrite detect_normal_default. etransitivity; [exact E|]. f_equal. unfold attempts in Hf.
  apply (fit_first _ _ _ _ (dialect3 [c] [] []) (form2 c) Hf).
  - apply in_map_iff. now exists c.
  - exact bare_form2.
  - intros D' P' Hi HP. apply in_map_iff in Hi as (d & [= <- <-] & Hd). destruct (N.eq_dec d c) as [->|Hn]; [reflexivity|]. exfalso.
    destruct HP as (Hne & n & H2 & HF). rewrite bare_lines in Hne, HF. destruct (not_nil_in _ (proj1 table)) as (r0 & Hr).
    rewrite Forall_map, Forall_forall in HF. destruct (HF r0 Hr) as (cells & Hl & Ej & _).
    assert (Hi : In d (join [c] r0)) by (rewrite Ej; apply in_join_any; right; split; [now left|lia]).
    apply in_join_any in Hi as [(s & Hs & Hi)|([Hi|[]] & _)]; [|congruence]. apply (bare_cell r0 s _ Hr Hs), elementary_nl in Hi. tauto.
Qed.
End Bare.

(** ** Some cells are quoted *)
Section Quoted.
Variables (cat : N -> str) (c q : N) (k : nat) (rows : list (list qcell * eol)) (final : option (list qcell)) (e : eol).
Local Notation T := (table_of rows final).
Local Notation text := (quoted_text c q rows final).
Local Notation line r := (join [c] (map (cell_text q) r)).
Hypothesis Hq : a_quote q.
Hypothesis delim : In c common_delimiters.
Hypothesis table : simple_grid k q T.
Hypothesis same : forall r, In r rows -> snd r = e.
Lemma c_not_q : c <> q.
Proof. intros E. destruct (common_nl c delim) as (_ & _ & H & _). apply H. now rewrite E. Qed.
Lemma simple_char r x y : In r T -> In x r -> In y (snd x) -> if fst x then y <> q /\ y <> CR /\ y <> LF else In y elementary.
Proof.
  intros Hr Hx. destruct table as (_ & _ & HF). rewrite Forall_forall in HF. destruct (HF r Hr) as (_ & HC). rewrite Forall_forall in HC.
  specialize (HC x Hx). unfold simple_cell in HC. rewrite Forall_forall in HC. exact (HC y).
Qed.
Lemma simple_n x : simple_cell q x -> ncell c q x.
Proof.
  intros H. unfold simple_cell in H. unfold ncell. eapply Forall_impl; [|exact H]. cbn beta. intros y Hy. destruct (fst x); [tauto|].
  destruct (elementary_nl y Hy) as (H1 & H2 & H3 & H4). repeat split; try assumption. intros E. apply H4. now rewrite E.
Qed.
Lemma simple_no_q r x : In r T -> In x r -> ~ In q (snd x).
Proof.
  intros Hr Hx Hi. apply (simple_char r x q Hr Hx) in Hi. destruct (fst x); [now destruct Hi|]. apply elementary_nl in Hi as (_ & _ & Hi & _). exact (Hi Hq).
Qed.
Lemma simple_no_nl r x : In r T -> In x r -> no_nl (cell_text q x).
Proof.
  intros Hr Hx. pose proof (fun y => simple_char r x y Hr Hx) as H.
  assert (HQ : q <> CR /\ q <> LF) by (destruct Hq as [E|E]; rewrite E; split; discriminate).
  assert (K : forall y, y = CR \/ y = LF -> ~ In y (cell_text q x)).
  { intros y Hy Hi. unfold cell_text in Hi. destruct x as [[|] s]; cbn [fst snd] in *.
    - destruct Hi as [Hi|Hi]; [destruct Hy as [E|E], HQ; congruence|]. apply in_app_or in Hi as [Hi|[Hi|[]]]; [|destruct Hy as [E|E], HQ; congruence].
      destruct (H y Hi) as (_ & H1 & H2). destruct Hy; contradiction.
    - destruct (elementary_nl y (H y Hi)) as (H1 & H2 & _). destruct Hy; contradiction. }
  split; apply K; tauto.
Qed.
Lemma simple_len r : In r T -> len r = k.
Proof. intros Hr. destruct table as (_ & _ & HF). rewrite Forall_forall in HF. now apply HF. Qed.
Lemma simple_lines : split_file text = map (fun r => line r) T.
Proof.
  destruct (common_nl c delim) as (H1 & H2 & _). unfold quoted_text. rewrite (split_rows c e).
  - rewrite quoted_table, map_map. reflexivity.
  - rewrite quoted_table. destruct table as (Hn & _). destruct T; [congruence|discriminate].
  - intros r Hr. apply in_map_iff in Hr as (r' & <- & Hr). cbn [snd]. now apply same.
  - rewrite quoted_table. intros r Hr. apply in_map_iff in Hr as (r' & <- & Hr). split.
    + apply join_no_nl; [exact H1|exact H2|]. apply Forall_map, Forall_forall. intros x Hx. now apply (simple_no_nl r').
    + apply join_two_nil. rewrite map_length, (simple_len r' Hr). apply table.
Qed.
Lemma lines_not_nil : split_file text <> [].
Proof. rewrite simple_lines. destruct table as (Hn & _). destruct T; [congruence|discriminate]. Qed.
Lemma simple_form1 : all_cells (fun x => fst x = true) T -> form1 c q (split_file text).
Proof.
  intros HA. split; [exact lines_not_nil|]. exists k. split; [apply table|]. rewrite simple_lines. apply Forall_map, Forall_forall. intros r Hr.
  assert (EQ : map (cell_text q) r = map (quoted q) (map snd r)).
  { rewrite map_map. apply map_ext_in. intros x Hx. unfold all_cells in HA. rewrite Forall_forall in HA. specialize (HA r Hr). rewrite Forall_forall in HA.
    unfold cell_text. now rewrite (HA x Hx). }
  exists (map (cell_text q) r). split; [rewrite map_length; now apply simple_len|]. exists (map snd r), false. split; [exact EQ|]. split; [|now rewrite app_nil_r].
  apply Forall_map, Forall_forall. intros x Hx. now apply (simple_no_q r).
Qed.
Lemma simple_form3 : (2 <= len T)%nat -> all_cells (fun x => snd x <> []) T -> form3 c q (split_file text).
Proof.
  intros H2 HA. split; [rewrite simple_lines, map_length; exact H2|]. split; [exact lines_not_nil|]. exists k. split; [apply table|].
  rewrite simple_lines. apply Forall_map, Forall_forall. intros r Hr. exists (map (cell_text q) r). split; [rewrite map_length; now apply simple_len|].
  unfold all_cells in HA. rewrite Forall_forall in HA. specialize (HA r Hr). rewrite Forall_forall in HA. pose proof c_not_q as Hcq.
  split; [split; [|split]|].
  - apply Forall_map, Forall_forall. intros x Hx. pose proof (simple_no_q r x Hr Hx) as Hn. pose proof (fun y => simple_char r x y Hr Hx) as HC.
    unfold cell_text. destruct x as [[|] s]; cbn [fst snd] in *.
    + intros n Hn'. pose proof (proj1 (ins_spec q c Hcq (quoted q s) false) (quoted_ins q c s Hcq Hn) n Hn') as K. unfold inside. destruct (Nat.odd _) eqn:EO in K; [exact EO|discriminate K].
    + intros n Hn'. exfalso. apply nth_error_In in Hn'. apply HC, elementary_nl in Hn'. tauto.
  - assert (K : forall x, In x r -> even_quotes q (cell_text q x)).
    { intros x Hx. pose proof (simple_no_q r x Hr Hx) as Hn. unfold cell_text. destruct x as [[|] s]; cbn [fst snd] in *; [now apply quoted_occ|].
      unfold even_quotes, occurrences. now rewrite (proj1 (count_occ_not_In N.eq_dec s q) Hn). }
    apply Forall_forall. intros s Hs. assert (Hi : In s (map (cell_text q) r)).
    { destruct r as [|x0 r0]; [destruct Hs|]. assert (Hnn : map (cell_text q) (x0 :: r0) <> []) by discriminate. rewrite (app_removelast_last [] Hnn). apply in_or_app. now left. }
    apply in_map_iff in Hi as (x & <- & Hx). now apply K.
  - now left.
  - apply Forall_map, Forall_forall. intros x Hx. specialize (HA x Hx). pose proof (fun y => simple_char r x y Hr Hx) as HC. unfold cell_text. destruct x as [[|] s]; cbn [fst snd] in *.
    + split; [discriminate|]. right. exists s. now split.
    + split; [exact HA|]. left. unfold over. apply Forall_forall. exact HC.
Qed.
Theorem quoted_simple : simple_quotes T -> ~ escape_suspect cat common_delimiters text -> detect_dialect_normal cat text utf8 None = Ok (Some (dialect3 [c] [q] [])).
Proof.
  intros HS HE. assert (HG : quoted_grid k (ncell c q) T).
  { destruct table as (Hn & Hk & HF). split; [exact Hk|]. split.
    - eapply Forall_impl; [|exact HF]. cbn beta. intros r (Hl & HC). split; [exact Hl|]. eapply Forall_impl; [|exact HC]. exact simple_n.
    - destruct HS as [HA|(_ & _ & HX)]; [|exact HX]. destruct T as [|r T']; [congruence|]. pose proof (Forall_inv HF) as (Hl & _). destruct r as [|x r]; [cbn in Hl; lia|].
      pose proof (Forall_inv (Forall_inv HA)) as Ex. destruct x as [b s]. cbn in Ex. subst b. exists ((true, s) :: r), s. split; now left. }
  destruct (common_nl c delim) as (H1 & H2 & H3 & _).
  destruct (normal_answer cat c q k rows final Hq (conj H1 (conj H2 H3)) HG) as (r & E & [Er|Er]); [exfalso|rewrite <- Er; exact E]. subst r.
  destruct (detect_normal cat utf8 text common_delimiters) as (r & E' & _ & Hf); [now left|exact common_fine|]. specialize (Hf HE).
  rewrite detect_normal_default in E. assert (Er : r = None) by (assert (K : @Ok pyexc _ r = Ok None) by (rewrite <- E'; exact E); now injection K). subst r.
  assert (HF : form1 c q (split_file text) \/ form3 c q (split_file text)) by (destruct HS as [HA|(HL & HN & _)]; [left; now apply simple_form1|right; now apply simple_form3]).
  assert (HI : forall P, P = form1 c q \/ P = form3 c q -> In (dialect3 [c] [q] [], P) (attempts common_delimiters)).
  { intros P HP. unfold attempts. apply in_or_app. right. apply in_or_app. left. apply in_flat_map. exists c. split; [exact delim|]. apply in_flat_map. exists q. split.
    - destruct Hq as [E0|E0]; rewrite E0; cbn; tauto.
    - destruct HP as [->| ->]; cbn; tauto. }
  destruct HF as [HF|HF]; [exact (fit_never _ _ _ _ _ Hf (HI _ (or_introl eq_refl)) HF eq_refl)|exact (fit_never _ _ _ _ _ Hf (HI _ (or_intror eq_refl)) HF eq_refl)].
Qed.
End Quoted.

(** ** The detector *)
Section Detected.
Variables (cat : N -> str) (url : str -> str -> option nat) (known : str -> bool -> res pyexc bool) (O : orders) (o_set : list SimpleDialect -> list SimpleDialect).
Theorem bare_detected c k rows final e method skip s : In c common_delimiters ->
  table_of rows final <> [] -> (2 <= k)%nat -> Forall (fun r => len r = k /\ Forall (over elementary) r) (table_of rows final) ->
  (forall r, In r rows -> snd r = e) -> ~ escape_suspect cat common_delimiters (table_text c rows final) ->
  In method [MStr (s2l "normal"); MEnum NORMAL; MStr (s2l "auto"); MEnum AUTO] ->
  detector_detect cat url known O o_set (table_text c rows final) None method skip s = (Ok (Some (dialect3 [c] [] [])), mk_state (Some NORMAL) (st_limit s)).
Proof. intros Hd Hn Hk HF Hs Hx HM. apply normal_method; [|exact HM]. exact (bare_simple cat c k rows final e Hd (conj Hn (conj Hk HF)) Hs Hx). Qed.
Theorem simple_detected c q k rows final e method skip s :
  a_quote q -> In c common_delimiters -> simple_grid k q (table_of rows final) -> simple_quotes (table_of rows final) ->
  (forall r, In r rows -> snd r = e) -> ~ escape_suspect cat common_delimiters (quoted_text c q rows final) ->
  In method [MStr (s2l "normal"); MEnum NORMAL; MStr (s2l "auto"); MEnum AUTO] ->
  detector_detect cat url known O o_set (quoted_text c q rows final) None method skip s = (Ok (Some (dialect3 [c] [q] [])), mk_state (Some NORMAL) (st_limit s)).
Proof. intros Hq Hd HG HQ Hs Hx HM. apply normal_method; [|exact HM]. exact (quoted_simple cat c q k rows final e Hq Hd HG Hs HQ Hx). Qed.
End Detected.
