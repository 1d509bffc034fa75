(** * TablesFacts: the layouts and the scores of plain tables *)
From Coq Require Import String Permutation Reals Lra SpecFloat.
From Flocq Require Import Core.
From Verif Require Import Base Parser Dialect SpecLayout SpecParse SpecAbstraction LayoutLimit LayoutTotal LayoutMore NormalForms NormalFacts NormalParse Potential SpecPotential PotentialFacts MaskedFacts
  Floats FloatFacts Consistency SpecConsistency ScoreFacts TableScores TypeFacts DetectFacts
  Regex Types SpecTypes TypesFacts TypesText TypesAll TypesUrl TypesDetect SpecTables.
Open Scope N_scope.
Local Notation len := List.length.

(** ** Layouts of grids: no quotes, no escape characters *)
Definition grid_doc (rows : list (list str * eol)) (final : option (list str)) : doc :=
  mk_doc (map (fun r => (map (map PChar) (fst r), snd r)) rows)
    (match final with Some r => TRow (map (map PChar) r) | None => TEnd end).
Definition cell_ok (D : chars) (s : str) : Prop := Forall (fun c => (c =? NUL) = false /\ is_nl c = false /\ special D c = false) s.
Definition row_ok (D : chars) (r : list str) : Prop :=
  r <> [] /\ r <> [[]] /\ ((2 <= len r)%nat -> is_set (cd D) = true) /\ Forall (cell_ok D) r.
Lemma row_render D r : render_row D (map (map PChar) r) = join (opt_str (cd D)) r.
Proof. unfold render_row. f_equal. rewrite map_map. rewrite <- (map_id r) at 2. apply map_ext. intros s. apply render_plain. Qed.
Lemma grid_render D rows final : render D (grid_doc rows final) =
  List.concat (map (fun r => join (opt_str (cd D)) (fst r) ++ render_eol (snd r)) rows) ++
  match final with Some r => join (opt_str (cd D)) r | None => [] end.
Proof.
  unfold render, grid_doc. cbn [records SpecLayout.last]. f_equal.
  - rewrite map_map. f_equal. apply map_ext. intros [r e]. unfold render_record. cbn [fst snd]. now rewrite row_render.
  - destruct final as [r|]; [apply row_render|reflexivity].
Qed.
Lemma row_wf D r : row_ok D r -> wf_row D (map (map PChar) r) = true.
Proof.
  intros (H1 & H2 & H3 & H4). unfold wf_row. apply andb_true_iff. split.
  - rewrite forallb_forall. intros ps Hp. apply in_map_iff in Hp as (s & <- & Hs). apply wf_plain. rewrite Forall_forall in H4. now apply H4.
  - destruct r as [|a [|b r]]; [congruence| |].
    + destruct a; [now destruct H2|reflexivity].
    + transitivity (is_set (cd D)); [destruct a; reflexivity|apply H3; cbn; lia].
Qed.
Lemma grid_wf D rows final : Forall (row_ok D) (table_of rows final) -> wf_doc D (grid_doc rows final) = true.
Proof.
  intros H. unfold table_of in H. apply Forall_app in H as (H1 & H2). unfold wf_doc, grid_doc. cbn [records SpecLayout.last]. apply andb_true_iff. split.
  - induction rows as [|[r e] rows IH]; [reflexivity|]. cbn [map fst snd] in *. inversion H1 as [|? ? Hr Hrs]; subst.
    cbn [wf_records]. rewrite row_wf by exact Hr. rewrite IH by exact Hrs. rewrite andb_true_r. cbn [andb].
    destruct e; try reflexivity. destruct rows as [|[[|? ?] e'] rows]; try reflexivity. inversion Hrs as [|? ? (Hn & _) _]. now destruct Hn.
  - destruct final as [r|]; [|reflexivity]. inversion H2 as [|? ? Hr _]; subst. cbn [wf_tail]. rewrite row_wf by exact Hr.
    destruct Hr as (Hn & _). destruct r; [congruence|reflexivity].
Qed.
Lemma grid_closed rows final : closed (grid_doc rows final) = true.
Proof. destruct final; reflexivity. Qed.
Lemma grid_cells_esc r : forallb esc_ok_cell (map (map PChar) r) = true.
Proof.
  rewrite forallb_forall. intros ps Hp. apply in_map_iff in Hp as (s & <- & _). unfold esc_ok_cell. rewrite forallb_forall.
  intros p Hp. apply in_map_iff in Hp as (c & <- & _). reflexivity.
Qed.
Lemma grid_esc rows final : esc_ok (grid_doc rows final) = true.
Proof.
  unfold esc_ok, grid_doc. cbn [records SpecLayout.last]. apply andb_true_iff. split.
  - rewrite forallb_forall. intros r Hr. apply in_map_iff in Hr as (x & <- & _). apply grid_cells_esc.
  - destruct final; [apply grid_cells_esc|reflexivity].
Qed.
Lemma plain_value' D s : cq D = None -> cell_value D (map PChar s) = (s, false).
Proof.
  intros Hq. unfold cell_value. assert (E : raw_cell D (map PChar s) = s).
  { unfold raw_cell. induction s as [|c s IH]; [reflexivity|]. cbn in *. now rewrite IH. }
  rewrite E. unfold unquote, enclosed. rewrite Hq. destruct s as [|a [|b s]]; reflexivity.
Qed.
Lemma row_value D r : cq D = None -> map (cell_value D) (map (map PChar) r) = map (fun s => (s, false)) r.
Proof. intros Hq. rewrite map_map. apply map_ext. intros s. now apply plain_value'. Qed.
Lemma grid_denote D rows final : cq D = None -> Forall (fun r => r <> []) (table_of rows final) ->
  denote D (grid_doc rows final) = map (map (fun s => (s, false))) (table_of rows final).
Proof.
  intros Hq Hn. unfold denote, grid_doc, table_of. cbn [records SpecLayout.last]. rewrite map_app, map_map. f_equal.
  - rewrite map_map. apply map_ext. intros [r e]. now apply row_value.
  - destruct final as [r|]; [|reflexivity]. unfold table_of in Hn. apply Forall_app in Hn as (_ & Hn). inversion Hn as [|? ? Hr _]; subst.
    cbn [tail_value map]. assert (E : after_esc_nl false (List.last (map (map PChar) r) []) = false).
    { assert (Hm : map (map PChar) r <> []) by (destruct r; [now destruct Hr|discriminate]).
      pose proof (last_in _ [] Hm) as Hi. apply in_map_iff in Hi as (s & <- & _). induction s; [reflexivity|exact IHs]. }
    rewrite E. f_equal.
    transitivity (map (cell_value D) (map (map PChar) r)); [|exact (row_value D r Hq)].
    assert (Hm : map (map PChar) r <> []) by (destruct r; [now destruct Hr|discriminate]).
    rewrite (app_removelast_last [] Hm) at 3. now rewrite map_app.
Qed.

(** ** The scores of a grid *)
Lemma join_length (D : chars) (r : list str) : ((2 <= len r)%nat -> is_set (cd D) = true) -> (len r <= len (join (opt_str (cd D)) r) + 1)%nat.
Proof.
  induction r as [|a [|b r] IH]; intros H; [cbn; lia|cbn; lia|].
  change (join (opt_str (cd D)) (a :: b :: r)) with (a ++ opt_str (cd D) ++ join (opt_str (cd D)) (b :: r)). rewrite !app_length.
  assert (Hs : is_set (cd D) = true) by (apply H; cbn; lia). specialize (IH (fun _ => Hs)). cbn [List.length] in IH.
  destruct (cd D) as [c|]; [|discriminate]. cbn [opt_str] in *. change (len (a :: b :: r)) with (S (S (len r))). change (len [c]) with 1%nat. lia.
Qed.
Lemma row_nonempty D r : row_ok D r -> join (opt_str (cd D)) r <> [].
Proof.
  intros (H1 & H2 & H3 & _). destruct r as [|a [|b r]]; [congruence| |].
  - cbn. intros ->. now apply H2.
  - assert (Hs : is_set (cd D) = true) by (apply H3; cbn; lia). destruct (cd D) as [c|]; [|discriminate]. cbn. now destruct a.
Qed.
Lemma grid_size D rows final : Forall (row_ok D) (table_of rows final) ->
  (len (table_of rows final) <= len (render D (grid_doc rows final)))%nat /\
  (len (List.concat (table_of rows final)) <= 2 * len (render D (grid_doc rows final)))%nat.
Proof.
  intros H. rewrite grid_render. unfold table_of in *. apply Forall_app in H as (H1 & H2).
  assert (R : forall r, row_ok D r -> (1 <= len (join (opt_str (cd D)) r))%nat /\ (len r <= 2 * len (join (opt_str (cd D)) r))%nat).
  { intros r Hr. pose proof (row_nonempty D r Hr) as Hn. destruct Hr as (_ & _ & H3 & _). pose proof (join_length D r H3).
    destruct (join (opt_str (cd D)) r); [congruence|]. cbn [List.length] in *. lia. }
  rewrite concat_app, !app_length.
  assert (A : (len (map fst rows) <= len (List.concat (map (fun r => join (opt_str (cd D)) (fst r) ++ render_eol (snd r)) rows)))%nat /\
    (len (List.concat (map fst rows)) <= 2 * len (List.concat (map (fun r => join (opt_str (cd D)) (fst r) ++ render_eol (snd r)) rows)))%nat).
  { clear H2. induction rows as [|[r e] rows IH]; [cbn; lia|]. cbn [map fst snd List.concat List.length] in *. inversion H1 as [|? ? Hr Hrs]; subst.
    specialize (IH Hrs). rewrite !app_length. specialize (R r Hr). lia. }
  assert (B : (len (match final with Some r => [r] | None => [] end) <= len (match final with Some r => join (opt_str (cd D)) r | None => [] end))%nat /\
    (len (List.concat (match final with Some r => [r] | None => [] end)) <= 2 * len (match final with Some r => join (opt_str (cd D)) r | None => [] end))%nat).
  { destruct final as [r|]; [|cbn; lia]. inversion H2 as [|? ? Hr _]; subst. specialize (R r Hr). cbn [List.concat List.length]. rewrite app_nil_r. lia. }
  lia.
Qed.
Lemma kinds_of {A} (rows : list (list A)) : rows <> [] -> Forall (fun r => r <> []) rows -> row_kinds rows = map (@List.length A) rows.
Proof.
  intros Hn H. unfold row_kinds. assert (E : filter (fun n => negb (Nat.eqb n 0)) (map (@List.length A) rows) = map (@List.length A) rows).
  { clear Hn. induction H as [|r rows Hr H IH]; [reflexivity|]. cbn [map filter]. rewrite IH. destruct r; [congruence|reflexivity]. }
  rewrite E. destruct H as [|r rows Hr H]; [congruence|]. cbn [map]. destruct r; [congruence|reflexivity].
Qed.
Lemma grid_scores kb D rows final : wf_chars D = true -> cq D = None -> Forall (row_ok D) (table_of rows final) -> table_of rows final <> [] ->
  let text := render D (grid_doc rows final) in
  pattern_score text (simple D false) = Ok (table_score (map (@List.length str) (table_of rows final))) /\
  type_score (total_known kb) (Z.of_nat (len text) + 1) text (simple D false) =
    Ok (type_share kb (map (fun s => (s, false)) (List.concat (table_of rows final)))).
Proof.
  intros HD Hq HR Hn text. pose proof (grid_wf D rows final HR) as Hwf.
  assert (Hne : Forall (fun r => r <> []) (table_of rows final)) by (eapply Forall_impl; [|exact HR]; intros r (H & _); exact H).
  pose proof (grid_denote D rows final Hq Hne) as Hd. split.
  - unfold text. rewrite pattern_score_table by (auto using grid_closed, grid_esc). rewrite Hd, kinds_of.
    + rewrite map_map. do 2 f_equal. apply map_ext. intros r. apply map_length.
    + intros E. apply map_eq_nil in E. contradiction.
    + apply Forall_map. eapply Forall_impl; [|exact Hne]. intros r Hr E. apply map_eq_nil in E. contradiction.
  - unfold text. rewrite type_score_layout; [|exact HD|exact Hwf|].
    + rewrite Hd. now rewrite concat_map.
    + apply Forall_forall. intros x Hx. apply raw_cells_bound in Hx. lia.
Qed.

(** ** The same text cut at another character *)
Definition recut (cut : str -> list str) (c : N) (rows : list (list str * eol)) : list (list str * eol) :=
  map (fun r => (cut (join [c] (fst r)), snd r)) rows.
Definition recut_final (cut : str -> list str) (c : N) (final : option (list str)) : option (list str) :=
  option_map (fun r => cut (join [c] r)) final.
Lemma recut_render cut D c rows final : (forall s, join (opt_str (cd D)) (cut s) = s) ->
  render D (grid_doc (recut cut c rows) (recut_final cut c final)) = table_text c rows final.
Proof.
  intros H. rewrite grid_render. unfold table_text, recut. f_equal.
  - rewrite map_map. f_equal. apply map_ext. intros [r e]. cbn [fst snd]. now rewrite H.
  - destruct final as [r|]; [apply H|reflexivity].
Qed.
Lemma recut_table cut c rows final : table_of (recut cut c rows) (recut_final cut c final) = map (fun r => cut (join [c] r)) (table_of rows final).
Proof.
  unfold table_of, recut. rewrite map_app, !map_map. f_equal. now destruct final.
Qed.
Lemma count_join d c (r : list str) : d <> c -> count_occ N.eq_dec (join [c] r) d = list_sum (map (occurrences d) r).
Proof.
  intros Hd. induction r as [|a [|b r] IH]; [reflexivity|cbn; unfold occurrences; lia|].
  change (join [c] (a :: b :: r)) with (a ++ [c] ++ join [c] (b :: r)). rewrite !count_occ_app, IH.
  cbn [map list_sum fold_right count_occ]. destruct (N.eq_dec c d); [congruence|]. unfold occurrences. cbn. lia.
Qed.
Lemma in_join c x (r : list str) : In x (join [c] r) -> x = c \/ exists s, In s r /\ In x s.
Proof.
  induction r as [|a [|b r] IH]; [intros []|cbn; eauto|].
  change (join [c] (a :: b :: r)) with (a ++ [c] ++ join [c] (b :: r)). rewrite !in_app_iff. intros [H|[[->|[]]|H]].
  - right. exists a. split; [now left|exact H].
  - now left.
  - destruct (IH H) as [->|(s & Hs & Hx)]; [now left|]. right. exists s. split; [now right|exact Hx].
Qed.
Lemma in_join_sep c (r : list str) : (2 <= len r)%nat -> In c (join [c] r).
Proof. destruct r as [|a [|b r]]; cbn [List.length]; [lia|lia|]. intros _. cbn. apply in_or_app. right. now left. Qed.
Lemma in_join_cell c x s (r : list str) : In s r -> In x s -> In x (join [c] r).
Proof.
  induction r as [|a [|b r] IH]; [intros []|intros [->|[]] Hx; exact Hx|].
  change (join [c] (a :: b :: r)) with (a ++ [c] ++ join [c] (b :: r)). rewrite !in_app_iff. intros [->|H] Hx; [now left|].
  right. right. now apply IH.
Qed.
Lemma in_text c rows final x : In x (table_text c rows final) ->
  (exists r, In r (table_of rows final) /\ In x (join [c] r)) \/ x = LF \/ x = CR.
Proof.
  unfold table_text, table_of. rewrite in_app_iff. intros [H|H].
  - apply in_concat in H as (l & Hl & Hx). apply in_map_iff in Hl as ([r e] & <- & Hr). apply in_app_or in Hx as [Hx|Hx].
    + left. exists r. split; [|exact Hx]. apply in_or_app. left. now apply (in_map fst) in Hr.
    + right. destruct e; cbn in Hx; intuition.
  - left. destruct final as [r|]; [|destruct H]. exists r. split; [apply in_or_app; right; now left|exact H].
Qed.
Lemma text_in c rows final x r : In r (table_of rows final) -> In x (join [c] r) -> In x (table_text c rows final).
Proof.
  unfold table_text, table_of. rewrite !in_app_iff. intros [H|H] Hx.
  - left. apply in_concat. apply in_map_iff in H as ([r' e] & <- & Hr). exists (join [c] r' ++ render_eol e). split; [|apply in_or_app; now left].
    apply in_map_iff. now exists (r', e).
  - right. destruct final as [r'|]; [|destruct H]. destruct H as [->|[]]. exact Hx.
Qed.

(** ** The regular delimiter has the highest score *)
Lemma product_at_most P T p t : val P p -> val T t -> (0 <= p <= bpow radix2 60)%R -> (0 <= t <= 1)%R ->
  exists q, val (fmul P T) q /\ (q <= p)%R /\ (t = 1%R -> q = p).
Proof.
  intros HP HT Hp Ht. exists (rnd (p * t)). split; [|split].
  - apply val_mul; [exact HP|exact HT|]. apply small_le with 60%Z; [|lia]. rewrite Rabs_pos_eq by nra. nra.
  - apply rnd_le_format; [apply (val_format _ _ HP)|nra].
  - intros ->. rewrite Rmult_1_r. apply (val_rnd _ _ HP).
Qed.
Lemma cut_scores kb cut D c rows final : wf_chars D = true -> cq D = None -> (forall s, join (opt_str (cd D)) (cut s) = s) ->
  (forall r, In r (table_of rows final) -> row_ok D (cut (join [c] r))) -> table_of rows final <> [] ->
  let text := table_text c rows final in (Z.of_nat (len text) < 2 ^ 50)%Z ->
  exists P T t, pattern_score text (simple D false) = Ok P /\ P = table_score (map (fun r => len (cut (join [c] r))) (table_of rows final)) /\
    type_score (total_known kb) (Z.of_nat (len text) + 1) text (simple D false) = Ok T /\ val T t /\ (0 <= t <= 1)%R /\
    ((forall r s, In r (table_of rows final) -> In s (cut (join [c] r)) -> kb s false = true) -> t = 1%R) /\
    (len (table_of rows final) <= len text)%nat /\ (forall r, In r (table_of rows final) -> (len (cut (join [c] r)) <= 2 * len text)%nat).
Proof.
  intros HD Hq Hj HR Hn text Hlen. pose proof (recut_render cut D c rows final Hj) as ER. pose proof (recut_table cut c rows final) as ET.
  assert (HR' : Forall (row_ok D) (table_of (recut cut c rows) (recut_final cut c final))).
  { rewrite ET. apply Forall_map, Forall_forall. exact HR. }
  assert (Hn' : table_of (recut cut c rows) (recut_final cut c final) <> []).
  { rewrite ET. intros E. apply map_eq_nil in E. contradiction. }
  destruct (grid_scores kb D _ _ HD Hq HR' Hn') as [H1 H2]. destruct (grid_size D _ _ HR') as [S1 S2]. rewrite ER in *. fold text in H1, H2, S1, S2.
  set (cells := map (fun s : str => (s, false)) (List.concat (table_of (recut cut c rows) (recut_final cut c final)))) in *.
  assert (Hc : (Z.of_nat (len cells) <= two53)%Z) by (unfold cells; rewrite map_length; unfold two53; lia).
  destruct (share_val kb cells Hc) as (t & Hv & Ht & H1'). pose proof r_type_pos as Hp.
  exists (table_score (map (fun r => len (cut (join [c] r))) (table_of rows final))), (type_share kb cells), t.
  split. { rewrite H1. do 2 f_equal. rewrite ET, map_map. reflexivity. }
  split; [reflexivity|]. split; [exact H2|]. split; [exact Hv|]. split; [lra|]. split; [|split].
  - intros HK. apply H1'. split.
    + unfold cells. intros E. apply map_eq_nil in E. destruct (table_of (recut cut c rows) (recut_final cut c final)) as [|r T]; [congruence|].
      inversion HR' as [|? ? (Hr & _) _]; subst. cbn in E. apply app_eq_nil in E as [E _]. contradiction.
    + intros s q Hi. apply in_map_iff in Hi as (s' & [= -> <-] & Hs). apply in_concat in Hs as (l & Hl & Hs). rewrite ET in Hl.
      apply in_map_iff in Hl as (r & <- & Hr). now apply (HK r).
  - rewrite ET, map_length in S1. exact S1.
  - intros r Hr. apply Nat.le_trans with (2 := S2). rewrite ET.
    assert (G : forall l (x : list str), In x l -> (len x <= len (List.concat l))%nat).
    { intros l x Hx. induction l as [|y l IH]; [destruct Hx|]. cbn. rewrite app_length. destruct Hx as [->|Hx]; [lia|specialize (IH Hx); lia]. }
    apply G. now apply (in_map (fun r => cut (join [c] r))).
Qed.

Section Regular.
Variable U : unidata.
Local Notation cat := (u_cat U).
Hypothesis uni : unicode_like cat.
Hypothesis isdigit_ok : forall c, digit cat c -> u_isdigit U c = true.
Variables (c : N) (k : nat) (rows : list (list str * eol)) (final : option (list str)).
Local Notation T := (table_of rows final).
Local Notation text := (table_text c rows final).
Hypothesis delim : plain_delimiter cat c.
Hypothesis table : grid k (cell_char c) T.
Hypothesis known : forall r s, In r T -> In s r -> exists name P, In (name, P) (types U false) /\ P (strip U s).
Hypothesis escapes : no_escapes cat text.
Hypothesis others : forall d, d <> c -> In d text -> default_delimiter cat d -> outdone k (per_row d T).
Hypothesis size : (Z.of_nat (len text) < 2 ^ 50)%Z.

Lemma not_default x : x <> TAB -> In (cat x) (map s2l ["Lu"; "Ll"; "Lt"; "Lm"; "Lo"; "Nd"; "Nl"; "No"; "Ps"; "Pe"; "Co"]%string) -> ~ default_delimiter cat x.
Proof. intros Hx Hi [->|(_ & Hn)]; [now apply Hx|contradiction]. Qed.
Lemma default_not_nl x : default_delimiter cat x -> x <> LF /\ x <> CR.
Proof. unfold LF, CR. intros [->|(H & _)]; [split; discriminate|]. split; intros ->; apply H; cbn; tauto. Qed.
Lemma c_not_brace : c <> 123.
Proof.
  intros E. pose proof delim as (Hd & _). pose proof uni as (_ & _ & _ & _ & _ & _ & _ & _ & _ & _ & _ & _ & H & _).
  refine (not_default 123 _ _ _); [discriminate|rewrite H; cbn; tauto|now rewrite <- E].
Qed.
Lemma U_not_default : ~ default_delimiter cat 85.
Proof. pose proof uni as (_ & _ & _ & _ & _ & _ & _ & _ & _ & _ & H & _). apply not_default; [discriminate|]. rewrite H. cbn. tauto. Qed.

Lemma row_cell r x : In r T -> In x (join [c] r) -> x = c \/ cell_char c x.
Proof.
  intros Hr Hx. pose proof table as (_ & _ & HF). rewrite Forall_forall in HF. destruct (HF r Hr) as (_ & HP).
  apply in_join in Hx as [->|(s & Hs & Hx)]; [now left|]. right. rewrite Forall_forall in HP. specialize (HP s Hs). rewrite Forall_forall in HP. now apply HP.
Qed.
Lemma text_char_ok x : In x text -> x <> NUL /\ x <> 123 /\ surrogate x = false /\ ~ quote_like x.
Proof.
  pose proof delim as (_ & Hq & _ & H0 & Hsur). intros H. apply in_text in H as [(r & Hr & Hx)|H].
  - destruct (row_cell r x Hr Hx) as [->|(_ & Hb & Hq' & Hs)].
    + repeat split; auto using c_not_brace.
    + repeat split; auto; intros ->; apply Hb; cbn; tauto.
  - unfold LF, CR in H. destruct H as [->| ->]; repeat split; try discriminate; unfold quote_like; cbn; intuition discriminate.
Qed.
Lemma row_len r : In r T -> len r = k.
Proof. intros H. pose proof table as (_ & _ & HF). rewrite Forall_forall in HF. now apply HF. Qed.
Lemma row_text_ok r x : In r T -> In x (join [c] r) -> (x =? NUL) = false /\ is_nl x = false.
Proof.
  intros Hr Hx. pose proof delim as (Hd & _ & _ & H0 & _). unfold is_nl. destruct (row_cell r x Hr Hx) as [->|(_ & Hb & _)].
  - destruct (default_not_nl c Hd) as (H1 & H2). apply N.eqb_neq in H0, H1, H2. now rewrite H0, H1, H2.
  - assert (x <> NUL /\ x <> CR /\ x <> LF) as (H1 & H2 & H3) by (repeat split; intros ->; apply Hb; cbn; tauto).
    apply N.eqb_neq in H1, H2, H3. now rewrite H1, H2, H3.
Qed.

Lemma candidates_are O L : any_orders O -> get_dialects cat (shipped_url U) O utf8 text None false = Ok L ->
  (forall D, In D L -> exists d, D = dialect3 d [] [] /\ (d = [] \/ exists x, d = [x] /\ In x text /\ default_delimiter cat x)) /\
  In (dialect3 [c] [] []) L.
Proof.
  intros HO EL.
  assert (Hsub : forall x, In x (filter_urls (shipped_url U) text) -> In x text \/ x = 85).
  { intros x Hx. apply (url_sub_In _ _ (filter_urls_sub _ _)) in Hx. tauto. }
  destruct (get_dialects_utf8 cat (shipped_url U) O text None false HO) as (L' & E & _ & HL).
  { intros x Hx. destruct (Hsub x Hx) as [H| ->]; [apply (text_char_ok x H)|reflexivity]. }
  rewrite EL in E. injection E as <-. split.
  - intros D HD. apply HL in HD as (d & q & e & -> & (H1 & H2 & H3) & _).
    assert (Hq : q = []).
    { destruct H2 as [->|(y & -> & Hy & Hq)]; [reflexivity|]. destruct (Hsub y Hy) as [H| ->]; [now destruct (text_char_ok y H) as (_ & _ & _ & Hn)|].
      unfold quote_like in Hq. cbn in Hq. intuition discriminate. }
    subst q.
    assert (Hd : d = [] \/ exists x, d = [x] /\ In x text /\ default_delimiter cat x).
    { destruct H1 as [->|(x & -> & Hx & Hw)]; [now left|]. cbn in Hw. right. exists x. split; [reflexivity|]. split; [|exact Hw].
      destruct (Hsub x Hx) as [H| ->]; [exact H|]. now destruct U_not_default. }
    assert (He : e = []).
    { destruct H3 as [->|(u & v & -> & Hb & Hu & [Hv|Hv])]; [reflexivity| |discriminate]. exfalso.
      destruct Hd as [->|(x & -> & Hx & Hw)]; [discriminate|]. injection Hv as <-. now apply (escapes u x Hb). }
    subst e. exists d. split; [reflexivity|exact Hd].
  - apply HL. exists [c], [], []. split; [reflexivity|]. split; [|reflexivity]. split; [|split; now left].
    right. exists c. split; [reflexivity|]. pose proof delim as (Hd & _ & Hm & _). split; [|exact Hd].
    pose proof uni as (Hsane & HLe & HNu & Hcc & _ & _ & _ & H40 & H41 & _ & H85 & _).
    apply (delimiter_survives U); auto.
    + exists (s2l "u"). rewrite H85. reflexivity.
    + intros (t & Ht). rewrite (Hcc TAB) in Ht by reflexivity. discriminate.
    + intros (t & Ht). rewrite (Hcc TAB) in Ht by reflexivity. discriminate.
    + pose proof table as (Hn & Hk & HF). destruct T as [|r T'] eqn:ET; [congruence|].
      apply (text_in c rows final c r); [rewrite ET; now left|]. apply in_join_sep. rewrite Forall_forall in HF. destruct (HF r (or_introl eq_refl)) as (E & _).
      apply Nat.le_trans with (1 := Hk), Nat.eq_le_incl. symmetry. exact E.
Qed.

Local Notation kb := (known_bool U).
Local Notation n := (len T).
Local Notation D0 := (mk_chars None None None).
Local Notation Dx x := (mk_chars (Some x) None None).
Lemma wf_Dx x : default_delimiter cat x -> x <> NUL -> wf_chars (Dx x) = true.
Proof.
  intros H H0. destruct (default_not_nl x H) as (H1 & H2). apply N.eqb_neq in H0, H1, H2. unfold wf_chars, char_ok, is_nl. cbn [cd cq ce]. now rewrite H0, H1, H2.
Qed.
Lemma split_pieces x s p y : In p (py_split [x] s) -> In y p -> In y s /\ y <> x.
Proof.
  intros Hp Hy. destruct (split_spec [x] s ltac:(discriminate)) as [Hj HF]. split.
  - rewrite <- Hj. now apply (in_join_cell x y p).
  - intros ->. rewrite Forall_forall in HF. apply (HF p Hp). apply in_split in Hy as (a & b & ->). now exists a, b.
Qed.
Lemma row_text r : In r T -> join [c] r <> [].
Proof.
  intros Hr E. pose proof table as (_ & Hk & _). pose proof (row_len r Hr) as Hl. assert (H : In c (join [c] r)).
  { apply in_join_sep. apply Nat.le_trans with (1 := Hk), Nat.eq_le_incl. symmetry. exact Hl. }
  rewrite E in H. destruct H.
Qed.
Lemma split_row_ok x r : In r T -> row_ok (Dx x) (py_split [x] (join [c] r)).
Proof.
  intros Hr. destruct (split_spec [x] (join [c] r) ltac:(discriminate)) as [Hj HF].
  split; [|split; [|split]].
  - intros E. rewrite E in Hj. now apply (row_text r Hr).
  - intros E. rewrite E in Hj. now apply (row_text r Hr).
  - reflexivity.
  - apply Forall_forall. intros p Hp. apply Forall_forall. intros y Hy. destruct (split_pieces x _ p y Hp Hy) as [Hi Hn].
    destruct (row_text_ok r y Hr Hi) as [H1 H2]. split; [exact H1|]. split; [exact H2|]. unfold special. cbn.
    destruct (N.eqb_spec x y); [congruence|]. destruct (N.eqb_spec y x); [congruence|]. reflexivity.
Qed.
Lemma whole_row_ok r : In r T -> row_ok D0 [join [c] r].
Proof.
  intros Hr. split; [discriminate|]. split; [|split].
  - intros [= E]. now apply (row_text r Hr).
  - cbn. lia.
  - constructor; [|constructor]. apply Forall_forall. intros y Hy. destruct (row_text_ok r y Hr Hy) as [H1 H2]. auto.
Qed.
Lemma split_row_c r : In r T -> py_split [c] (join [c] r) = r.
Proof.
  intros Hr. pose proof table as (_ & Hk & HF). rewrite Forall_forall in HF. destruct (HF r Hr) as (Hl & HC). apply split_join.
  - intros ->. cbn in Hl. lia.
  - eapply Forall_impl; [|exact HC]. intros s Hs Hi. rewrite Forall_forall in Hs. now destruct (Hs c Hi).
Qed.
Lemma some_row : exists r, In r T.
Proof. pose proof table as (H & _). destruct T as [|r ?]; [congruence|]. exists r. now left. Qed.
Lemma n_pos : (1 <= n)%nat.
Proof. pose proof table as (H & _). destruct T; [congruence|cbn; lia]. Qed.

Definition limit : Z := (Z.of_nat (len text) + 1)%Z.
Lemma c_score : exists P S q, pattern_score text (dialect3 [c] [] []) = Ok P /\ type_score (total_known kb) limit text (dialect3 [c] [] []) = Ok S /\
  val (fmul P S) q /\ val (kind_score n k) q /\ (n <= len text)%nat /\ (Z.of_nat k <= 2 ^ 51)%Z.
Proof.
  pose proof delim as (Hd & _ & _ & H0 & _).
  destruct (cut_scores kb (py_split [c]) (Dx c) c rows final (wf_Dx c Hd H0) eq_refl) as (P & S & t & E1 & EP & E2 & Hv & Ht & H1 & HN & HK); auto.
  - intros s. now apply (split_spec [c]).
  - intros r Hr. now apply split_row_ok.
  - apply table.
  - assert (EK : map (fun r => len (py_split [c] (join [c] r))) T = repeat k n).
    { rewrite <- (map_length (fun r => len (py_split [c] (join [c] r))) T). apply Forall_eq_repeat, Forall_forall. intros y Hy.
      apply in_map_iff in Hy as (r & <- & Hr). rewrite (split_row_c r Hr). symmetry. now apply row_len. }
    assert (Hk50 : (Z.of_nat k <= 2 ^ 51)%Z).
    { destruct some_row as (r & Hr). specialize (HK r Hr). rewrite (split_row_c r Hr) in HK. pose proof (row_len r Hr) as Hl.
      assert (k <= 2 * len text)%nat; [|lia]. rewrite <- Hl. exact HK. }
    rewrite EK, uniform_score in EP; [|apply n_pos|unfold two53; lia|unfold two53; lia].
    destruct (kind_score_val n k n_pos ltac:(unfold two53; lia) ltac:(unfold two53; lia)) as (p & Hp & Hpr). pose proof r_pat_pos as Hpp.
    rewrite <- EP in Hp. destruct (product_at_most P S p t Hp Hv) as (q & Hq & _ & Hq1).
    + split; [lra|]. apply Rle_trans with (1 := proj2 Hpr). change (bpow radix2 60) with (IZR (2 ^ 60)). apply IZR_le. lia.
    + exact Ht.
    + exists P, S, q. split; [exact E1|]. split; [exact E2|]. split; [exact Hq|]. split.
      * rewrite <- EP. rewrite Hq1; [exact Hp|]. apply H1. intros r s Hr Hs. rewrite (split_row_c r Hr) in Hs.
        pose proof uni as (Hsane & _). apply (known_bool_iff U Hsane isdigit_ok). now apply (known r s).
      * split; [exact HN|exact Hk50].
Qed.
Lemma other_score d : d = [] \/ (exists x, d = [x] /\ x <> c /\ In x text /\ default_delimiter cat x) ->
  exists P S q, pattern_score text (dialect3 d [] []) = Ok P /\ type_score (total_known kb) limit text (dialect3 d [] []) = Ok S /\
  val (fmul P S) q /\ forall q', val (kind_score n k) q' -> (q < q')%R.
Proof.
  intros Hd. destruct c_score as (_ & _ & _ & _ & _ & _ & _ & HN & Hk51). pose proof n_pos as Hn. pose proof table as (HT & Hk & _).
  destruct Hd as [->|(x & -> & Hxc & Hx & Hdef)].
  - destruct (cut_scores kb (fun s => [s]) D0 c rows final eq_refl eq_refl) as (P & S & t & E1 & EP & E2 & Hv & Ht & _); auto using whole_row_ok.
    assert (EK : map (fun r => len [join [c] r]) T = repeat 1%nat n).
    { rewrite <- (map_length (fun r => len [join [c] r]) T). apply Forall_eq_repeat, Forall_forall. intros y Hy.
      apply in_map_iff in Hy as (r & <- & Hr). reflexivity. }
    rewrite EK, uniform_score in EP; [|apply n_pos|unfold two53; lia|unfold two53; lia].
    destruct (kind_score_val n 1 n_pos ltac:(unfold two53; lia) ltac:(unfold two53; lia)) as (p & Hp & Hpr). pose proof r_pat_pos as Hpp.
    pose proof Hp as Hp'. rewrite <- EP in Hp. destruct (product_at_most P S p t Hp Hv) as (q & Hq & Hqp & _).
    + split; [lra|]. apply Rle_trans with (1 := proj2 Hpr). change (bpow radix2 60) with (IZR (2 ^ 60)). apply IZR_le. lia.
    + exact Ht.
    + exists P, S, q. split; [exact E1|]. split; [exact E2|]. split; [exact Hq|]. intros q' Hq'.
      destruct (kind_one n p n_pos ltac:(lia) Hp') as [_ A1]. destruct (kind_at_least n k q' n_pos Hk ltac:(lia) ltac:(unfold two53; lia) Hq') as [A2 _].
      assert (1 <= IZR (Z.of_nat n))%R by (apply IZR_le; lia). lra.
  - assert (Hx0 : x <> NUL) by apply (text_char_ok x Hx).
    destruct (cut_scores kb (py_split [x]) (Dx x) c rows final (wf_Dx x Hdef Hx0) eq_refl) as (P & S & t & E1 & EP & E2 & Hv & Ht & _ & _ & HK); auto.
    { intros s. now apply (split_spec [x]). } { intros r Hr. now apply split_row_ok. }
    assert (EL : forall r, len (py_split [x] (join [c] r)) = Datatypes.S (list_sum (map (occurrences x) r))).
    { intros r. unfold py_split. rewrite split_length. f_equal. now apply count_join. }
    set (kinds := map (fun r => len (py_split [x] (join [c] r))) T) in *.
    assert (EK : kinds = map Datatypes.S (per_row x T)).
    { unfold kinds, per_row. rewrite map_map. apply map_ext. exact EL. }
    assert (Hlen : len kinds = n) by (unfold kinds; apply map_length).
    assert (HB : Forall (fun j => 1 <= j)%nat kinds) by (rewrite EK; apply Forall_map, Forall_forall; intros; lia).
    assert (HB' : Forall (fun j => Z.of_nat j <= two53)%Z kinds).
    { apply Forall_forall. intros y Hy. apply in_map_iff in Hy as (r & <- & Hr). specialize (HK r Hr). unfold two53. lia. }
    assert (G : forall p, val P p -> (0 <= p <= IZR (Z.of_nat n))%R -> (forall q', val (kind_score n k) q' -> (p < q')%R) ->
      exists P S q, pattern_score text (dialect3 [x] [] []) = Ok P /\ type_score (total_known kb) limit text (dialect3 [x] [] []) = Ok S /\
        val (fmul P S) q /\ forall q', val (kind_score n k) q' -> (q < q')%R).
    { intros p Hp Hpr Hlt. destruct (product_at_most P S p t Hp Hv) as (q & Hq & Hqp & _).
      - split; [lra|]. apply Rle_trans with (1 := proj2 Hpr). change (bpow radix2 60) with (IZR (2 ^ 60)). apply IZR_le. lia.
      - exact Ht.
      - exists P, S, q. split; [exact E1|]. split; [exact E2|]. split; [exact Hq|]. intros q' Hq'. apply Rle_lt_trans with (1 := Hqp). now apply Hlt. }
    assert (HnR : (1 <= IZR (Z.of_nat n))%R) by (apply IZR_le; lia).
    destruct (others x Hxc Hx Hdef) as [(a & b & Ha & Hb & Hab & Hor)|(m & Hm & columns & HF)].
    + destruct (mixed_score kinds (Datatypes.S a) (Datatypes.S b)) as (p & Hp & Hpr & Hstrict); auto.
      * rewrite EK. now apply in_map.
      * rewrite EK. now apply in_map.
      * rewrite Hlen. lia.
      * rewrite Hlen in *. apply (G p); [now rewrite EP|lra|]. intros q' Hq'.
        destruct (kind_at_least n k q' n_pos Hk ltac:(lia) ltac:(unfold two53; lia) Hq') as [A2 A3]. destruct Hor as [H3|H0].
        -- specialize (A3 H3). lra.
        -- apply Rlt_le_trans with (2 := A2). apply Hstrict. rewrite EK. apply in_map_iff. exists 0%nat. split; [reflexivity|exact H0].
    + assert (EK' : kinds = repeat (Datatypes.S m) n).
      { rewrite <- Hlen. apply Forall_eq_repeat. rewrite EK. apply Forall_map. eapply Forall_impl; [|exact HF]. now intros ? ->. }
      rewrite EK', uniform_score in EP; [|apply n_pos|unfold two53; lia|unfold two53; lia].
      destruct (kind_score_val n (Datatypes.S m) n_pos ltac:(unfold two53; lia) ltac:(unfold two53; lia)) as (p & Hp & Hpr). pose proof r_pat_pos as Hpp.
      apply (G p); [now rewrite EP|lra|]. intros q' Hq'. apply (kind_lt n (Datatypes.S m) k p q'); auto; lia.
Qed.

Theorem regular_detected O o_set capacity skip old : any_orders O -> (forall l, Permutation (o_set l) l) ->
  detect cat (shipped_url U) (is_known_type U) O o_set capacity skip text None old = (Ok (Some (dialect3 [c] [] [])), old).
Proof.
  intros HO Hp. pose proof uni as (Hsane & _).
  assert (Hn0 : ~ In NUL text) by (intros H; now destruct (text_char_ok _ H)).
  assert (Hclean : forall x, In x (filter_urls (shipped_url U) text) -> surrogate x = false).
  { intros x Hx. apply (url_sub_In _ _ (filter_urls_sub _ _)) in Hx as [H| ->]; [apply (text_char_ok x H)|reflexivity]. }
  destruct (detect_without_braces U Hsane isdigit_ok O o_set capacity skip text None old HO) as (E & _); auto.
  { intros x Hx. now apply text_char_ok. } { intros H. now destruct (text_char_ok _ H) as (_ & Hb & _). }
  rewrite E. destruct (detect_best cat (shipped_url U) kb O o_set capacity skip text None old HO Hclean Hp Hn0 size) as
    (L & Q & best & r & EL & HQ & HN & Hne & HB & Ed & Hr & _). fold limit in HQ, Hr.
  rewrite Ed. destruct (candidates_are O L HO EL) as [HL Hc]. destruct c_score as (P & S & q & EP & ES & Hq & Hq' & _).
  assert (QC : Q (dialect3 [c] [] []) = fmul P S).
  { destruct (HQ _ Hc) as (P' & S' & EP' & ES' & ->). congruence. }
  assert (Hall : forall D, In D best -> D = dialect3 [c] [] []).
  { intros D HD. apply HB in HD as (HD & Hmax). destruct (HL D HD) as (d & -> & Hd). destruct (list_eq_dec N.eq_dec d [c]) as [->|Hdc]; [reflexivity|exfalso].
    destruct (other_score d) as (P1 & S1 & q1 & EP1 & ES1 & Hq1 & Hlt).
    { destruct Hd as [->|(x & -> & Hx)]; [now left|]. right. exists x. split; [reflexivity|]. split; [congruence|exact Hx]. }
    specialize (Hmax _ Hc). rewrite QC in Hmax. destruct (HQ _ HD) as (P2 & S2 & EP2 & ES2 & E2). rewrite E2 in Hmax.
    rewrite EP1 in EP2. injection EP2 as <-. rewrite ES1 in ES2. injection ES2 as <-.
    apply (fleb_val _ _ _ _ Hq Hq1) in Hmax. specialize (Hlt q Hq'). lra. }
  destruct best as [|D [|D' best]]; [congruence| |].
  - rewrite Hr. now rewrite (Hall D (or_introl eq_refl)).
  - exfalso. inversion HN as [|? ? Hni _]; subst. apply Hni. rewrite (Hall D (or_introl eq_refl)), (Hall D' (or_intror (or_introl eq_refl))). now left.
Qed.
End Regular.

(** ** Words and numbers *)
Section Plain.
Variable U : unidata.
Local Notation cat := (u_cat U).
Hypothesis uni : unicode_like cat.
Hypothesis isdigit_ok : forall c, digit cat c -> u_isdigit U c = true.
Lemma letter_cat x : a_letter cat x -> In (cat x) (map s2l ["Lu"; "Ll"; "Lt"; "Lm"; "Lo"]%string).
Proof. apply uni. Qed.
Lemma plain_cat x : plain_char cat x -> In (cat x) (map s2l ["Lu"; "Ll"; "Lt"; "Lm"; "Lo"; "Nd"; "Nl"; "No"; "Ps"; "Pe"]%string) \/ x = 46.
Proof.
  pose proof uni as (_ & HL & HN & _ & _ & _ & _ & H40 & H41 & _). intros [H|[H|H]].
  - left. apply HL in H. cbn in *. tauto.
  - left. apply HN in H. cbn in *. tauto.
  - cbn in H. destruct H as [<-|[<-|[<-|[]]]]; [now right| |]; left; [rewrite H40|rewrite H41]; cbn; tauto.
Qed.
Lemma plain_not_default x : plain_char cat x -> ~ default_delimiter cat x.
Proof.
  pose proof uni as (_ & _ & _ & Hcc & _). intros H Hd. apply plain_cat in H as [H| ->].
  - destruct Hd as [->|(_ & Hn)]; [|apply Hn; cbn in *; tauto]. rewrite (Hcc TAB) in H by reflexivity. cbn in H. intuition discriminate.
  - destruct Hd as [[=]|(Hn & _)]. apply Hn. cbn. tauto.
Qed.
Lemma plain_cell_char c x : default_delimiter cat c -> plain_char cat x -> cell_char c x.
Proof.
  pose proof uni as (_ & _ & _ & Hcc & Hcs & H34 & H39 & _ & _ & _ & _ & H96 & H123 & H126). intros Hc Hx.
  pose proof (plain_not_default x Hx) as Hn. split; [intros ->; contradiction|].
  assert (B : forall y s, y <> 46 -> cat y = s -> ~ In s (map s2l ["Lu"; "Ll"; "Lt"; "Lm"; "Lo"; "Nd"; "Nl"; "No"; "Ps"; "Pe"]%string) -> x <> y).
  { intros y s Hy Ey Hs ->. apply plain_cat in Hx as [H|H]; [|contradiction]. rewrite Ey in H. contradiction. }
  split; [|split].
  - intros [<-|[<-|[<-|[<-|[]]]]].
    + refine (B NUL (s2l "Cc") _ _ _ eq_refl); [discriminate|now apply Hcc|cbn; intuition discriminate].
    + refine (B CR (s2l "Cc") _ _ _ eq_refl); [discriminate|now apply Hcc|cbn; intuition discriminate].
    + refine (B LF (s2l "Cc") _ _ _ eq_refl); [discriminate|now apply Hcc|cbn; intuition discriminate].
    + destruct Hx as [(t & H)|[(t & H)|H]]; [rewrite H123 in H; discriminate|rewrite H123 in H; discriminate|]. cbn in H. intuition discriminate.
  - intros [<-|[<-|[<-|[<-|[]]]]].
    + refine (B 39 _ _ H39 _ eq_refl); [discriminate|cbn; intuition discriminate].
    + refine (B 34 _ _ H34 _ eq_refl); [discriminate|cbn; intuition discriminate].
    + refine (B 126 _ _ H126 _ eq_refl); [discriminate|cbn; intuition discriminate].
    + refine (B 96 _ _ H96 _ eq_refl); [discriminate|cbn; intuition discriminate].
  - destruct (surrogate x) eqn:E; [|reflexivity]. exfalso. pose proof (Hcs x E) as (Hs1 & Hs2).
    destruct Hx as [H|[H|H]]; [contradiction|contradiction|]. cbn in H. destruct H as [<-|[<-|[<-|[]]]]; discriminate.
Qed.
Lemma plain_known s : Forall (plain_char cat) s -> exists name P, In (name, P) (types U false) /\ P (strip U s).
Proof.
  intros H. destruct (strip U s) as [|x t] eqn:E.
  - exists "empty"%string, (fun s => s = []). split; [now left|reflexivity].
  - exists "unicode_alphanum"%string, (a_text cat false). split; [unfold types, cell_types; cbn [In]; tauto|]. split; [discriminate|].
    rewrite <- E. apply Forall_forall. intros y Hy. apply (strip_sub (u_space U)) in Hy. rewrite Forall_forall in H.
    destruct (H y Hy) as [A|[A|A]]; [now left|right; now left|]. right. right. right. left. cbn in *. tauto.
Qed.
Theorem plain_detected c k rows final O o_set capacity skip old : plain_delimiter cat c -> ~ escape_like cat c ->
  grid k (plain_char cat) (table_of rows final) -> (Z.of_nat (len (table_text c rows final)) < 2 ^ 50)%Z ->
  any_orders O -> (forall l, Permutation (o_set l) l) ->
  detect cat (shipped_url U) (is_known_type U) O o_set capacity skip (table_text c rows final) None old = (Ok (Some (dialect3 [c] [] [])), old).
Proof.
  intros Hc He Hg Hs HO Hp. pose proof Hc as (Hd & _).
  assert (Hg' : grid k (cell_char c) (table_of rows final)).
  { destruct Hg as (H1 & H2 & H3). split; [exact H1|]. split; [exact H2|]. eapply Forall_impl; [|exact H3]. intros r (Hl & Hr). split; [exact Hl|].
    eapply Forall_impl; [|exact Hr]. intros s Hss. eapply Forall_impl; [|exact Hss]. intros x. now apply plain_cell_char. }
  assert (Hin : forall x, In x (table_text c rows final) -> x = c \/ plain_char cat x \/ x = LF \/ x = CR).
  { intros x Hx. apply in_text in Hx as [(r & Hr & Hx)|Hx]; [|tauto]. apply in_join in Hx as [Hx|(s & Hss & Hx)]; [now left|]. right. left.
    destruct Hg as (_ & _ & HF). rewrite Forall_forall in HF. destruct (HF r Hr) as (_ & HC). rewrite Forall_forall in HC. specialize (HC s Hss).
    rewrite Forall_forall in HC. now apply HC. }
  assert (Honly : forall x, In x (table_text c rows final) -> default_delimiter cat x -> x = c).
  { intros x Hx Hdx. destruct (Hin x Hx) as [E|[E|E]]; [exact E|now apply plain_not_default in E|]. destruct (default_not_nl U x Hdx). tauto. }
  apply (regular_detected U uni isdigit_ok c k); auto.
  - intros r s Hr Hss. apply plain_known. destruct Hg as (_ & _ & HF). rewrite Forall_forall in HF. destruct (HF r Hr) as (_ & HC). rewrite Forall_forall in HC. now apply HC.
  - intros u v (a & b & E) Hu Hv. assert (Hiu : In u (table_text c rows final)) by (rewrite E; apply in_elt).
    destruct (Hin u Hiu) as [->|[H|H]]; [contradiction| |].
    + destruct Hu as (Hcat & Hm). apply plain_cat in H as [H| ->]; [rewrite Hcat in H; cbn in H; intuition discriminate|apply Hm; cbn; tauto].
    + destruct Hu as (Hcat & _). pose proof uni as (_ & _ & _ & Hcc & _). destruct H as [->| ->]; rewrite Hcc in Hcat by reflexivity; discriminate.
  - intros d Hn Hi Hdd. now apply Honly in Hi.
Qed.
End Plain.
