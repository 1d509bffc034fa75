(** * NormalParse2: parsing files with quotes in normal form (C42) *)
From Coq Require Import String.
From Verif Require Import Base Parser Dialect SpecLayout SpecParse Potential SpecPotential PotentialFacts MaskedFacts SpecTies TieRules
  LayoutFacts ParserLift SpecText LayoutMore NormalForm SpecNormal NormalFacts NormalRows NormalForms NormalParse.

(** ** Tables of cells with known pieces *)
(** The text [c] is written by the pieces [ps] with value [v]. *)
Definition written (D : chars) (c : str) (v : str * bool) : Prop :=
  exists ps, render_cell D ps = c /\ wf_cell D ps = true /\ cell_value D ps = v.

Lemma written_plain D s : over elementary s -> Forall (fun c => special D c = false) s -> written D s (s, false).
Proof.
  intros H1 H2. exists (map PChar s). split; [apply render_plain|]. split; [now apply over_plain|now apply cell_value_plain].
Qed.
Lemma written_quoted D q s : cq D = Some q -> ce D = None -> ~ In q s -> ~ In NUL s -> written D (quoted q s) (s, true).
Proof.
  intros Hq He H1 H2. exists [PQuoted (map QChar s)]. split; [now apply render_quoted|].
  split; [now apply (wf_quoted D q)|now apply (quoted_value D q)].
Qed.
Lemma written_list D : forall cells vs, Forall2 (written D) cells vs -> exists pss,
  map (render_cell D) pss = cells /\ forallb (wf_cell D) pss = true /\ map (cell_value D) pss = vs.
Proof.
  intros cells vs H. induction H as [|c v cells vs (ps & H1 & H2 & H3) HF (pss & I1 & I2 & I3)].
  - exists []. repeat split.
  - exists (ps :: pss). cbn. rewrite H1, H2, H3, I1, I2, I3. repeat split.
Qed.
(** The line [l] is read as the row [vs]. *)
Definition line_written (D : chars) (l : str) (vs : list (str * bool)) : Prop :=
  l <> [] /\ (2 <= List.length vs -> is_set (cd D) = true) /\ vs <> [] /\
  exists cells, l = join (opt_str (cd D)) cells /\ Forall2 (written D) cells vs.

Lemma table_parse D data lines rows limit rq : wf_chars D = true -> ce D = None ->
  file_lines data lines -> Forall2 (line_written D) lines rows -> (Z.of_nat (List.length data) < limit)%Z ->
  exists k, parse_string limit data (simple D false) rq = (mk_rows rq (rows ++ repeat [] k), None).
Proof.
  intros HD He Hl HF HL.
  assert (K : exists prows, Forall2 (line_row D) lines prows /\ map (row_value D) prows = rows).
  { clear - HF. induction HF as [|l vs lines rows (H0 & H1 & H2 & cells & H3 & H4) HF (prows & I1 & I2)].
    - exists []. split; [constructor|reflexivity].
    - destruct (written_list D cells vs H4) as (pss & K1 & K2 & K3). exists (pss :: prows).
      assert (Hlen : List.length pss = List.length vs) by (rewrite <- K3; now rewrite map_length). split.
      + constructor; [|exact I1]. split; [|split].
        * rewrite H3. unfold render_row. now rewrite K1.
        * unfold wf_row. rewrite K2. cbn [andb]. destruct pss as [|ps [|ps' pss]]; [reflexivity| |].
          -- destruct ps; [|reflexivity]. exfalso. apply H0. rewrite H3, <- K1. reflexivity.
          -- assert (E : is_set (cd D) = true) by (apply H1; rewrite <- Hlen; cbn; lia). rewrite E. now destruct ps.
        * intros E. congruence.
      + cbn. unfold row_value at 1. now rewrite K3, I2. }
  destruct K as (prows & K1 & <-). eapply file_parse; eauto.
  intros ->. inversion HF as [|? ? ? ? (H0 & _)]; subst. congruence.
Qed.

Lemma Forall2_in {A B} (R : A -> B -> Prop) l : (forall x, In x l -> exists y, R x y) -> exists m, Forall2 R l m.
Proof.
  induction l as [|x l IH]; intros H; [exists []; constructor|]. destruct (H x (or_introl eq_refl)) as [y Hy].
  destruct IH as [m Hm]; [intros z Hz; apply H; now right|]. exists (y :: m). now constructor.
Qed.
Lemma join_extra (d : N) (cells : list str) : cells <> [] -> join [d] cells ++ [d] = join [d] (cells ++ [[]]).
Proof.
  induction cells as [|x [|y cells] IH]; intros H; [congruence|cbn; reflexivity|].
  cbn [app]. rewrite join_cons by discriminate. rewrite (join_cons [d] x (y :: cells ++ [[]])) by discriminate.
  change (y :: cells ++ [[]]) with ((y :: cells) ++ [[]]). rewrite <- IH by discriminate. now rewrite <- !app_assoc.
Qed.
Lemma written_empty D : written D [] ([], false).
Proof. apply (written_plain D []); constructor. Qed.
Lemma line_in data lines l : file_lines data lines -> In l lines -> forall c, In c l -> In c data.
Proof.
  intros (s & a & b & eol & -> & _ & _ & _ & -> & _) Hl c Hc. apply in_app_iff. left.
  clear - Hl Hc. induction lines as [|x [|y lines] IH]; [destruct Hl|destruct Hl as [->|[]]; exact Hc|].
  rewrite join_cons by discriminate. apply in_app_iff. destruct Hl as [->|Hl]; [now left|right]. apply in_app_iff. right. now apply IH.
Qed.

Definition dq_chars (d q : N) : chars := mk_chars (Some d) (Some q) None.
Lemma wf_dq d q : char_ok (Some d) = true -> char_ok (Some q) = true -> d <> q -> wf_chars (dq_chars d q) = true.
Proof.
  intros H1 H2 H3. unfold wf_chars, dq_chars. cbn [cd cq ce]. rewrite H1, H2. cbn. apply N.eqb_neq in H3. now rewrite H3.
Qed.
Lemma special_dq d q s : ~ In d s -> ~ In q s -> Forall (fun c => special (dq_chars d q) c = false) s.
Proof.
  intros H1 H2. apply Forall_forall. intros c Hc. unfold special, dq_chars. cbn. rewrite orb_false_r.
  rewrite (proj2 (N.eqb_neq c d)) by (intros ->; auto). rewrite (proj2 (N.eqb_neq c q)) by (intros ->; auto). reflexivity.
Qed.

(** ** Form 1 *)
Definition text1 (d q : N) (r : list str * bool) : str :=
  join [d] (map (quoted q) (fst r)) ++ (if snd r then [d] else []).
Definition row1 (r : list str * bool) : list (str * bool) :=
  map (fun v => (v, true)) (fst r) ++ (if snd r then [([], false)] else []).
Lemma form1_table d q lines : form1 d q lines -> exists n table, 2 <= n /\ lines = map (text1 d q) table /\
  Forall (fun r => List.length (fst r) = n) table /\ Forall (fun r => Forall (fun v => ~ In q v) (fst r)) table.
Proof.
  intros (_ & n & Hn & H). exists n. induction H as [|l lines (cells & H1 & vs & extra & H2 & H3 & H4) HF IH].
  - exists []. repeat split; auto.
  - destruct IH as (table & _ & -> & I2 & I3). exists ((vs, extra) :: table). repeat split; auto.
    + cbn [map]. unfold text1 at 2. cbn [fst snd]. now rewrite <- H2, <- H4.
    + constructor; [|exact I2]. cbn. rewrite <- H1, H2. now rewrite map_length.
Qed.
Lemma parse_form1 d q data lines limit rq :
  char_ok (Some d) = true -> char_ok (Some q) = true -> d <> q -> ~ In NUL data ->
  file_lines data lines -> form1 d q lines -> (Z.of_nat (List.length data) < limit)%Z ->
  exists n table k, 2 <= n /\ lines = map (text1 d q) table /\ Forall (fun r => List.length (fst r) = n) table /\
    parse_string limit data (dialect3 [d] [q] []) rq = (mk_rows rq (map row1 table ++ repeat [] k), None).
Proof.
  intros Hd Hq Hdq Hnul Hl H HL. destruct (form1_table d q lines H) as (n & table & Hn & E & Hlen & Hc).
  destruct (table_parse (dq_chars d q) data lines (map row1 table) limit rq) as [k Hk]; auto.
  - now apply wf_dq.
  - assert (Hin : forall r, In r table -> forall v c, In v (fst r) -> In c v -> In c data).
    { intros r Hr v c Hv Hcv. apply (line_in data lines (text1 d q r)); [exact Hl|subst lines; now apply in_map|].
      unfold text1. apply in_app_iff. left. apply (in_join d c (quoted q v)); [now apply in_map|].
      unfold quoted. right. apply in_app_iff. now left. }
    subst lines. clear - Hn Hlen Hc Hin Hnul. induction table as [|r table IH]; [constructor|].
    apply Forall_cons_iff in Hlen as [Hlen0 Hlen]. apply Forall_cons_iff in Hc as [Hc0 Hc]. cbn [map]. constructor; [|apply IH; auto; intros r' Hr'; apply Hin; now right].
    assert (Hne : fst r <> []) by (intros E; rewrite E in Hlen0; cbn in Hlen0; lia).
    assert (HW : Forall2 (written (dq_chars d q)) (map (quoted q) (fst r)) (map (fun v => (v, true)) (fst r))).
    { apply Forall2_map2. intros v Hv. apply written_quoted; [reflexivity|reflexivity| |].
      - rewrite Forall_forall in Hc0. now apply Hc0.
      - intros Hx. apply Hnul. apply (Hin r (or_introl eq_refl) v NUL Hv Hx). }
    split; [|split; [reflexivity|split]].
    + unfold text1. intros E. apply app_eq_nil in E as [E _]. revert E. apply join_nonempty. rewrite map_length. lia.
    + unfold row1. destruct (fst r); [congruence|discriminate].
    + unfold text1, row1. cbn [cd dq_chars opt_str]. destruct (snd r).
      * exists (map (quoted q) (fst r) ++ [[]]). split; [apply join_extra; destruct (fst r); [congruence|discriminate]|].
        apply Forall2_app; [exact HW|]. constructor; [apply written_empty|constructor].
      * exists (map (quoted q) (fst r)). rewrite !app_nil_r. split; [reflexivity|exact HW].
  - exists n, table, k. auto.
Qed.

(** ** Forms 4 and 5 *)
Lemma parse_form5 d q data lines limit rq :
  char_ok (Some d) = true -> char_ok (Some q) = true -> d <> q -> In q QQ ->
  file_lines data lines -> form5 d q lines -> (Z.of_nat (List.length data) < limit)%Z ->
  exists ls k, lines = map (quoted q) ls /\
    parse_string limit data (dialect3 [d] [q] []) rq = (mk_rows rq (map (fun l => [(l, true)]) ls ++ repeat [] k), None).
Proof.
  intros Hd Hq Hdq HQ Hl (_ & ls & -> & H) HL. exists ls.
  destruct (table_parse (dq_chars d q) data (map (quoted q) ls) (map (fun l => [(l, true)]) ls) limit rq) as [k Hk]; auto.
  - now apply wf_dq.
  - apply Forall2_map2. intros l Hl'. split; [discriminate|]. split; [reflexivity|]. split; [discriminate|].
    exists [quoted q l]. split; [reflexivity|]. constructor; [|constructor].
    destruct H as (_ & n & _ & H). rewrite Forall_forall in H. destruct (H l Hl') as (cells & _ & -> & Hc). rewrite Forall_forall in Hc.
    assert (K : forall x, x <> d -> ~ In x elementary -> ~ In x (join [d] cells)).
    { intros x Hx Hx' Hi. apply (in_join_inv d x Hx) in Hi as (c & H1 & H2). destruct (Hc c H1) as [Ho _].
      unfold over in Ho. rewrite Forall_forall in Ho. now apply Hx', Ho. }
    apply written_quoted; [reflexivity|reflexivity| |].
    + apply K; [congruence|now apply quote_not_elementary].
    + apply K; [intros <-; discriminate Hd|]. intros Hx. destruct (elementary_ok _ Hx) as [Hx' _]. discriminate Hx'.
  - exists k. auto.
Qed.
Lemma parse_form4 q data lines limit rq : char_ok (Some q) = true -> In q QQ ->
  file_lines data lines -> form4 q lines -> (Z.of_nat (List.length data) < limit)%Z ->
  exists ls k, lines = map (quoted q) ls /\
    parse_string limit data (dialect3 [] [q] []) rq = (mk_rows rq (map (fun l => [(l, true)]) ls ++ repeat [] k), None).
Proof.
  intros Hq HQ Hl [_ H] HL.
  assert (K : exists ls, lines = map (quoted q) ls /\ Forall (over (SPACE :: word)) ls).
  { clear Hl. induction H as [|l lines (s & -> & H) HF (ls & -> & I)]; [exists []; split; [reflexivity|constructor]|].
    exists (s :: ls). split; [reflexivity|now constructor]. }
  destruct K as (ls & -> & Ho). exists ls.
  destruct (table_parse (mk_chars None (Some q) None) data (map (quoted q) ls) (map (fun l => [(l, true)]) ls) limit rq) as [k Hk]; auto.
  - unfold wf_chars. cbn [cd cq ce]. rewrite Hq. reflexivity.
  - apply Forall2_map2. intros l Hl'. split; [discriminate|]. split; [cbn; lia|]. split; [discriminate|].
    exists [quoted q l]. split; [reflexivity|]. constructor; [|constructor].
    rewrite Forall_forall in Ho. specialize (Ho l Hl'). unfold over in Ho. rewrite Forall_forall in Ho.
    assert (Ko : forall c, In c (SPACE :: word) -> In c elementary).
    { intros c [<-|Hc]; [|unfold elementary; apply in_app_iff; now left]. apply mem_char_in. vm_compute. reflexivity. }
    apply written_quoted; [reflexivity|reflexivity| |].
    + intros Hx. exact (quote_not_elementary q HQ (Ko q (Ho q Hx))).
    + intros Hx. destruct (elementary_ok _ (Ko _ (Ho _ Hx))) as [Hx' _]. discriminate Hx'.
  - exists k. auto.
Qed.
Lemma parse_form4_plain data lines limit rq :
  file_lines data lines -> form4_plain lines -> (Z.of_nat (List.length data) < limit)%Z ->
  exists k, parse_string limit data (dialect3 [] [] []) rq =
    (mk_rows rq (map (fun l => match l with [] => [] | _ => [(l, false)] end) lines ++ repeat [] k), None).
Proof.
  intros Hl [H2 H] HL. set (D := mk_chars None None None).
  set (row := fun l : str => match l with [] => [] | _ => [map PChar l] end).
  assert (HS : forall s, Forall (fun c => special D c = false) s) by (intros s; apply Forall_forall; reflexivity).
  destruct (file_parse D data lines (map row lines) limit rq) as [k Hk]; auto.
  - intros ->. cbn in H2. lia.
  - rewrite <- (map_id lines) at 1. apply Forall2_map2. intros l Hl'. rewrite Forall_forall in H. specialize (H l Hl').
    apply word_elementary in H. destruct l as [|c l]; [split; [reflexivity|split; [reflexivity|reflexivity]]|].
    split; [|split; [|discriminate]].
    + symmetry. exact (render_plain D (c :: l)).
    + unfold row, wf_row. cbn [forallb]. rewrite (over_plain D (c :: l)) by auto. reflexivity.
  - exists k. change (dialect3 [] [] []) with (simple D false). rewrite Hk. do 3 f_equal. rewrite map_map.
    apply map_ext. intros [|c l]; [reflexivity|]. unfold row, row_value. cbn [map]. f_equal. now apply (cell_value_plain D (c :: l)).
Qed.

(** ** Form 3 *)
Section Pieces.
Variables d q : N.
Hypothesis Hdq : d <> q.
Let D := dq_chars d q.
(** Delimiter and newlines inside quotes only. *)
Definition tidy (inq : bool) (c : str) : Prop :=
  ins q d inq c = true /\ ins q CR inq c = true /\ ins q LF inq c = true /\ ~ In NUL c.
Lemma tidy_cons inq x c : x <> q -> tidy inq (x :: c) ->
  tidy inq c /\ x <> NUL /\ (inq = false -> x <> d /\ is_nl x = false).
Proof.
  intros Hx (H1 & H2 & H3 & H4). apply N.eqb_neq in Hx. cbn [ins] in H1, H2, H3. rewrite Hx in H1, H2, H3.
  apply andb_true_iff in H1 as [H1 H1'], H2 as [H2 H2'], H3 as [H3 H3']. split; [|split].
  - repeat split; auto. intros K. apply H4. now right.
  - intros ->. apply H4. now left.
  - intros ->. rewrite orb_false_r, negb_true_iff in H1, H2, H3. split; [now apply N.eqb_neq|].
    unfold is_nl. now rewrite H2, H3.
Qed.
Lemma tidy_quote inq c : tidy inq (q :: c) -> tidy (negb inq) c.
Proof.
  intros (H1 & H2 & H3 & H4). cbn [ins] in H1, H2, H3. rewrite N.eqb_refl in H1, H2, H3. repeat split; auto.
  intros K. apply H4. now right.
Qed.
Lemma odd_cons_ne x c : x <> q -> Nat.odd (occurrences q (x :: c)) = Nat.odd (occurrences q c).
Proof. intros H. rewrite odd_occ_cons. apply N.eqb_neq in H. now rewrite H, xorb_false_l. Qed.
Lemma odd_cons_q c : Nat.odd (occurrences q (q :: c)) = negb (Nat.odd (occurrences q c)).
Proof. rewrite odd_occ_cons, N.eqb_refl. now destruct (Nat.odd _). Qed.

Lemma pieces_in : forall n c, List.length c <= n -> Nat.odd (occurrences q c) = true -> tidy true c ->
  exists items rest, c = render_qitems D items ++ q :: rest /\ forallb (wf_qitem D) items = true /\
    (forall r, rest <> q :: r) /\ Nat.odd (occurrences q rest) = false /\ tidy false rest /\ List.length rest < List.length c.
Proof.
  induction n as [|n IH]; intros c Hn Ho Ht; [destruct c; [discriminate|cbn in Hn; lia]|].
  destruct c as [|x c]; [discriminate|]. cbn [List.length] in Hn. destruct (N.eq_dec x q) as [->|Hx].
  - destruct c as [|y c].
    + exists [], []. repeat split; try reflexivity; [discriminate|intros []|cbn; lia].
    + destruct (N.eq_dec y q) as [->|Hy].
      * rewrite !odd_cons_q, negb_involutive in Ho. apply tidy_quote, tidy_quote in Ht. cbn [negb] in Ht.
        destruct (IH c) as (items & rest & I1 & I2 & I3 & I4 & I5 & I6); [cbn in Hn; lia|exact Ho|exact Ht|].
        exists (QQuote :: items), rest. split; [rewrite I1 at 1; reflexivity|]. split; [exact I2|]. split; [exact I3|].
        split; [exact I4|]. split; [exact I5|]. cbn [List.length]. lia.
      * exists [], (y :: c). apply tidy_quote in Ht. rewrite odd_cons_q in Ho. apply negb_true_iff in Ho.
        split; [reflexivity|]. split; [reflexivity|]. split; [intros r E; congruence|]. split; [exact Ho|]. split; [exact Ht|].
        cbn; lia.
  - rewrite odd_cons_ne in Ho by exact Hx. destruct (tidy_cons true x c Hx Ht) as (Ht' & Hnul & _).
    destruct (IH c) as (items & rest & I1 & I2 & I3 & I4 & I5 & I6); [lia|exact Ho|exact Ht'|].
    exists (QChar x :: items), rest. split; [rewrite I1 at 1; reflexivity|]. split.
    { cbn [forallb wf_qitem]. rewrite I2. unfold D, dq_chars. cbn [cq ce is_opt].
      rewrite (proj2 (N.eqb_neq x NUL) Hnul), (proj2 (N.eqb_neq x q) Hx). reflexivity. }
    split; [exact I3|]. split; [exact I4|]. split; [exact I5|]. cbn [List.length]. lia.
Qed.
Lemma pieces_out : forall n c, List.length c <= n -> Nat.odd (occurrences q c) = false -> tidy false c ->
  exists ps, render_cell D ps = c /\ wf_cell D ps = true /\
    (forall l ps', ps = PQuoted l :: ps' -> exists r, c = q :: r).
Proof.
  induction n as [|n IH]; intros c Hn Ho Ht.
  - destruct c; [|cbn in Hn; lia]. exists []. repeat split. discriminate.
  - destruct c as [|x c]; [exists []; repeat split; discriminate|]. cbn [List.length] in Hn.
    destruct (N.eq_dec x q) as [->|Hx].
    + rewrite odd_cons_q in Ho. apply negb_false_iff in Ho. apply tidy_quote in Ht. cbn [negb] in Ht.
      destruct (pieces_in n c) as (items & rest & I1 & I2 & I3 & I4 & I5 & I6); [lia|exact Ho|exact Ht|].
      destruct (IH rest) as (ps & P1 & P2 & P3); [lia|exact I4|exact I5|].
      exists (PQuoted items :: ps). split; [|split; [|intros; eauto]].
      * unfold render_cell in *. cbn [map List.concat render_piece]. rewrite P1. unfold D, dq_chars in *. cbn [cq opt_str].
        rewrite I1. cbn [app]. now rewrite <- app_assoc.
      * unfold wf_cell in *. cbn [forallb wf_piece]. rewrite I2. unfold D, dq_chars in *. cbn [cq is_set andb].
        apply andb_true_iff in P2 as [P2 P2']. rewrite P2. destruct ps as [|[y|y|l] ps]; [exact P2'|exact P2'|exact P2'|].
        destruct (P3 l ps eq_refl) as [r E]. now elim (I3 r).
    + rewrite odd_cons_ne in Ho by exact Hx. destruct (tidy_cons false x c Hx Ht) as (Ht' & Hnul & Hnl).
      destruct (Hnl eq_refl) as [Hxd Hxnl]. destruct (IH c) as (ps & P1 & P2 & P3); [lia|exact Ho|exact Ht'|].
      exists (PChar x :: ps). split; [|split; [|discriminate]].
      * unfold render_cell in *. cbn [map List.concat render_piece]. now rewrite P1.
      * unfold wf_cell in *. cbn [forallb wf_piece no_adjacent]. rewrite Hxnl, (proj2 (N.eqb_neq x NUL) Hnul).
        unfold special, D, dq_chars in *. cbn [cd cq ce is_opt]. rewrite (proj2 (N.eqb_neq x q) Hx), (proj2 (N.eqb_neq x d) Hxd).
        exact P2.
Qed.
Lemma last_app {A} (s : list A) x dd : List.last (s ++ [x]) dd = x.
Proof. apply last_last. Qed.
Lemma raw_ends ps c : render_cell D ps = c -> forallb (wf_piece D) ps = true ->
  (forall s, c = q :: s -> exists s', raw_cell D ps = q :: s') /\
  (forall s, c = s ++ [q] -> exists s', raw_cell D ps = s' ++ [q]).
Proof.
  intros <- Hw. split; intros s E.
  - destruct ps as [|p ps]; [discriminate|]. cbn [forallb] in Hw. apply andb_true_iff in Hw as [Hw _].
    destruct p as [x|x|l].
    + unfold render_cell in E. cbn in E. injection E as -> _. cbn in Hw. unfold special in Hw. cbn in Hw.
      rewrite N.eqb_refl, orb_true_r, !andb_false_r in Hw. discriminate.
    + discriminate Hw.
    + unfold raw_cell. cbn. eauto.
  - destruct ps as [|p ps _] using rev_ind; [destruct s; discriminate|]. rewrite forallb_app in Hw.
    apply andb_true_iff in Hw as [_ Hw]. cbn [forallb] in Hw. rewrite andb_true_r in Hw.
    unfold render_cell in E. unfold raw_cell. rewrite map_app, concat_app in *. cbn [map List.concat] in *. rewrite app_nil_r in *.
    destruct p as [x|x|l].
    + cbn [render_piece] in E. apply app_inj_tail in E as [_ ->]. cbn in Hw. unfold special in Hw. cbn in Hw.
      rewrite N.eqb_refl, orb_true_r, !andb_false_r in Hw. discriminate.
    + discriminate Hw.
    + cbn [piece_value]. unfold D at 3. cbn [cq dq_chars opt_str]. eexists. rewrite !app_assoc. reflexivity.
Qed.
Lemma written_cell c : In q QQ -> tidy false c -> even_quotes q c ->
  (over elementary c \/ exists s, s <> [] /\ c = quoted q s) -> exists v, written D c v /\ reads q c v.
Proof.
  intros HQ Ht He Hc. apply even_spec in He. destruct Hc as [Ho|(s & Hs & Ec)].
  - exists (c, false). split; [|left; auto]. apply written_plain; [exact Ho|]. apply special_dq.
    + destruct Ht as (H1 & _). apply (ins_no_quote d q c); [|exact H1].
      intros K. unfold over in Ho. rewrite Forall_forall in Ho. exact (quote_not_elementary q HQ (Ho q K)).
    + intros K. unfold over in Ho. rewrite Forall_forall in Ho. exact (quote_not_elementary q HQ (Ho q K)).
  - destruct (in_dec N.eq_dec q s) as [Hi|Hi].
    + destruct (pieces_out (List.length c) c (le_n _) He Ht) as (ps & P1 & P2 & _).
      exists (cell_value D ps). split; [exists ps; auto|]. right. exists s. split; [exact Ec|]. split; [|contradiction].
      assert (P2' : forallb (wf_piece D) ps = true) by (unfold wf_cell in P2; now apply andb_true_iff in P2 as [P2 _]).
      destruct (raw_ends ps c P1 P2') as [R1 R2]. unfold quoted in Ec.
      destruct (R1 _ Ec) as [s1 E1]. destruct (R2 (q :: s)) as [s2 E2]; [exact Ec|].
      unfold cell_value, unquote, enclosed. rewrite E1. destruct s1 as [|y s1].
      * exfalso. (* the text has at least two quotes *)
        assert (Hp : List.length (raw_cell D ps) = 1) by now rewrite E1.
        destruct ps as [|p ps]; [discriminate|]. cbn [forallb] in P2'. apply andb_true_iff in P2' as [Pa _].
        destruct p as [x|x|l]; [|discriminate Pa|].
        -- unfold raw_cell in E1. cbn in E1. injection E1 as -> _. cbn in Pa. unfold special in Pa. cbn in Pa.
           rewrite N.eqb_refl, orb_true_r, !andb_false_r in Pa. discriminate.
        -- unfold raw_cell in Hp. cbn in Hp. rewrite !app_length in Hp. cbn in Hp. lia.
      * cbn [is_opt]. unfold D at 1 2. cbn [cq dq_chars is_opt]. rewrite N.eqb_refl.
        assert (EL : List.last (y :: s1) 0%N = q).
        { rewrite E1 in E2. destruct s2 as [|z s2]; [discriminate|]. cbn [app] in E2. injection E2 as _ E2. rewrite E2. apply last_last. }
        rewrite EL, N.eqb_refl. reflexivity.
    + exists (s, true). split; [|right; exists s; auto]. rewrite Ec. apply written_quoted; [reflexivity|reflexivity|exact Hi|].
      destruct Ht as (_ & _ & _ & H4). intros K. apply H4. rewrite Ec. right. apply in_app_iff. now left.
Qed.

(** From lines to cells. *)
Lemma ins_cells x cells rest : x <> q -> Forall (even_quotes q) (removelast cells) ->
  ins q x false (join [d] cells ++ rest) = true -> Forall (fun c => ins q x false c = true) cells.
Proof.
  intros Hx. induction cells as [|c [|c' cells] IH]; intros He H; [constructor| |].
  - cbn [join] in H. rewrite ins_app in H. apply andb_true_iff in H as [H _]. now repeat constructor.
  - cbn [removelast] in He. apply Forall_cons_iff in He as [He He']. apply even_spec in He.
    rewrite join_cons in H by discriminate. rewrite <- !app_assoc in H. rewrite ins_app in H.
    apply andb_true_iff in H as [H1 H2]. rewrite He in H2. cbn [xorb app] in H2. cbn [ins] in H2.
    constructor; [exact H1|]. apply IH; [exact He'|].
    rewrite (proj2 (N.eqb_neq d q) Hdq) in H2. now apply andb_true_iff in H2 as [_ H2].
Qed.
Lemma occ_join cells : cells <> [] -> Forall (even_quotes q) (removelast cells) ->
  even_quotes q (join [d] cells) -> even_quotes q (List.last cells []).
Proof.
  induction cells as [|c [|c' cells] IH]; intros Hne He H; [congruence|exact H|].
  cbn [removelast] in He. apply Forall_cons_iff in He as [He He']. rewrite last_cons2. apply IH; [discriminate|exact He'|].
  rewrite join_cons in H by discriminate. apply even_spec in He, H. apply even_spec.
  cbn [app] in H. rewrite occ_app, Nat.odd_add, He, odd_cons_ne in H by exact Hdq. now rewrite xorb_false_l in H.
Qed.
End Pieces.

Lemma removelast_last_all {A} (P : A -> Prop) l dd : l <> [] -> Forall P (removelast l) -> P (List.last l dd) -> Forall P l.
Proof. intros H H1 H2. rewrite (app_removelast_last dd H). apply Forall_app. split; [exact H1|now constructor]. Qed.

Lemma line3 d q l cells : d <> q -> In q QQ -> ~ In NUL l -> tidy_line q l -> cells_at d q l cells -> 2 <= List.length cells ->
  Forall (fun c => c <> [] /\ (over elementary c \/ exists s, s <> [] /\ c = quoted q s)) cells ->
  exists row, line_written (dq_chars d q) l row /\ line_reads d q l row /\ List.length cells <= List.length row.
Proof.
  intros Hdq HQ Hnul (Hev & Hcr & Hlf) (H1 & H2 & H3) Hn Hc.
  assert (Hne : cells <> []) by (intros ->; cbn in Hn; lia).
  assert (Qcr : CR <> q) by (destruct HQ as [<-|[<-|[]]]; discriminate).
  assert (Qlf : LF <> q) by (destruct HQ as [<-|[<-|[]]]; discriminate).
  apply (ins_inside q CR l Qcr) in Hcr. apply (ins_inside q LF l Qlf) in Hlf.
  assert (Hi : Forall (fun c => ins q d false c = true) cells).
  { eapply Forall_impl; [|exact H1]. intros c. apply (ins_inside q d c Hdq). }
  assert (K : exists extra : bool, l = join [d] cells ++ (if extra then [d] else []) /\ even_quotes q (List.last cells [])).
  { destruct H3 as [->|(_ & H3 & ->)]; [exists false|exists true]; rewrite ?app_nil_r; split; auto. now apply (occ_join d q Hdq). }
  destruct K as (extra & -> & Hlast).
  assert (He : Forall (even_quotes q) cells) by (eapply removelast_last_all; eauto).
  assert (Hcr' := ins_cells d q Hdq CR cells _ Qcr H2 Hcr). assert (Hlf' := ins_cells d q Hdq LF cells _ Qlf H2 Hlf).
  destruct (Forall2_in (fun c v => written (dq_chars d q) c v /\ reads q c v) cells) as [vs Hvs].
  { intros c Hin. rewrite Forall_forall in He, Hcr', Hlf', Hi, Hc. apply written_cell; auto; [|now apply Hc].
    repeat split; auto. intros Kn. apply Hnul. apply in_app_iff. left. now apply (in_join d NUL c). }
  assert (HW : Forall2 (written (dq_chars d q)) cells vs) by (clear - Hvs; induction Hvs; constructor; tauto).
  assert (HR : Forall2 (reads q) cells vs) by (clear - Hvs; induction Hvs; constructor; tauto).
  assert (Hlen : List.length cells = List.length vs) by (clear - HW; induction HW; cbn; auto).
  exists (vs ++ (if extra then [([], false)] else [])). split; [|split].
  - split; [|split; [reflexivity|split]].
    + intros E. apply app_eq_nil in E as [E _]. revert E. now apply join_nonempty.
    + destruct vs; [cbn in Hlen; lia|discriminate].
    + cbn [cd dq_chars opt_str]. destruct extra.
      * exists (cells ++ [[]]). split; [now apply join_extra|]. apply Forall2_app; [exact HW|]. constructor; [apply written_empty|constructor].
      * exists cells. rewrite !app_nil_r. auto.
  - exists cells, vs. split; [exact HR|]. destruct extra; [right|left]; rewrite ?app_nil_r; auto.
  - rewrite app_length. lia.
Qed.
Lemma parse_form3 d q data lines limit rq :
  char_ok (Some d) = true -> char_ok (Some q) = true -> d <> q -> In q QQ -> ~ In NUL data ->
  file_lines data lines -> form3 d q lines -> Forall (tidy_line q) lines -> (Z.of_nat (List.length data) < limit)%Z ->
  exists rows k, Forall2 (line_reads d q) lines rows /\ Forall (fun row => 2 <= List.length row) rows /\
    parse_string limit data (dialect3 [d] [q] []) rq = (mk_rows rq (rows ++ repeat [] k), None).
Proof.
  intros Hd Hq Hdq HQ Hnul Hl (_ & Hne & n & Hn & H) Ht HL.
  destruct (Forall2_in (fun l row => line_written (dq_chars d q) l row /\ line_reads d q l row /\ n <= List.length row) lines) as [rows Hr].
  { intros l Hin. rewrite Forall_forall in H, Ht. destruct (H l Hin) as (cells & <- & H1 & H2).
    apply line3; auto. intros K. apply Hnul. now apply (line_in data lines l). }
  destruct (table_parse (dq_chars d q) data lines rows limit rq) as [k Hk]; auto.
  - now apply wf_dq.
  - clear - Hr. induction Hr; constructor; tauto.
  - exists rows, k. split; [clear - Hr; induction Hr; constructor; tauto|]. split; [|exact Hk].
    clear - Hr Hn. induction Hr as [|? ? ? ? (_ & _ & H)]; constructor; [lia|assumption].
Qed.
