(** * QuotedDetect: tables with quoted cells are detected *)
From Coq Require Import String Permutation Reals Lra SpecFloat.
From Flocq Require Import Core.
From Verif Require Import Base Parser Dialect SpecLayout SpecParse SpecAbstraction LayoutLimit LayoutTotal LayoutMore NormalForms NormalFacts NormalParse Potential SpecPotential PotentialFacts MaskedFacts
  Floats FloatFacts Consistency SpecConsistency ScoreFacts TableScores TypeFacts DetectFacts
  Regex Types SpecTypes TypesFacts TypesText TypesAll TypesUrl TypesDetect SpecTables TablesFacts SpecQuoted QuotedScores QuotedLayout QuotedFacts.
Open Scope N_scope.
Local Notation len := List.length.

Lemma concat_len {A} (l : list (list A)) x : In x l -> (len x <= len (List.concat l))%nat.
Proof. intros Hx. induction l as [|y l IH]; [destruct Hx|]. cbn. rewrite app_length. destruct Hx as [->|Hx]; [lia|specialize (IH Hx); lia]. Qed.
Lemma count_join_self c (r : list str) : r <> [] -> count_occ N.eq_dec (join [c] r) c = (len r - 1 + list_sum (map (occurrences c) r))%nat.
Proof.
  induction r as [|a [|b r] IH]; intros Hn; [congruence|cbn; unfold occurrences; lia|].
  change (join [c] (a :: b :: r)) with (a ++ [c] ++ join [c] (b :: r)). rewrite !count_occ_app, IH by discriminate.
  cbn [map list_sum fold_right count_occ List.length]. destruct (N.eq_dec c c); [|congruence]. unfold occurrences. cbn. lia.
Qed.

Section Quoted.
Variable U : unidata.
Local Notation cat := (u_cat U).
Hypothesis uni : unicode_like cat.
Hypothesis isdigit_ok : forall c, digit cat c -> u_isdigit U c = true.
Variables (c q : N) (k : nat) (rows : list (list qcell * eol)) (final : option (list qcell)).
Local Notation T := (table_of rows final).
Local Notation rrows := (map (fun r : list qcell * eol => (map (cell_text q) (fst r), snd r)) rows).
Local Notation rfinal := (option_map (map (cell_text q)) final).
Local Notation text := (quoted_text c q rows final).
Hypothesis Hq : a_quote q.
Hypothesis delim : plain_delimiter cat c.
Hypothesis table : quoted_grid k (qcell_ok c) T.

Lemma q_facts : quote_like q /\ q <> NUL /\ q <> LF /\ q <> CR /\ q <> 123 /\ surrogate q = false /\ ~ default_delimiter cat q.
Proof.
  assert (H : ~ default_delimiter cat q).
  { intros [E|(Hn & _)]; [unfold TAB in E; destruct Hq; congruence|]. apply Hn. destruct Hq as [->| ->]; cbn; tauto. }
  repeat split; [|..|exact H]; destruct Hq as [->| ->]; try discriminate; try reflexivity; unfold quote_like; cbn; tauto.
Qed.
Lemma c_not_q : c <> q.
Proof. intros E. pose proof delim as (_ & H & _). apply H. rewrite E. apply q_facts. Qed.
Lemma T_row r : In r T -> len r = k /\ Forall (qcell_ok c) r.
Proof. intros H. pose proof table as (_ & HF & _). rewrite Forall_forall in HF. now apply HF. Qed.
Lemma T_some : exists r s, In r T /\ In (true, s) r.
Proof. apply table. Qed.
Lemma T_nonempty : T <> [].
Proof. destruct T_some as (r & s & Hr & _). intros E. rewrite E in Hr. destruct Hr. Qed.
Lemma k_two : (2 <= k)%nat.
Proof. apply table. Qed.
Lemma cell_inner r x y : In r T -> In x r -> In y (snd x) -> inner_char y /\ (fst x = false -> y <> c).
Proof.
  intros Hr Hx Hy. destruct (T_row r Hr) as (_ & HF). rewrite Forall_forall in HF. specialize (HF x Hx). unfold qcell_ok in HF. rewrite Forall_forall in HF.
  specialize (HF y Hy). destruct (fst x); [split; [exact HF|discriminate]|]. destruct HF as (H1 & H2 & H3 & H4). repeat split; auto.
Qed.
Local Notation rt r := (join [c] (map (cell_text q) r)).
Lemma row_char r y : In r T -> In y (rt r) -> y = c \/ y = q \/ inner_char y.
Proof.
  intros Hr Hy. apply in_join in Hy as [->|(s & Hs & Hy)]; [now left|]. apply in_map_iff in Hs as (x & <- & Hx). right.
  unfold cell_text in Hy. destruct (fst x).
  - destruct Hy as [<-|Hy]; [now left|]. apply in_app_or in Hy as [Hy|[<-|[]]]; [|now left]. right. now apply (cell_inner r x).
  - right. now apply (cell_inner r x).
Qed.
Lemma raw_table : table_of rrows rfinal = map (map (cell_text q)) T.
Proof. apply quoted_table. Qed.
Lemma raw_row s : In s (table_of rrows rfinal) -> exists r, s = map (cell_text q) r /\ In r T.
Proof. rewrite raw_table. intros H. apply in_map_iff in H as (r & <- & Hr). now exists r. Qed.
Lemma text_char y : In y text -> y <> NUL /\ y <> 123 /\ surrogate y = false /\ (quote_like y -> y = q).
Proof.
  pose proof delim as (Hd & Hcq & _ & H0 & Hsur). pose proof q_facts as (_ & A1 & _ & _ & A2 & A3 & _).
  intros H. apply in_text in H as [(s & Hs & Hy)|H].
  - destruct (raw_row s Hs) as (r & -> & Hr). destruct (row_char r y Hr Hy) as [->|[->|(Hb & Hn & Hss)]].
    + repeat split; auto; [apply (c_not_brace U uni c delim)|tauto].
    + repeat split; auto.
    + repeat split; auto; [intros ->; apply Hb; cbn; tauto|intros ->; apply Hb; cbn; tauto|tauto].
  - unfold LF, CR in H. destruct H as [->| ->]; repeat split; try discriminate; unfold quote_like; cbn; intuition discriminate.
Qed.
Lemma row_char_ok r y : In r T -> In y (rt r) -> (y =? NUL) = false /\ is_nl y = false.
Proof.
  intros Hr Hy. pose proof delim as (Hd & _ & _ & H0 & _). pose proof q_facts as (_ & A1 & A2 & A3 & _). unfold is_nl.
  destruct (row_char r y Hr Hy) as [->|[->|(Hb & _)]].
  - destruct (default_not_nl U c Hd) as (H1 & H2). apply N.eqb_neq in H0, H1, H2. now rewrite H0, H1, H2.
  - apply N.eqb_neq in A1, A2, A3. now rewrite A1, A2, A3.
  - assert (y <> NUL /\ y <> CR /\ y <> LF) as (H1 & H2 & H3) by (repeat split; intros ->; apply Hb; cbn; tauto).
    apply N.eqb_neq in H1, H2, H3. now rewrite H1, H2, H3.
Qed.
Lemma row_has_c r : In r T -> In c (rt r).
Proof. intros Hr. apply in_join_sep. rewrite map_length. destruct (T_row r Hr) as (-> & _). apply k_two. Qed.
Lemma row_nonempty' r : In r T -> rt r <> [].
Proof. intros Hr E. pose proof (row_has_c r Hr) as H. rewrite E in H. destruct H. Qed.
Lemma c_in_text : In c text.
Proof.
  destruct T_some as (r & s & Hr & _). apply (text_in c rrows rfinal c (map (cell_text q) r)); [|now apply row_has_c].
  rewrite raw_table. now apply in_map.
Qed.
Lemma q_in_text : In q text.
Proof.
  destruct T_some as (r & s & Hr & Hs). apply (text_in c rrows rfinal q (map (cell_text q) r)); [rewrite raw_table; now apply in_map|].
  apply (in_join_cell c q (cell_text q (true, s))); [now apply in_map|now left].
Qed.
Lemma quoted_row_ok d r : In r T -> d <> Some q -> prow_ok (mk_chars d (Some q) None) (cut_at d (row_pieces c r)).
Proof.
  intros Hr Hdq. set (D := mk_chars d (Some q) None). destruct (cut_some d (row_pieces c r)) as (h & t & E).
  assert (HP : forall cell p, In cell (cut_at d (row_pieces c r)) -> In p cell -> wf_piece D p = true /\ no_esc p).
  { intros cell p Hc Hp. destruct (cut_pieces d _ cell p Hc Hp) as (Hi & Hcut).
    assert (HC : forall y, In y (rt r) -> y <> q -> is_opt d y = false -> wf_piece D (PChar y) = true).
    { intros y Hy Hyq Hyd. destruct (row_char_ok r y Hr Hy) as (A1 & A2). cbn [wf_piece]. rewrite A1, A2. unfold special. cbn [D cd cq ce is_opt].
      apply N.eqb_neq in Hyq. rewrite Hyq, Hyd. reflexivity. }
    apply row_pieces_In in Hi as [->|(x & Hx & Hi)].
    - split; [|exact I]. apply HC; [now apply row_has_c|apply c_not_q|exact Hcut].
    - pose proof (fun y => cell_inner r x y Hr Hx) as HI. pose proof q_facts as (Hql & _).
      unfold cell_pieces in Hi. destruct x as [[|] s]; cbn [fst snd] in *.
      + destruct Hi as [<-|[]]. split.
        * cbn [wf_piece]. cbn [D cq is_set andb]. rewrite forallb_forall. intros i Hii. apply in_map_iff in Hii as (y & <- & Hy). cbn [wf_qitem D cq ce is_opt negb].
          destruct (HI y Hy) as ((Hb & Hn & _) & _). assert (y <> NUL) by (intros ->; apply Hb; cbn; tauto). assert (y <> q) by (intros ->; contradiction).
          apply N.eqb_neq in H, H0. now rewrite H, H0.
        * cbn [no_esc]. apply Forall_map, Forall_forall. intros y _. now exists y.
      + apply in_map_iff in Hi as (y & <- & Hy). split; [|exact I]. apply HC; [| |exact Hcut].
        * apply (in_join_cell c y (cell_text q (false, s))); [now apply in_map|exact Hy].
        * destruct (HI y Hy) as ((_ & Hn & _) & _). intros ->. contradiction. }
  split; [rewrite E; discriminate|]. split.
  - unfold wf_row. apply andb_true_iff. split.
    + rewrite forallb_forall. intros cell Hc. unfold wf_cell. apply andb_true_iff. split.
      * rewrite forallb_forall. intros p Hp. now apply (HP cell p).
      * apply (cut_adjacent d (row_pieces c r)); [apply row_adjacent|exact Hc].
    + assert (Hne : cut_at d (row_pieces c r) <> [[]]).
      { intros E'. pose proof (cut_render D (row_pieces c r)) as HR. change (cd D) with d in HR. rewrite E' in HR.
        rewrite (row_pieces_render D q c r eq_refl) in HR. symmetry in HR. now apply (row_nonempty' r Hr). }
      rewrite E in *. destruct t as [|g t].
      * destruct h; [now destruct Hne|reflexivity].
      * transitivity (is_set (cd D)); [destruct h; reflexivity|]. destruct d as [x|]; [reflexivity|]. rewrite cut_none in E. discriminate.
  - apply Forall_forall. intros cell Hc. apply Forall_forall. intros p Hp. now apply (HP cell p).
Qed.
Lemma quoted_cut_c r : In r T -> cut_at (Some c) (row_pieces c r) = map cell_pieces r.
Proof.
  intros Hr. destruct (T_row r Hr) as (Hl & _). apply cut_cells.
  - intros ->. cbn in Hl. pose proof k_two. lia.
  - apply Forall_forall. intros x Hx Hi. destruct (fst x) eqn:E; [destruct Hi|]. now apply (cell_inner r x c Hr Hx Hi).
Qed.
Lemma value_of r x : In r T -> In x r -> cell_value (mk_chars (Some c) (Some q) None) (cell_pieces x) = (snd x, fst x).
Proof.
  intros Hr Hx. apply (cell_pieces_value _ q); [reflexivity|]. intros Hi. destruct (cell_inner r x q Hr Hx Hi) as ((_ & Hn & _) & _). apply Hn, q_facts.
Qed.

Hypothesis kept : quote_kept U q.
Hypothesis known : forall r x, In r T -> In x r -> exists name P, In (name, P) (types U (fst x)) /\ P (strip U (snd x)).
Hypothesis escapes : no_quoted_escapes cat q text.
Hypothesis others : forall d, d <> c -> In d text -> default_delimiter cat d -> outdone k (per_row_bare d T) /\ outdone k (per_row_all d T).
Hypothesis inner : unquoted_delimiter c T \/ uneven k (per_row_all c T).
Hypothesis size : (Z.of_nat (len text) < 2 ^ 50)%Z.

(** ** The candidates *)
Lemma qcandidates O L : any_orders O -> get_dialects cat (shipped_url U) O utf8 text None false = Ok L ->
  (forall D, In D L -> exists d p, D = dialect3 d p [] /\ (d = [] \/ exists x, d = [x] /\ In x text /\ default_delimiter cat x) /\ (p = [] \/ p = [q])) /\
  In (dialect3 [c] [q] []) L.
Proof.
  intros HO EL.
  assert (Hsub : forall x, In x (filter_urls (shipped_url U) text) -> In x text \/ x = 85).
  { intros x Hx. apply (url_sub_In _ _ (filter_urls_sub _ _)) in Hx. tauto. }
  destruct (get_dialects_utf8 cat (shipped_url U) O text None false HO) as (L' & E & _ & HL).
  { intros x Hx. destruct (Hsub x Hx) as [H| ->]; [apply (text_char x H)|reflexivity]. }
  rewrite EL in E. injection E as <-.
  pose proof uni as (Hsane & HLe & HNu & Hcc & _ & _ & _ & H40 & H41 & _ & H85 & _).
  assert (HU : a_letter cat 85) by (exists (s2l "u"); rewrite H85; reflexivity).
  split.
  - intros D HD. apply HL in HD as (d & p & e & -> & (H1 & H2 & H3) & _).
    assert (Hp : p = [] \/ p = [q]).
    { destruct H2 as [->|(y & -> & Hy & Hl)]; [now left|]. right. f_equal. destruct (Hsub y Hy) as [H| ->]; [now apply (text_char y H)|].
      unfold quote_like in Hl. cbn in Hl. intuition discriminate. }
    assert (Hd : d = [] \/ exists x, d = [x] /\ In x text /\ default_delimiter cat x).
    { destruct H1 as [->|(x & -> & Hx & Hw)]; [now left|]. cbn in Hw. right. exists x. split; [reflexivity|]. split; [|exact Hw].
      destruct (Hsub x Hx) as [H| ->]; [exact H|]. now destruct (U_not_default U uni). }
    assert (He : e = []).
    { destruct H3 as [->|(u & v & -> & Hb & Hu & [Hv|Hv])]; [reflexivity| |]; exfalso.
      - destruct Hd as [->|(x & -> & Hx & Hw)]; [discriminate|]. injection Hv as <-. now destruct (escapes u x Hb Hu).
      - destruct Hp as [->| ->]; [discriminate|]. injection Hv as <-. now destruct (escapes u q Hb Hu). }
    subst e. exists d, p. auto.
  - apply HL. exists [c], [q], []. split; [reflexivity|]. split; [|reflexivity]. split; [|split; [|now left]].
    + right. exists c. split; [reflexivity|]. pose proof delim as (Hd & _ & Hm & _). split; [|exact Hd].
      apply (delimiter_survives U); auto.
      * intros (t & Ht). rewrite (Hcc TAB) in Ht by reflexivity. discriminate.
      * intros (t & Ht). rewrite (Hcc TAB) in Ht by reflexivity. discriminate.
      * apply c_in_text.
    + right. exists q. split; [reflexivity|]. split; [|apply q_facts].
      assert (EF : filter (N.eqb q) (filter_urls (shipped_url U) text) = filter (N.eqb q) text).
      { apply url_filter_keeps; [exact Hsane| |exact HU]. intros x Ex. apply N.eqb_eq in Ex as <-. now apply q_not_path. }
      assert (G : forall s, In q s <-> In q (filter (N.eqb q) s)) by (intros s; rewrite filter_In, N.eqb_refl; tauto).
      rewrite G, EF, <- G. apply q_in_text.
Qed.

(** ** The scores without a quote character *)
Local Notation kb := (known_bool U).
Local Notation n := (len T).
Local Notation D0 := (mk_chars None None None).
Local Notation Dx x := (mk_chars (Some x) None None).
Lemma n_pos' : (1 <= n)%nat.
Proof. pose proof T_nonempty as H. destruct T; [congruence|cbn; lia]. Qed.
Lemma split_ok x r : In r T -> row_ok (Dx x) (py_split [x] (rt r)).
Proof.
  intros Hr. destruct (split_spec [x] (rt r) ltac:(discriminate)) as [Hj HF].
  split; [|split; [|split]].
  - intros E. rewrite E in Hj. now apply (row_nonempty' r Hr).
  - intros E. rewrite E in Hj. now apply (row_nonempty' r Hr).
  - reflexivity.
  - apply Forall_forall. intros p Hp. apply Forall_forall. intros y Hy. destruct (split_pieces x _ p y Hp Hy) as [Hi Hn].
    destruct (row_char_ok r y Hr Hi) as [H1 H2]. split; [exact H1|]. split; [exact H2|]. unfold special. cbn.
    destruct (N.eqb_spec x y); [congruence|]. destruct (N.eqb_spec y x); [congruence|]. reflexivity.
Qed.
Lemma whole_ok r : In r T -> row_ok D0 [rt r].
Proof.
  intros Hr. split; [discriminate|]. split; [|split].
  - intros [= E]. now apply (row_nonempty' r Hr).
  - cbn. lia.
  - constructor; [|constructor]. apply Forall_forall. intros y Hy. destruct (row_char_ok r y Hr Hy) as [H1 H2]. auto.
Qed.
Definition qlimit : Z := (Z.of_nat (len text) + 1)%Z.
Lemma bare_scores d : d = [] \/ (exists x, d = [x] /\ In x text /\ default_delimiter cat x) ->
  let cut := match d with x :: _ => py_split [x] | [] => fun s => [s] end in
  exists S t, pattern_score text (dialect3 d [] []) = Ok (table_score (map (fun r => len (cut (rt r))) T)) /\
    type_score (total_known kb) qlimit text (dialect3 d [] []) = Ok S /\ val S t /\ (0 <= t <= 1)%R /\
    ((exists r s, In r T /\ In s (cut (rt r)) /\ kb s false = false) -> (t <= 1 - bpow radix2 (-52))%R) /\
    (n <= len text)%nat /\ (forall r, In r T -> (len (cut (rt r)) <= 2 * len text)%nat).
Proof.
  intros Hd cut. set (D := match d with x :: _ => Dx x | [] => D0 end).
  assert (HD : wf_chars D = true).
  { destruct Hd as [->|(x & -> & Hx & Hw)]; [reflexivity|]. apply (wf_Dx U); [exact Hw|apply (text_char x Hx)]. }
  assert (Hcq : cq D = None) by (destruct d; reflexivity).
  assert (Hj : forall s, join (opt_str (cd D)) (cut s) = s).
  { intros s. destruct d as [|x d]; [reflexivity|]. now apply (split_spec [x]). }
  assert (HR : forall s, In s (table_of rrows rfinal) -> row_ok D (cut (join [c] s))).
  { intros s Hs. destruct (raw_row s Hs) as (r & -> & Hr). destruct d as [|x d]; [now apply whole_ok|now apply split_ok]. }
  assert (Hne : table_of rrows rfinal <> []) by (rewrite raw_table; intros E; apply map_eq_nil in E; now apply T_nonempty).
  assert (ED : simple D false = dialect3 d [] []) by (destruct Hd as [->|(x & -> & _)]; reflexivity).
  pose proof (recut_render cut D c rrows rfinal Hj) as ER. pose proof (recut_table cut c rrows rfinal) as ET.
  assert (HR' : Forall (row_ok D) (table_of (recut cut c rrows) (recut_final cut c rfinal))).
  { rewrite ET. apply Forall_map, Forall_forall. exact HR. }
  assert (Hn' : table_of (recut cut c rrows) (recut_final cut c rfinal) <> []).
  { rewrite ET. intros E. apply map_eq_nil in E. contradiction. }
  destruct (grid_scores kb D _ _ HD Hcq HR' Hn') as [H1 H2]. destruct (grid_size D _ _ HR') as [S1 S2]. rewrite ER in *. fold text in H1, H2, S1, S2.
  rewrite ED in *. rewrite ET, raw_table, map_map in *.
  set (cells := map (fun s : str => (s, false)) (List.concat (map (fun r => cut (rt r)) T))) in *.
  assert (Hc : (Z.of_nat (len cells) <= 2 ^ 52)%Z) by (unfold cells; rewrite map_length; lia).
  destruct (share_val kb cells) as (t & Hv & Ht & _); [unfold two53; lia|]. pose proof r_type_pos as Hp.
  exists (type_share kb cells), t. split; [rewrite H1, map_map; reflexivity|]. split; [exact H2|]. split; [exact Hv|]. split; [lra|].
  split; [|split].
  - intros (r & s & Hr & Hs & Hk). destruct (share_less kb cells s false Hc) as (t' & Hv' & Ht').
    + unfold cells. apply in_map_iff. exists s. split; [reflexivity|]. apply in_concat. exists (cut (rt r)). split; [|exact Hs]. apply in_map_iff. now exists r.
    + exact Hk.
    + rewrite (val_unique _ _ _ Hv Hv'). lra.
  - rewrite map_length in S1. exact S1.
  - intros r Hr. apply Nat.le_trans with (2 := S2). apply concat_len. now apply (in_map (fun r => cut (rt r))).
Qed.

(** ** The scores with the quote character *)
Lemma quoted_scores d : d = [] \/ (exists x, d = [x] /\ In x text /\ default_delimiter cat x) ->
  let o := match d with x :: _ => Some x | [] => None end in
  let D := mk_chars o (Some q) None in
  exists S, pattern_score text (dialect3 d [q] []) = Ok (table_score (map (fun r => len (cut_at o (row_pieces c r))) T)) /\
    type_score (total_known kb) qlimit text (dialect3 d [q] []) = Ok S /\
    S = type_share kb (List.concat (map (fun r => map (cell_value D) (cut_at o (row_pieces c r))) T)) /\
    (len (List.concat (map (fun r => cut_at o (row_pieces c r)) T)) <= 2 * len text + 2)%nat.
Proof.
  intros Hd o D. pose proof q_facts as (_ & A1 & A2 & A3 & _ & _ & A4).
  assert (Hdq : o <> Some q) by (destruct Hd as [->|(x & -> & Hx & Hw)]; [discriminate|]; intros [= ->]; contradiction).
  assert (HD : wf_chars D = true).
  { unfold D. unfold wf_chars, char_ok, is_nl. cbn [cd cq ce]. apply N.eqb_neq in A1, A2, A3. rewrite A1, A2, A3. cbn [negb andb orb].
    destruct Hd as [->|(x & -> & Hx & Hw)]; [reflexivity|]. subst o. assert (Hx0 : x <> NUL) by apply (text_char x Hx). destruct (default_not_nl U x Hw) as (H1 & H2).
    assert (Hxq : x <> q) by (intros ->; contradiction). apply N.eqb_neq in Hx0, H1, H2, Hxq. unfold distinct_opt. rewrite Hx0, H1, H2, Hxq. reflexivity. }
  assert (ED : simple D false = dialect3 d [q] []) by (unfold D, o; destruct Hd as [->|(x & -> & _)]; reflexivity).
  destruct (pieces_doc_scores kb D (map (fun r => (cut_at o (row_pieces c (fst r)), snd r)) rows) (option_map (fun r => cut_at o (row_pieces c r)) final) HD) as (H1 & H2 & H3).
  - rewrite qdoc_table. apply Forall_map, Forall_forall. intros r Hr. now apply quoted_row_ok.
  - rewrite qdoc_table. intros E. apply map_eq_nil in E. now apply T_nonempty.
  - pose proof (qdoc_render D q c rows final eq_refl) as ER. unfold qdoc in ER. change (cd D) with o in ER. rewrite ER in H1, H2, H3.
    rewrite ED in *. rewrite qdoc_table, map_map in *. eexists. split; [exact H1|]. split; [exact H2|]. split; [reflexivity|exact H3].
Qed.
Lemma best_score : exists P S v, pattern_score text (dialect3 [c] [q] []) = Ok P /\ type_score (total_known kb) qlimit text (dialect3 [c] [q] []) = Ok S /\
  val (fmul P S) v /\ val (kind_score n k) v /\ (n <= len text)%nat /\ (Z.of_nat k <= 2 ^ 52)%Z.
Proof.
  pose proof delim as (Hd & _). pose proof n_pos' as Hn. pose proof k_two as Hk.
  destruct (bare_scores [] (or_introl eq_refl)) as (_ & _ & _ & _ & _ & _ & _ & HN & _).
  destruct (quoted_scores [c]) as (S & H1 & H2 & ES & HC); [right; exists c; auto using c_in_text|]. cbn match in *.
  assert (EK : map (fun r => len (cut_at (Some c) (row_pieces c r))) T = repeat k n).
  { rewrite <- (map_length (fun r => len (cut_at (Some c) (row_pieces c r))) T). apply Forall_eq_repeat, Forall_forall. intros y Hy.
    apply in_map_iff in Hy as (r & <- & Hr). rewrite (quoted_cut_c r Hr), map_length. symmetry. now apply T_row. }
  assert (Hk52 : (Z.of_nat k <= 2 ^ 52)%Z).
  { destruct T_some as (r & s & Hr & _). pose proof (concat_len _ _ (in_map (fun r => cut_at (Some c) (row_pieces c r)) _ _ Hr)) as H.
    cbv beta in H. rewrite (quoted_cut_c r Hr), map_length in H at 1. destruct (T_row r Hr) as (E & _). rewrite E in H. lia. }
  rewrite EK, uniform_score in H1; [|exact Hn|unfold two53; lia|unfold two53; lia].
  destruct (kind_score_val n k Hn ltac:(unfold two53; lia) ltac:(unfold two53; lia)) as (p & Hp & Hpr). pose proof r_pat_pos as Hpp.
  set (cells := List.concat _) in ES.
  assert (Hcl : (Z.of_nat (len cells) <= two53)%Z).
  { unfold cells. replace (len _) with (len (List.concat (map (fun r => cut_at (Some c) (row_pieces c r)) T))); [unfold two53; lia|].
    rewrite <- (map_map (fun r => cut_at (Some c) (row_pieces c r)) (map (cell_value (mk_chars (Some c) (Some q) None)))), <- concat_map, map_length. reflexivity. }
  destruct (share_val kb cells Hcl) as (t & Hv & Ht & H1'). pose proof r_type_pos as Hpt.
  destruct (product_at_most (kind_score n k) S p t Hp) as (v & Hv' & _ & Hv1).
  + rewrite ES. exact Hv.
  + split; [lra|]. apply Rle_trans with (1 := proj2 Hpr). change (bpow radix2 60) with (IZR (2 ^ 60)). apply IZR_le. lia.
  + lra.
  + exists (kind_score n k), S, v. split; [exact H1|]. split; [exact H2|]. split; [exact Hv'|]. split; [|split; [exact HN|exact Hk52]].
    rewrite Hv1; [exact Hp|]. apply H1'. split.
    * destruct T_some as (r & s & Hr & Hs). intros E.
      assert (Hin : In (cell_value (mk_chars (Some c) (Some q) None) (cell_pieces (true, s))) cells).
      { unfold cells. apply in_concat. eexists. split; [apply in_map, Hr|]. rewrite (quoted_cut_c r Hr), map_map. now apply (in_map (fun x => cell_value _ (cell_pieces x))). }
      rewrite E in Hin. destruct Hin.
    * intros s b Hi. unfold cells in Hi. apply in_concat in Hi as (l & Hl & Hi). apply in_map_iff in Hl as (r & <- & Hr).
      rewrite (quoted_cut_c r Hr), map_map in Hi. apply in_map_iff in Hi as (x & E & Hx). rewrite (value_of r x Hr Hx) in E. injection E as <- <-.
      pose proof uni as (Hsane & _). apply (known_bool_iff U Hsane isdigit_ok). now apply (known r x).
Qed.

(** ** Every other candidate scores less *)
Definition loses (d p : str) : Prop := exists P S v, pattern_score text (dialect3 d p []) = Ok P /\
  type_score (total_known kb) qlimit text (dialect3 d p []) = Ok S /\ val (fmul P S) v /\ forall v', val (kind_score n k) v' -> (v < v')%R.
Lemma loses_by d p kinds S t : pattern_score text (dialect3 d p []) = Ok (table_score kinds) ->
  type_score (total_known kb) qlimit text (dialect3 d p []) = Ok S -> val S t -> (0 <= t <= 1)%R -> len kinds = n ->
  Forall (fun j => 1 <= j)%nat kinds -> Forall (fun j => Z.of_nat j <= two53)%Z kinds ->
  (Forall (eq 1%nat) kinds \/ (exists counts, kinds = map Datatypes.S counts /\ outdone k counts) \/
   (exists a b, In a kinds /\ In b kinds /\ a <> b /\
      ((3 <= k)%nat \/ (Z.of_nat n < 2 ^ 30)%Z /\ Forall (fun m => Z.of_nat m <= 2 ^ 20)%Z kinds)) \/
   (Forall (eq k) kinds /\ (t <= 1 - bpow radix2 (-52))%R)) -> loses d p.
Proof.
  intros H1 H2 Hv Ht Hlen HB HB' Hcase. destruct best_score as (_ & _ & _ & _ & _ & _ & _ & HN & Hk52). pose proof n_pos' as Hn. pose proof k_two as Hk.
  assert (HnR : (1 <= IZR (Z.of_nat n))%R) by (apply IZR_le; lia). pose proof r_pat_pos as Hpp.
  assert (H60 : (IZR (Z.of_nat n) <= bpow radix2 60)%R) by (change (bpow radix2 60) with (IZR (2 ^ 60)); apply IZR_le; lia).
  assert (G : forall x, val (table_score kinds) x -> (0 <= x <= IZR (Z.of_nat n))%R -> (forall q', val (kind_score n k) q' -> (x < q')%R) -> loses d p).
  { intros x Hx Hxr Hlt. destruct (product_at_most (table_score kinds) S x t Hx Hv) as (v & Hq' & Hqp & _); [lra|exact Ht|].
    exists (table_score kinds), S, v. split; [exact H1|]. split; [exact H2|]. split; [exact Hq'|]. intros q' Hq''. apply Rle_lt_trans with (1 := Hqp). now apply Hlt. }
  assert (GU : forall m, Forall (eq m) kinds -> (1 <= m)%nat -> (Z.of_nat m <= two53)%Z -> table_score kinds = kind_score n m).
  { intros m HF Hm Hm'. apply Forall_eq_repeat in HF. rewrite HF, Hlen. apply uniform_score; [exact Hn|unfold two53; lia|exact Hm']. }
  assert (GM : forall a b, In a kinds -> In b kinds -> a <> b -> (3 <= k)%nat \/ In 1%nat kinds -> loses d p).
  { intros a b Ha Hb Hab Hor. destruct (mixed_score kinds a b) as (x & Hx & Hxr & Hstrict); auto; [rewrite Hlen; lia|]. rewrite Hlen in *. apply (G x Hx); [lra|].
    intros q' Hq'. destruct (kind_at_least n k q' Hn Hk ltac:(lia) ltac:(unfold two53; lia) Hq') as [A2 A3]. destruct Hor as [H3|H0'].
    - specialize (A3 H3). lra.
    - apply Rlt_le_trans with (2 := A2). now apply Hstrict. }
  destruct Hcase as [HF|[(counts & EK & [(a & b & Ha & Hb & Hab & Hor)|(m & Hm & columns & HF)])|[(a & b & Ha & Hb & Hab & [H3|(Hsm & HF)])|(HF & Htl)]]].
  - pose proof (GU 1%nat HF ltac:(lia) ltac:(unfold two53; lia)) as E. destruct (kind_score_val n 1 Hn ltac:(unfold two53; lia) ltac:(unfold two53; lia)) as (x & Hx & Hxr).
    apply (G x); [now rewrite E|lra|]. intros q' Hq'. destruct (kind_one n x Hn ltac:(lia) Hx) as [_ A1].
    destruct (kind_at_least n k q' Hn Hk ltac:(lia) ltac:(unfold two53; lia) Hq') as [A2 _]. lra.
  - apply (GM (Datatypes.S a) (Datatypes.S b)); [rewrite EK; now apply in_map|rewrite EK; now apply in_map|congruence|].
    destruct Hor as [H3|H0']; [now left|]. right. rewrite EK. apply in_map_iff. exists 0%nat. split; [reflexivity|exact H0'].
  - assert (HF' : Forall (eq (Datatypes.S m)) kinds) by (rewrite EK; apply Forall_map; eapply Forall_impl; [|exact HF]; now intros ? ->).
    pose proof (GU (Datatypes.S m) HF' ltac:(lia) ltac:(unfold two53; lia)) as E.
    destruct (kind_score_val n (Datatypes.S m) Hn ltac:(unfold two53; lia) ltac:(unfold two53; lia)) as (x & Hx & Hxr).
    apply (G x); [now rewrite E|lra|]. intros q' Hq'. apply (kind_lt n (Datatypes.S m) k x q'); auto; lia.
  - now apply (GM a b); auto.
  - destruct (mixed_small kinds a b) as (x & Hx & Hxr); auto; [rewrite Hlen; exact Hsm|]. rewrite Hlen in *. apply (G x Hx); [lra|].
    intros q' Hq'. destruct (kind_at_least n k q' Hn Hk ltac:(lia) ltac:(unfold two53; lia) Hq') as [A2 _]. lra.
  - pose proof (GU k HF ltac:(lia) ltac:(unfold two53; lia)) as E. destruct (kind_score_val n k Hn ltac:(unfold two53; lia) ltac:(unfold two53; lia)) as (x & Hx & Hxr).
    destruct (kind_at_least n k x Hn Hk ltac:(lia) ltac:(unfold two53; lia) Hx) as [A2 _].
    destruct (product_less (table_score kinds) S x t) as (v & Hv' & Hvx); [now rewrite E|exact Hv|lra|lra|].
    exists (table_score kinds), S, v. split; [exact H1|]. split; [exact H2|]. split; [exact Hv'|]. intros q' Hq'. now rewrite (val_unique _ _ _ Hq' Hx).
Qed.
Lemma split_kinds x r : len (py_split [x] (rt r)) = Datatypes.S (count_occ N.eq_dec (rt r) x).
Proof. unfold py_split. now rewrite split_length. Qed.
Lemma occ_cell x y : y <> q -> occurrences y (cell_text q x) = occurrences y (snd x).
Proof.
  intros Hy. unfold cell_text, occurrences. destruct (fst x); [|reflexivity]. cbn [count_occ]. destruct (N.eq_dec q y); [congruence|].
  rewrite count_occ_app. cbn [count_occ]. destruct (N.eq_dec q y); [congruence|]. lia.
Qed.
Lemma sum_cells y r : y <> q -> list_sum (map (occurrences y) (map (cell_text q) r)) = list_sum (map (occurrences y) (map snd r)).
Proof. intros Hy. rewrite !map_map. f_equal. apply map_ext. intros x. now apply occ_cell. Qed.
Lemma bare_loses d : d = [] \/ (exists x, d = [x] /\ In x text /\ default_delimiter cat x) -> loses d [].
Proof.
  intros Hd. pose proof (bare_scores d Hd) as (S & t & H1 & H2 & Hv & Ht & Hless & HN & HK).
  pose proof n_pos' as Hn. pose proof k_two as Hk. pose proof q_facts as (_ & _ & _ & _ & _ & _ & Hqd).
  destruct Hd as [->|(x & -> & Hx & Hdef)]; cbn match in *.
  - apply (loses_by [] [] _ S t H1 H2 Hv Ht); [apply map_length|apply Forall_map, Forall_forall; cbn; lia|apply Forall_map, Forall_forall; cbn; unfold two53; lia|].
    left. apply Forall_map, Forall_forall. reflexivity.
  - assert (Hxq : x <> q) by (intros ->; contradiction).
    apply (loses_by [x] [] _ S t H1 H2 Hv Ht); [apply map_length| | |].
    + apply Forall_map, Forall_forall. intros r _. rewrite split_kinds. lia.
    + apply Forall_map, Forall_forall. intros r Hr. specialize (HK r Hr). unfold two53. lia.
    + destruct (N.eq_dec x c) as [->|Hxc].
      * assert (EC : forall r, In r T -> len (py_split [c] (rt r)) = (k + list_sum (map (occurrences c) (map snd r)))%nat).
        { intros r Hr. destruct (T_row r Hr) as (El & _). rewrite split_kinds, count_join_self.
          - rewrite map_length, El, sum_cells by exact Hxq. lia.
          - intros E. apply map_eq_nil in E. subst r. cbn in El. lia. }
        destruct inner as [Hu|(a & b & Ha & Hb & Hab & Hor)].
        -- right. right. right.
           assert (EZ : forall r x, In r T -> In x r -> ~ In c (cell_text q x)).
           { intros r y Hr Hy Hi. pose proof c_not_q. unfold cell_text in Hi. destruct y as [[|] s]; cbn [fst snd] in Hi.
             - destruct Hi as [Hi|Hi]; [congruence|]. apply in_app_or in Hi as [Hi|[Hi|[]]]; [|congruence]. now apply (Hu r s).
             - now apply (cell_inner r (false, s) c Hr Hy Hi). }
           assert (ES : forall r, In r T -> py_split [c] (rt r) = map (cell_text q) r).
           { intros r Hr. destruct (T_row r Hr) as (El & _). apply split_join.
             - intros E. apply map_eq_nil in E. subst r. cbn in El. lia.
             - apply Forall_map, Forall_forall. intros y Hy. now apply (EZ r). }
           split.
           ++ apply Forall_map, Forall_forall. intros r Hr. rewrite (ES r Hr), map_length. symmetry. now apply T_row.
           ++ apply Hless. destruct T_some as (r & s & Hr & Hs). exists r, (cell_text q (true, s)). split; [exact Hr|]. split.
              ** rewrite (ES r Hr). now apply in_map.
              ** destruct (kb (cell_text q (true, s)) false) eqn:E; [|reflexivity]. exfalso. pose proof uni as (Hsane & _).
                 apply (known_bool_iff U Hsane isdigit_ok) in E as (name & P & Hi & HP).
                 apply (quote_unknown U uni q Hq kept _ name P (strip_starts U q kept _ (ex_intro _ (s ++ [q]) eq_refl)) Hi HP).
        -- right. right. left. unfold per_row_all, per_row in Ha, Hb, Hor. rewrite map_map in Ha, Hb, Hor.
           assert (EM : map (fun r => len (py_split [c] (rt r))) T = map (fun m => k + m)%nat (map (fun r => list_sum (map (occurrences c) (map snd r))) T)).
           { rewrite map_map. apply map_ext_in. intros r Hr. now apply EC. }
           rewrite EM. exists (k + a)%nat, (k + b)%nat. split; [now apply in_map|]. split; [now apply in_map|]. split; [lia|].
           destruct Hor as [H3|(Hs & HF)]; [left; exact H3|]. right. rewrite map_length in Hs. split; [exact Hs|]. apply Forall_map. exact HF.
      * right. left. exists (per_row_all x T). split; [|now apply others].
        unfold per_row_all, per_row. rewrite !map_map. apply map_ext. intros r. rewrite split_kinds, count_join by exact Hxc. now rewrite sum_cells.
Qed.
Lemma quoted_loses d : d = [] \/ (exists x, d = [x] /\ x <> c /\ In x text /\ default_delimiter cat x) -> loses d [q].
Proof.
  intros Hd. pose proof n_pos' as Hn. pose proof k_two as Hk. destruct best_score as (_ & _ & _ & _ & _ & _ & _ & HN & Hk52).
  destruct (quoted_scores d) as (S & H1 & H2 & ES & HC); [destruct Hd as [->|(x & -> & _ & H)]; eauto|].
  set (o := match d with x :: _ => Some x | [] => None end) in *.
  set (cells := List.concat _) in ES.
  assert (Hcl : (Z.of_nat (len cells) <= two53)%Z).
  { unfold cells. replace (len _) with (len (List.concat (map (fun r => cut_at o (row_pieces c r)) T))); [unfold two53; lia|].
    rewrite <- (map_map (fun r => cut_at o (row_pieces c r)) (map (cell_value (mk_chars o (Some q) None)))), <- concat_map, map_length. reflexivity. }
  destruct (share_val kb cells Hcl) as (t & Hv & Ht & _). pose proof r_type_pos as Hpt. rewrite <- ES in Hv.
  apply (loses_by d [q] _ S t H1 H2 Hv); [lra|apply map_length| | |].
  - apply Forall_map, Forall_forall. intros r _. rewrite cut_length. lia.
  - apply Forall_map, Forall_forall. intros r Hr. pose proof (concat_len _ _ (in_map (fun r => cut_at o (row_pieces c r)) _ _ Hr)) as H. cbv beta in H. unfold two53. lia.
  - destruct Hd as [->|(x & -> & Hxc & Hx & Hdef)]; cbn match in *.
    + left. apply Forall_map, Forall_forall. intros r _. unfold o. now rewrite cut_none.
    + right. left. exists (per_row_bare x T). split; [|now apply others]. unfold per_row_bare, per_row. rewrite !map_map. apply map_ext. intros r.
      rewrite cut_length. unfold o. rewrite filter_cuts_row; [|apply (text_char x Hx)|exact Hxc]. rewrite map_map. reflexivity.
Qed.

Theorem quoted_detected O o_set capacity skip old : any_orders O -> (forall l, Permutation (o_set l) l) ->
  detect cat (shipped_url U) (is_known_type U) O o_set capacity skip text None old = (Ok (Some (dialect3 [c] [q] [])), old).
Proof.
  intros HO Hp. pose proof uni as (Hsane & _).
  assert (Hn0 : ~ In NUL text) by (intros H; now destruct (text_char _ H)).
  assert (Hclean : forall x, In x (filter_urls (shipped_url U) text) -> surrogate x = false).
  { intros x Hx. apply (url_sub_In _ _ (filter_urls_sub _ _)) in Hx as [H| ->]; [apply (text_char x H)|reflexivity]. }
  destruct (detect_without_braces U Hsane isdigit_ok O o_set capacity skip text None old HO) as (E & _); auto.
  { intros x Hx. now apply text_char. } { intros H. now destruct (text_char _ H) as (_ & Hb & _). }
  rewrite E. destruct (detect_best cat (shipped_url U) kb O o_set capacity skip text None old HO Hclean Hp Hn0 size) as
    (L & Q & best & r & EL & HQ & HN & Hne & HB & Ed & Hr & _). fold qlimit in HQ, Hr.
  rewrite Ed. destruct (qcandidates O L HO EL) as [HL Hc]. destruct best_score as (P & S & v & EP & ES & Hv & Hv' & _).
  assert (QC : Q (dialect3 [c] [q] []) = fmul P S).
  { destruct (HQ _ Hc) as (P' & S' & EP' & ES' & ->). congruence. }
  assert (Hall : forall D, In D best -> D = dialect3 [c] [q] []).
  { intros D HD. apply HB in HD as (HD & Hmax). destruct (HL D HD) as (d & p & -> & Hd & Hpq).
    assert (Hdec : (d = [c] /\ p = [q]) \/ loses d p).
    { destruct Hpq as [->| ->]; [right; now apply bare_loses|]. destruct Hd as [->|(x & -> & Hx)]; [right; apply quoted_loses; left; reflexivity|].
      destruct (N.eq_dec x c) as [->|Hxc]; [left; split; reflexivity|]. right. apply quoted_loses. right. exists x. split; [reflexivity|]. split; [exact Hxc|exact Hx]. }
    destruct Hdec as [(-> & ->)|Hlose]; [reflexivity|exfalso].
    destruct Hlose as (P1 & S1 & q1 & EP1 & ES1 & Hq1 & Hlt).
    specialize (Hmax _ Hc). rewrite QC in Hmax. destruct (HQ _ HD) as (P2 & S2 & EP2 & ES2 & E2). rewrite E2 in Hmax.
    rewrite EP1 in EP2. injection EP2 as <-. rewrite ES1 in ES2. injection ES2 as <-.
    apply (fleb_val _ _ _ _ Hv Hq1) in Hmax. specialize (Hlt v Hv'). lra. }
  destruct best as [|D [|D' best]]; [congruence| |].
  - rewrite Hr. now rewrite (Hall D (or_introl eq_refl)).
  - exfalso. inversion HN as [|? ? Hni _]; subst. apply Hni. rewrite (Hall D (or_introl eq_refl)), (Hall D' (or_intror (or_introl eq_refl))). now left.
Qed.
End Quoted.
