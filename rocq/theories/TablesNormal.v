(** * TablesNormal: tables without quotes in the other detection methods *)
From Coq Require Import String Permutation.
From Verif Require Import Base Parser Dialect SpecLayout SpecParse ParserLift LayoutMore Potential SpecPotential PotentialFacts SpecTies NormalForm SpecNormal NormalFacts NormalForms NormalParse
  Consistency DetectFacts Detect Types SpecTypes TypesAll TypesUrl TypesDetect SpecTables TablesFacts.
Open Scope N_scope.
Local Notation len := List.length.

Lemma in_join_any sep x (ls : list str) : In x (join sep ls) <-> (exists l, In l ls /\ In x l) \/ (In x sep /\ (2 <= len ls)%nat).
Proof.
  induction ls as [|a [|b ls] IH].
  - cbn. split; [intros []|]. intros [(l & [] & _)|(_ & H)]. lia.
  - cbn. split; [intros H; left; eauto|]. intros [(l & [<-|[]] & H)|(_ & H)]; [exact H|lia].
  - change (join sep (a :: b :: ls)) with (a ++ sep ++ join sep (b :: ls)). rewrite !in_app_iff, IH. cbn [List.length]. split.
    + intros [H|[H|[(l & Hl & H)|(H & _)]]]; [left; exists a; split; [now left|exact H]|right; split; [exact H|lia]|left; exists l; split; [now right|exact H]|right; split; [exact H|lia]].
    + intros [(l & [<-|Hl] & H)|(H & _)]; [now left|right; right; left; eauto|right; now left].
Qed.
Lemma line_chars data lines l x : file_lines data lines -> In l lines -> In x l -> In x data.
Proof.
  intros (s & a & b & eol & -> & _ & _ & _ & -> & _) Hl Hx. apply in_or_app. left. apply in_join_any. left. eauto.
Qed.
Lemma chars_line data lines x : file_lines data lines -> In x data -> x <> CR -> x <> LF -> exists l, In l lines /\ In x l.
Proof.
  intros (s & a & b & eol & -> & _ & _ & _ & -> & _ & He) Hx H1 H2. rewrite !in_app_iff in Hx. destruct Hx as [Hx|[Hx|Hx]].
  - apply in_join_any in Hx as [H|(H & _)]; [exact H|]. exfalso.
    destruct He as [(-> & _)|[(-> & _)|(-> & _)]]; cbn in H; intuition congruence.
  - apply repeat_spec in Hx. congruence.
  - apply repeat_spec in Hx. congruence.
Qed.
Lemma fit_none l lines r : first_fit l lines r -> (forall D P, In (D, P) l -> ~ P lines) -> r = None.
Proof.
  induction l as [|[D P] l IH]; cbn [first_fit]; intros H HF; [exact H|].
  destruct H as [(H & _)|(_ & H)]; [destruct (HF D P); [now left|exact H]|]. apply IH; [exact H|]. intros D' P' HI. apply (HF D' P'). now right.
Qed.
Lemma fit_answer l l' lines r D : first_fit (l ++ l') lines r -> (forall D' P, In (D', P) l -> P lines -> D' = D) ->
  ((forall D' P, In (D', P) l -> ~ P lines) -> forall D' P, In (D', P) l' -> ~ P lines) -> r = None \/ r = Some D.
Proof.
  induction l as [|[D1 P1] l IH]; cbn [first_fit app]; intros H HF HN; [left; apply (fit_none l' lines r H), HN; intros ? ? []|].
  destruct H as [(H & ->)|(HP & H)]; [right; f_equal; apply (HF D1 P1); [now left|exact H]|].
  apply IH; [exact H| |].
  - intros D' P HI. apply HF. now right.
  - intros HA. apply HN. intros D' P [[= <- <-]|HI]; [exact HP|now apply (HA D' P)].
Qed.
Lemma form3_form2 d q lines : Forall (fun l => ~ In q l) lines -> form3 d q lines -> form2 d lines.
Proof.
  intros Hq (_ & Hn & n & H2 & HF). split; [exact Hn|]. exists n. split; [exact H2|]. apply Forall_forall. intros l Hl.
  rewrite Forall_forall in HF, Hq. specialize (Hq l Hl). destruct (HF l Hl) as (cells & Hc & (Hins & _ & Hj) & HC). exists cells. split; [exact Hc|].
  destruct Hj as [Hj|(Hi & _)]; [|contradiction]. split; [exact Hj|]. apply Forall_forall. intros s Hs.
  assert (Hqs : ~ In q s).
  { intros Hi. apply Hq. rewrite Hj. apply in_join_any. left. eauto. }
  rewrite Forall_forall in Hins, HC. split.
  - destruct (HC s Hs) as (_ & [H|(t & _ & ->)]); [exact H|]. destruct Hqs. now left.
  - intros Hd. apply In_nth_error in Hd as (k & Hk). specialize (Hins s Hs k Hk). unfold inside in Hins.
    assert (E : occurrences q (firstn k s) = 0%nat).
    { apply count_occ_not_In. intros Hi. apply Hqs. rewrite <- (firstn_skipn k s). apply in_or_app. now left. }
    rewrite E in Hins. discriminate.
Qed.

Lemma zero_sum {A} (f : A -> nat) l : (forall x, In x l -> f x = 0%nat) -> list_sum (map f l) = 0%nat.
Proof. induction l as [|a l IH]; intros H; [reflexivity|]. cbn [map list_sum fold_right]. rewrite H by now left. apply IH. intros x Hx. apply H. now right. Qed.
Lemma not_nil_in {A} (l : list A) : l <> [] -> exists x, In x l.
Proof. destruct l as [|x l]; [congruence|]. exists x. now left. Qed.

Section Normal.
Variable U : unidata.
Local Notation cat := (u_cat U).
Hypothesis uni : unicode_like cat.
Variables (c : N) (k : nat) (rows : list (list str * eol)) (final : option (list str)).
Local Notation T := (table_of rows final).
Local Notation text := (table_text c rows final).
Hypothesis delim : plain_delimiter cat c.
Hypothesis table : grid k (cell_char c) T.

Local Notation Dx x := (mk_chars (Some x) None None).
(** The parse at another delimiter. *)
Lemma other_parse d limit : char_ok (Some d) = true -> (Z.of_nat (len text) < limit)%Z ->
  parse_string limit text (dialect3 [d] [] []) true =
  (mk_rows true (map (map (fun s => (s, false))) (map (fun r => py_split [d] (join [c] r)) T)), None).
Proof.
  intros Hd Hl. assert (Hj : forall s, join (opt_str (cd (Dx d))) (py_split [d] s) = s) by (intros s; now apply (split_spec [d])).
  assert (HR : Forall (row_ok (Dx d)) (table_of (recut (py_split [d]) c rows) (recut_final (py_split [d]) c final))).
  { rewrite recut_table. apply Forall_map, Forall_forall. intros r Hr. now apply (split_row_ok U c k rows final delim table). }
  rewrite <- (recut_render (py_split [d]) (Dx d) c rows final Hj). change (dialect3 [d] [] []) with (simple (Dx d) false).
  rewrite parse_string_layout.
  - rewrite grid_denote; [now rewrite recut_table|reflexivity|]. eapply Forall_impl; [|exact HR]. now intros r (H & _).
  - unfold wf_chars. cbn [cd cq ce]. now rewrite Hd.
  - now apply grid_wf.
  - apply Forall_forall. intros x Hx. apply raw_cells_bound in Hx. rewrite recut_render in Hx by exact Hj. lia.
Qed.
Lemma mk_rows_lengths a b : mk_rows true a = mk_rows true b -> map (@len _) a = map (@len _) b.
Proof.
  unfold mk_rows. intros H. apply (f_equal (map (@len _))) in H. rewrite !map_map in H.
  erewrite map_ext in H; [|intros x; apply map_length]. symmetry in H. erewrite map_ext in H; [|intros x; apply map_length]. now symmetry.
Qed.
Lemma form2_regular d : char_ok (Some d) = true -> d <> c -> form2 d (split_file text) ->
  exists m, (1 <= m)%nat /\ Forall (eq m) (per_row d T).
Proof.
  intros Hd Hc Hf. set (limit := (Z.of_nat (len text) + 1)%Z).
  destruct (parse_form2 d text (split_file text) limit true) as (n & tb & j & Hn & _ & Hl & E).
  { exact Hd. }
  { apply split_file_lines. } { exact Hf. } { unfold limit. lia. }
  rewrite (other_parse d limit Hd) in E by (unfold limit; lia). injection E as E. apply mk_rows_lengths in E.
  rewrite map_app, !map_map in E. exists (n - 1)%nat. split; [lia|]. unfold per_row. apply Forall_map, Forall_forall. intros r Hr.
  assert (Hin : In (len (py_split [d] (join [c] r))) (map (fun r => len (py_split [d] (join [c] r))) T)) by now apply (in_map (fun r => len (py_split [d] (join [c] r)))).
  assert (E' : map (fun r => len (py_split [d] (join [c] r))) T = map (@len _) tb ++ map (@len _) (repeat (@nil (str * bool)) j)).
  { erewrite map_ext in E; [|intros x; apply map_length]. rewrite E. f_equal. apply map_ext. intros x. apply map_length. }
  rewrite E' in Hin. unfold py_split in Hin. rewrite ScoreFacts.split_length, count_join in Hin by exact Hc.
  apply in_app_or in Hin as [Hin|Hin].
  - apply in_map_iff in Hin as (x & Ex & Hx). rewrite Forall_forall in Hl. specialize (Hl x Hx). lia.
  - apply in_map_iff in Hin as (x & Ex & Hx). apply repeat_spec in Hx. subst x. discriminate.
Qed.

Hypothesis others : forall d m, In d common_delimiters -> d <> c -> (1 <= m)%nat -> ~ Forall (eq m) (per_row d T).

Hypothesis capitals : forall x, upper_case x -> a_letter cat x.
Lemma no_quotes q : q = 39 \/ q = 34 -> ~ In q text.
Proof.
  intros Hq Hi. assert (Hl : quote_like q) by (unfold quote_like; cbn; destruct Hq as [-> | ->]; tauto).
  pose proof delim as (_ & Hc & _). apply in_text in Hi as [(r & Hr & Hx)|[-> | ->]]; [|destruct Hq as [E|E]; discriminate E|destruct Hq as [E|E]; discriminate E].
  destruct (row_cell c k rows final table r q Hr Hx) as [->|(_ & _ & H & _)]; contradiction.
Qed.
Lemma c_in_text : In c text.
Proof.
  assert (Hr' : exists r, In r T).
  { pose proof table as (Hne & _). apply not_nil_in. exact Hne. }
  destruct Hr' as (r & Hr). apply (text_in c rows final c r Hr).
  pose proof table as (_ & Hk & HF). rewrite Forall_forall in HF. destruct (HF r Hr) as (Hl & _). apply in_join_sep. apply Nat.le_trans with (1 := Hk), Nat.eq_le_incl. symmetry. exact Hl.
Qed.
Lemma c_not_word : ~ In c word.
Proof.
  intros H. pose proof delim as (Hd & _ & Hu & _). pose proof uni as ((Hs1 & _ & Hs3) & HL & _).
  assert (HD : ~ default_delimiter cat c \/ In c (s2l "._&-")).
  { assert (K : ascii_alnum c \/ In c (s2l "._&-")).
    { unfold word in H. change (s2l "abcdefghijklmnopqrstuvwxyzABCDEFGHIJKLMNOPQRSTUVWXYZ0123456789._&-")
        with (map N.of_nat (seq 97 26 ++ seq 65 26 ++ seq 48 10) ++ s2l "._&-") in H.
      apply in_app_or in H as [H|H]; [left|now right]. apply in_map_iff in H as (y & <- & Hy). rewrite !in_app_iff, !in_seq in Hy.
      unfold ascii_alnum, lower_case, upper_case, ascii_digit. lia. }
    destruct K as [K|K]; [left|now right].
    assert (N1 : c <> TAB) by (intros ->; unfold ascii_alnum, lower_case, upper_case, ascii_digit, TAB in K; lia).
    apply (not_default U); [exact N1|]. destruct K as [K|[K|K]].
    - specialize (HL c (Hs3 c K)). cbn in HL |- *. tauto.
    - specialize (HL c (capitals c K)). cbn in HL |- *. tauto.
    - rewrite (Hs1 c K). cbn. tauto. }
  destruct HD as [HD|HD]; [contradiction|]. cbn in HD, Hu. destruct HD as [<-|HD]; [|tauto].
  destruct Hd as [E|(Hn & _)]; [discriminate E|]. apply Hn. now left.
Qed.
Lemma line_no_quotes q l : q = 39 \/ q = 34 -> In l (split_file text) -> ~ In q l.
Proof. intros Hq Hl Hi. apply (no_quotes q Hq), (line_chars text (split_file text) l q); [apply split_file_lines|exact Hl|exact Hi]. Qed.
Theorem normal_answer : exists r, detect_dialect_normal cat text utf8 None = Ok r /\ (r = None \/ r = Some (dialect3 [c] [] [])).
Proof.
  destruct (detect_normal cat utf8 text common_delimiters) as (r & E & Hs & Hf).
  { now left. }
  { repeat apply Forall_cons; try apply Forall_nil; cbn; intuition discriminate. }
  exists r. split; [exact E|]. clear E.
  assert (Hdec : escape_suspect cat common_delimiters text \/ ~ escape_suspect cat common_delimiters text).
  { pose proof (escape_suspect_spec cat text common_delimiters) as H. destruct (existsb _ _) in H; [left|right; intros K]; [now apply H|apply H in K; discriminate]. }
  destruct Hdec as [K|K]; [left; now apply Hs|]. specialize (Hf K). clear Hs K.
  apply (fit_answer _ _ _ _ _ Hf); clear Hf.
  - intros D P Hi HP. apply in_map_iff in Hi as (d & [= <- <-] & Hd). destruct (N.eq_dec d c) as [->|Hc]; [reflexivity|]. exfalso.
    destruct (form2_regular d) as (m & Hm & HF); [|exact Hc|exact HP|now apply (others d m)].
    repeat (destruct Hd as [<-|Hd]; [reflexivity|]). destruct Hd.
  - intros HA D P Hi HP.
    assert (H2 : forall d, In d common_delimiters -> ~ form2 d (split_file text)).
    { intros d Hd. apply (HA (dialect3 [d] [] []) (form2 d)). apply in_map_iff. now exists d. }
    assert (Hne : split_file text <> []).
    { destruct (chars_line text (split_file text) c) as (l & Hl & _); [apply split_file_lines|exact c_in_text| | |intros E; rewrite E in Hl; destruct Hl];
        pose proof delim as (Hd & _); apply (default_not_nl U c) in Hd as (? & ?); assumption. }
    destruct (split_file text) as [|l0 ls] eqn:EL; [congruence|]. rewrite <- EL in *.
    assert (Hl0 : In l0 (split_file text)) by (rewrite EL; now left).
    apply in_app_or in Hi as [Hi|Hi].
    + apply in_flat_map in Hi as (d & Hd & Hi). apply in_flat_map in Hi as (q & Hq & Hi).
      assert (Hq' : q = 39 \/ q = 34) by (cbn in Hq; intuition congruence). specialize (line_no_quotes q) as HQ.
      destruct Hi as [[= <- <-]|[[= <- <-]|[[= <- <-]|[]]]].
      * destruct HP as (_ & n & Hn & HF). rewrite Forall_forall in HF. destruct (HF l0 Hl0) as (cells & Hc & vs & extra & -> & _ & ->).
        apply (HQ _ Hq' Hl0). apply in_or_app. left. apply in_join_any. left. destruct vs as [|v vs]; [cbn in Hc; lia|].
        exists (quoted q v). split; [now left|now left].
      * apply (H2 d Hd), (form3_form2 d q); [|exact HP]. apply Forall_forall. intros l Hl. now apply HQ.
      * destruct HP as (_ & ls' & E' & _). destruct ls' as [|l1 ls']; [rewrite E' in Hl0; destruct Hl0|].
        apply (HQ (quoted q l1) Hq'); [rewrite E'; now left|now left].
    + destruct Hi as [[= <- <-]|[[= <- <-]|[[= <- <-]|[]]]].
      * destruct HP as (_ & HF). rewrite Forall_forall in HF. destruct (HF l0 Hl0) as (s & -> & _). apply (line_no_quotes 39 _ (or_introl eq_refl) Hl0). now left.
      * destruct HP as (_ & HF). rewrite Forall_forall in HF. destruct (HF l0 Hl0) as (s & -> & _). apply (line_no_quotes 34 _ (or_intror eq_refl) Hl0). now left.
      * destruct HP as (_ & HF). rewrite Forall_forall in HF.
        destruct (chars_line text (split_file text) c) as (l & Hl & Hc); [apply split_file_lines|exact c_in_text| | |];
          try (pose proof delim as (Hd & _); apply (default_not_nl U c) in Hd as (? & ?); assumption).
        specialize (HF l Hl). unfold over in HF. rewrite Forall_forall in HF. now apply c_not_word, HF.
Qed.
End Normal.

(** ** All methods *)
Local Notation valid_method m := (forall v, m = MStr v -> In v [s2l "auto"; s2l "normal"; s2l "consistency"]).
Section Methods.
Variables (cat : N -> str) (url : str -> str -> option nat) (known : str -> bool -> res pyexc bool) (O : orders) (o_set : list SimpleDialect -> list SimpleDialect).
Lemma method_detected text D method skip s :
  (exists r, detect_dialect_normal cat text utf8 None = Ok r /\ (r = None \/ r = Some D)) ->
  (forall capacity old, detect cat url known O o_set capacity skip text None old = (Ok (Some D), old)) -> valid_method method ->
  exists s', detector_detect cat url known O o_set text None method skip s = (Ok (Some D), s') /\ st_limit s' = st_limit s.
Proof.
  intros (r & E & Hr) HD HM. unfold detector_detect.
  assert (HE : exists m, match method with
    | MStr v => bind (dmethod_of_str v) (fun m => Ok (Some m))
    | MEnum m => bind (dmethod_of_str (dmethod_value m)) (fun m => Ok (Some m))
    | MOther => Ok None end = Ok m).
  { destruct method as [v|[]|]; try (eexists; reflexivity). destruct (HM v eq_refl) as [<-|[<-|[<-|[]]]]; eexists; reflexivity. }
  destruct HE as (m & ->). rewrite E. rewrite HD.
  destruct (match m with Some m => dmethod_eqb m NORMAL | None => false end || match m with Some m => dmethod_eqb m AUTO | None => false end)%bool.
  - destruct Hr as [-> | ->]; eexists; split; reflexivity.
  - eexists; split; reflexivity.
Qed.
End Methods.
Section Auto.
Variable U : unidata.
Local Notation cat := (u_cat U).
Hypothesis uni : unicode_like cat.
Hypothesis ascii : ascii_like cat.
Hypothesis isd : forall x, digit cat x -> u_isdigit U x = true.
Variables (c : N) (k : nat) (rows : list (list str * eol)) (final : option (list str)) (O : orders) (o_set : list SimpleDialect -> list SimpleDialect).
Local Notation T := (table_of rows final).
Local Notation text := (table_text c rows final).
Lemma auto_plain method skip s : plain_delimiter cat c -> ~ escape_like cat c -> grid k (plain_char cat) T ->
  (Z.of_nat (len text) < 2 ^ 50)%Z -> any_orders O -> (forall l, Permutation (o_set l) l) -> valid_method method ->
  exists s', detector_detect cat (shipped_url U) (is_known_type U) O o_set text None method skip s = (Ok (Some (dialect3 [c] [] [])), s') /\ st_limit s' = st_limit s.
Proof.
  intros Hd He Hg Hl HO Ho HM. apply method_detected; [|intros capacity old; now apply (plain_detected U uni isd c k)|exact HM].
  apply (normal_answer U uni c k); [exact Hd| | |exact (proj1 ascii)].
  - destruct Hg as (Hn & Hk & HF). split; [exact Hn|]. split; [exact Hk|]. eapply Forall_impl; [|exact HF]. intros r (Hr & HC). split; [exact Hr|].
    eapply Forall_impl; [|exact HC]. intros x Hx. eapply Forall_impl; [|exact Hx]. intros y Hy. apply (plain_cell_char U uni c y); [exact (proj1 Hd)|exact Hy].
  - intros d m Hi Hc Hm HF. destruct Hg as (Hn & _ & HG). destruct (not_nil_in _ Hn) as (r & Hr). unfold per_row in HF. rewrite Forall_map, Forall_forall in HF.
    specialize (HF r Hr). rewrite Forall_forall in HG. destruct (HG r Hr) as (_ & HC).
    assert (E : list_sum (map (occurrences d) r) = 0%nat).
    { apply zero_sum. intros x Hs. rewrite Forall_forall in HC. specialize (HC x Hs). apply count_occ_not_In. intros Hx. rewrite Forall_forall in HC.
      apply (plain_not_default U uni d (HC d Hx)). pose proof ascii as (_ & HA). rewrite Forall_forall in HA. now apply HA. }
    lia.
Qed.
Lemma auto_regular method skip s : plain_delimiter cat c -> grid k (cell_char c) T ->
  (forall r s, In r T -> In s r -> exists name P, In (name, P) (types U false) /\ P (strip U s)) -> no_escapes cat text ->
  (forall d, d <> c -> In d text -> default_delimiter cat d -> outdone k (per_row d T)) ->
  (forall d m, In d common_delimiters -> d <> c -> (1 <= m)%nat -> ~ Forall (eq m) (per_row d T)) ->
  (Z.of_nat (len text) < 2 ^ 50)%Z -> any_orders O -> (forall l, Permutation (o_set l) l) -> valid_method method ->
  exists s', detector_detect cat (shipped_url U) (is_known_type U) O o_set text None method skip s = (Ok (Some (dialect3 [c] [] [])), s') /\ st_limit s' = st_limit s.
Proof.
  intros Hd Hg Hk He Ho Hm Hl HO Hp HM. apply method_detected; [|intros capacity old; now apply (regular_detected U uni isd c k)|exact HM].
  apply (normal_answer U uni c k); [exact Hd|exact Hg|exact Hm|exact (proj1 ascii)].
Qed.
End Auto.
