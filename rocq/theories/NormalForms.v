(** * NormalForms: the five forms and their order (C40) *)
From Coq Require Import String.
From Verif Require Import Base Parser Dialect Potential SpecPotential PotentialFacts MaskedFacts SpecTies TieRules
  SpecText LayoutMore NormalForm SpecNormal NormalFacts NormalRows.

Definition QQ : list N := [39; 34]%N.

(** ** Form 2 *)
Lemma partial_quoted_elementary c : over elementary c -> is_any_partial_quoted_cell c = false.
Proof.
  intros H. unfold is_any_partial_quoted_cell. destruct c as [|x c]; [reflexivity|]. cbn [List.length Nat.ltb Nat.leb].
  unfold last_is. assert (Hr : over elementary (rev (x :: c))) by (apply Forall_rev, H).
  assert (K : forall s, over elementary s -> first_is s [34%N] = false /\ first_is s [39%N] = false).
  { intros [|y s] Hs; [split; reflexivity|]. inversion Hs; subst. cbn [first_is]. rewrite !is_char_one.
    split; apply N.eqb_neq; intros ->; revert H2; apply quote_not_elementary; cbn; auto. }
  destruct (K _ H) as [-> ->]. destruct (K _ Hr) as [-> ->]. reflexivity.
Qed.
Lemma any_quoted_elementary c : over elementary c -> is_any_quoted_cell c = false.
Proof.
  intros H. unfold is_any_quoted_cell. apply orb_false_iff.
  assert (K : forall q, In q QQ -> is_quoted_cell c [q] = false).
  { intros q Hq. apply not_true_iff_false. rewrite is_quoted_spec. intros [s ->]. inversion H; subst.
    revert H2. now apply quote_not_elementary. }
  split; apply K; cbn; auto.
Qed.
Definition cell2 (cell : str) : bool :=
  negb (is_any_quoted_cell cell) && negb (is_any_partial_quoted_cell cell) && (is_empty_unquoted cell || is_elementary cell).
Lemma cell2_spec c : cell2 c = true <-> over elementary c.
Proof.
  unfold cell2. rewrite !andb_true_iff, orb_true_iff, str_eqb_nil, is_elementary_spec. split.
  - intros [_ [->|[_ H]]]; [constructor|exact H].
  - intros H. rewrite any_quoted_elementary, partial_quoted_elementary by exact H. repeat split.
    destruct c; [now left|right; split; [discriminate|exact H]].
Qed.
Lemma Forall_iff {A} (P Q : A -> Prop) l : (forall x, P x <-> Q x) -> Forall P l <-> Forall Q l.
Proof. intros H. rewrite !Forall_forall. split; intros K x Hx; apply H, K, Hx. Qed.

Lemma form2_spec d Q lines : (Q = [] \/ exists q, Q = [q] /\ In q QQ /\ d <> q) ->
  is_form_2 lines [d] Q = true <-> form2 d lines.
Proof.
  intros HQ. unfold is_form_2. fold cell2.
  assert (Hr : exists q, d <> q /\ (Q = [] \/ (Q = [q] /\ In q QQ))).
  { destruct HQ as [->|(q & -> & H1 & H2)]; [exists (d + 1)%N; split; [lia|now left]|exists q; auto]. }
  destruct Hr as (q & Hdq & Hr). clear HQ.
  assert (Hr' : Q = [] \/ Q = [q]) by tauto.
  rewrite (rectangle d q Hdq Q cell2 lines Hr'). unfold form2. apply rectangular_ext. intros l cells Hn Hl.
  rewrite (Forall_iff _ (over elementary) cells cell2_spec).
  assert (Hne : cells <> []) by (intros ->; cbn in Hn; lia).
  assert (HP : (split_at d [] l = cells /\ Forall (over elementary) cells) <->
     (l = join [d] cells /\ Forall (fun c => over elementary c /\ ~ In d c) cells)).
  { rewrite <- split_at_iff. split.
    - intros ((H1 & _ & H2) & H3). split; [exact H1|]. rewrite Forall_forall in *. auto.
    - intros (H1 & H2). repeat split; auto; (eapply Forall_impl; [|exact H2]); tauto. }
  rewrite <- HP. clear HP. unfold split_row. destruct Hr as [->|[-> Hq]].
  - cbn [str_eqb list_eqb orb]. rewrite split_one. reflexivity.
  - cbn [str_eqb list_eqb orb]. destruct (contains [q] l) eqn:E; cbn [negb]; [|rewrite split_one; reflexivity].
    apply contains_one in E. assert (Hbad : forall cs, l = join [d] cs \/ l = join [d] cs ++ [d] -> Forall (over elementary) cs -> False).
    { intros cs Hc Ho. assert (Hi : exists c, In c cs /\ In q c).
      { apply (in_join_inv d q); [congruence|]. destruct Hc as [->| ->]; [exact E|]. apply in_app_iff in E as [E|[E|[]]]; [exact E|congruence]. }
      destruct Hi as (c & H1 & H2). rewrite Forall_forall in Ho. specialize (Ho c H1). unfold over in Ho.
      rewrite Forall_forall in Ho. exact (quote_not_elementary q Hq (Ho q H2)). }
    split; intros [H1 H2]; exfalso.
    + destruct (loop_spec d q l [] [] false) as (cs & K1 & _ & _ & K4); [reflexivity|reflexivity|].
      cbn [app] in *. apply (Hbad cells); [|exact H2]. rewrite H1 in K1. subst cs. tauto.
    + apply (Hbad cells); [|exact H2]. left. apply split_at_iff in H1. tauto.
Qed.

(** ** Form 1 *)
Definition cell1 (q cell : str) : bool :=
  negb (is_empty_unquoted cell) && is_quoted_cell cell q && negb (has_nested_quotes cell q).
Lemma cell1_spec q c : cell1 [q] c = true <-> exists v, c = quoted q v /\ ~ In q v.
Proof.
  unfold cell1. rewrite !andb_true_iff, is_quoted_spec, !negb_true_iff. unfold has_nested_quotes. split.
  - intros [[_ [s ->]] H]. rewrite inner_quoted in H. exists s. split; [reflexivity|]. rewrite <- contains_one. congruence.
  - intros (v & -> & H). rewrite inner_quoted. repeat split; [eauto|]. rewrite <- contains_one in H. now destruct (contains [q] v).
Qed.
Lemma cells1_spec q cells : Forall (fun c => cell1 [q] c = true) cells <->
  exists vs, cells = map (quoted q) vs /\ Forall (fun v => ~ In q v) vs.
Proof.
  split.
  - induction cells as [|c cells IH]; intros H; [exists []; split; [reflexivity|constructor]|].
    inversion H; subst. apply cell1_spec in H2 as (v & -> & Hv). destruct (IH H3) as (vs & -> & Hs).
    exists (v :: vs). split; [reflexivity|now constructor].
  - intros (vs & -> & H). apply Forall_forall. intros c Hc. apply in_map_iff in Hc as (v & <- & Hv).
    apply cell1_spec. exists v. split; [reflexivity|]. rewrite Forall_forall in H. now apply H.
Qed.
Lemma quoted_occ q v : ~ In q v -> even_quotes q (quoted q v).
Proof.
  intros H. unfold even_quotes, quoted. rewrite occ_cons, occ_app, occ_cons, N.eqb_refl. unfold occurrences.
  rewrite (proj1 (count_occ_not_In N.eq_dec v q) H). reflexivity.
Qed.
Lemma quoted_ins q d v : d <> q -> ~ In q v -> ins q d false (quoted q v) = true.
Proof.
  intros Hdq H. unfold quoted. cbn [ins]. rewrite N.eqb_refl. cbn [negb]. rewrite ins_app. apply andb_true_iff. split.
  - induction v as [|c v IH]; [reflexivity|]. cbn [ins]. rewrite (proj2 (N.eqb_neq c q)) by (intros ->; apply H; now left).
    rewrite orb_true_r. apply IH. intros K. apply H. now right.
  - unfold occurrences. rewrite (proj1 (count_occ_not_In N.eq_dec v q) H). cbn. now rewrite N.eqb_refl.
Qed.
Lemma last_in {A} (l : list A) dd : l <> [] -> In (List.last l dd) l.
Proof. induction l as [|x [|y l] IH]; intros H; [congruence|now left|]. rewrite last_cons2. right. apply IH. discriminate. Qed.
Lemma removelast_incl {A} (l : list A) x : In x (removelast l) -> In x l.
Proof. induction l as [|y [|z l] IH]; [intros []|intros []|]. intros [->|H]; [now left|right; now apply IH]. Qed.
Lemma form1_spec d q lines : d <> q -> is_form_1 lines [d] [q] = true <-> form1 d q lines.
Proof.
  intros Hdq. unfold is_form_1. fold (cell1 [q]). rewrite (rectangle d q Hdq [q] (cell1 [q]) lines (or_intror eq_refl)).
  unfold form1. apply rectangular_ext. intros l cells Hn Hl.
  assert (Hne : cells <> []) by (intros ->; cbn in Hn; lia). rewrite cells1_spec.
  assert (K : forall vs, cells = map (quoted q) vs -> Forall (fun v => ~ In q v) vs ->
     (cells_at d q l cells <-> exists extra : bool, l = join [d] cells ++ (if extra then [d] else [])) /\ Forall (fun c => c <> []) cells).
  { intros vs -> Hv. rewrite Forall_forall in Hv. split.
    - unfold cells_at. split.
      + intros (_ & _ & [->|(_ & _ & ->)]); [exists false; now rewrite app_nil_r|exists true; reflexivity].
      + intros [extra ->]. split; [|split].
        * apply Forall_forall. intros c Hc. apply (ins_inside q d c Hdq). apply in_map_iff in Hc as (v & <- & Hc).
          apply quoted_ins; auto.
        * apply Forall_forall. intros c Hc. apply removelast_incl in Hc. apply in_map_iff in Hc as (v & <- & Hc).
          apply quoted_occ; auto.
        * destruct extra; [right|left; apply app_nil_r]. split; [|split; [|reflexivity]].
          -- destruct vs as [|v vs]; [cbn in Hn; lia|]. apply in_app_iff. left.
             apply (in_join d q (quoted q v)); [now left|now left].
          -- pose proof (last_in (map (quoted q) vs) [] Hne) as HL. apply in_map_iff in HL as (v & <- & HL).
             apply quoted_occ; auto.
    - apply Forall_forall. intros c Hc. apply in_map_iff in Hc as (v & <- & Hc). discriminate. }
  split.
  - intros (H1 & vs & H2 & H3). destruct (K vs H2 H3) as [K1 K2]. apply (split_row_iff d q Hdq l cells Hne K2) in H1.
    apply K1 in H1 as [extra H1]. exists vs, extra. auto.
  - intros (vs & extra & H2 & H3 & H1). destruct (K vs H2 H3) as [K1 K2]. split; [|eauto].
    apply (split_row_iff d q Hdq l cells Hne K2). apply K1. eauto.
Qed.

(** ** Form 3 *)
Definition cell3 (q cell : str) : bool := negb (is_any_empty cell) &&
  (if is_any_quoted_cell cell then is_quoted_cell cell q else is_elementary cell).
Lemma cell3_spec q c : In q QQ -> cell3 [q] c = true <->
  c <> [] /\ (over elementary c \/ exists s, s <> [] /\ c = quoted q s).
Proof.
  intros Hq. unfold cell3, is_any_empty. rewrite andb_true_iff, negb_true_iff, !orb_false_iff.
  assert (E1 : is_empty_unquoted c = false <-> c <> []) by (rewrite <- str_eqb_nil; destruct (is_empty_unquoted c); intuition congruence).
  assert (E2 : forall x, is_empty_quoted c [x] = false <-> c <> [x; x])
    by (intros x; rewrite <- is_empty_quoted_spec; destruct (is_empty_quoted c [x]); intuition congruence).
  rewrite E1, !E2. destruct (is_any_quoted_cell c) eqn:E.
  - rewrite is_quoted_spec. split.
    + intros [[[H1 H2] H3] [s ->]]. split; [exact H1|]. right. exists s. split; [|reflexivity]. intros ->.
      destruct Hq as [<-|[<-|[]]]; [now apply H2|now apply H3].
    + intros [H1 [H2|(s & H2 & ->)]]; [rewrite any_quoted_elementary in E by exact H2; discriminate|].
      split; [|eauto]. destruct s as [|x s]; [congruence|]. repeat split; try discriminate; intros K; injection K as _ _ K;
        destruct s; discriminate.
  - rewrite is_elementary_spec. split; [intros [_ [H1 H2]]; auto|].
    intros [H1 [H2|(s & H2 & ->)]].
    + repeat split; auto; intros ->; apply Forall_inv in H2; revert H2; apply quote_not_elementary; cbn; auto.
    + exfalso. unfold is_any_quoted_cell in E. apply orb_false_iff in E as [Ea Eb].
      assert (Hx : is_quoted_cell (quoted q s) [q] = true) by (apply is_quoted_spec; eauto).
      destruct Hq as [<-|[<-|[]]]; congruence.
Qed.
Lemma two_rows (rows : list str) : negb (Nat.leb (List.length rows) 1) = true <-> 2 <= List.length rows.
Proof. rewrite negb_true_iff, Nat.leb_gt. lia. Qed.
Lemma form3_spec d q lines : In q QQ -> d <> q -> is_form_3 lines [d] [q] = true <-> form3 d q lines.
Proof.
  intros Hq Hdq. unfold is_form_3. fold (cell3 [q]). rewrite <- andb_assoc, (andb_comm (negb _)), andb_assoc, andb_true_iff.
  rewrite (rectangle d q Hdq [q] (cell3 [q]) lines (or_intror eq_refl)), two_rows.
  unfold form3. rewrite (and_comm (2 <= _)). apply and_iff_compat_r. apply rectangular_ext. intros l cells Hn Hl.
  assert (Hne : cells <> []) by (intros ->; cbn in Hn; lia).
  rewrite (Forall_iff _ _ cells (fun c => cell3_spec q c Hq)).
  assert (K : Forall (fun c => c <> [] /\ (over elementary c \/ exists s, s <> [] /\ c = quoted q s)) cells -> Forall (fun c => c <> []) cells).
  { apply Forall_impl. tauto. }
  split; intros [H1 H2]; (split; [|exact H2]); apply (split_row_iff d q Hdq l cells Hne (K H2)); exact H1.
Qed.

(** ** Forms 4 and 5 *)
Lemma form4_spec q lines : is_form_4 lines [q] = true <-> form4 q lines.
Proof.
  unfold is_form_4, form4. rewrite andb_true_iff, two_rows. apply and_iff_compat_l. cbn [str_eqb list_eqb].
  rewrite forallb_forall, Forall_forall. split; intros H l Hl; specialize (H l Hl).
  - apply andb_true_iff in H as [H1 H2]. apply is_quoted_spec in H1 as [s ->]. rewrite inner_quoted in H2.
    exists s. split; [reflexivity|]. now apply (over_class (SPACE :: word) word_space_char s (fun c => proj2 (proj2 (classes c)))).
  - destruct H as (s & -> & H). apply andb_true_iff. split; [apply is_quoted_spec; eauto|]. rewrite inner_quoted.
    now apply (over_class (SPACE :: word) word_space_char s (fun c => proj2 (proj2 (classes c)))).
Qed.
Lemma word_elementary s : over word s -> over elementary s.
Proof. apply Forall_impl. intros c H. unfold elementary. apply in_app_iff. now left. Qed.
Lemma form4_plain_spec lines : is_form_4 lines [] = true <-> form4_plain lines.
Proof.
  unfold is_form_4, form4_plain. rewrite andb_true_iff, two_rows. apply and_iff_compat_l. cbn [str_eqb list_eqb].
  rewrite forallb_forall, Forall_forall.
  assert (K : forall s, forallb word_char s = true <-> over word s)
    by (intros s; apply (over_class word word_char s (fun c => proj1 (proj2 (classes c))))).
  split; intros H l Hl; specialize (H l Hl).
  - apply andb_true_iff in H as [_ H]. now apply K.
  - apply andb_true_iff. split; [|now apply K]. apply negb_true_iff, any_quoted_elementary, word_elementary, H.
Qed.
Lemma map_inner_quoted q ls : map inner (map (quoted q) ls) = ls.
Proof. rewrite map_map. rewrite <- (map_id ls) at 2. apply map_ext. intros s. apply inner_quoted. Qed.
Lemma form5_spec d q lines : In q QQ -> d <> q -> is_form_5 lines [d] [q] = true <-> form5 d q lines.
Proof.
  intros Hq Hdq. unfold is_form_5, form5, every_row_has_delim. rewrite !andb_true_iff, two_rows, !forallb_forall.
  rewrite (form2_spec d [q]) by (right; exists q; auto). split.
  - intros [[[H1 H2] H3] H4]. split; [exact H2|]. exists (map inner lines). split; [|exact H4].
    clear - H3. induction lines as [|l lines IH]; [reflexivity|]. cbn [map]. f_equal.
    + specialize (H3 l (or_introl eq_refl)). apply andb_true_iff in H3 as [H3 H3c]. apply andb_true_iff in H3 as [H3a H3b].
      apply Nat.ltb_lt in H3a. assert (K : is_quoted_cell l [q] = true).
      { unfold is_quoted_cell. replace (Nat.ltb (List.length l) 2) with false by (symmetry; apply Nat.ltb_ge; lia). now rewrite H3b, H3c. }
      apply is_quoted_spec in K as [s ->]. now rewrite inner_quoted.
    + apply IH. intros x Hx. apply H3. now right.
  - intros (H2 & ls & -> & H4). rewrite map_inner_quoted. split; [|exact H4].
    assert (K : forall s, In s ls -> contains [d] s = true).
    { intros s Hs. destruct H4 as (_ & n & Hn & H4). rewrite Forall_forall in H4. destruct (H4 s Hs) as (cells & H5 & -> & _).
      apply (join_has_delim d q Hdq). lia. }
    split; [split; [|exact H2]|]; intros x Hx; apply in_map_iff in Hx as (s & <- & Hs); specialize (K s Hs).
    + unfold has_delimiter, quoted. apply contains_one in K. apply contains_one. right. apply in_app_iff. now left.
    + assert (Hx : is_quoted_cell (quoted q s) [q] = true) by (apply is_quoted_spec; eauto).
      unfold is_quoted_cell in Hx. destruct (Nat.ltb _ 2); [discriminate|]. apply andb_true_iff in Hx as [-> ->].
      rewrite !andb_true_r. apply Nat.ltb_lt. unfold quoted. cbn. rewrite app_length. cbn.
      destruct s; [discriminate|cbn; lia].
Qed.

(** ** The answer *)
Section Detect.
Variable cat : N -> str.

Lemma escape_loop_ok E d q ps : (forall u v, In (u, v) ps -> enc_plain E = true \/ enc_trip E u = Ok [u]) ->
  escape_loop cat E d q ps = Ok (existsb (fun '(u, v) => (is_char v d || is_char v q) && is_esc cat u) ps).
Proof.
  induction ps as [|[u v] ps IH]; intros H; [reflexivity|]. cbn [escape_loop existsb].
  assert (H' : forall u v, In (u, v) ps -> enc_plain E = true \/ enc_trip E u = Ok [u]) by (intros a b K; apply (H a b); now right).
  destruct (is_char v d || is_char v q); cbn [andb orb]; [|now apply IH].
  rewrite is_potential_ok by (apply (H u v); now left). cbn [bind]. destruct (is_esc cat u); [reflexivity|]. now apply IH.
Qed.
Definition esc_pair (data d q : str) : bool :=
  (contains d data || contains q data) &&
  existsb (fun '(u, v) => (is_char v d || is_char v q) && is_esc cat u) (pairwise data).
Lemma any_escape_ok E data l : enc_plain E = true \/ (forall c, In c data -> enc_trip E c = Ok [c]) ->
  any_escapechar cat data E l = Ok (existsb (fun '(d, q) => esc_pair data d q) l).
Proof.
  intros HE. assert (HP : forall u v, In (u, v) (pairwise data) -> enc_plain E = true \/ enc_trip E u = Ok [u]).
  { intros u v H. destruct HE as [HE|HE]; [now left|right]. apply HE. apply pairwise_before in H as (a & b & ->).
    apply in_app_iff. right. now left. }
  induction l as [|[d q] l IH]; [reflexivity|]. cbn [any_escapechar existsb]. unfold maybe_has_escapechar, esc_pair.
  destruct (contains d data), (contains q data); cbn [negb andb orb bind]; try rewrite (escape_loop_ok E d q _ HP);
    cbn [bind]; try (destruct (existsb _ (pairwise data)); [reflexivity|]); exact IH.
Qed.
Lemma escape_suspect_spec data ds :
  existsb (fun '(d, q) => esc_pair data d q) (list_prod (map (fun c => [c]) ds) QUOTECHARS) = true <->
  escape_suspect cat ds data.
Proof.
  rewrite existsb_exists. unfold escape_suspect, esc_pair. split.
  - intros ([d q] & H1 & H2). apply in_prod_iff in H1 as [H1 H1']. apply in_map_iff in H1 as (c & <- & H1).
    apply andb_true_iff in H2 as [_ H2]. apply existsb_exists in H2 as ([u v] & H3 & H4).
    apply andb_true_iff in H4 as [H4 H5]. exists u, v. split; [now apply pairwise_before|]. split; [now apply is_esc_spec|].
    split; [intros ->; destruct H1|]. apply orb_true_iff in H4 as [H4|H4].
    + rewrite is_char_one in H4. apply N.eqb_eq in H4 as ->. right. now right.
    + destruct H1' as [<-|[<-|[]]]; rewrite is_char_one in H4; apply N.eqb_eq in H4 as ->; [now left|right; now left].
  - intros (u & v & H1 & H2 & H3 & H4).
    assert (Hv : In v data) by (destruct H1 as (a & b & ->); apply in_app_iff; right; right; now left).
    destruct ds as [|d0 ds]; [congruence|].
    assert (K : exists d q, In d (d0 :: ds) /\ In q QQ /\ (v = d \/ v = q)).
    { destruct H4 as [<-|[<-|H4]]; [exists d0, 39%N|exists d0, 34%N|exists v, 39%N]; cbn; auto 6. }
    destruct K as (d & q & K1 & K2 & K3). exists ([d], [q]). split.
    + apply in_prod_iff. split; [apply (in_map (fun c => [c])), K1|]. destruct K2 as [<-|[<-|[]]]; cbn; auto.
    + apply andb_true_iff. split.
      * apply orb_true_iff. rewrite !contains_one. destruct K3 as [<-|<-]; auto.
      * apply existsb_exists. exists (u, v). split; [now apply pairwise_before|]. rewrite !is_char_one.
        apply andb_true_iff. split; [|now apply is_esc_spec]. apply orb_true_iff. rewrite !N.eqb_eq. exact K3.
Qed.

(** The attempts in terms of the model. *)
Lemma first_fit_find lines : forall (fs : list (form * str * str)) (ts : list (SimpleDialect * (list str -> Prop))),
  Forall2 (fun f t => dialect3 (snd (fst f)) (snd f) [] = fst t /\ (form_test lines f = true <-> snd t lines)) fs ts ->
  first_fit ts lines (match find (form_test lines) fs with Some (_, d, q) => Some (dialect3 d q []) | None => None end).
Proof.
  intros fs ts H. induction H as [|[[k d] q] [D P] fs ts [H1 H2] HF IH]; [reflexivity|].
  cbn [find first_fit fst snd] in *. destruct (form_test lines (k, d, q)) eqn:E.
  - left. split; [now apply H2|now rewrite H1].
  - right. split; [|exact IH]. intros K. apply H2 in K. congruence.
Qed.
Lemma Forall2_map2 {A B C} (R : B -> C -> Prop) (f : A -> B) (g : A -> C) l :
  (forall a, In a l -> R (f a) (g a)) -> Forall2 R (map f l) (map g l).
Proof. induction l as [|a l IH]; intros H; cbn; constructor; [apply H; now left|apply IH; intros b Hb; apply H; now right]. Qed.
Lemma attempts_forms lines ds : Forall (fun d => ~ In d QQ) ds ->
  Forall2 (fun f t => dialect3 (snd (fst f)) (snd f) [] = fst t /\ (form_test lines f = true <-> snd t lines))
    (forms (map (fun c => [c]) ds)) (attempts ds).
Proof.
  intros H. unfold forms, attempts. apply Forall2_app; [|apply Forall2_app].
  - rewrite map_map. apply Forall2_map2. intros d Hd. split; [reflexivity|]. apply form2_spec. now left.
  - induction ds as [|d ds IH]; [constructor|]. inversion H; subst. cbn [map list_prod flat_map].
    assert (N1 : d <> 39%N) by (intros ->; apply H2; cbn; auto). assert (N2 : d <> 34%N) by (intros ->; apply H2; cbn; auto).
    rewrite flat_map_app. apply Forall2_app; [|now apply IH].
    cbn [QUOTECHARS map flat_map app].
    repeat apply Forall2_cons; try apply Forall2_nil; (split; [reflexivity|]); cbn [fst snd form_test]; first [apply form1_spec|apply form3_spec|apply form5_spec]; cbn; auto.
  - cbn [QUOTECHARS map app]. repeat apply Forall2_cons; try apply Forall2_nil; (split; [reflexivity|]); cbn [fst snd form_test];
      first [apply form4_spec | apply form4_plain_spec].
Qed.
Lemma detect_normal E data ds :
  enc_plain E = true \/ (forall c, In c data -> enc_trip E c = Ok [c]) -> Forall (fun d => ~ In d QQ) ds ->
  exists r, detect_dialect_normal cat data E (Some (map (fun c => [c]) ds)) = Ok r /\
    (escape_suspect cat ds data -> r = None) /\
    (~ escape_suspect cat ds data -> first_fit (attempts ds) (split_file data) r).
Proof.
  intros HE Hd. unfold detect_dialect_normal. rewrite any_escape_ok by exact HE. cbn [bind].
  pose proof (escape_suspect_spec data ds) as HS.
  destruct (existsb (fun '(d, q) => esc_pair data d q) _).
  - exists None. split; [reflexivity|]. split; [reflexivity|]. intros K. elim K. now apply HS.
  - pose proof (first_fit_find (split_file data) _ _ (attempts_forms (split_file data) ds Hd)) as HF.
    destruct (find (form_test (split_file data)) (forms (map (fun c => [c]) ds))) as [[[k d] q]|].
    + eexists. split; [reflexivity|]. split; [intros K; apply HS in K; discriminate|intros _; exact HF].
    + eexists. split; [reflexivity|]. split; [intros K; apply HS in K; discriminate|intros _; exact HF].
Qed.
Lemma detect_normal_default E data :
  detect_dialect_normal cat data E None = detect_dialect_normal cat data E (Some (map (fun c => [c]) [COMMA; SEMI; 124%N; TAB])).
Proof. reflexivity. Qed.
End Detect.
