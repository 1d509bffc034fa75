(** * LineEnds: the candidates and the detection do not depend on the line ends *)
From Coq Require Import String Permutation.
From Verif Require Import Base Parser Dialect SpecLayout SpecParse Potential SpecPotential PotentialFacts Ties TieFacts Consistency SpecConsistency DetectFacts
  SpecColumn SpecLines LineLayout UrlLines.
Open Scope N_scope.
Local Notation len := List.length.

(** ** Characters and pairs of characters *)
Lemma eol_nl e c : In c (render_eol e) -> c = CR \/ c = LF.
Proof. destruct e; cbn; intuition. Qed.
Lemma eol_first e : exists c s, render_eol e = c :: s /\ (c = CR \/ c = LF).
Proof. destruct e; cbn; eauto. Qed.
Lemma text_cons s e rows final : column_text ((s, e) :: rows) final = s ++ render_eol e ++ column_text rows final.
Proof. unfold column_text. cbn [map List.concat fst snd]. now rewrite <- !app_assoc. Qed.
Lemma before_app u v x y : before u v (x ++ y) <-> before u v x \/ before u v y \/ (exists a b, x = a ++ [u] /\ y = v :: b).
Proof.
  split.
  - intros (a & b & E). revert a E. induction x as [|c x IH]; intros a E; [right; left; exists a, b; exact E|].
    destruct a as [|c' a].
    + cbn in E. injection E as -> E. destruct x as [|c x].
      * right. right. exists [], b. split; [reflexivity|exact E].
      * cbn in E. injection E as -> E. left. now exists [], x.
    + cbn in E. injection E as -> E. destruct (IH a E) as [(a' & b' & ->)|[H|(a' & b' & -> & ->)]].
      * left. now exists (c' :: a'), b'.
      * right. now left.
      * right. right. now exists (c' :: a'), b'.
  - intros [(a & b & ->)|[(a & b & ->)|(a & b & -> & ->)]].
    + exists a, (b ++ y). now rewrite <- app_assoc.
    + exists (x ++ a), b. now rewrite <- app_assoc.
    + exists a, b. now rewrite <- app_assoc.
Qed.
Lemma before_in u v s : before u v s -> In u s /\ In v s.
Proof. intros (a & b & ->). split; apply in_or_app; right; [now left|right; now left]. Qed.
Lemma before_lines u v rows final : is_nl u = false -> is_nl v = false ->
  (before u v (column_text rows final) <-> exists l, In l (column_of rows final) /\ before u v l).
Proof.
  intros Hu Hv. assert (HE : forall e, ~ In u (render_eol e) /\ ~ In v (render_eol e)).
  { intros e. apply is_nl_false in Hu, Hv. split; intros H; apply eol_nl in H; intuition. }
  induction rows as [|[s e] rows IH].
  - unfold column_text, column_of. cbn. destruct final as [s|]; cbn.
    + split; [intros H; exists s; auto|]. intros (l & [<-|[]] & H). exact H.
    + split; [|intros (l & [] & _)]. intros (a & b & E). now destruct a.
  - rewrite text_cons, before_app, before_app. unfold column_of in *. cbn [map fst app]. destruct (HE e) as (E1 & E2). destruct (eol_first e) as (c0 & s0 & EF & Hc0). split.
    + intros [H|[[H|[H|(a & b & Ea & _)]]|(a & b & _ & Eb)]].
      * exists s. split; [now left|exact H].
      * apply before_in in H as (H & _). contradiction.
      * apply IH in H as (l & Hl & H). exists l. split; [now right|exact H].
      * exfalso. apply E1. rewrite Ea. apply in_or_app. right. now left.
      * exfalso. rewrite EF in Eb, E2. cbn in Eb. injection Eb as <- _. apply E2. now left.
    + intros (l & [<-|Hl] & H); [now left|]. right. left. right. left. apply IH. eauto.
Qed.

(** ** URLs *)
Section Url.
Variable url : str -> str -> option nat.
Hypothesis HU : line_matcher url.
Lemma sub_lines l : forall k b b' w, (k <= len l)%nat -> stops w -> sub_url url k b (l ++ w) = sub_url url k b' l ++ sub_url url 0 (b ++ l) w.
Proof.
  induction l as [|c l IH]; intros k b b' w Hk Hw.
  - assert (k = 0%nat) as -> by (cbn in Hk; lia). cbn [app sub_url]. now rewrite app_nil_r.
  - assert (EB : b ++ c :: l = (b ++ [c]) ++ l) by now rewrite <- app_assoc. rewrite EB. cbn [app]. destruct k as [|k]; cbn [sub_url].
    + destruct (HU b (c :: l) w Hw) as (E1 & Hn). destruct (HU b' (c :: l) [] stops_nil) as (E2 & _). rewrite app_nil_r in E2. cbn [app] in E1. rewrite E1, E2.
      destruct (url [] (c :: l)) as [[|n]|]; cbn [app].
      * f_equal. apply IH; [lia|exact Hw].
      * f_equal. apply IH; [|exact Hw]. specialize (Hn _ eq_refl). cbn in Hn. lia.
      * f_equal. apply IH; [lia|exact Hw].
    + apply IH; [cbn in Hk; lia|exact Hw].
Qed.
Lemma sub_nl b c s : (c = CR \/ c = LF) -> sub_url url 0 b (c :: s) = c :: sub_url url 0 (b ++ [c]) s.
Proof.
  intros H. cbn [sub_url]. destruct (HU b [] (c :: s)) as (E & Hn); [intros c' s' [= <- <-]; exact H|]. cbn [app] in E. rewrite E.
  destruct (url [] []) as [[|n]|]; try reflexivity. specialize (Hn _ eq_refl). cbn in Hn. lia.
Qed.
Lemma sub_eol b e s : exists b', sub_url url 0 b (render_eol e ++ s) = render_eol e ++ sub_url url 0 b' s.
Proof.
  destruct e; cbn [render_eol app].
  - eexists. rewrite sub_nl by now right. reflexivity.
  - eexists. rewrite sub_nl by now left. reflexivity.
  - eexists. rewrite sub_nl by now left. rewrite sub_nl by now right. reflexivity.
Qed.
Lemma sub_text rows final : forall b, sub_url url 0 b (column_text rows final) =
  column_text (map (fun r => (filter_urls url (fst r), snd r)) rows) (option_map (filter_urls url) final).
Proof.
  induction rows as [|[s e] rows IH]; intros b.
  - unfold column_text. cbn. destruct final as [s|]; [|reflexivity]. cbn.
    pose proof (sub_lines s 0 b [] [] (Nat.le_0_l _) stops_nil) as E. rewrite app_nil_r in E. rewrite E. cbn. now rewrite app_nil_r.
  - cbn [map fst snd]. rewrite !text_cons. rewrite (sub_lines s 0 b []); [|lia|].
    + unfold filter_urls at 1. f_equal. destruct (sub_eol (b ++ s) e (column_text rows final)) as (b' & ->). f_equal. apply IH.
    + intros c t E. destruct (eol_first e) as (c0 & s0 & EF & Hc0). rewrite EF in E. cbn in E. injection E as <- _. exact Hc0.
Qed.
Lemma in_text x rows final : is_nl x = false -> (In x (column_text rows final) <-> exists l, In l (column_of rows final) /\ In x l).
Proof.
  intros Hx. apply is_nl_false in Hx. induction rows as [|[s e] rows IH].
  - unfold column_text, column_of. cbn. destruct final as [s|]; cbn; [|split; [easy|intros (l & [] & _)]].
    split; [intros H; exists s; auto|intros (l & [<-|[]] & H); exact H].
  - rewrite text_cons, !in_app_iff. unfold column_of in *. cbn [map fst app]. rewrite IH. split.
    + intros [H|[H|(l & Hl & H)]]; [exists s; split; [now left|exact H]|apply eol_nl in H; intuition|exists l; split; [now right|exact H]].
    + intros (l & [<-|Hl] & H); [now left|right; right; eauto].
Qed.
Lemma in_filtered x rows final : is_nl x = false ->
  (In x (filter_urls url (column_text rows final)) <-> exists l, In l (column_of rows final) /\ In x (filter_urls url l)).
Proof.
  intros Hx. unfold filter_urls at 1. rewrite sub_text, (in_text x _ _ Hx). unfold column_of. rewrite map_map. cbn [fst].
  split.
  - intros (l & Hl & H). apply in_app_or in Hl as [Hl|Hl].
    + apply in_map_iff in Hl as (r & <- & Hr). exists (fst r). split; [apply in_or_app; left; now apply in_map|exact H].
    + destruct final as [s|]; [|destruct Hl]. destruct Hl as [<-|[]]. exists s. split; [apply in_or_app; right; now left|exact H].
  - intros (l & Hl & H). exists (filter_urls url l). split; [|exact H]. apply in_or_app. apply in_app_or in Hl as [Hl|Hl].
    + left. apply in_map_iff in Hl as (r & <- & Hr). apply in_map_iff. eauto.
    + right. destruct final as [s|]; [|destruct Hl]. destruct Hl as [<-|[]]. now left.
Qed.
End Url.

(** ** The candidates *)
Section Same.
Variable cat : N -> str.
Variable url : str -> str -> option nat.
Variable user : option (list str).
Hypothesis HU : line_matcher url.
Hypothesis HK : control_ends cat.
Hypothesis HUser : usual_delimiters user.

Lemma escape_flat u : escape_like cat u -> is_nl u = false.
Proof. intros (E & _). destruct HK as (K1 & K2). apply is_nl_false. split; intros ->; [rewrite K1 in E|rewrite K2 in E]; vm_compute in E; discriminate. Qed.
Lemma wanted_flat c : wanted_delimiter cat user c -> is_nl c = false /\ ~ In c [34; 39].
Proof.
  unfold wanted_delimiter. destruct user as [l|].
  - intros H. split.
    + apply is_nl_false. split; intros ->; (eapply (HUser l); [reflexivity| |exact H]); cbn; tauto.
    + intros Hc. eapply (HUser l); [reflexivity| |exact H]. cbn in *. tauto.
  - intros [->|(H & _)]; [split; [reflexivity|cbn; intuition discriminate]|]. split.
    + apply is_nl_false. split; intros ->; apply H; cbn; tauto.
    + intros Hc. apply H. cbn in *. tauto.
Qed.
Lemma quote_flat c : quote_like c -> is_nl c = false.
Proof. intros H. apply is_nl_false. split; intros ->; cbn in H; intuition discriminate. Qed.

(** Only which lines there are matters. *)
Definition same_lines (ls1 ls2 : list str) : Prop := forall l, In l ls1 <-> In l ls2.
Lemma same_lines_sym ls1 ls2 : same_lines ls1 ls2 -> same_lines ls2 ls1.
Proof. intros H l. symmetry. apply H. Qed.
Lemma on_same_lines ls1 ls2 (P : str -> Prop) : same_lines ls1 ls2 -> (exists l, In l ls1 /\ P l) -> exists l, In l ls2 /\ P l.
Proof. intros H (l & Hl & HP). exists l. split; [now apply H|exact HP]. Qed.
Lemma candidate_same rows1 final1 rows2 final2 d q e : same_lines (column_of rows1 final1) (column_of rows2 final2) ->
  candidate cat user (filter_urls url (column_text rows1 final1)) (column_text rows1 final1) d q e ->
  candidate cat user (filter_urls url (column_text rows2 final2)) (column_text rows2 final2) d q e.
Proof.
  intros EC (Hd & Hq & He). split; [|split].
  - destruct Hd as [->|(c & -> & Hi & Hw)]; [now left|]. right. exists c. repeat split; [|exact Hw]. pose proof (proj1 (wanted_flat c Hw)) as Hc.
    apply (in_filtered url HU c _ _ Hc). apply (in_filtered url HU c _ _ Hc) in Hi. exact (on_same_lines _ _ _ EC Hi).
  - destruct Hq as [->|(c & -> & Hi & Hw)]; [now left|]. right. exists c. repeat split; [|exact Hw]. pose proof (quote_flat c Hw) as Hc.
    apply (in_filtered url HU c _ _ Hc). apply (in_filtered url HU c _ _ Hc) in Hi. exact (on_same_lines _ _ _ EC Hi).
  - destruct He as [->|(u & v & -> & Hb & Hu & Hv)]; [now left|]. right. exists u, v. repeat split; [|exact (proj1 Hu)|exact (proj2 Hu)|exact Hv].
    assert (Hn : is_nl v = false).
    { destruct Hv as [->| ->].
      - destruct Hd as [Hd|(c & [= <-] & _ & Hw)]; [discriminate|]. now apply wanted_flat.
      - destruct Hq as [Hd2|(c & [= <-] & _ & Hw)]; [discriminate|]. now apply quote_flat. }
    apply (before_lines u v _ _ (escape_flat u Hu) Hn). apply (before_lines u v _ _ (escape_flat u Hu) Hn) in Hb. exact (on_same_lines _ _ _ EC Hb).
Qed.
Lemma clean_same rows1 final1 rows2 final2 : same_lines (column_of rows1 final1) (column_of rows2 final2) ->
  clean url (column_text rows1 final1) -> clean url (column_text rows2 final2).
Proof.
  intros EC H x Hx. destruct (is_nl x) eqn:En; [apply is_nl_spec in En as [->| ->]; reflexivity|]. apply H.
  apply (in_filtered url HU x _ _ En). apply (in_filtered url HU x _ _ En) in Hx. exact (on_same_lines _ _ _ (same_lines_sym _ _ EC) Hx).
Qed.
Lemma candidates_same_set O1 O2 rows1 final1 rows2 final2 masked : any_orders O1 -> any_orders O2 -> masked = false ->
  same_lines (column_of rows1 final1) (column_of rows2 final2) ->
  let t1 := column_text rows1 final1 in let t2 := column_text rows2 final2 in
  (exists L1 L2, get_dialects cat url O1 utf8 t1 user masked = Ok L1 /\ get_dialects cat url O2 utf8 t2 user masked = Ok L2 /\
     Permutation L1 L2 /\ candidates_ok L1 /\
     forall x, In x L1 -> exists d q e, x = dialect3 d q e /\ candidate cat user (filter_urls url t1) t1 d q e) \/
  (get_dialects cat url O1 utf8 t1 user masked = Err UnicodeEncodeError /\ get_dialects cat url O2 utf8 t2 user masked = Err UnicodeEncodeError).
Proof.
  intros H1 H2 -> EC t1 t2. destruct (clean_dec url t1) as [Hc|Hc].
  - left. destruct (get_dialects_utf8 cat url O1 t1 user false H1 Hc) as (L1 & E1 & N1 & I1).
    destruct (get_dialects_utf8 cat url O2 t2 user false H2 (clean_same _ _ _ _ EC Hc)) as (L2 & E2 & N2 & I2).
    destruct (get_dialects_good cat url O1 t1 user false H1 Hc) as (L1' & E1' & _ & G1). rewrite E1 in E1'. injection E1' as <-.
    exists L1, L2. split; [exact E1|split; [exact E2|split; [|split; [exact G1|]]]].
    + apply NoDup_Permutation; auto. intros x. rewrite I1, I2. cbn [andb]. split; intros (d & q & e & Ex & Hx & Hm); exists d, q, e; (split; [exact Ex|split; [|reflexivity]]).
      * exact (candidate_same _ _ _ _ d q e EC Hx).
      * exact (candidate_same _ _ _ _ d q e (same_lines_sym _ _ EC) Hx).
    + intros x Hx. apply I1 in Hx as (d & q & e & Ex & Hx & _). eauto.
  - right. split; apply get_dialects_surrogate; auto. destruct Hc as (x & Hx & Hs). exists x. split; [|exact Hs].
    assert (En : is_nl x = false) by (destruct (is_nl x) eqn:En; [apply is_nl_spec in En as [->| ->]; discriminate|reflexivity]).
    apply (in_filtered url HU x _ _ En). apply (in_filtered url HU x _ _ En) in Hx. exact (on_same_lines _ _ _ EC Hx).
Qed.

Lemma candidates_same O1 O2 rows1 final1 rows2 final2 masked : any_orders O1 -> any_orders O2 -> masked = false ->
  column_of rows1 final1 = column_of rows2 final2 ->
  let t1 := column_text rows1 final1 in let t2 := column_text rows2 final2 in
  (exists L1 L2, get_dialects cat url O1 utf8 t1 user masked = Ok L1 /\ get_dialects cat url O2 utf8 t2 user masked = Ok L2 /\
     Permutation L1 L2 /\ candidates_ok L1 /\
     forall x, In x L1 -> exists d q e, x = dialect3 d q e /\ candidate cat user (filter_urls url t1) t1 d q e) \/
  (get_dialects cat url O1 utf8 t1 user masked = Err UnicodeEncodeError /\ get_dialects cat url O2 utf8 t2 user masked = Err UnicodeEncodeError).
Proof.
  intros H1 H2 Hm EC. apply candidates_same_set; [exact H1|exact H2|exact Hm|]. now rewrite EC.
Qed.

(** Candidates for balanced lines have distinct characters. *)
Lemma in_filtered_text x t : In x (filter_urls url t) -> In x t \/ x = 85.
Proof. intros H. exact (url_sub_In _ _ (filter_urls_sub url t) x H). Qed.
Lemma candidate_chars rows final d q e : (forall l, In l (column_of rows final) -> balanced_line cat user l) ->
  candidate cat user (filter_urls url (column_text rows final)) (column_text rows final) d q e ->
  exists D, dialect3 d q e = simple D false /\ wf_chars D = true /\ (forall x, cq D = Some x -> In x [34; 39]) /\ (forall x, ce D = Some x -> escape_like cat x).
Proof.
  intros HB (Hd & Hq & He).
  assert (HI : forall x c, In x (column_text rows final) -> is_nl x = false -> In c [NUL; CR; LF; 126; 96] -> x <> c).
  { intros x c Hx Hn Hc ->. apply (in_text c _ _ Hn) in Hx as (l & Hl & Hx). destruct (HB l Hl) as (K & _). exact (K c Hc Hx). }
  assert (Hd' : exists o, d = opt_str o /\ char_ok o = true /\ forall c, o = Some c -> ~ In c [34; 39]).
  { destruct Hd as [->|(c & -> & Hi & Hw)]; [exists None; repeat split; intros c E; discriminate|]. exists (Some c). destruct (wanted_flat c Hw) as (Hn & Hq').
    repeat split; [|intros c' [= <-]; exact Hq']. cbn [char_ok]. rewrite Hn, andb_true_r. apply negb_true_iff, N.eqb_neq. intros E.
    apply in_filtered_text in Hi as [Hi|Hi]; [|subst; discriminate]. apply (HI c NUL Hi Hn); [now left|exact E]. }
  assert (Hq' : exists o, q = opt_str o /\ forall c, o = Some c -> In c [34; 39]).
  { destruct Hq as [->|(c & -> & Hi & Hw)]; [exists None; split; [reflexivity|intros c E; discriminate]|]. exists (Some c). split; [reflexivity|].
    intros c' [= <-]. pose proof (quote_flat c Hw) as Hn. apply in_filtered_text in Hi as [Hi|Hi]; [|subst; cbn in Hw; intuition discriminate].
    destruct Hw as [<-|[<-|[<-|[<-|[]]]]]; cbn; try tauto; exfalso; (eapply (HI _ _ Hi Hn); [|reflexivity]); cbn; tauto. }
  assert (He' : exists o, e = opt_str o /\ char_ok o = true /\ (forall x, o = Some x -> escape_like cat x /\ d <> [x] /\ q <> [x])).
  { destruct He as [->|(u & v & -> & Hb & Hu & Hv)]; [exists None; repeat split; discriminate|]. exists (Some u). pose proof (escape_flat u Hu) as Hn. split; [reflexivity|split].
    - cbn [char_ok]. rewrite Hn, andb_true_r. apply negb_true_iff, N.eqb_neq. apply (HI u NUL); [|exact Hn|now left]. now apply before_in in Hb.
    - intros x [= <-]. split; [exact Hu|]. assert (Hnv : is_nl v = false).
      { destruct Hv as [->| ->].
        - destruct Hd as [Hd|(c & [= <-] & _ & Hw)]; [discriminate|]. now apply wanted_flat.
        - destruct Hq as [Hd2|(c & [= <-] & _ & Hw)]; [discriminate|]. now apply quote_flat. }
      apply (before_lines u v _ _ Hn Hnv) in Hb as (l & Hl & (a & b & El)). destruct (HB l Hl) as (_ & _ & HX).
      destruct (HX a u (v :: b) El Hu) as (v' & b' & [= <- <-] & Hne & Hnq). split.
      + intros ->. destruct Hv as [[= ->]|Hv]; [destruct Hd as [Hd|(c & [= <-] & _ & Hw)]; [discriminate|now apply (Hne Hw)]|]. destruct Hq' as (o & Eo & Ho). rewrite Hv in Eo. destruct o as [c|]; [|discriminate]. injection Eo as ->.
        apply Hnq, Ho. reflexivity.
      + intros ->. destruct Hq' as (o & Eo & Ho). destruct o as [c|]; [|discriminate]. injection Eo as ->. destruct Hu as (_ & Hu). apply Hu.
        destruct (Ho c eq_refl) as [<-|[<-|[]]]; vm_compute; tauto. }
  destruct Hd' as (od & -> & Hd1 & Hd2). destruct Hq' as (oq & -> & Hq1). destruct He' as (oe & -> & He1 & He2).
  exists (mk_chars od oq oe). split; [reflexivity|]. split; [|split; [exact Hq1|intros x E; now apply He2]].
  unfold wf_chars. cbn [cd cq ce]. rewrite Hd1, He1. cbn [andb].
  assert (Hq2 : char_ok oq = true).
  { destruct oq as [c|]; [|reflexivity]. destruct (Hq1 c eq_refl) as [<-|[<-|[]]]; reflexivity. }
  rewrite Hq2. cbn [andb]. rewrite !andb_true_iff. repeat split.
  - destruct od as [x|], oq as [y|]; try reflexivity. cbn. apply negb_true_iff, N.eqb_neq. intros ->. apply (Hd2 y eq_refl), Hq1. reflexivity.
  - destruct od as [x|], oe as [y|]; try reflexivity. cbn. apply negb_true_iff, N.eqb_neq. intros ->. destruct (He2 y eq_refl) as (_ & K & _). now apply K.
  - destruct oq as [x|], oe as [y|]; try reflexivity. cbn. apply negb_true_iff, N.eqb_neq. intros ->. destruct (He2 y eq_refl) as (_ & _ & K). now apply K.
Qed.
End Same.
