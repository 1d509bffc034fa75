(** * OrderNormal: the normal forms and the detector do not depend on the order of the lines *)
From Coq Require Import String Permutation.
From Verif Require Import Base Parser Dialect SpecLayout Potential SpecPotential PotentialFacts NormalForm SpecNormal NormalFacts NormalForms Consistency SpecConsistency ScoreFacts Detect Simple Types SpecTypes TypesUrl TypesDetect
  SpecColumn Columns SpecLines LineLayout UrlLines LineEnds LineDetect LineNormal SpecOrder LineOrder.
Local Notation len := List.length.
Open Scope nat_scope.

Lemma forallb_perm A (f : A -> bool) l1 l2 : Permutation l1 l2 -> forallb f l1 = forallb f l2.
Proof. induction 1; cbn [forallb]; [reflexivity|congruence|now rewrite !andb_assoc, (andb_comm (f y))|congruence]. Qed.
Lemma same_length_perm d q l1 l2 : Permutation l1 l2 -> every_row_same_length l1 d q = every_row_same_length l2 d q.
Proof.
  intros HP. assert (K : forall l1 l2, Permutation l1 l2 -> every_row_same_length l1 d q = true -> every_row_same_length l2 d q = true).
  { clear. intros l1 l2 HP H. destruct l1 as [|a l1]; [discriminate|]. destruct l2 as [|b l2]; [now apply Permutation_sym, Permutation_nil in HP|].
    cbn [every_row_same_length] in *. rewrite (forallb_perm _ _ _ _ HP) in H. rewrite forallb_forall in H |- *. intros x Hx.
    pose proof (H x Hx) as Kx. pose proof (H b (or_introl eq_refl)) as Kb. apply andb_true_iff in Kx as (K1 & K2). apply andb_true_iff in Kb as (_ & K3).
    apply Nat.eqb_eq in K2, K3. apply andb_true_iff. split; [exact K1|]. apply Nat.eqb_eq. congruence. }
  destruct (every_row_same_length l1 d q) eqn:E1, (every_row_same_length l2 d q) eqn:E2; try reflexivity.
  - now rewrite <- E2, (K l1 l2).
  - rewrite <- E1. now apply (K l2 l1), E2; apply Permutation_sym.
Qed.
Lemma form_perm l1 l2 f : Permutation l1 l2 -> form_test l1 f = form_test l2 f.
Proof.
  intros HP. destruct f as [[k d] q]. pose proof (Permutation_length HP) as HL.
  assert (F2p : forall l1 l2, Permutation l1 l2 -> is_form_2 l1 d q = is_form_2 l2 d q).
  { clear. intros l1 l2 HP. unfold is_form_2. now rewrite (same_length_perm d q _ _ HP), (forallb_perm _ _ _ _ HP). }
  destruct k; cbn [form_test].
  - unfold is_form_1. now rewrite (same_length_perm d q _ _ HP), (forallb_perm _ _ _ _ HP).
  - now apply F2p.
  - unfold is_form_3. now rewrite (same_length_perm d q _ _ HP), (forallb_perm _ _ _ _ HP), HL.
  - unfold is_form_4. now rewrite (forallb_perm _ _ _ _ HP), HL.
  - unfold is_form_5, every_row_has_delim. rewrite (F2p (map inner l1) (map inner l2)) by now apply Permutation_map.
    now rewrite HL, (forallb_perm _ (fun row => has_delimiter row d) _ _ HP), (forallb_perm _ (fun row => Nat.ltb 2 _ && _ && _) _ _ HP).
Qed.
Lemma find_ext A (f g : A -> bool) l : (forall x, f x = g x) -> find f l = find g l.
Proof. intros H. induction l as [|x l IH]; [reflexivity|]. cbn [find]. now rewrite H, IH. Qed.

Section Normal.
Variable cat : N -> str.
Hypothesis HK : control_ends cat.
Theorem normal_order user e1 e2 rows1 final1 rows2 final2 :
  Permutation (column_of rows1 final1) (column_of rows2 final2) -> column_of rows1 final1 <> [] ->
  (forall r, In r rows1 -> snd r = e1) -> (forall r, In r rows2 -> snd r = e2) ->
  (forall s, In s (column_of rows1 final1) -> s <> [] /\ ~ In CR s /\ ~ In LF s) ->
  (forall ds c, user = Some ds -> In c [CR; LF] -> ~ In [c] ds) ->
  detect_dialect_normal cat (column_text rows1 final1) utf8 user = detect_dialect_normal cat (column_text rows2 final2) utf8 user.
Proof.
  intros HP HN1 U1 U2 HN HUs. unfold detect_dialect_normal. rewrite !any_escape_ok by now left. cbn [bind].
  assert (HN2 : column_of rows2 final2 <> []) by (intros E; rewrite E in HP; now apply HN1, Permutation_nil, Permutation_sym).
  assert (HI : forall s, In s (column_of rows1 final1) <-> In s (column_of rows2 final2)).
  { intros s. split; intros H; [now apply (Permutation_in _ HP)|now apply (Permutation_in _ (Permutation_sym HP))]. }
  assert (S1 : split_file (column_text rows1 final1) = column_of rows1 final1).
  { destruct (exists_last HN1) as (ls & l & E). apply (split_uniform e1 rows1 final1 ls l E); [|exact U1|intros s Hs; now apply HN].
    apply HN. rewrite E. apply in_or_app. right. now left. }
  assert (S2 : split_file (column_text rows2 final2) = column_of rows2 final2).
  { destruct (exists_last HN2) as (ls & l & E). apply (split_uniform e2 rows2 final2 ls l E); [|exact U2|intros s Hs; now apply HN, HI].
    apply HN, HI. rewrite E. apply in_or_app. right. now left. }
  rewrite S1, S2. set (delims := match user with None => DELIMS | Some ds => ds end).
  rewrite (find_ext _ (form_test (column_of rows1 final1)) (form_test (column_of rows2 final2))) by (intros f; now apply form_perm).
  assert (HD : forall v, In [v] delims -> is_nl v = false).
  { intros v Hv. apply is_nl_false. unfold delims in Hv. destruct user as [ds|].
    - split; intros ->; eapply (HUs ds); try exact Hv; try reflexivity; cbn; tauto.
    - split; intros ->; cbn in Hv; intuition discriminate. }
  assert (EX : forall P : str * str -> bool, forall Q : str * str -> bool, (forall x, In x (list_prod delims QUOTECHARS) -> P x = Q x) ->
    existsb P (list_prod delims QUOTECHARS) = existsb Q (list_prod delims QUOTECHARS)).
  { intros P Q. induction (list_prod delims QUOTECHARS) as [|x L IH]; intros H; [reflexivity|]. cbn [existsb]. rewrite H by now left. f_equal. apply IH. intros y Hy. apply H. now right. }
  rewrite (EX _ (fun '(d, q) => esc_pair cat (column_text rows2 final2) d q)); [reflexivity|]. intros [d q] Hi. apply in_prod_iff in Hi as (Hd & Hq).
  assert (HB : forall u v, escape_like cat u -> (d = [v] \/ q = [v]) -> before u v (column_text rows1 final1) <-> before u v (column_text rows2 final2)).
  { intros u v Hu Hv. assert (Nv : is_nl v = false).
    { destruct Hv as [->| ->]; [now apply HD|]. destruct Hq as [[= <-]|[[= <-]|[]]]; reflexivity. }
    pose proof (escape_flat cat HK u Hu) as Nu. rewrite (before_lines u v _ _ Nu Nv), (before_lines u v _ _ Nu Nv).
    split; intros (l & Hl & Hb); exists l; (split; [now apply HI|exact Hb]). }
  destruct (esc_pair cat (column_text rows2 final2) d q) eqn:EP.
  - apply esc_pair_iff in EP as (u & v & H1 & H2 & H3). apply esc_pair_iff. exists u, v. split; [now apply HB|now split].
  - destruct (esc_pair cat (column_text rows1 final1) d q) eqn:EP'; [|reflexivity]. rewrite <- EP. symmetry. apply esc_pair_iff in EP' as (u & v & H1 & H2 & H3). apply esc_pair_iff.
    exists u, v. split; [now apply HB|now split].
Qed.
End Normal.

(** ** Lines added after all kinds of rows have been seen *)
Lemma firsts_app h r : incl r h -> firsts (h ++ r) = firsts h.
Proof.
  assert (K : forall h r, firsts (h ++ r) = firsts h ++ filter (fun y => negb (existsb (Nat.eqb y) h)) (firsts r)).
  { clear. induction h as [|x h IH]; intros r; cbn [app firsts].
    - symmetry. cbn [existsb negb]. induction (firsts r) as [|y l IHl]; [reflexivity|]. cbn [filter]. now rewrite IHl.
    - rewrite IH, filter_app. cbn [app]. f_equal. f_equal.
      generalize (firsts r). clear. induction l as [|y l IHl]; [reflexivity|]. cbn [filter existsb].
      destruct (existsb (Nat.eqb y) h) eqn:E; cbn [negb].
      + rewrite orb_true_r. cbn [negb]. exact IHl.
      + rewrite orb_false_r. cbn [filter]. destruct (Nat.eqb y x); cbn [negb]; now rewrite IHl. }
  intros H. rewrite K. replace (filter _ _) with (@nil nat); [apply app_nil_r|]. symmetry.
  assert (HF : forall y, In y (firsts r) -> existsb (Nat.eqb y) h = true).
  { intros y Hy. apply In_firsts, H in Hy. apply existsb_exists. exists y. split; [exact Hy|apply Nat.eqb_refl]. }
  induction (firsts r) as [|y l IHl]; [reflexivity|]. cbn [filter]. rewrite HF by now left. cbn [negb]. apply IHl. intros z Hz. apply HF. now right.
Qed.
Lemma seen_agree d h r1 r2 : Permutation r1 r2 -> incl (map (line_cells d) r1) (map (line_cells d) h) -> shapes_agree d (h ++ r1) (h ++ r2).
Proof.
  intros HP H. left. rewrite !map_app, firsts_app by exact H. symmetry. apply firsts_app. intros x Hx. apply H.
  apply (Permutation_in _ (Permutation_sym (Permutation_map (line_cells d) HP))). exact Hx.
Qed.

(** ** The detector *)
Section Detector.
Variable cat : N -> str.
Variable url : str -> str -> option nat.
Variable known : str -> bool -> res pyexc bool.
Variable user : option (list str).
Hypothesis HU : line_matcher url.
Hypothesis HK : control_ends cat.
Hypothesis HUser : usual_delimiters user.
Variable o_set : list SimpleDialect -> list SimpleDialect.
Hypothesis o_perm : forall l, Permutation (o_set l) l.
Theorem detector_order O1 O2 method skip s e1 e2 rows1 final1 rows2 final2 :
  any_orders O1 -> any_orders O2 ->
  Permutation (column_of rows1 final1) (column_of rows2 final2) ->
  (forall r, In r rows1 -> snd r = e1) -> (forall r, In r rows2 -> snd r = e2) ->
  (forall l, In l (column_of rows1 final1) -> balanced_line cat user l /\ l <> []) ->
  (forall l s b, In l (column_of rows1 final1) -> incl s l -> exists r, known s b = Ok r) ->
  (forall O L d, any_orders O -> get_dialects cat url O utf8 (column_text rows1 final1) user false = Ok L -> In d L ->
     shapes_agree d (column_of rows1 final1) (column_of rows2 final2)) ->
  fst (detector_detect cat url known O1 o_set (column_text rows1 final1) user method skip s) =
  fst (detector_detect cat url known O2 o_set (column_text rows2 final2) user method skip s).
Proof.
  intros H1 H2 HP U1 U2 HB HT HS.
  destruct (list_eq_dec (list_eq_dec N.eq_dec) (column_of rows1 final1) []) as [E0|HN].
  { pose proof E0 as E0'. rewrite E0 in HP. apply Permutation_nil in HP.
    assert (EM : forall rows final, column_of rows final = [] -> column_text rows final = []).
    { intros [|r rows] [f|] E; try discriminate E; reflexivity. }
    rewrite (EM _ _ E0), (EM _ _ HP). unfold detector_detect.
    assert (ED : fst (detect cat url known O1 o_set 100000 skip [] user (st_limit s)) = fst (detect cat url known O2 o_set 100000 skip [] user (st_limit s))).
    { pose proof (detect_lines cat url known user HU HK HUser o_set o_perm [] [] None None eq_refl) as K. apply K; try assumption.
      - intros l [].
      - split; [intros a x b E; now destruct a|discriminate].
      - split; [intros a x b E; now destruct a|discriminate]. }
    destruct (detect cat url known O1 o_set 100000 skip [] user (st_limit s)) as [r1 n1].
    destruct (detect cat url known O2 o_set 100000 skip [] user (st_limit s)) as [r2 n2]. cbn [fst] in ED. subst r2.
    match goal with |- fst (match ?X with Ok _ => _ | Err _ => _ end) = _ => destruct X as [m|x]; [|reflexivity] end.
    match goal with |- fst (match ?X with Ok _ => _ | Err _ => _ end) = _ => destruct X as [[d|]|x]; reflexivity end. }
  assert (HC : forall e rows final, (forall l, In l (column_of rows final) -> l <> []) -> (forall r, In r rows -> snd r = e) -> clear_ends rows final).
  { intros e rows final E U. split.
    - intros a x b ->. pose proof (U (x, ECR)) as K1. pose proof (U ([], ELF)) as K2. cbn [snd] in K1, K2.
      rewrite <- K1 in K2 by (apply in_or_app; right; now left). discriminate K2. apply in_or_app. right. right. now left.
    - intros ->. apply (E []); [|reflexivity]. unfold column_of. apply in_or_app. right. now left. }
  assert (EN : detect_dialect_normal cat (column_text rows1 final1) utf8 user = detect_dialect_normal cat (column_text rows2 final2) utf8 user).
  { apply (normal_order cat HK user e1 e2 rows1 final1 rows2 final2 HP HN U1 U2).
    - intros x Hx. destruct (HB x Hx) as ((K & _) & Hn). split; [exact Hn|]. split; apply K; cbn; tauto.
    - intros ds c E Hc. apply (HUser ds E). cbn in *. tauto. }
  assert (ED : forall old, fst (detect cat url known O1 o_set 100000 skip (column_text rows1 final1) user old) = fst (detect cat url known O2 o_set 100000 skip (column_text rows2 final2) user old)).
  { intros old. apply (detect_order_lines cat url known user HU HK HUser o_set o_perm rows1 rows2 final1 final2 HP HB); try assumption.
    - apply (HC e1); [intros l Hl; now apply HB|exact U1].
    - apply (HC e2); [|exact U2]. intros l Hl. apply HB. now apply (Permutation_in _ (Permutation_sym HP)). }
  unfold detector_detect. rewrite EN. specialize (ED (st_limit s)).
  destruct (detect cat url known O1 o_set 100000 skip (column_text rows1 final1) user (st_limit s)) as [r1 n1].
  destruct (detect cat url known O2 o_set 100000 skip (column_text rows2 final2) user (st_limit s)) as [r2 n2]. cbn [fst] in ED. subst r2.
  match goal with |- fst (match ?X with Ok _ => _ | Err _ => _ end) = _ => destruct X as [m|x]; [|reflexivity] end.
  match goal with |- fst (match ?X with Ok _ => _ | Err _ => _ end) = _ => destruct X as [[d|]|x]; reflexivity end.
Qed.
End Detector.
