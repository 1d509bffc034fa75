(** * LineNormal: the normal forms do not depend on the kind of line end *)
From Coq Require Import String Permutation.
From Verif Require Import Base Parser Dialect SpecLayout Potential SpecPotential PotentialFacts NormalForm SpecNormal NormalFacts NormalForms Consistency Detect Simple
  SpecColumn Columns SpecLines LineLayout UrlLines LineEnds LineDetect.
Open Scope N_scope.
Local Notation len := List.length.

(** Lines with one kind of line end, the last line not blank. *)
Lemma split_uniform e rows final ls l : column_of rows final = ls ++ [l] -> l <> [] -> (forall r, In r rows -> snd r = e) ->
  (forall s, In s (column_of rows final) -> no_nl s) -> split_file (column_text rows final) = column_of rows final.
Proof.
  intros EL Hl He HN. assert (ET : column_text rows final = List.concat (map (fun l => l ++ render_eol e) (map fst rows)) ++ match final with Some l => l | None => [] end).
  { unfold column_text. rewrite map_map. f_equal. f_equal. apply map_ext_in. intros r Hr. pose proof (He r Hr) as K. destruct r as [x y]. cbn in K |- *. now subst y. }
  assert (EX : column_text rows final = join (render_eol e) (column_of rows final) ++ match (match final with Some _ => None | None => Some e end) with Some e => render_eol e | None => [] end).
  { refine (eq_trans ET (text_join e (map fst rows) final _)). destruct rows; [|left; discriminate]. destruct final; [right; discriminate|].
    cbn in EL. symmetry in EL. apply app_eq_nil in EL as (_ & EL). discriminate. }
  destruct (join_snoc (render_eol e) ls l) as (s & ES). destruct (exists_last Hl) as (l' & y & El).
  assert (Hy : y <> CR /\ y <> LF).
  { destruct (HN l) as (K1 & K2); [rewrite EL; apply in_or_app; right; now left|]. rewrite El in K1, K2. split; intros ->; [apply K1|apply K2]; apply in_or_app; right; now left. }
  assert (EJ : join (render_eol e) (column_of rows final) = (s ++ l') ++ [y]) by now rewrite EL, ES, El, app_assoc.
  unfold split_file. rewrite EX, EJ, (strip_text (s ++ l') y) by apply Hy. rewrite <- EJ. apply split_lines; [|now apply Forall_forall].
  rewrite EL. now destruct ls.
Qed.
Section Normal.
Variable cat : N -> str.
Hypothesis HK : control_ends cat.
Lemma esc_pair_iff t d q : esc_pair cat t d q = true <-> exists u v, before u v t /\ escape_like cat u /\ (d = [v] \/ q = [v]).
Proof.
  unfold esc_pair. rewrite andb_true_iff, orb_true_iff, existsb_exists. split.
  - intros (_ & [u v] & H1 & H2). apply andb_true_iff in H2 as (H2 & H3). exists u, v. split; [now apply pairwise_before|]. split; [now apply is_esc_spec|].
    apply orb_true_iff in H2. unfold is_char in H2. destruct H2 as [H2|H2]; apply str_eqb_eq in H2; auto.
  - intros (u & v & H1 & H2 & H3). assert (Hv : In v t) by (now apply before_in in H1). split.
    + destruct H3 as [->| ->]; [left|right]; now apply contains_one.
    + exists (u, v). split; [now apply pairwise_before|]. apply andb_true_iff. split; [|now apply is_esc_spec]. apply orb_true_iff. unfold is_char.
      destruct H3 as [->| ->]; [left|right]; now apply str_eqb_eq.
Qed.
Theorem normal_lines user e1 e2 rows1 final1 rows2 final2 ls l :
  column_of rows1 final1 = ls ++ [l] -> column_of rows2 final2 = ls ++ [l] -> l <> [] ->
  (forall r, In r rows1 -> snd r = e1) -> (forall r, In r rows2 -> snd r = e2) ->
  (forall s, In s (ls ++ [l]) -> ~ In CR s /\ ~ In LF s) ->
  (forall ds c, user = Some ds -> In c [CR; LF] -> ~ In [c] ds) ->
  detect_dialect_normal cat (column_text rows1 final1) utf8 user = detect_dialect_normal cat (column_text rows2 final2) utf8 user.
Proof.
  intros E1 E2 Hl U1 U2 HN HUs. unfold detect_dialect_normal. rewrite !any_escape_ok by now left. cbn [bind].
  assert (ES : split_file (column_text rows1 final1) = split_file (column_text rows2 final2)).
  { rewrite (split_uniform e1 rows1 final1 ls l E1 Hl U1), (split_uniform e2 rows2 final2 ls l E2 Hl U2); [congruence| |]; intros s Hs; apply HN; congruence. }
  rewrite ES. set (delims := match user with None => DELIMS | Some ds => ds end).
  assert (HD : forall v, In [v] delims -> is_nl v = false).
  { intros v Hv. apply is_nl_false. unfold delims in Hv. destruct user as [ds|].
    - split; intros ->; eapply (HUs ds); try exact Hv; try reflexivity; cbn; tauto.
    - split; intros ->; cbn in Hv; intuition discriminate. }
  assert (EX : forall P : str * str -> bool, forall Q : str * str -> bool, (forall x, In x (list_prod delims QUOTECHARS) -> P x = Q x) ->
    existsb P (list_prod delims QUOTECHARS) = existsb Q (list_prod delims QUOTECHARS)).
  { intros P Q. induction (list_prod delims QUOTECHARS) as [|x L IH]; intros H; [reflexivity|]. cbn [existsb]. rewrite H by now left. f_equal. apply IH. intros y Hy. apply H. now right. }
  rewrite (EX _ (fun '(d, q) => esc_pair cat (column_text rows2 final2) d q)); [reflexivity|]. intros [d q] Hi. apply in_prod_iff in Hi as (Hd & Hq).
  assert (HB : forall u v, escape_like cat u -> (d = [v] \/ q = [v]) -> before u v (column_text rows1 final1) <-> before u v (column_text rows2 final2)).
  { intros u v Hu Hv. assert (Nv : is_nl v = false).
    { destruct Hv as [->| ->]; [now apply HD|]. destruct Hq as [[= <-]|[[= <-]|[]]]; reflexivity. }
    pose proof (escape_flat cat HK u Hu) as Nu. rewrite (before_lines u v _ _ Nu Nv), (before_lines u v _ _ Nu Nv). now rewrite E1, E2. }
  destruct (esc_pair cat (column_text rows2 final2) d q) eqn:EP.
  - apply esc_pair_iff in EP as (u & v & H1 & H2 & H3). apply esc_pair_iff. exists u, v. split; [now apply HB|now split].
  - destruct (esc_pair cat (column_text rows1 final1) d q) eqn:EP'; [|reflexivity]. rewrite <- EP. symmetry. apply esc_pair_iff in EP' as (u & v & H1 & H2 & H3). apply esc_pair_iff.
    exists u, v. split; [now apply HB|now split].
Qed.
End Normal.

(** ** The detector *)
Section Detector.
Variable cat : N -> str.
Variable url : str -> str -> option nat.
Variable known : str -> bool -> res pyexc bool.
Variable user : option (list str).
Hypothesis HU : line_matcher url.
Hypothesis HK : control_ends cat.
Hypothesis HUser : usual_delimiters user.
Variable o_set : list SimpleDialect -> list SimpleDialect.
Hypothesis o_perm : forall l, Permutation (o_set l) l.
Theorem detector_lines O1 O2 method skip s e1 e2 rows1 final1 rows2 final2 ls l :
  any_orders O1 -> any_orders O2 ->
  column_of rows1 final1 = ls ++ [l] -> column_of rows2 final2 = ls ++ [l] -> l <> [] ->
  (forall r, In r rows1 -> snd r = e1) -> (forall r, In r rows2 -> snd r = e2) ->
  (forall s, In s (ls ++ [l]) -> balanced_line cat user s) ->
  fst (detector_detect cat url known O1 o_set (column_text rows1 final1) user method skip s) =
  fst (detector_detect cat url known O2 o_set (column_text rows2 final2) user method skip s).
Proof.
  intros H1 H2 E1 E2 Hl U1 U2 HB.
  assert (HC : forall e rows final, column_of rows final = ls ++ [l] -> (forall r, In r rows -> snd r = e) -> clear_ends rows final).
  { intros e rows final E U. split.
    - intros a x b ->. pose proof (U (x, ECR)) as K1. pose proof (U ([], ELF)) as K2. cbn [snd] in K1, K2.
      rewrite <- K1 in K2 by (apply in_or_app; right; now left). discriminate K2. apply in_or_app. right. right. now left.
    - intros ->. unfold column_of in E. apply app_inj_tail in E as (_ & E). now apply Hl. }
  assert (EN : detect_dialect_normal cat (column_text rows1 final1) utf8 user = detect_dialect_normal cat (column_text rows2 final2) utf8 user).
  { apply (normal_lines cat HK user e1 e2 rows1 final1 rows2 final2 ls l E1 E2 Hl U1 U2).
    - intros x Hx. destruct (HB x Hx) as (K & _). split; apply K; cbn; tauto.
    - intros ds c E Hc. apply (HUser ds E). cbn in *. tauto. }
  assert (ED : forall old, fst (detect cat url known O1 o_set 100000 skip (column_text rows1 final1) user old) = fst (detect cat url known O2 o_set 100000 skip (column_text rows2 final2) user old)).
  { intros old. apply (detect_lines cat url known user HU HK HUser o_set o_perm rows1 rows2 final1 final2); [congruence| |now apply (HC e1)|now apply (HC e2)|exact H1|exact H2].
    intros x Hx. apply HB. now rewrite <- E1. }
  unfold detector_detect. rewrite EN. specialize (ED (st_limit s)).
  destruct (detect cat url known O1 o_set 100000 skip (column_text rows1 final1) user (st_limit s)) as [r1 n1].
  destruct (detect cat url known O2 o_set 100000 skip (column_text rows2 final2) user (st_limit s)) as [r2 n2]. cbn [fst] in ED. subst r2.
  match goal with |- fst (match ?X with Ok _ => _ | Err _ => _ end) = _ => destruct X as [m|x]; [|reflexivity] end.
  match goal with |- fst (match ?X with Ok _ => _ | Err _ => _ end) = _ => destruct X as [[d|]|x]; reflexivity end.
Qed.
End Detector.
