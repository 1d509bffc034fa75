(** * TypesAll: the type of a cell *)
From Coq Require Import String.
From Verif Require Import Base Parser Dialect Json JsonScan Regex RegexFacts Types SpecTypes TypesFacts TypesText TypesNumber TypesDate TypesUrl.
Open Scope N_scope.
Local Notation len := List.length.

(** ** The first test that succeeds *)
Section First.
Variables (s : str) (q : bool).
Definition agrees (f : str -> bool -> res pyexc bool) (P : str -> Prop) : Prop := exists b, f s q = Ok b /\ (b = true <-> P s).
Definition agree_all : list (string * (str -> bool -> res pyexc bool)) -> list (string * (str -> Prop)) -> Prop :=
  Forall2 (fun t l => fst t = fst l /\ agrees (snd t) (snd l)).

Lemma first_of_cons n P L name : first_of ((n, P) :: L) s name <-> (P s /\ n = name) \/ (~ P s /\ first_of L s name).
Proof.
  split.
  - intros (a & Q & b & E & HQ & Ha). destruct a as [|[n' P'] a]; cbn in E; inversion E; subst.
    + left. auto.
    + right. split; [apply (Ha n' P'); now left|]. exists a, Q, b. repeat split; auto. intros m R HR. apply (Ha m R). now right.
  - intros [(HP & ->)|(HP & a & Q & b & -> & HQ & Ha)].
    + exists [], P, L. split; [reflexivity|split; [exact HP|intros m R []]].
    + exists ((n, P) :: a), Q, b. repeat split; auto. intros m R [[= <- <-]|HR]; [exact HP|now apply (Ha m R)].
Qed.
Lemma first_of_nil name : ~ first_of [] s name.
Proof. intros (a & Q & b & E & _). now destruct a. Qed.
Lemma none_of_cons n P L : none_of ((n, P) :: L) s <-> ~ P s /\ none_of L s.
Proof.
  split.
  - intros H. split; [apply (H n P); now left|]. intros m R HR. apply (H m R). now right.
  - intros (HP & H) m R [[= <- <-]|HR]; [exact HP|now apply (H m R)].
Qed.

Variables (last : string) (f : str -> bool -> res pyexc bool) (P : str -> Prop).
Hypothesis Hf : f s q = Ok true <-> P s.
Lemma first_type_some a La : agree_all a La -> forall name,
  (first_type (a ++ [(last, f)]) s q = Ok (Some name) <-> first_of (La ++ [(last, P)]) s name).
Proof.
  induction 1 as [|[n g] [n' G] a La (E & b & Eb & Hb) H IH]; intros name; cbn [app first_type].
  - rewrite first_of_cons. pose proof (first_of_nil name) as HN. destruct (f s q) as [[|]|x] eqn:E; cbn [bind].
    + split; [intros [= <-]; left; split; [tauto|reflexivity]|]. intros [(_ & <-)|(_ & H)]; [reflexivity|contradiction].
    + split; [discriminate|]. intros [(HP & _)|(_ & H)]; [apply Hf in HP; discriminate|contradiction].
    + split; [discriminate|]. intros [(HP & _)|(_ & H)]; [apply Hf in HP; discriminate|contradiction].
  - cbn [fst snd] in *. subst n'. rewrite Eb. cbn [bind]. rewrite first_of_cons. destruct b.
    + split; [intros [= <-]; left; tauto|]. intros [(_ & <-)|(HP & _)]; [reflexivity|]. destruct HP. now apply Hb.
    + rewrite IH. split; [intros H'; right; split; [intros HG; now apply Hb in HG|exact H']|]. intros [(HG & _)|(_ & H')]; [now apply Hb in HG|exact H'].
Qed.
Lemma first_type_other a La r : agree_all a La -> (forall name, r <> Ok (Some name)) ->
  (first_type (a ++ [(last, f)]) s q = r <-> none_of La s /\ bind (f s q) (fun b => if b then Ok (Some last) else Ok None) = r).
Proof.
  intros H Hr. induction H as [|[n g] [n' G] a La (E & b & Eb & Hb) H IH]; cbn [app first_type].
  - split; [|now intros (_ & H)]. intros H. split; [intros m R []|exact H].
  - cbn [fst snd] in *. subst n'. rewrite Eb. cbn [bind]. rewrite none_of_cons. destruct b.
    + split; [intros H'; now destruct (Hr n)|]. intros ((HG & _) & _). destruct HG. now apply Hb.
    + rewrite IH. split; [intros (H1 & H2); repeat split; auto; intros HG; now apply Hb in HG|tauto].
Qed.
End First.

Section All.
Variable U : unidata.
Local Notation cat := (u_cat U).
Local Notation strip := (strip U).
Hypothesis sane : sane_categories cat.
Hypothesis isdigit_ok : forall c, digit cat c -> u_isdigit U c = true.

Definition reads_json (s : str) : Prop := exists v, loads (u_maxdigits U) (u_depth U) s = Ok v.
Definition types (q : bool) : list (string * (str -> Prop)) := cell_types cat strip (u_ws U) (u_lower U) reads_json q.

Lemma braces_iff s : starts_with (s2l "{") s && ends_with (s2l "}") s = true <-> in_braces s.
Proof. unfold in_braces. rewrite andb_true_iff, starts_with_iff. change (s2l "}") with [125]. now rewrite ends_with_one. Qed.
Lemma is_json_true s : is_json_obj U s = Ok true <-> in_braces s /\ reads_json s.
Proof.
  unfold is_json_obj, reads_json. rewrite <- braces_iff. destruct (starts_with (s2l "{") s && ends_with (s2l "}") s)%bool.
  - destruct (loads (u_maxdigits U) (u_depth U) s) as [v|x]; [split; [eauto|reflexivity]|].
    split; [now destruct x|]. intros (_ & v & [=]).
  - split; [discriminate|]. now intros ([=] & _).
Qed.
Lemma is_nan_iff s : is_nan U s = true <-> missing (u_lower U) s.
Proof.
  unfold is_nan, missing. rewrite existsb_exists. split.
  - intros (x & Hx & E). apply str_eqb_eq in E. now rewrite E.
  - intros H. exists (u_lower U s). split; [exact H|]. now apply str_eqb_eq.
Qed.
Lemma is_bytearray_iff s : is_bytearray s = true <-> a_bytearray s.
Proof. unfold is_bytearray, a_bytearray. rewrite andb_true_iff, starts_with_iff. change (s2l ")") with [41]. now rewrite ends_with_one. Qed.

Lemma tests_agree s q : s = strip s ->
  exists a La f P, type_tests U = a ++ [("json"%string, f)] /\ types q = La ++ [("json"%string, P)] /\ agree_all s q a La /\
    f s q = is_json_obj U s /\ (f s q = Ok true <-> P s) /\ (forall n, In n (map fst La) -> n <> "json"%string).
Proof.
  intros Hs. eexists (firstn 14 (type_tests U)), (firstn 14 (types q)), (fun cell _ => is_json_obj U cell), (fun s => in_braces s /\ reads_json s).
  split; [reflexivity|split; [reflexivity|split; [|split; [reflexivity|split; [apply is_json_true|]]]]].
  2:{ intros n. cbn. intuition (subst; discriminate). }
  cbn [firstn type_tests types cell_types]. repeat (constructor; [split; [reflexivity|]; cbn [snd]; eexists; split; [reflexivity|]|]).
  15: constructor.
  - unfold is_empty. apply str_eqb_eq.
  - rewrite is_url_iff by exact sane. now rewrite <- Hs.
  - rewrite is_email_iff. now rewrite <- Hs.
  - rewrite is_ipv4_iff. now rewrite <- Hs.
  - rewrite is_number_iff by exact sane. now rewrite <- Hs.
  - rewrite is_time_iff by assumption. now rewrite <- Hs.
  - now apply is_percentage_iff.
  - now apply is_currency_iff.
  - rewrite is_path_iff. now rewrite <- Hs.
  - apply is_nan_iff.
  - rewrite is_date_iff by assumption. now rewrite <- Hs.
  - now apply is_datetime_iff.
  - rewrite is_text_iff. now rewrite <- Hs.
  - apply is_bytearray_iff.
Qed.

Theorem detect_type_some cell q name : detect_type U cell q = Ok (Some name) <-> first_of (types q) (strip cell) name.
Proof.
  destruct (tests_agree (strip cell) q) as (a & La & f & P & E1 & E2 & Ha & _ & Hf & _); [symmetry; apply strip_strip|].
  unfold detect_type. rewrite E1, E2. now apply first_type_some.
Qed.
Lemma none_of_app L n P s : none_of (L ++ [(n, P)]) s <-> none_of L s /\ ~ P s.
Proof.
  split.
  - intros H. split; [intros m R HR; apply (H m R), in_or_app; now left|]. apply (H n P), in_or_app. right. now left.
  - intros (H1 & H2) m R HR. apply in_app_or in HR as [HR|[[= <- <-]|[]]]; [now apply (H1 m R)|exact H2].
Qed.
Theorem detect_type_none cell q :
  detect_type U cell q = Ok None <->
  none_of (types q) (strip cell) /\ (in_braces (strip cell) -> loads (u_maxdigits U) (u_depth U) (strip cell) = Err JSONDecodeError).
Proof.
  destruct (tests_agree (strip cell) q) as (a & La & f & P & E1 & E2 & Ha & Ef & Hf & _); [symmetry; apply strip_strip|].
  unfold detect_type. rewrite E1, E2, none_of_app, (first_type_other _ _ _ f P Hf a La) by (auto; discriminate). rewrite <- Hf, Ef.
  unfold is_json_obj. rewrite <- braces_iff. destruct (starts_with (s2l "{") (strip cell) && ends_with (s2l "}") (strip cell))%bool; cbn [bind].
  - destruct (loads (u_maxdigits U) (u_depth U) (strip cell)) as [v|x]; cbn [bind].
    + split; [easy|]. intros ((_ & H) & _). now destruct H.
    + split.
      * intros (H & Hx). destruct x; try discriminate. split; [split; [exact H|discriminate]|]. reflexivity.
      * intros ((H & _) & Hx). specialize (Hx eq_refl). injection Hx as ->. auto.
  - split; [intros (H & _); repeat split; auto; discriminate|tauto].
Qed.
Theorem detect_type_err cell q x :
  detect_type U cell q = Err x <->
  none_of (types q) (strip cell) /\ in_braces (strip cell) /\
  loads (u_maxdigits U) (u_depth U) (strip cell) = Err x /\ x <> JSONDecodeError.
Proof.
  destruct (tests_agree (strip cell) q) as (a & La & f & P & E1 & E2 & Ha & Ef & Hf & _); [symmetry; apply strip_strip|].
  unfold detect_type. rewrite E1, E2, none_of_app, (first_type_other _ _ _ f P Hf a La) by (auto; discriminate). rewrite <- Hf, Ef.
  unfold is_json_obj. rewrite <- braces_iff. destruct (starts_with (s2l "{") (strip cell) && ends_with (s2l "}") (strip cell))%bool; cbn [bind].
  - destruct (loads (u_maxdigits U) (u_depth U) (strip cell)) as [v|y]; cbn [bind].
    + split; [easy|]. intros (_ & _ & [=] & _).
    + split.
      * intros (H & Hx). destruct y; cbn [bind] in Hx; try discriminate; injection Hx as <-; repeat split; auto; discriminate.
      * intros ((H & _) & _ & [= ->] & Hx). split; [exact H|]. now destruct x.
  - split; [easy|]. now intros (_ & [=] & _).
Qed.
Lemma detect_type_errors cell q x : detect_type U cell q = Err x -> x = ValueError \/ x = RecursionError.
Proof.
  intros H. apply detect_type_err in H as (_ & _ & H & Hx). apply loads_errors in H as [->|[->| ->]]; [contradiction|now left|now right].
Qed.

Lemma detect_type_strip cell q : detect_type U (strip cell) q = detect_type U cell q.
Proof. unfold detect_type. now rewrite strip_strip. Qed.

Lemma first_of_in L s name : first_of L s name -> exists P, In (name, P) L /\ P s.
Proof. intros (a & P & b & -> & HP & _). exists P. split; [apply in_elt|exact HP]. Qed.
Lemma known_true cell q : is_known_type U cell q = Ok true <-> exists name, detect_type U cell q = Ok (Some name).
Proof.
  unfold is_known_type. destruct (detect_type U cell q) as [[n|]|x]; cbn [bind].
  - split; [eauto|reflexivity].
  - split; [discriminate|now intros (n & [=])].
  - split; [discriminate|now intros (n & [=])].
Qed.
Theorem is_known_iff cell q : is_known_type U cell q = Ok true <-> exists name P, In (name, P) (types q) /\ P (strip cell).
Proof.
  rewrite known_true. split.
  - intros (n & H). apply detect_type_some, first_of_in in H as (P & H). eauto.
  - intros (n & P & Hi & HP). destruct (detect_type U cell q) as [[m|]|x] eqn:E; [eauto| |].
    + apply detect_type_none in E as (E & _). now destruct (E n P Hi).
    + apply detect_type_err in E as (E & _). now destruct (E n P Hi).
Qed.
Theorem quoting_keeps_known cell : is_known_type U cell false = Ok true -> is_known_type U cell true = Ok true.
Proof.
  rewrite !is_known_iff. intros (n & P & Hi & HP).
  assert (H : In (n, P) (types true) \/ P = a_text cat false).
  { repeat (destruct Hi as [Hi|Hi]; [first [left; cbn; tauto | right; congruence]|]). destruct Hi. }
  destruct H as [H| ->]; [eauto|]. exists "unicode_alphanum"%string, (a_text cat true). split; [cbn; tauto|].
  destruct HP as (Hn & HP). split; [exact Hn|].
  eapply Forall_impl; [|exact HP]. unfold text_char. intros c Hc. destruct Hc as [H|[H|[H|[H|(H & _)]]]]; auto. discriminate.
Qed.
Lemma known_errors cell q x : is_known_type U cell q = Err x <-> detect_type U cell q = Err x.
Proof. unfold is_known_type. destruct (detect_type U cell q) as [t|y]; cbn [bind]; split; congruence. Qed.
End All.
