(** * VerboseFacts: verbose mode changes nothing but the output *)
From Coq Require Import String SpecFloat Permutation Sorting.Sorted Reals Lra.
From Verif Require Import Base Parser Dialect CsvLib Reader Writer Files Wrappers Standardize Potential Floats Ties Consistency NormalForm Detect Json Codegen Console.
From Verif Require Import SpecPotential PotentialFacts MaskedFacts SpecConsistency FloatFacts TypeFacts TieFacts DetectFacts Verbose SpecVerbose.
Open Scope N_scope.
Local Notation len := List.length.

(** ** One line *)
Lemma say_quiet A stdout line (k : list str * res pyexc A) : say stdout false line k = k.
Proof. reflexivity. Qed.
Lemma repr_long printable d : (15 <= len (dialect_repr printable d))%nat.
Proof. unfold dialect_repr. rewrite app_length. change (len (s2l "SimpleDialect(")) with 14%nat. rewrite !app_length. cbn [len s2l]. change (len (s2l ", ")) with 2%nat. lia. Qed.
Lemma rjust_long n s : (n <= len s)%nat -> rjust n s = s.
Proof. intros H. unfold rjust. replace (n - len s)%nat with 0%nat by lia. reflexivity. Qed.
Lemma skip_text_line printable f6 d P : skip_text printable f6 d P = dialect_line printable f6 d P None.
Proof. unfold skip_text. rewrite (rjust_long _ _ (repr_long printable d)). unfold dialect_line, columns. cbn [map List.concat]. rewrite <- !app_assoc. reflexivity. Qed.
Lemma score_text_line printable f6 d P T Q : score_text printable f6 d P T Q = dialect_line printable f6 d P (Some (T, Q)).
Proof.
  unfold score_text. rewrite (rjust_long _ _ (repr_long printable d)). unfold dialect_line, columns. cbn [map List.concat].
  rewrite app_nil_r, <- !app_assoc. cbn [app]. rewrite <- !app_assoc. reflexivity.
Qed.

Section Runs.
Variable cat : N -> str.
Variable url : str -> str -> option nat.
Variable known : str -> bool -> res pyexc bool.
Variable O : orders.
Variable o_set : list SimpleDialect -> list SimpleDialect.
Variable printable : N -> bool.
Variable f6 : float -> str.

Notation loop_v := (scores_loop_v known printable f6).
Notation det_v := (detect_v cat url known O o_set printable f6).
Notation normal_v := (normal_v cat).
Notation full_v := (detector_detect_v cat url known O o_set printable f6).

(** ** Without verbose *)
Lemma loop_quiet stdout limit capacity skip data ds : forall inc m c,
  loop_v stdout false limit capacity skip data ds inc m c = ([], scores_loop known limit capacity skip data ds inc m c).
Proof.
  induction ds as [|d ds IH]; intros inc m c; [reflexivity|]. cbn [scores_loop_v scores_loop]. destruct (pattern_score data d) as [P|x]; [|reflexivity]. cbn [bind].
  rewrite !say_quiet. destruct (fltb P inc && skip); [apply IH|]. destruct (compute_type_score known limit capacity data d c) as [[T c']|x]; [|reflexivity]. cbn [bind]. rewrite say_quiet. apply IH.
Qed.
Lemma detect_quiet stdout capacity skip data user old :
  det_v stdout false capacity skip data user old = ([], detect cat url known O o_set capacity skip data user old).
Proof.
  unfold detect_v, detect, compute_consistency_scores. destruct (get_dialects cat url O utf8 data user false) as [L|x]; [|reflexivity].
  destruct (py_sorted L) as [ds|x]; [|reflexivity]. cbn [bind]. rewrite loop_quiet.
  destruct (bind (scores_loop _ _ _ _ _ _ _ _ _) _); reflexivity.
Qed.
Lemma normal_quiet stdout data user : normal_v stdout false data user = ([], detect_dialect_normal cat data utf8 user).
Proof.
  unfold Verbose.normal_v, detect_dialect_normal. destruct (any_escapechar _ _ _ _) as [[|]|x]; [reflexivity| |reflexivity]. cbn [bind].
  destruct (find _ _) as [[[k d] q]|]; reflexivity.
Qed.
Lemma detector_quiet stdout sample user method skip s :
  full_v stdout false sample user method skip s = ([], detector_detect cat url known O o_set sample user method skip s).
Proof.
  unfold detector_detect_v, detector_detect. destruct (match method with MStr _ => _ | MEnum _ => _ | MOther => _ end) as [m|x]; [|reflexivity].
  rewrite !say_quiet, normal_quiet. cbn zeta.
  destruct (_ || _).
  - destruct (detect_dialect_normal cat sample utf8 user) as [[d|]|x]; try reflexivity. rewrite detect_quiet. now destruct (detect _ _ _ _ _ _ _ _ _ _).
  - rewrite detect_quiet. now destruct (detect _ _ _ _ _ _ _ _ _ _).
Qed.

(** ** With verbose: the lines up to the first that is refused *)
Section Cut.
Variable stdout : str -> option pyexc.
(** [k] is what the function does when standard output takes everything. *)
Definition cut {A} (k k' : list str * res pyexc A) : Prop :=
  ((forall y, In y (fst k) -> stdout y = None) /\ k' = k) \/
  (exists a x, refused stdout (fst k) a x /\ k' = (a, Err x)).
Lemma cut_refl A (r : res pyexc A) : cut ([], r) ([], r).
Proof. left. split; [intros y []|reflexivity]. Qed.
Lemma cut_say A line (k k' : list str * res pyexc A) : cut k k' -> cut (say takes_all true line k) (say stdout true line k').
Proof.
  intros H. unfold say, takes_all. destruct (stdout line) as [x|] eqn:E.
  - right. exists [], x. split; [|reflexivity]. exists line, (fst k). split; [reflexivity|split; [intros y []|exact E]].
  - destruct H as [(H & ->)|(a & x & (l & b & H1 & H2 & H3) & ->)].
    + left. split; [|reflexivity]. intros y [<-|Hy]; [exact E|now apply H].
    + right. exists (line :: a), x. split; [|reflexivity]. exists l, b. split; [cbn [fst]; rewrite H1; reflexivity|split; [|exact H3]].
      intros y [<-|Hy]; [exact E|now apply H2].
Qed.
Lemma loop_cut limit capacity skip data ds : forall inc m c,
  cut (loop_v takes_all true limit capacity skip data ds inc m c) (loop_v stdout true limit capacity skip data ds inc m c).
Proof.
  induction ds as [|d ds IH]; intros inc m c; [apply cut_refl|]. cbn [scores_loop_v]. destruct (pattern_score data d) as [P|x]; [|apply cut_refl].
  destruct (fltb P inc && skip); [apply cut_say, IH|]. destruct (compute_type_score known limit capacity data d c) as [[T c']|x]; [|apply cut_refl]. apply cut_say, IH.
Qed.
Lemma normal_cut data user : cut (normal_v takes_all true data user) (normal_v stdout true data user).
Proof.
  unfold Verbose.normal_v. destruct (any_escapechar _ _ _ _) as [[|]|x]; [apply cut_say, cut_refl| |apply cut_refl].
  destruct (find _ _) as [[[k d] q]|]; apply cut_say, cut_refl.
Qed.
End Cut.

Lemma loop_all limit capacity skip data ds : forall inc m c,
  snd (loop_v takes_all true limit capacity skip data ds inc m c) = scores_loop known limit capacity skip data ds inc m c.
Proof.
  induction ds as [|d ds IH]; intros inc m c; [reflexivity|]. cbn [scores_loop_v scores_loop]. destruct (pattern_score data d) as [P|x]; [|reflexivity]. cbn [bind].
  destruct (fltb P inc && skip); [apply IH|]. destruct (compute_type_score known limit capacity data d c) as [[T c']|x]; [|reflexivity]. apply IH.
Qed.
Lemma normal_all data user : snd (normal_v takes_all true data user) = detect_dialect_normal cat data utf8 user.
Proof.
  unfold Verbose.normal_v, detect_dialect_normal. destruct (any_escapechar _ _ _ _) as [[|]|x]; [reflexivity| |reflexivity]. cbn [bind].
  destruct (find _ _) as [[[k d] q]|]; reflexivity.
Qed.
Lemma detect_all capacity skip data user old :
  snd (det_v takes_all true capacity skip data user old) = detect cat url known O o_set capacity skip data user old.
Proof.
  unfold detect_v, detect, compute_consistency_scores. destruct (get_dialects cat url O utf8 data user false) as [L|x]; [|reflexivity].
  destruct (py_sorted L) as [ds|x]; [|reflexivity]. cbn [bind].
  match goal with |- context [loop_v takes_all true ?l ?c ?s ?d ?e ?i ?m ?k] => pose proof (loop_all l c s d e i m k) as E; destruct (loop_v takes_all true l c s d e i m k) as [ls r] end.
  cbn [snd] in E. rewrite E. destruct (bind (scores_loop _ _ _ _ _ _ _ _ _) _); reflexivity.
Qed.
(** Refused lines leave the limit changed. *)
Lemma detect_cut stdout capacity skip data user old :
  let all := det_v takes_all true capacity skip data user old in
  ((forall y, In y (fst all) -> stdout y = None) /\ det_v stdout true capacity skip data user old = all) \/
  (exists a x, refused stdout (fst all) a x /\ det_v stdout true capacity skip data user old = (a, (Err x, (Z.of_nat (len data) + 1)%Z))).
Proof.
  cbv zeta. unfold detect_v. destruct (get_dialects cat url O utf8 data user false) as [L|x]; [|left; split; [intros y []|reflexivity]].
  destruct (py_sorted L) as [ds|x]; [|left; split; [intros y []|reflexivity]].
  match goal with |- context [loop_v takes_all true ?l ?c ?s ?d ?e ?i ?m ?k] => pose proof (loop_cut stdout l c s d e i m k) as C; destruct (loop_v takes_all true l c s d e i m k) as [ls r] end.
  destruct C as [(H & ->)|(a & x & H & ->)].
  - left. split; [|reflexivity]. destruct (bind r _); exact H.
  - right. exists a, x. split; [|reflexivity]. destruct (bind r _); exact H.
Qed.

Lemma refused_app stdout l1 l2 a x : (forall y, In y l1 -> stdout y = None) -> refused stdout l2 a x -> refused stdout (l1 ++ l2) (l1 ++ a) x.
Proof.
  intros H (l & b & -> & H2 & H3). exists l, b. split; [now rewrite <- app_assoc|split; [|exact H3]]. intros y Hy. apply in_app_or in Hy as [Hy|Hy]; auto.
Qed.
Lemma refused_more stdout l1 l2 a x : refused stdout l1 a x -> refused stdout (l1 ++ l2) a x.
Proof. intros (l & b & -> & H2 & H3). exists l, (b ++ l2). split; [now rewrite <- app_assoc|auto]. Qed.

(** The whole detection. *)
Lemma detector_all sample user method skip s :
  snd (full_v takes_all true sample user method skip s) = detector_detect cat url known O o_set sample user method skip s.
Proof.
  unfold detector_detect_v, detector_detect. destruct (match method with MStr _ => _ | MEnum _ => _ | MOther => _ end) as [m|x]; [|reflexivity]. cbn zeta.
  pose proof (normal_all sample user) as EN. pose proof (detect_all 100000 skip sample user (st_limit s)) as ED.
  destruct (normal_v takes_all true sample user) as [l1 r1]. cbn [snd] in EN. subst r1. destruct (det_v takes_all true 100000 skip sample user (st_limit s)) as [l3 [r3 z3]]. cbn [snd] in ED.
  destruct (_ || _); cbn [say takes_all fst snd].
  - destruct (detect_dialect_normal cat sample utf8 user) as [[d|]|x]; try reflexivity. now rewrite <- ED.
  - now rewrite <- ED.
Qed.
Lemma detector_cut stdout sample user method skip s :
  let all := full_v takes_all true sample user method skip s in
  ((forall y, In y (fst all) -> stdout y = None) /\ full_v stdout true sample user method skip s = all) \/
  (exists a x s', refused stdout (fst all) a x /\ full_v stdout true sample user method skip s = (a, (Err x, s')) /\
     (st_limit s' = st_limit s \/ st_limit s' = Z.of_nat (len sample) + 1)%Z).
Proof.
  cbv zeta. unfold detector_detect_v. destruct (match method with MStr _ => _ | MEnum _ => _ | MOther => _ end) as [m|x]; [|left; split; [intros y []|reflexivity]]. cbn zeta.
  set (first := if _ || _ then say takes_all true _ _ else _). set (first' := if _ || _ then say stdout true _ _ else _).
  assert (C : cut stdout first first').
  { unfold first, first'. destruct (_ || _); [apply cut_say, normal_cut|apply cut_refl]. }
  clearbody first first'. destruct first as [l1 r1]. cbn [say takes_all fst snd]. destruct C as [(H1 & ->)|(a & x & H1 & ->)].
  - cbn [fst] in H1. destruct r1 as [[d|]|x]; [left; auto| |left; auto].
    change (s2l "Running data consistency measure ...") with running_consistency.
    pose proof (detect_cut stdout 100000 skip sample user (st_limit s)) as C. cbv zeta in C. destruct (det_v takes_all true 100000 skip sample user (st_limit s)) as [l3 [r3 z3]]. cbn [fst] in C |- *.
    unfold say. destruct (stdout running_consistency) as [x|] eqn:E.
    + right. exists l1, x, (mk_state (Some CONSISTENCY) (st_limit s)). split; [|split; [now rewrite app_nil_r|now left]].
      exists running_consistency, l3. auto.
    + cbn [fst snd]. destruct C as [(H3 & ->)|(a & x & H3 & ->)].
      * left. split; [|reflexivity]. intros y Hy. apply in_app_or in Hy as [Hy|[<-|Hy]]; auto.
      * right. exists (l1 ++ [running_consistency] ++ a), x, (mk_state (Some CONSISTENCY) (Z.of_nat (len sample) + 1)). split; [|split; [reflexivity|now right]].
        rewrite !app_assoc. apply refused_app; [|exact H3]. intros y Hy. apply in_app_or in Hy as [Hy|[<-|[]]]; auto.
  - right. exists a, x, s. split; [|split; [reflexivity|now left]]. cbn [fst] in H1. destruct r1 as [[d|]|y]; cbn [fst]; try exact H1.
    destruct (det_v takes_all true 100000 skip sample user (st_limit s)) as [l3 [r3 z3]]. cbn [fst]. now apply refused_more.
Qed.

(** The message about the normal form. *)
Lemma normal_message_ok data user r : detect_dialect_normal cat data utf8 user = Ok r ->
  exists line, fst (normal_v takes_all true data user) = [line] /\ normal_message (match user with None => DELIMS | Some l => l end) line r.
Proof.
  unfold Verbose.normal_v, detect_dialect_normal. set (delims := match user with None => DELIMS | Some l => l end).
  destruct (any_escapechar _ _ _ _) as [[|]|x]; [| |discriminate]; cbn [bind].
  - intros [= <-]. eexists. split; [reflexivity|]. constructor.
  - destruct (find _ _) as [[[k d] q]|] eqn:E; intros [= <-]; (eexists; split; [reflexivity|]); [|constructor].
    apply find_some in E as (E & _). unfold forms in E. apply in_app_or in E as [E|E].
    { apply in_map_iff in E as (d' & [= <- <- <-] & Hd). now constructor. }
    apply in_app_or in E as [E|E].
    { apply in_flat_map in E as ((d' & q') & Hp & E). apply in_prod_iff in Hp as (Hd & Hq).
      assert (Hq2 : In q' [[34]; [39]]) by (destruct Hq as [<-|[<-|[]]]; cbn; tauto).
      destruct E as [[= <- <- <-]|[[= <- <- <-]|[[= <- <- <-]|[]]]];
        [apply (nm_135 delims "1")|apply (nm_135 delims "3")|apply (nm_135 delims "5")]; auto; cbn; tauto. }
    apply in_app_or in E as [E|E].
    { apply in_map_iff in E as (q' & [= <- <- <-] & Hq). constructor. destruct Hq as [<-|[<-|[]]]; cbn; tauto. }
    destruct E as [[= <- <- <-]|[]]. constructor. cbn. tauto.
Qed.

(** All messages of a detection that looks for normal forms. *)
Lemma detector_messages sample user m skip s : m = NORMAL \/ m = AUTO ->
  let lines := fst (full_v takes_all true sample user (MEnum m) skip s) in
  match detect_dialect_normal cat sample utf8 user with
  | Err _ => lines = [running_normal]
  | Ok r => exists line, normal_message (match user with None => DELIMS | Some l => l end) line r /\
      match r with
      | Some _ => lines = [running_normal; line]
      | None => lines = [running_normal; line; running_consistency] ++ fst (det_v takes_all true 100000 skip sample user (st_limit s))
      end
  end.
Proof.
  intros Hm. cbv zeta. pose proof (normal_all sample user) as EN. pose proof (normal_message_ok sample user) as HM.
  assert (EX : forall x, detect_dialect_normal cat sample utf8 user = Err x -> fst (normal_v takes_all true sample user) = []).
  { unfold Verbose.normal_v, detect_dialect_normal. intros x. destruct (any_escapechar _ _ _ _) as [[|]|y]; cbn [bind]; [discriminate| |reflexivity].
    destruct (find _ _) as [[[k d] q]|]; discriminate. }
  unfold detector_detect_v. replace (bind (dmethod_of_str (dmethod_value m)) (fun m => Ok (Some m))) with (@Ok pyexc _ (Some m)) by (destruct m; reflexivity). cbn zeta.
  replace (dmethod_eqb m NORMAL || dmethod_eqb m AUTO) with true by (destruct Hm as [-> | ->]; reflexivity).
  destruct (normal_v takes_all true sample user) as [l1 r1]. cbn [fst snd] in *. subst r1. cbn [say takes_all fst snd].
  destruct (detect_dialect_normal cat sample utf8 user) as [r|x].
  - destruct (HM r eq_refl) as (line & -> & H). exists line. split; [exact H|]. destruct r as [d|]; [reflexivity|].
    destruct (det_v takes_all true 100000 skip sample user (st_limit s)) as [l3 [r3 z3]]. reflexivity.
  - now rewrite (EX x eq_refl).
Qed.
Lemma detector_messages_consistency sample user skip s :
  fst (full_v takes_all true sample user (MEnum CONSISTENCY) skip s) = running_consistency :: fst (det_v takes_all true 100000 skip sample user (st_limit s)).
Proof. unfold detector_detect_v. cbn. destruct (detect_v _ _ _ _ _ _ _ _ _ _ _ _ _ _) as [l3 [r3 z3]]. reflexivity. Qed.
End Runs.
