(** * ArgMeaning: what the parts of a command line add up to *)
From Coq Require Import String Lia.
From Verif Require Import Base Json ArgParse SpecArgs ArgLoop ArgWords ArgLines.
Open Scope nat_scope.

Definition given_s (items : list item) (l : str) : bool :=
  existsb (fun i => match i with Flags ls => existsb (str_eqb l) ls | _ => false end) items.
Definition values_s (items : list item) (l : str) : list str :=
  flat_map (fun i => match i with Value l' v => if str_eqb l l' then [v] else [] | _ => [] end) items.

Lemma get_set {A} k (v : A) d : dict_get k (dict_set k v d) = Some v.
Proof.
  unfold dict_get. induction d as [|[k' v'] d IH]; simpl.
  - now rewrite str_eqb_refl.
  - destruct (str_eqb k k') eqn:E; simpl.
    + apply str_eqb_eq in E. subst. now rewrite str_eqb_refl.
    + replace (str_eqb k' k) with false; [exact IH|]. symmetry. apply str_eqb_neq. apply str_eqb_neq in E. congruence.
Qed.
Lemma get_set_other {A} k k' (v : A) d : k <> k' -> dict_get k' (dict_set k v d) = dict_get k' d.
Proof.
  intros H. unfold dict_get. induction d as [|[k0 v0] d IH]; simpl.
  - apply str_eqb_neq in H. now rewrite H.
  - destruct (str_eqb k k0) eqn:E; simpl.
    + apply str_eqb_eq in E. subst. apply str_eqb_neq in H. now rewrite H.
    + destruct (str_eqb k0 k'); [reflexivity|exact IH].
Qed.
Lemma map_inj {A B} (f : A -> B) l a b : NoDup (map f l) -> In a l -> In b l -> f a = f b -> a = b.
Proof.
  induction l as [|x l IH]; simpl; [easy|]. intros HN [->|Ha] [->|Hb] E; inversion HN; subst; [reflexivity| | |now apply IH].
  - destruct H1. rewrite E. now apply in_map.
  - destruct H1. rewrite <- E. now apply in_map.
Qed.

Section Meaning.
Variables (int_of : str -> option Z) (P : parser).
Hypothesis G : good P.
Hypothesis X : forall l, In l (p_exclusive P) -> exists o, In o (p_options P) /\ o_long o = l /\ arity o = 0.


Section Exec.
Variable k : state -> parsed.
Let exec := exec int_of P k.

Lemma dest_inj o o' : In o (p_options P) -> In o' (p_options P) -> dest (o_long o) = dest (o_long o') -> o = o'.
Proof.
  intros H H' E. pose proof (g_dest P G) as HN. inversion HN; subst.
  exact (map_inj (fun o => dest (o_long o)) (p_options P) o o' H3 H H' E).
Qed.
Lemma dest_path o : In o (p_options P) -> s2l "path" <> dest (o_long o).
Proof.
  intros H E. pose proof (g_dest P G) as HN. inversion HN; subst. apply H2. rewrite E.
  now apply (in_map (fun o => dest (o_long o))).
Qed.
Lemma long_inj o o' : In o (p_options P) -> In o' (p_options P) -> o_long o = o_long o' -> o = o'.
Proof. intros H H' E. apply dest_inj; [assumption..|now rewrite E]. Qed.

(** *** One flag per part *)
Definition flat (items : list item) : list item :=
  flat_map (fun i => match i with Flags ls => map (fun l => Flags [l]) ls | i => [i] end) items.
Lemma exec_flags ls rest : forall st, exec st (map (fun l => Flags [l]) ls ++ rest) =
  match take_options int_of P st (acts P (Flags ls)) with inl r => r | inr st' => exec st' rest end.
Proof.
  induction ls as [|l ls IH]; intros st; [reflexivity|].
  change (exec st (map (fun l => Flags [l]) (l :: ls) ++ rest)) with
    (match take_options int_of P st (acts P (Flags [l])) with inl r => r | inr st' => exec st' (map (fun l => Flags [l]) ls ++ rest) end).
  change (acts P (Flags (l :: ls))) with (match opt_of P l with Some o => [(o, [])] | None => [] end ++ acts P (Flags ls)).
  change (acts P (Flags [l])) with (match opt_of P l with Some o => [(o, @nil str)] | None => [] end ++ []).
  destruct (opt_of P l) as [o|]; simpl.
  - destruct (take_option int_of P st o []) as [r|st']; [reflexivity|]. apply IH.
  - apply IH.
Qed.
Lemma exec_flat items : forall st, exec st items = exec st (flat items).
Proof.
  induction items as [|i items IH]; intros st; [reflexivity|]. destruct i as [ws|ls|l v].
  - apply IH.
  - change (flat (Flags ls :: items)) with (map (fun l => Flags [l]) ls ++ flat items). rewrite exec_flags.
    change (exec st (Flags ls :: items)) with
      (match take_options int_of P st (acts P (Flags ls)) with inl r => r | inr st' => exec st' items end).
    destruct (take_options _ _ _ _); [reflexivity|apply IH].
  - change (exec st (Value l v :: items)) with
      (match take_options int_of P st (acts P (Value l v)) with inl r => r | inr st' => exec st' items end).
    change (exec st (flat (Value l v :: items))) with
      (match take_options int_of P st (acts P (Value l v)) with inl r => r | inr st' => exec st' (flat items) end).
    destruct (take_options _ _ _ _); [reflexivity|apply IH].
Qed.
Lemma given_flat items l : given_s (flat items) l = given_s items l.
Proof.
  induction items as [|i items IH]; [reflexivity|]. unfold flat, given_s in *. simpl. rewrite existsb_app, IH. f_equal.
  destruct i as [ws|ls|l' v]; [reflexivity| |reflexivity].
  induction ls as [|l0 ls IH']; simpl; [reflexivity|]. rewrite IH'. now rewrite orb_false_r.
Qed.
Lemma values_flat items l : values_s (flat items) l = values_s items l.
Proof.
  induction items as [|i items IH]; [reflexivity|]. unfold flat, values_s in *. simpl. rewrite flat_map_app, IH. f_equal.
  destruct i as [ws|ls|l' v]; [reflexivity| |simpl; apply app_nil_r].
  induction ls as [|l0 ls IH']; simpl; [reflexivity|exact IH'].
Qed.
Lemma files_flat items : files (flat items) = files items.
Proof.
  induction items as [|i items IH]; [reflexivity|]. unfold flat, files in *. simpl. rewrite flat_map_app, IH. f_equal.
  destruct i as [ws|ls|l' v]; [reflexivity| |reflexivity].
  induction ls as [|l0 ls IH']; simpl; [reflexivity|exact IH'].
Qed.

(** *** The parts of a line *)
Definition item_ok (i : item) : Prop :=
  match i with
  | Paths ws => ws <> []
  | Flags ls => forall l, In l ls -> exists o, In o (p_options P) /\ o_long o = l /\ arity o = 0
  | Value l v => exists o, In o (p_options P) /\ o_long o = l /\ arity o = 1
  end.
Definition single (i : item) : Prop := match i with Flags ls => exists l, ls = [l] | _ => True end.
Lemma spelled_ok digit i ws : spelled digit (sheet_of P) i ws -> item_ok i.
Proof.
  assert (H1 : forall c l, In (c, l, true) (sheet_of P) -> exists o, In o (p_options P) /\ o_long o = l /\ arity o = 1).
  { intros c l H. destruct (in_sheet P _ _ _ H) as (o & Ho & _ & Hl & Ha). now exists o. }
  assert (H0 : forall c l, In (c, l, false) (sheet_of P) -> exists o, In o (p_options P) /\ o_long o = l /\ arity o = 0).
  { intros c l H. destruct (in_sheet P _ _ _ H) as (o & Ho & _ & Hl & Ha). now exists o. }
  intros [a Ha _|c l q Hl _|cs ls _ HF|c l q v Hl _ _|c l q v Hl _|c l v Hl _|c l d v Hl _]; simpl; eauto.
  - intros l' [<-|[]]. eauto.
  - intros l Hl. clear -HF H0 Hl. induction HF; [easy|]. destruct Hl as [<-|Hl]; [eauto|now apply IHHF].
Qed.
Lemma line_ok digit items ws : line digit (sheet_of P) items ws -> Forall item_ok items.
Proof. induction 1; constructor; [now apply (spelled_ok digit i ws)|assumption]. Qed.
Lemma flat_ok items : Forall item_ok items -> Forall item_ok (flat items) /\ Forall single (flat items).
Proof.
  induction 1 as [|i items Hi _ [IH1 IH2]]; [split; constructor|]. unfold flat. simpl. rewrite !Forall_app.
  enough (H : Forall item_ok (match i with Flags ls => map (fun l => Flags [l]) ls | _ => [i] end) /\
              Forall single (match i with Flags ls => map (fun l => Flags [l]) ls | _ => [i] end)) by tauto.
  destruct i as [ws|ls|l v]; [now repeat constructor| |now repeat constructor].
  simpl in Hi. induction ls as [|l ls IH]; [split; constructor|]. destruct IH as [I1 I2]; [intros; apply Hi; now right|].
  split; constructor; try assumption; simpl.
  - intros l' [<-|[]]. apply Hi. now left.
  - now exists l.
Qed.

(** *** Values *)
Definition value_of (o : opt) (items : list item) : avalue :=
  match o_kind o with
  | KFlag => ABool (given_s items (o_long o))
  | KStr => match latest (values_s items (o_long o)) with Some v => AStr v | None => ANone end
  | KInt => match latest (values_s items (o_long o)) with
            | Some v => match int_of v with Some z => AInt z | None => ANone end
            | None => ANone
            end
  | KAppend => AList (values_s items (o_long o))
  | KHelp => ANone
  end.
Definition bad_files (fs : list (list str)) : bool :=
  match fs with [] => false | [ps] => negb (p_many P) && negb (Nat.eqb (List.length ps) 1) | _ => true end.
Definition fine (items : list item) : Prop :=
  (forall o, In o (p_options P) -> o_kind o = KInt -> forall v, In v (values_s items (o_long o)) -> int_of v <> None) /\
  (forall l l', In l (p_exclusive P) -> In l' (p_exclusive P) -> given_s items l = true -> given_s items l' = true -> l = l').
Record related (st : state) (done : list item) : Prop := mk_related {
  r_vals : forall o, In o (p_options P) -> dict_get (dest (o_long o)) (st_ns st) = Some (value_of o done);
  r_path : match files done with
           | [] => st_path st = false
           | ps :: _ => st_path st = true /\ dict_get (s2l "path") (st_ns st) = Some (if p_many P then AList ps else AStr (hd [] ps))
           end;
  r_extra : st_extras st = bad_files (files done);
  r_seen : forall o, In o (p_options P) -> arity o = 0 -> (In (o_long o) (st_seen st) <-> given_s done (o_long o) = true);
  r_fine : fine done
}.
Lemma given_app a b l : given_s (a ++ b) l = given_s a l || given_s b l.
Proof. unfold given_s. apply existsb_app. Qed.
Lemma values_app a b l : values_s (a ++ b) l = values_s a l ++ values_s b l.
Proof. unfold values_s. apply flat_map_app. Qed.
Lemma files_app a b : files (a ++ b) = files a ++ files b.
Proof. unfold files. apply flat_map_app. Qed.
Lemma fine_prefix a b : fine (a ++ b) -> fine a.
Proof.
  intros [H1 H2]. split.
  - intros o Ho HK v Hv. apply (H1 o Ho HK). rewrite values_app. apply in_or_app. now left.
  - intros l l' Hl Hl' E E'. apply H2; [assumption..| |]; rewrite given_app; [now rewrite E|now rewrite E'].
Qed.
Lemma latest_app vs v : latest (vs ++ [v]) = Some v.
Proof. unfold latest. now rewrite rev_app_distr. Qed.

Lemma get_initial o : In o (p_options P) -> dict_get (dest (o_long o)) (initial P) = Some (default (o_kind o)).
Proof.
  intros Ho. apply find_unique.
  - unfold initial. simpl. rewrite map_map. simpl. exact (g_dest P G).
  - right. apply in_map_iff. now exists o.
Qed.
Lemma related_start : related (start P) [].
Proof.
  split; simpl; try easy.
  intros o Ho. rewrite (get_initial o Ho). unfold value_of, given_s, values_s. simpl. now destruct (o_kind o).
Qed.

Lemma step_paths st done ws : ws <> [] -> related st done -> related (paths_step P st ws) (done ++ [Paths ws]).
Proof.
  intros Hws [R1 R2 R3 R4 R5].
  assert (HG : forall l, given_s (done ++ [Paths ws]) l = given_s done l).
  { intros l. rewrite given_app. simpl. apply orb_false_r. }
  assert (HV : forall l, values_s (done ++ [Paths ws]) l = values_s done l).
  { intros l. rewrite values_app. simpl. apply app_nil_r. }
  assert (HO : forall o, value_of o (done ++ [Paths ws]) = value_of o done).
  { intros o. unfold value_of. now rewrite HG, HV. }
  assert (HF : fine (done ++ [Paths ws])).
  { destruct R5 as [F1 F2]. split.
    - intros o Ho HK v. rewrite HV. now apply F1.
    - intros l l' Hl Hl'. rewrite !HG. now apply F2. }
  assert (HX : forall v o, In o (p_options P) -> dict_get (dest (o_long o)) (dict_set (s2l "path") v (st_ns st)) = Some (value_of o done)).
  { intros v o Ho. rewrite get_set_other by now apply dest_path. now apply R1. }
  unfold paths_step. rewrite <- files_app in * || idtac. destruct (files done) as [|ps fs] eqn:EF.
  - rewrite R2. destruct (p_many P) eqn:EM.
    + split; simpl; try assumption.
      * intros o Ho. rewrite HO. now apply HX.
      * rewrite files_app, EF. simpl. rewrite EM. split; [reflexivity|apply get_set].
      * rewrite files_app, EF. simpl. rewrite EM. simpl. now rewrite R3.
      * intros o Ho Ha. rewrite HG. now apply R4.
    + destruct ws as [|w [|w' ws]]; [easy| |].
      * split; simpl; try assumption.
        -- intros o Ho. rewrite HO. now apply HX.
        -- rewrite files_app, EF. simpl. rewrite EM. split; [reflexivity|apply get_set].
        -- rewrite files_app, EF. simpl. rewrite EM. simpl. now rewrite R3.
        -- intros o Ho Ha. rewrite HG. now apply R4.
      * split; simpl; try assumption.
        -- intros o Ho. rewrite HO. now apply HX.
        -- rewrite files_app, EF. simpl. rewrite EM. split; [reflexivity|apply get_set].
        -- rewrite files_app, EF. simpl. now rewrite EM.
        -- intros o Ho Ha. rewrite HG. now apply R4.
  - destruct R2 as [R2 R2']. rewrite R2. split; simpl; try assumption.
    + intros o Ho. rewrite HO. now apply R1.
    + rewrite files_app, EF. simpl. now split.
    + rewrite files_app, EF. simpl. destruct fs; reflexivity.
    + intros o Ho Ha. rewrite HG. now apply R4.
Qed.

Lemma excl_false st done o : In o (p_options P) -> arity o = 0 -> related st done ->
  (forall l, In l (p_exclusive P) -> given_s done l = true -> In (o_long o) (p_exclusive P) -> l = o_long o) ->
  existsb (str_eqb (o_long o)) (p_exclusive P) &&
  existsb (fun x => negb (str_eqb x (o_long o)) && existsb (str_eqb x) (st_seen st)) (p_exclusive P) = false.
Proof.
  intros Ho Ha R H. apply not_true_iff_false. intros HT. apply andb_true_iff in HT as [H1 H2].
  apply existsb_exists in H1 as (l0 & HI0 & E0). apply str_eqb_eq in E0. subst l0.
  apply existsb_exists in H2 as (x & HI & E). apply andb_true_iff in E as [E1 E2].
  apply negb_true_iff, str_eqb_neq in E1. apply E1. apply H; [exact HI| |exact HI0].
  destruct (X x HI) as (ox & Hox & <- & Hax). apply (r_seen st done R ox Hox Hax).
  apply existsb_exists in E2 as (y & HY & EY). apply str_eqb_eq in EY. now subst.
Qed.
Lemma excl_true st done o l : In o (p_options P) -> arity o = 0 -> related st done ->
  In (o_long o) (p_exclusive P) -> In l (p_exclusive P) -> given_s done l = true -> l <> o_long o ->
  existsb (str_eqb (o_long o)) (p_exclusive P) &&
  existsb (fun x => negb (str_eqb x (o_long o)) && existsb (str_eqb x) (st_seen st)) (p_exclusive P) = true.
Proof.
  intros Ho Ha R HI Hl HG HN. apply andb_true_iff. split.
  - apply existsb_exists. exists (o_long o). split; [exact HI|apply str_eqb_refl].
  - apply existsb_exists. exists l. split; [exact Hl|]. apply andb_true_iff. split.
    + apply negb_true_iff. now apply str_eqb_neq.
    + destruct (X l Hl) as (ol & Hol & <- & Hal). apply existsb_exists. exists (o_long ol). split; [|apply str_eqb_refl].
      now apply (r_seen st done R ol Hol Hal).
Qed.

Lemma step_flag st done o : In o (p_options P) -> arity o = 0 -> related st done ->
  (exists st', take_option int_of P st o [] = inr st' /\ related st' (done ++ [Flags [o_long o]])) \/
  (take_option int_of P st o [] = inl Usage /\ ~ fine (done ++ [Flags [o_long o]])).
Proof.
  intros Ho Ha R. pose proof R as [R1 R2 R3 R4 R5]. set (done' := done ++ [Flags [o_long o]]).
  assert (HK : o_kind o = KFlag).
  { unfold arity in Ha. pose proof (g_kind P G o Ho). destruct (o_kind o); congruence. }
  assert (HG : forall l, given_s done' l = given_s done l || str_eqb l (o_long o)).
  { intros l. unfold done'. rewrite given_app. simpl. now rewrite !orb_false_r. }
  assert (HV : forall l, values_s done' l = values_s done l).
  { intros l. unfold done'. rewrite values_app. simpl. apply app_nil_r. }
  unfold take_option. rewrite HK.
  destruct (existsb (str_eqb (o_long o)) (p_exclusive P) &&
    existsb (fun x => negb (str_eqb x (o_long o)) && existsb (str_eqb x) (st_seen st)) (p_exclusive P)) eqn:EX.
  - right. split; [reflexivity|]. intros [_ F2]. apply andb_true_iff in EX as [H1 H2].
    apply existsb_exists in H1 as (l0 & HI0 & E0). apply str_eqb_eq in E0. subst l0.
    apply existsb_exists in H2 as (x & HI & E). apply andb_true_iff in E as [E1 E2].
    apply negb_true_iff, str_eqb_neq in E1. apply E1. apply F2; [assumption..| |].
    + rewrite HG. apply orb_true_iff. left. destruct (X x HI) as (ox & Hox & <- & Hax). apply (R4 ox Hox Hax).
      apply existsb_exists in E2 as (y & HY & EY). apply str_eqb_eq in EY. now subst.
    + rewrite HG, str_eqb_refl. apply orb_true_r.
  - left. eexists. split; [reflexivity|]. split; simpl.
    + intros o' Ho'. destruct (str_eqb (o_long o) (o_long o')) eqn:E.
      * apply str_eqb_eq in E. assert (o = o') by now apply long_inj. subst o'. rewrite get_set. f_equal.
        unfold value_of. rewrite HK, HG, str_eqb_refl. now rewrite orb_true_r.
      * apply str_eqb_neq in E. rewrite get_set_other by (intros ED; apply E; now rewrite (dest_inj o o' Ho Ho' ED)).
        rewrite R1 by exact Ho'. f_equal. unfold value_of. rewrite HG, !HV.
        replace (str_eqb (o_long o') (o_long o)) with false by (symmetry; apply str_eqb_neq; congruence).
        now rewrite orb_false_r.
    + unfold done'. rewrite files_app. simpl. rewrite app_nil_r. destruct (files done); [exact R2|].
      rewrite get_set_other; [exact R2|]. intros E. symmetry in E. now apply (dest_path o Ho).
    + unfold done'. rewrite files_app. simpl. now rewrite app_nil_r.
    + intros o' Ho' Ha'. rewrite HG. rewrite orb_true_iff. rewrite <- (R4 o' Ho' Ha'). rewrite str_eqb_eq.
      split; [intros [E|E]; [right; now symmetry|now left]|intros [E|E]; [now right|left; now symmetry]].
    + destruct R5 as [F1 F2]. split.
      * intros o' Ho' HK' v. rewrite HV. now apply F1.
      * assert (HC : forall l, In l (p_exclusive P) -> given_s done l = true -> In (o_long o) (p_exclusive P) -> l = o_long o).
        { intros l Hl HGl HI. destruct (str_eqb l (o_long o)) eqn:E; [now apply str_eqb_eq|]. apply str_eqb_neq in E.
          rewrite (excl_true st done o l Ho Ha R HI Hl HGl E) in EX. discriminate. }
        intros l l' Hl Hl'. rewrite !HG, !orb_true_iff, !str_eqb_eq. intros [E| ->] [E'| ->]; try reflexivity.
        -- now apply F2.
        -- now apply HC.
        -- symmetry. now apply HC.
Qed.
Lemma step_value st done o v : In o (p_options P) -> arity o = 1 -> related st done ->
  (exists st', take_option int_of P st o [v] = inr st' /\ related st' (done ++ [Value (o_long o) v])) \/
  (take_option int_of P st o [v] = inl Usage /\ ~ fine (done ++ [Value (o_long o) v])).
Proof.
  intros Ho Ha R. pose proof R as [R1 R2 R3 R4 R5]. set (done' := done ++ [Value (o_long o) v]).
  assert (HG : forall l, given_s done' l = given_s done l).
  { intros l. unfold done'. rewrite given_app. simpl. apply orb_false_r. }
  assert (HV : forall l, values_s done' l = values_s done l ++ (if str_eqb l (o_long o) then [v] else [])).
  { intros l. unfold done'. rewrite values_app. simpl. now rewrite app_nil_r. }
  assert (HV1 : values_s done' (o_long o) = values_s done (o_long o) ++ [v]) by now rewrite HV, str_eqb_refl.
  assert (HX : existsb (str_eqb (o_long o)) (p_exclusive P) = false).
  { apply not_true_iff_false. intros H. apply existsb_exists in H as (l & Hl & E). apply str_eqb_eq in E.
    destruct (X l Hl) as (o' & Ho' & Hl' & Ha'). rewrite (long_inj o o' Ho Ho') in Ha; congruence. }
  unfold take_option. rewrite HX. simpl andb. cbv iota.
  destruct (match o_kind o with KInt => match int_of v with None => true | _ => false end | _ => false end) eqn:EB.
  { right. destruct (o_kind o) eqn:HK; try discriminate. destruct (int_of v) eqn:EI; [discriminate|]. split; [reflexivity|].
    intros [F1 _]. apply (F1 o Ho HK v); [|exact EI]. rewrite HV1. apply in_or_app. right. now left. }
  left.
  assert (HS : exists w, match o_kind o, [v] with
    | KHelp, _ => inl Helped
    | KFlag, _ => inr (set_value st (o_long o) (ABool true))
    | KStr, [w] => inr (set_value st (o_long o) (AStr w))
    | KInt, [w] => match int_of w with Some z => inr (set_value st (o_long o) (AInt z)) | None => inl Usage end
    | KAppend, [w] => inr (set_value st (o_long o) (match dict_get (dest (o_long o)) (st_ns st) with Some (AList x) => AList (x ++ [w]) | _ => AList [w] end))
    | _, _ => inl Stuck
    end = inr (set_value st (o_long o) w) /\ w = value_of o done').
  { unfold value_of. rewrite HV1, latest_app. unfold arity in Ha. destruct (o_kind o) eqn:HK; try discriminate Ha.
    - eexists. now split.
    - destruct (int_of v) as [z|]; [|discriminate EB]. eexists. now split.
    - eexists. split; [reflexivity|]. rewrite (R1 o Ho). unfold value_of. now rewrite HK. }
  destruct HS as (w & HS & Hw). eexists. split; [exact HS|]. split; simpl.
  - intros o' Ho'. destruct (str_eqb (o_long o) (o_long o')) eqn:E.
    + apply str_eqb_eq in E. assert (o = o') by now apply long_inj. subst o'. rewrite get_set. now f_equal.
    + apply str_eqb_neq in E. rewrite get_set_other by (intros ED; apply E; now rewrite (dest_inj o o' Ho Ho' ED)).
      rewrite R1 by exact Ho'. f_equal. unfold value_of. rewrite HG, !HV.
      replace (str_eqb (o_long o') (o_long o)) with false by (symmetry; apply str_eqb_neq; congruence).
      now rewrite app_nil_r.
  - unfold done'. rewrite files_app. simpl. rewrite app_nil_r. destruct (files done); [exact R2|].
    rewrite get_set_other; [exact R2|]. intros E. symmetry in E. now apply (dest_path o Ho).
  - unfold done'. rewrite files_app. simpl. now rewrite app_nil_r.
  - intros o' Ho' Ha'. rewrite HG. rewrite <- (R4 o' Ho' Ha'). split; [|now right]. intros [E|E]; [|exact E].
    exfalso. rewrite (long_inj o o' Ho Ho' E) in Ha. congruence.
  - destruct R5 as [F1 F2]. split.
    + intros o' Ho' HK' v'. rewrite HV, in_app_iff. intros [H|H]; [now apply (F1 o' Ho' HK')|].
      destruct (str_eqb (o_long o') (o_long o)) eqn:E; [|easy]. destruct H as [<-|[]]. apply str_eqb_eq in E.
      rewrite (long_inj o' o Ho' Ho E) in HK'. rewrite HK' in EB. destruct (int_of v); [discriminate|discriminate EB].
    + intros l l' Hl Hl'. rewrite !HG. now apply F2.
Qed.

Lemma exec_related items : forall st done, Forall item_ok items -> Forall single items -> related st done ->
  (exists st', exec st items = k st' /\ related st' (done ++ items)) \/
  (exec st items = Usage /\ ~ fine (done ++ items)).
Proof.
  induction items as [|i items IH]; intros st done HO HS R.
  - left. exists st. rewrite app_nil_r. now split.
  - inversion HO; subst. inversion HS; subst. destruct i as [ws|ls|l v].
    + simpl exec. change (done ++ Paths ws :: items) with (done ++ [Paths ws] ++ items). rewrite app_assoc.
      apply IH; [assumption..|]. now apply step_paths.
    + destruct H3 as (l & ->). destruct (H1 l (or_introl eq_refl)) as (o & Ho & <- & Ha).
      change (done ++ Flags [o_long o] :: items) with (done ++ [Flags [o_long o]] ++ items). rewrite app_assoc.
      assert (HA : acts P (Flags [o_long o]) = [(o, [])]) by (simpl; now rewrite (opt_of_in P G o Ho)).
      unfold exec. cbn [ArgLines.exec]. rewrite HA. cbn [take_options].
      destruct (step_flag st done o Ho Ha R) as [(st' & -> & HR)|(-> & HF)].
      * now apply IH.
      * right. split; [reflexivity|]. intros F. apply HF. now apply fine_prefix in F.
    + destruct H1 as (o & Ho & <- & Ha).
      change (done ++ Value (o_long o) v :: items) with (done ++ [Value (o_long o) v] ++ items). rewrite app_assoc.
      assert (HA : acts P (Value (o_long o) v) = [(o, [v])]) by (simpl; now rewrite (opt_of_in P G o Ho)).
      unfold exec. cbn [ArgLines.exec]. rewrite HA. cbn [take_options].
      destruct (step_value st done o v Ho Ha R) as [(st' & -> & HR)|(-> & HF)].
      * now apply IH.
      * right. split; [reflexivity|]. intros F. apply HF. now apply fine_prefix in F.
Qed.

End Exec.

Definition one_run (items : list item) (ps : list str) : Prop :=
  files items = [ps] /\ (p_many P = false -> exists p, ps = [p]).
Lemma fine_flat items : fine (flat items) <-> fine items.
Proof. unfold fine. split; intros [H1 H2]; (split; [intros o Ho HK; specialize (H1 o Ho HK)|intros l l' Hl Hl'; specialize (H2 l l' Hl Hl')]); rewrite ?values_flat, ?given_flat in *; assumption. Qed.
Lemma value_flat o items : value_of o (flat items) = value_of o items.
Proof. unfold value_of. now rewrite values_flat, given_flat. Qed.

Section Final.
Variables (digit : N -> bool) (items : list item) (ws : list str).
Hypothesis HL : line digit (sheet_of P) items ws.
Lemma final_cases :
  (exists st', parse_args digit int_of P ws = finish st' /\ related st' (flat items)) \/
  (parse_args digit int_of P ws = Usage /\ ~ fine items).
Proof.
  rewrite (line_parsed digit int_of P G items ws HL). rewrite exec_flat.
  destruct (flat_ok items (line_ok digit items ws HL)) as [H1 H2].
  destruct (exec_related finish (flat items) (start P) [] H1 H2 related_start) as [(st' & E & R)|[E HF]].
  - left. now exists st'.
  - right. split; [exact E|]. intros F. apply HF. now apply fine_flat.
Qed.
Theorem line_meaning ps : one_run items ps -> fine items ->
  exists ns, parse_args digit int_of P ws = Parsed ns /\
    dict_get (s2l "path") ns = Some (if p_many P then AList ps else AStr (hd [] ps)) /\
    forall o, In o (p_options P) -> dict_get (dest (o_long o)) ns = Some (value_of o items).
Proof.
  intros [HF H1] F. destruct final_cases as [(st' & E & R)|[_ N]]; [|now destruct N].
  destruct R as [R1 R2 R3 _ _]. rewrite files_flat, HF in *. destruct R2 as [R2 R2']. simpl in R3.
  exists (st_ns st'). split; [|split].
  - rewrite E. unfold finish. rewrite R2, R3. destruct (p_many P); [reflexivity|]. destruct (H1 eq_refl) as (p & ->). reflexivity.
  - exact R2'.
  - intros o Ho. rewrite (R1 o Ho). now rewrite value_flat.
Qed.
Theorem line_refused : ~ ((exists ps, one_run items ps) /\ fine items) -> parse_args digit int_of P ws = Usage.
Proof.
  intros HN. destruct final_cases as [(st' & E & R)|[E _]]; [|exact E]. rewrite E.
  destruct R as [R1 R2 R3 _ R5]. rewrite files_flat in *. unfold finish.
  destruct (files items) as [|ps fs] eqn:EF; [now rewrite R2|]. destruct R2 as [-> _]. rewrite R3.
  destruct fs as [|ps' fs]; [|reflexivity]. simpl. destruct (p_many P) eqn:EM.
  - exfalso. apply HN. split; [|now apply fine_flat]. exists ps. split; [assumption|]. congruence.
  - destruct (Nat.eqb (List.length ps) 1) eqn:EL; [|reflexivity]. exfalso. apply HN. split; [|now apply fine_flat].
    exists ps. split; [assumption|]. intros _. apply Nat.eqb_eq in EL. destruct ps as [|p [|]]; try discriminate. now exists p.
Qed.
Theorem dashes_meaning ps : files items = [] -> ps <> [] -> (p_many P = false -> exists p, ps = [p]) -> fine items ->
  exists ns, parse_args digit int_of P (ws ++ [DASH; DASH] :: ps) = Parsed ns /\
    dict_get (s2l "path") ns = Some (if p_many P then AList ps else AStr (hd [] ps)) /\
    forall o, In o (p_options P) -> dict_get (dest (o_long o)) ns = Some (value_of o items).
Proof.
  intros HF Hps H1 F. rewrite (dashes_parsed digit int_of P G items ws ps HL HF). rewrite exec_flat.
  destruct (flat_ok items (line_ok digit items ws HL)) as [K1 K2].
  destruct (exec_related (fun st => run int_of P st (([DASH; DASH], MDashes) :: args_of ps)) (flat items) (start P) [] K1 K2 related_start)
    as [(st' & E & R)|[_ N]]; [|destruct N; now apply fine_flat].
  rewrite E. destruct R as [R1 R2 R3 _ _]. simpl in R1, R2, R3. rewrite files_flat, HF in R2, R3. simpl in R3.
  rewrite run_dashes by assumption. eexists. split; [unfold finish; simpl; rewrite R3; reflexivity|]. split.
  - apply get_set.
  - intros o Ho. simpl. rewrite get_set_other by now apply dest_path. rewrite (R1 o Ho). now rewrite value_flat.
Qed.
End Final.
End Meaning.
