(** * ArgWords: the words of a command line are recognised as what they are *)
From Coq Require Import String Lia.
From Verif Require Import Base Json ArgParse SpecArgs ArgLoop.
Open Scope N_scope.

Definition all_options (P : parser) : list opt := help :: p_options P.
Record good (P : parser) : Prop := mk_good {
  g_names : NoDup (map fst (option_map_of P));
  g_short : forall o c, In o (all_options P) -> o_short o = Some c -> c <> DASH /\ c <> EQUALS;
  g_long : forall o, In o (all_options P) -> ~ In EQUALS (o_long o) /\ o_long o <> [];
  g_dest : NoDup (s2l "path" :: map (fun o => dest (o_long o)) (p_options P));
  g_kind : forall o, In o (p_options P) -> o_kind o <> KHelp
}.
Definition sheet_of (P : parser) : sheet :=
  map (fun o => (o_short o, o_long o, negb (Nat.eqb (arity o) 0%nat))) (p_options P).

Section Words.
Variables (digit : N -> bool) (P : parser).
Hypothesis G : good P.

Lemma in_option_map n o : In (n, o) (option_map_of P) <-> In o (all_options P) /\ In n (names o).
Proof.
  unfold option_map_of. rewrite in_flat_map. split.
  - intros (x & Hx & H). apply in_map_iff in H as (n' & H & Hn). injection H as -> ->. now split.
  - intros [Ho Hn]. exists o. split; [exact Ho|]. apply in_map_iff. now exists n.
Qed.
Lemma find_unique {A} (l : list (str * A)) n o : NoDup (map fst l) -> In (n, o) l -> dict_get n l = Some o.
Proof.
  unfold dict_get. induction l as [|[k v] l IH]; simpl; [easy|]. intros HN [H|H].
  - injection H as -> ->. now rewrite str_eqb_refl.
  - inversion HN; subst. destruct (str_eqb k n) eqn:E.
    + apply str_eqb_eq in E. subst. exfalso. apply H2. apply in_map_iff. now exists (n, o).
    + now apply IH.
Qed.
Lemma get_in {A} (l : list (str * A)) n o : dict_get n l = Some o -> In (n, o) l.
Proof.
  unfold dict_get. destruct (find _ l) as [[k v]|] eqn:E; [|discriminate]. intros H. injection H as <-.
  apply find_some in E as [E1 E2]. simpl in *. apply str_eqb_eq in E2. now subst.
Qed.
Lemma get_name n o : In o (all_options P) -> In n (names o) -> dict_get n (option_map_of P) = Some o.
Proof. intros. apply find_unique; [apply (g_names P G)|]. now apply in_option_map. Qed.
Lemma name_cases n o : In n (names o) -> (exists c, o_short o = Some c /\ n = [DASH; c]) \/ n = DASH :: DASH :: o_long o.
Proof.
  unfold names. rewrite in_app_iff. intros [H|[H|[]]]; [|now right].
  destruct (o_short o) as [c|]; [|easy]. destruct H as [H|[]]. left. now exists c.
Qed.
Lemma same_name n o o' : In o (all_options P) -> In o' (all_options P) -> In n (names o) -> In n (names o') -> o = o'.
Proof. intros. pose proof (get_name n o). pose proof (get_name n o'). intuition congruence. Qed.
Lemma long_name o : In (DASH :: DASH :: o_long o) (names o).
Proof. unfold names. rewrite in_app_iff. right. now left. Qed.
Lemma short_name o c : o_short o = Some c -> In [DASH; c] (names o).
Proof. unfold names. intros ->. now left. Qed.
Lemma same_long o o' : In o (all_options P) -> In o' (all_options P) -> o_long o = o_long o' -> o = o'.
Proof.
  intros H H' E. apply (same_name (DASH :: DASH :: o_long o)); [assumption..|apply long_name|rewrite E; apply long_name].
Qed.
(** the option with a name, whatever else the map contains *)
Lemma get_other n : (forall o, In o (all_options P) -> ~ In n (names o)) -> dict_get n (option_map_of P) = None.
Proof.
  intros H. destruct (dict_get n (option_map_of P)) as [o|] eqn:E; [|reflexivity].
  apply get_in in E. apply in_option_map in E as [E1 E2]. now destruct (H o E1).
Qed.
Lemma names_no_equals n o : In o (all_options P) -> In n (names o) -> ~ In EQUALS n.
Proof.
  intros Ho Hn. destruct (name_cases _ _ Hn) as [(c & Hc & ->)| ->].
  - destruct (g_short P G _ _ Ho Hc) as [_ H]. intros [E|[E|[]]]; [discriminate|now apply H].
  - destruct (g_long P G _ Ho) as [H _]. intros [E|[E|E]]; try discriminate. now apply H.
Qed.

Lemma partition_none w : ~ In EQUALS w -> partition_equals w = (w, None).
Proof.
  induction w as [|c w IH]; simpl; [easy|]. intros H. destruct (N.eqb_spec c EQUALS) as [->|_]; [now destruct H; left|].
  rewrite IH; [reflexivity|tauto].
Qed.
Lemma partition_some q v : ~ In EQUALS q -> partition_equals (q ++ EQUALS :: v) = (q, Some v).
Proof.
  induction q as [|c q IH]; simpl; [easy|]. intros H. destruct (N.eqb_spec c EQUALS) as [->|_]; [now destruct H; left|].
  rewrite IH; [reflexivity|tauto].
Qed.
Lemma partition_prefix w : exists r, w = fst (partition_equals w) ++ r.
Proof.
  induction w as [|c w [r IH]]; simpl; [now exists []|]. destruct (N.eqb c EQUALS); [now exists (c :: w)|].
  destruct (partition_equals w) as [a b]. simpl in *. exists r. now rewrite IH at 1.
Qed.
Lemma partition_head c d w : c <> EQUALS -> d <> EQUALS ->
  exists a b, partition_equals (c :: d :: w) = (c :: d :: a, b).
Proof.
  intros Hc Hd. simpl. apply N.eqb_neq in Hc, Hd. rewrite Hc, Hd. destruct (partition_equals w) as [a b]. now exists a, b.
Qed.

Lemma starts_with_iff p s : starts_with p s = true <-> exists r, s = p ++ r.
Proof.
  revert s. induction p as [|a p IH]; intros s; simpl; [split; [now exists s|reflexivity]|].
  destruct s as [|b s]; [split; [discriminate|intros (r & H); discriminate]|].
  rewrite andb_true_iff, N.eqb_eq, IH. split.
  - intros [-> (r & ->)]. now exists r.
  - intros (r & H). injection H as -> ->. split; [reflexivity|now exists r].
Qed.
Lemma flat_none {A B} (f : A -> list B) l : (forall x, In x l -> f x = []) -> flat_map f l = [].
Proof. induction l as [|x l IH]; simpl; [easy|]. intros H. rewrite H; [|now left]. apply IH. intros y Hy. apply H. now right. Qed.
Lemma flat_single {A B} (f : str * A -> list B) (l : list (str * A)) k o : NoDup (map fst l) -> In (k, o) l ->
  (forall n o', In (n, o') l -> n <> k -> f (n, o') = []) -> flat_map f l = f (k, o).
Proof.
  induction l as [|[n v] l IH]; simpl; [easy|]. intros HN HI H. inversion HN; subst. destruct HI as [E|HI].
  - injection E as -> ->. enough (E : flat_map f l = []) by (rewrite E; now rewrite app_nil_r).
    apply flat_none. intros [n' o'] HI. apply H; [now right|]. intros ->. apply H2. apply in_map_iff. now exists (k, o').
  - rewrite H; [|now left|]. { simpl. apply IH; [assumption..|]. intros; apply H; tauto. }
    intros ->. apply H2. apply in_map_iff. now exists (k, o).
Qed.
Lemma filter_flat {A} (p : A -> bool) l : filter p l = flat_map (fun x => if p x then [x] else []) l.
Proof. induction l as [|x l IH]; simpl; [reflexivity|]. destruct (p x); simpl; now rewrite IH. Qed.

(** *** Marks of words *)
Lemma mark_short o c : In o (all_options P) -> o_short o = Some c ->
  mark_word digit P [DASH; c] = Some (MOption (Some (mk_hit o [DASH; c] None))).
Proof. intros Ho Hc. unfold mark_word. cbn [N.eqb negb DASH Pos.eqb]. now rewrite (get_name _ o Ho (short_name o c Hc)). Qed.

(** abbreviations, by the options of the parser *)
Definition stands_for (q : str) (o : opt) : Prop :=
  q <> [] /\ (exists r, o_long o = q ++ r) /\
  (q = o_long o \/ forall o', In o' (all_options P) -> (exists r, o_long o' = q ++ r) -> o' = o).
Lemma stands_exact q o o' : In o (all_options P) -> stands_for q o -> dict_get (DASH :: DASH :: q) (option_map_of P) = Some o' -> o' = o.
Proof.
  intros Ho (Hq & _ & HU) H. apply get_in in H. apply in_option_map in H as [H1 H2].
  destruct (name_cases _ _ H2) as [(c & _ & E)|E].
  - injection E as _ E. now destruct Hq.
  - injection E as E. destruct HU as [HU|HU].
    + apply same_long; [assumption..|congruence].
    + apply HU; [assumption|]. exists []. now rewrite app_nil_r.
Qed.
Lemma stands_equals q o : In o (all_options P) -> stands_for q o -> ~ In EQUALS (DASH :: DASH :: q).
Proof.
  intros Ho (_ & (r & Hr) & _). destruct (g_long P G o Ho) as [H _]. intros [E|[E|E]]; try discriminate.
  apply H. rewrite Hr. apply in_or_app. now left.
Qed.
Lemma stands_tuples q o : In o (all_options P) -> stands_for q o -> dict_get (DASH :: DASH :: q) (option_map_of P) = None ->
  filter (fun no => starts_with (DASH :: DASH :: q) (fst no)) (option_map_of P) = [(DASH :: DASH :: o_long o, o)].
Proof.
  intros Ho (Hq & (r & Hr) & HU) HN. rewrite filter_flat.
  rewrite (flat_single _ _ (DASH :: DASH :: o_long o) o (g_names P G)).
  - cbn [fst]. replace (starts_with _ _) with true; [reflexivity|]. symmetry. apply starts_with_iff. exists r. rewrite Hr. reflexivity.
  - apply in_option_map. split; [exact Ho|apply long_name].
  - intros n o' HI Hn. cbn [fst]. destruct (starts_with _ n) eqn:E; [|reflexivity]. exfalso.
    apply in_option_map in HI as [HI1 HI2]. apply starts_with_iff in E as (r' & E).
    destruct (name_cases _ _ HI2) as [(c & Hc & En)|En]; rewrite En in E.
    + injection E as Ec Eq. destruct q; [now apply Hq|discriminate Eq].
    + injection E as E. destruct HU as [HU|HU].
      * subst q. rewrite (get_name _ o Ho (long_name o)) in HN. discriminate.
      * apply Hn. rewrite En. rewrite (HU o' HI1 (ex_intro _ r' E)). reflexivity.
Qed.
Lemma mark_long q o : In o (all_options P) -> stands_for q o ->
  exists n, mark_word digit P (DASH :: DASH :: q) = Some (MOption (Some (mk_hit o n None))).
Proof.
  intros Ho HS. destruct (dict_get (DASH :: DASH :: q) (option_map_of P)) as [o'|] eqn:E.
  - pose proof (stands_exact q o o' Ho HS E). subst o'. exists (DASH :: DASH :: q).
    unfold mark_word. cbn [N.eqb negb DASH Pos.eqb]. change 45 with DASH. now rewrite E.
  - exists (DASH :: DASH :: o_long o).
    unfold mark_word. cbn [N.eqb negb DASH Pos.eqb is_nil]. change 45 with DASH. rewrite E.
    rewrite (partition_none _ (stands_equals q o Ho HS)). cbv iota.
    unfold option_tuples. cbn [N.eqb DASH Pos.eqb]. change 45 with DASH.
    rewrite (partition_none _ (stands_equals q o Ho HS)). cbv iota.
    rewrite (stands_tuples q o Ho HS E). reflexivity.
Qed.
Lemma mark_equals q o v : In o (all_options P) -> stands_for q o ->
  exists n, mark_word digit P (DASH :: DASH :: q ++ EQUALS :: v) = Some (MOption (Some (mk_hit o n (Some (true, v))))).
Proof.
  intros Ho HS. pose proof (stands_equals q o Ho HS) as HE.
  assert (HP : partition_equals (DASH :: DASH :: q ++ EQUALS :: v) = (DASH :: DASH :: q, Some v))
    by exact (partition_some (DASH :: DASH :: q) v HE).
  assert (HN : dict_get (DASH :: DASH :: q ++ EQUALS :: v) (option_map_of P) = None).
  { apply get_other. intros o' Ho' Hn. apply (names_no_equals _ _ Ho' Hn). right. right. apply in_or_app. right. now left. }
  destruct (dict_get (DASH :: DASH :: q) (option_map_of P)) as [o'|] eqn:E.
  - pose proof (stands_exact q o o' Ho HS E). subst o'. exists (DASH :: DASH :: q).
    unfold mark_word. cbn [N.eqb negb DASH Pos.eqb is_nil]. change 45 with DASH. rewrite HN, HP, E. reflexivity.
  - exists (DASH :: DASH :: o_long o).
    unfold mark_word. cbn [N.eqb negb DASH Pos.eqb is_nil]. change 45 with DASH. rewrite HN, HP, E.
    unfold option_tuples. cbn [N.eqb DASH Pos.eqb]. change 45 with DASH. rewrite HP. cbv iota.
    rewrite (stands_tuples q o Ho HS E). reflexivity.
Qed.
Lemma mark_glued o c d v : In o (all_options P) -> o_short o = Some c -> d <> EQUALS ->
  mark_word digit P (DASH :: c :: d :: v) = Some (MOption (Some (mk_hit o [DASH; c] (Some (false, d :: v))))).
Proof.
  intros Ho Hc Hd. destruct (g_short P G o c Ho Hc) as [H1 H2].
  assert (HN : forall a, dict_get (DASH :: c :: d :: a) (option_map_of P) = None).
  { intros a. apply get_other. intros o' Ho' Hn. destruct (name_cases _ _ Hn) as [(c' & _ & E)|E]; [discriminate|].
    injection E as E _. now apply H1. }
  assert (HP : exists a b, partition_equals (DASH :: c :: d :: v) = (DASH :: c :: d :: a, b)).
  { simpl. apply N.eqb_neq in H2, Hd. rewrite H2, Hd. destruct (partition_equals v) as [a b]. now exists a, b. }
  destruct HP as (a & b & HP).
  unfold mark_word. cbn [N.eqb negb DASH Pos.eqb is_nil]. change 45 with DASH. rewrite HN, HP.
  assert (HT : option_tuples P (DASH :: c :: d :: v) = [mk_hit o [DASH; c] (Some (false, d :: v))]).
  { unfold option_tuples. replace (N.eqb c DASH) with false by (symmetry; now apply N.eqb_neq).
    rewrite (flat_single _ _ [DASH; c] o (g_names P G)).
    - cbn [fst snd]. now rewrite str_eqb_refl.
    - apply in_option_map. split; [exact Ho|now apply short_name].
    - intros n o' HI Hn. cbn [fst]. replace (str_eqb n [DASH; c]) with false by (symmetry; now apply str_eqb_neq).
      destruct (starts_with _ n) eqn:E; [|reflexivity]. exfalso. apply starts_with_iff in E as (r & E).
      apply in_option_map in HI as [HI1 HI2]. destruct (name_cases _ _ HI2) as [(c' & _ & En)|En]; rewrite En in E; [discriminate|].
      injection E as E _. now apply H1. }
  rewrite HT. destruct b as [b|]; [|reflexivity]. now rewrite HN.
Qed.
(** letters of flags in one word *)
Definition flag_letter (c : N) (o : opt) : Prop := In o (all_options P) /\ o_short o = Some c /\ arity o = 0%nat.
Lemma chain_letters cs : forall o c0 c os rest o', arity o = 0%nat -> c0 <> DASH -> flag_letter c o' -> Forall2 flag_letter cs os ->
  chain P o [DASH; c0] false (c :: cs) rest = Some (map (fun o => (o, [])) (o :: o' :: os), false, rest).
Proof.
  induction cs as [|c1 cs IH]; intros o c0 c os rest o' Ho Hc0 (H1 & H2 & H3) HF; inversion HF; subst.
  - simpl. rewrite Ho. apply N.eqb_neq in Hc0. rewrite Hc0. destruct (g_short P G _ _ H1 H2) as [Hc _]. pose proof Hc as Hc'.
    apply N.eqb_neq in Hc'. rewrite Hc'. rewrite (get_name _ o' H1 (short_name _ _ H2)). unfold following. rewrite H3. reflexivity.
  - destruct (g_short P G _ _ H1 H2) as [Hc _]. pose proof Hc as Hc'. apply N.eqb_neq in Hc'.
    destruct H4 as (K1 & K2 & K3). destruct (g_short P G _ _ K1 K2) as [_ Kc]. apply N.eqb_neq in Kc.
    change (chain P o [DASH; c0] false (c :: c1 :: cs) rest) with
      (match arity o with
       | O => if N.eqb c0 DASH then None else if false || N.eqb c DASH then None else
              match dict_get [DASH; c] (option_map_of P) with
              | None => Some ([(o, [])], true, rest)
              | Some o' => match (if N.eqb c1 EQUALS then chain P o' [DASH; c] true cs rest else chain P o' [DASH; c] false (c1 :: cs) rest) with
                           | Some (acts, x, rest') => Some ((o, []) :: acts, x, rest')
                           | None => None
                           end
              end
       | _ => Some ([(o, [c :: c1 :: cs])], false, rest)
       end).
    rewrite Ho. apply N.eqb_neq in Hc0. rewrite Hc0, Hc'. simpl orb. cbv iota.
    rewrite (get_name _ o' H1 (short_name _ _ H2)), Kc.
    rewrite (IH o' c c1 l' rest y H3 Hc (conj K1 (conj K2 K3)) H6). reflexivity.
Qed.
End Words.
