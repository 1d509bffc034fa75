(** * ArgDashed: words that begin with a dash but name no option *)
From Coq Require Import String Lia.
From Verif Require Import Base Json ArgParse SpecArgs ArgLoop ArgWords.
Open Scope nat_scope.

Section Dashed.
Variables (digit : N -> bool) (P : parser).
Hypothesis G : good P.

Lemma long_listed o : In o (all_options P) -> In (o_long o) (long_names (sheet_of P)).
Proof.
  intros [<-|H]; [now left|]. right. unfold sheet_of. rewrite map_map. apply in_map_iff. now exists o.
Qed.
Lemma listed_long l : In l (long_names (sheet_of P)) -> exists o, In o (all_options P) /\ o_long o = l.
Proof.
  intros [<-|H]; [exists help; split; [now left|reflexivity]|]. unfold sheet_of in H. rewrite map_map in H. apply in_map_iff in H as (o & <- & H).
  exists o. split; [now right|reflexivity].
Qed.
Lemma letter_listed o c : In o (all_options P) -> o_short o = Some c -> In (Some c) (letters (sheet_of P)).
Proof.
  intros [<-|H] E; [left; now injection E as <-|]. right. unfold sheet_of. rewrite map_map. apply in_map_iff. now exists o.
Qed.
Lemma no_char c s : ~ In c s -> mem_char c s = false.
Proof.
  intros H. apply not_true_iff_false. intros K. apply H. unfold mem_char in K. apply existsb_exists in K as (x & Hx & E). apply N.eqb_eq in E. now subst x.
Qed.
Lemma mark_refused w : match w with c :: _ :: _ => c = DASH | _ => False end -> dict_get w (option_map_of P) = None ->
  match partition_equals w with (name, Some _) => dict_get name (option_map_of P) = None | _ => True end ->
  mark_word digit P w = match option_tuples P w with
                        | _ :: _ :: _ => None
                        | [h] => Some (MOption (Some h))
                        | [] => if negative_number digit w then Some MArg else if mem_char 32 w then Some MArg else Some (MOption None)
                        end.
Proof.
  destruct w as [|c [|c' tail]]; try easy. intros -> H1 H2. unfold mark_word. rewrite H1. cbn [is_nil]. rewrite N.eqb_refl. cbn [negb].
  destruct (partition_equals (DASH :: c' :: tail)) as [name [v|]]; [now rewrite H2|reflexivity].
Qed.
Lemma long_parts q rest : ~ In EQUALS q -> (rest = [] \/ exists v, rest = EQUALS :: v) ->
  exists e, partition_equals (DASH :: DASH :: q ++ rest) = (DASH :: DASH :: q, e).
Proof.
  intros Hq HR. assert (HD : ~ In EQUALS (DASH :: DASH :: q)) by (intros [E|[E|E]]; [discriminate..|now apply Hq]).
  destruct HR as [->|(v & ->)].
  - rewrite app_nil_r. exists None. now apply partition_none.
  - exists (Some v). now apply (partition_some digit (DASH :: DASH :: q) v).
Qed.
Lemma long_absent q rest : (forall l, In l (long_names (sheet_of P)) -> l <> q) -> (rest = [] \/ exists v, rest = EQUALS :: v) ->
  dict_get (DASH :: DASH :: q ++ rest) (option_map_of P) = None.
Proof.
  intros HL HR. apply get_other. intros o Ho HI. destruct HR as [->|(v & ->)].
  - rewrite app_nil_r in HI. destruct (name_cases _ _ HI) as [(c & Hc & E)|E].
    + injection E as <- _. now destruct (g_short P G o DASH Ho).
    + injection E as E. apply (HL (o_long o)); [now apply long_listed|now symmetry].
  - apply (names_no_equals P G _ o Ho HI). right. right. apply in_or_app. right. now left.
Qed.
Lemma long_tuples q rest : ~ In EQUALS q -> (rest = [] \/ exists v, rest = EQUALS :: v) ->
  exists e, option_tuples P (DASH :: DASH :: q ++ rest) =
    map (fun no => mk_hit (snd no) (fst no) e) (filter (fun no => starts_with (DASH :: DASH :: q) (fst no)) (option_map_of P)).
Proof.
  intros Hq HR. destruct (long_parts q rest Hq HR) as (e & E). unfold option_tuples. rewrite N.eqb_refl, E. now eexists.
Qed.
Lemma mark_long_word q rest : ~ In EQUALS q -> (rest = [] \/ exists v, rest = EQUALS :: v) -> (forall l, In l (long_names (sheet_of P)) -> l <> q) ->
  mark_word digit P (DASH :: DASH :: q ++ rest) =
    match option_tuples P (DASH :: DASH :: q ++ rest) with
    | _ :: _ :: _ => None
    | [h] => Some (MOption (Some h))
    | [] => if negative_number digit (DASH :: DASH :: q ++ rest) then Some MArg else if mem_char 32 (DASH :: DASH :: q ++ rest) then Some MArg else Some (MOption None)
    end.
Proof.
  intros Hq HR HL. apply mark_refused; [reflexivity|now apply long_absent|].
  destruct (long_parts q rest Hq HR) as ([v|] & ->); [|exact I].
  rewrite <- (app_nil_r q). now apply long_absent; [|left].
Qed.

Lemma nameless_dashes w : nameless (sheet_of P) w -> str_eqb w [DASH; DASH] = false.
Proof.
  intros [q rest Hq HR HL|c rest Hc _]; apply str_eqb_neq.
  - destruct q as [|c q]; [|discriminate]. exfalso. exact (HL (s2l "help") (s2l "help") (or_introl eq_refl) eq_refl).
  - intros [= E _]. now apply Hc.
Qed.
Lemma span_all d es e : forallb d es = true -> match e with c :: _ => d c = false | [] => True end -> span d (es ++ e) = (es, e).
Proof.
  induction es as [|c es IH]; simpl; intros H He.
  - destruct e as [|c e]; [reflexivity|]. simpl. now rewrite He.
  - apply andb_true_iff in H as [H1 H2]. now rewrite H1, (IH H2 He).
Qed.
Lemma span_parts d s : let '(a, b) := span d s in s = a ++ b /\ forallb d a = true.
Proof.
  induction s as [|c s IH]; simpl; [easy|]. destruct (d c) eqn:E; [|now split]. destruct (span d s) as [a b]. destruct IH as [-> IH]. split; [reflexivity|]. simpl. now rewrite E.
Qed.
Lemma at_end_iff e : at_end e = true <-> In e [[]; [10%N]].
Proof.
  destruct e as [|c [|c' e]]; simpl.
  - split; [now left|reflexivity].
  - rewrite N.eqb_eq. split; [intros ->; right; now left|]. intros [E|[E|[]]]; [discriminate|now injection E].
  - split; [discriminate|]. intros [E|[E|[]]]; discriminate.
Qed.
Lemma some_digit (ds : str) : negb (Nat.eqb (List.length ds) 0) = true <-> ds <> [].
Proof. destruct ds; simpl; split; easy. Qed.
Lemma negative_iff w : sensible digit -> negative_number digit w = true <-> negative digit w.
Proof.
  intros (_ & H46 & H10). split.
  - destruct w as [|c r]; [discriminate|]. cbn [negative_number]. rewrite andb_true_iff, N.eqb_eq. intros [-> H].
    pose proof (span_parts digit r) as HP. destruct (span digit r) as [a rest]. destruct HP as [-> HA]. apply orb_true_iff in H as [H|H].
    + apply andb_true_iff in H as [H1 H2]. apply some_digit in H1. apply at_end_iff in H2. now apply negative_whole.
    + destruct rest as [|d r']; [discriminate|]. apply andb_true_iff in H as [H1 H2]. apply N.eqb_eq in H1. subst d.
      pose proof (span_parts digit r') as HP. destruct (span digit r') as [b rest]. destruct HP as [-> HB].
      apply andb_true_iff in H2 as [H2 H3]. apply some_digit in H2. apply at_end_iff in H3. now apply negative_dot.
  - assert (HE : forall e, In e [[]; [10%N]] -> match e with c :: _ => digit c = false | [] => True end) by (intros e [<-|[<-|[]]]; [exact I|exact H10]).
    intros [ds e H1 H2 H3|ds es e H1 H2 H3 H4]; cbn [negative_number]; change 45%N with DASH; rewrite N.eqb_refl; cbn [andb].
    + rewrite (span_all digit ds e H2 (HE e H3)). apply orb_true_iff. left. apply andb_true_iff. split; [now apply some_digit|now apply at_end_iff].
    + rewrite (span_all digit ds (46%N :: es ++ e) H1 H46). apply orb_true_iff. right. rewrite N.eqb_refl. cbn [andb].
      rewrite (span_all digit es e H3 (HE e H4)). apply andb_true_iff. split; [now apply some_digit|now apply at_end_iff].
Qed.
Lemma mark_none w : nameless (sheet_of P) w ->
  mark_word digit P w = if negative_number digit w then Some MArg else if mem_char 32 w then Some MArg else Some (MOption None).
Proof.
  intros [q rest Hq HR HL|c rest Hc HI].
  - change (s2l "--" ++ q ++ rest) with (DASH :: DASH :: q ++ rest).
    rewrite mark_long_word; [|exact Hq|exact HR|].
    + destruct (long_tuples q rest Hq HR) as (e & ->).
      replace (filter _ (option_map_of P)) with (@nil (str * opt)); [reflexivity|].
      symmetry. destruct (filter _ (option_map_of P)) as [|[n o] l] eqn:EF; [reflexivity|]. exfalso.
      assert (HI : In (n, o) ((n, o) :: l)) by now left. rewrite <- EF in HI. apply filter_In in HI as [HI HW].
      apply in_option_map in HI as [Ho Hn]. apply starts_with_iff in HW as (r & HW). cbn [fst] in HW. subst n.
      destruct (name_cases _ _ Hn) as [(c & Hc & E)|E].
      * injection E as <- _. now destruct (g_short P G o DASH Ho).
      * injection E as E. exact (HL (o_long o) r (long_listed o Ho) (eq_sym E)).
    + intros l Hl E. apply (HL l [] Hl). now rewrite app_nil_r.
  - assert (HN : forall tail o, In o (all_options P) -> ~ In (DASH :: c :: tail) (names o)).
    { intros tail o Ho Hn. destruct (name_cases _ _ Hn) as [(c' & Hc' & E)|E].
      - injection E as E _. subst c'. apply HI. now apply (letter_listed o).
      - injection E as E _. now apply Hc. }
    change (45%N) with DASH. rewrite mark_refused; [|reflexivity|now apply get_other; intros o; apply HN|].
    + assert (HT : option_tuples P (DASH :: c :: rest) = []).
      { unfold option_tuples. apply N.eqb_neq in Hc. unfold DASH at 1. rewrite Hc. apply flat_none. intros [n o] HM. apply in_option_map in HM as [Ho Hn]. cbn [fst snd].
        destruct (str_eqb n [DASH; c]) eqn:E1; [apply str_eqb_eq in E1; subst n; now destruct (HN [] o Ho)|].
        destruct (starts_with (DASH :: c :: rest) n) eqn:E2; [|reflexivity]. apply starts_with_iff in E2 as (r & ->). now destruct (HN (rest ++ r) o Ho). }
      now rewrite HT.
    + destruct (partition_equals (DASH :: c :: rest)) as [name [v|]] eqn:E; [|exact I]. apply get_other. intros o Ho Hn.
      simpl in E. destruct (N.eqb c EQUALS).
      * injection E as <- _. destruct (name_cases _ _ Hn) as [(c' & _ & E')|E']; discriminate.
      * destruct (partition_equals rest) as [a b]. injection E as <- _. now apply (HN a o Ho).
Qed.
Lemma mark_unknown w : sensible digit -> unknown digit (sheet_of P) w -> mark_word digit P w = Some (MOption None).
Proof.
  intros HS (HN & H1 & H2). rewrite (mark_none w HN), (no_char _ _ H1). destruct (negative_number digit w) eqn:E; [|reflexivity].
  now apply (negative_iff w HS) in E.
Qed.
Lemma mark_dashed w : sensible digit -> dashed_name digit (sheet_of P) w -> mark_word digit P w = Some MArg.
Proof.
  intros HS (HN & H). rewrite (mark_none w HN). destruct (negative_number digit w) eqn:E; [reflexivity|]. destruct H as [H|H].
  - assert (K : mem_char 32 w = true) by (apply existsb_exists; exists 32%N; now split). now rewrite K.
  - apply (negative_iff w HS) in H. congruence.
Qed.

Lemma mark_ordinary w : ordinary digit (sheet_of P) w -> mark_word digit P w = Some MArg.
Proof.
  intros [H|[->|[H1 H2]]].
  - destruct w as [|c w]; [reflexivity|]. simpl. apply N.eqb_neq in H. unfold DASH. now rewrite H.
  - unfold mark_word. rewrite N.eqb_refl. cbn [negb]. rewrite get_other; [reflexivity|]. intros o _ Hn.
    destruct (name_cases _ _ Hn) as [(c & _ & E)|E]; discriminate.
  - now apply mark_dashed.
Qed.
Lemma not_dashes_ordinary w : ordinary digit (sheet_of P) w -> str_eqb w [DASH; DASH] = false.
Proof.
  intros [H|[->|[H1 H2]]]; [|reflexivity|exact (nameless_dashes w (proj1 H2))]. apply str_eqb_neq. intros ->. now apply H.
Qed.
End Dashed.
