(** * ArgLines: a written command line is carried out part by part *)
From Coq Require Import String Lia.
From Verif Require Import Base Json ArgParse SpecArgs ArgLoop ArgWords ArgDashed.
Open Scope nat_scope.

Section Lines.
Variables (digit : N -> bool) (int_of : str -> option Z) (P : parser).
Hypothesis G : good P.
Let run := run int_of P.

Definition opt_of (l : str) : option opt := find (fun o => str_eqb (o_long o) l) (p_options P).
Lemma opt_of_in o : In o (p_options P) -> opt_of (o_long o) = Some o.
Proof.
  intros H. unfold opt_of. destruct (find _ (p_options P)) as [o'|] eqn:E.
  - apply find_some in E as [E1 E2]. apply str_eqb_eq in E2. f_equal. apply (same_long P G); [now right..|assumption].
  - pose proof (find_none _ _ E o H) as HN. simpl in HN. now rewrite str_eqb_refl in HN.
Qed.
Definition acts (i : item) : list (opt * list str) :=
  match i with
  | Paths _ => []
  | Flags ls => flat_map (fun l => match opt_of l with Some o => [(o, [])] | None => [] end) ls
  | Value l v => match opt_of l with Some o => [(o, [v])] | None => [] end
  end.
Lemma acts_flags os : Forall (fun o => In o (p_options P)) os ->
  acts (Flags (map o_long os)) = map (fun o => (o, [])) os.
Proof. induction 1 as [|o os Ho _ IH]; [reflexivity|]. simpl in *. rewrite (opt_of_in o Ho). now rewrite IH. Qed.

Lemma in_sheet c l b : In (c, l, b) (sheet_of P) ->
  exists o, In o (p_options P) /\ o_short o = c /\ o_long o = l /\ arity o = if b then 1 else 0.
Proof.
  unfold sheet_of. intros H. apply in_map_iff in H as (o & H & Ho). exists o. injection H as <- <- <-.
  split; [exact Ho|split; [reflexivity|split; [reflexivity|]]]. unfold arity. now destruct (o_kind o).
Qed.
Lemma abbreviates_stands q o : In o (p_options P) -> abbreviates (sheet_of P) q (o_long o) -> stands_for P q o.
Proof.
  intros Ho (H1 & H2 & H3). split; [exact H1|]. split; [exact H2|]. destruct H3 as [H3|H3]; [now left|right].
  intros o' Ho' (r & Hr). apply (same_long P G); [assumption|now right|].
  apply (H3 (o_long o') r); [|exact Hr]. destruct Ho' as [<-|Ho']; [now left|right].
  unfold sheet_of. rewrite map_map. apply in_map_iff. now exists o'.
Qed.

Lemma run_option st w h rest : run st ((w, MOption (Some h)) :: rest) =
  match actions P h rest with
  | None => Usage
  | Some (acts, x, rest') => match take_options int_of P (if x then extra st else st) acts with
                             | inl r => r
                             | inr st' => run st' rest'
                             end
  end.
Proof.
  unfold run. rewrite run_eq. simpl existsb. cbv iota. simpl prefix_length. cbv zeta. simpl Nat.eqb. cbv iota. simpl skipn. cbv iota.
  rewrite consume_optional_eq. destruct (actions P h rest) as [[[a x] r]|]; [|reflexivity].
  now destruct (take_options int_of P (if x then extra st else st) a).
Qed.
Definition starts_option (m : list (str * mark)) : Prop := exists w h rest, m = (w, MOption h) :: rest.

Lemma mark_cons w m ws' m' : str_eqb w [DASH; DASH] = false -> mark_word digit P w = Some m -> mark_words digit P ws' = Some m' ->
  mark_words digit P (w :: ws') = Some ((w, m) :: m').
Proof. intros H1 H2 H3. simpl. now rewrite H1, H2, H3. Qed.

Lemma item_run i ws ws' m' : spelled digit (sheet_of P) i ws -> (forall a, i <> Paths a) -> mark_words digit P ws' = Some m' ->
  exists m, mark_words digit P (ws ++ ws') = Some m /\ starts_option m /\
    forall st, run st m = match take_options int_of P st (acts i) with inl r => r | inr st' => run st' m' end.
Proof.
  intros HS HN HM. destruct HS as [a _ _|c l q Hl Hq|cs ls Hcs HF|c l q v Hl Hq Hv|c l q v Hl Hq|c l v Hl Hv|c l d v Hl Hd].
  - now destruct (HN a).
  - destruct (in_sheet _ _ _ Hl) as (o & Ho & _ & <- & Ha). pose proof (abbreviates_stands _ _ Ho Hq) as HS.
    destruct (mark_long digit P G q o (or_intror Ho) HS) as (n & HW).
    eexists. split; [simpl app; apply mark_cons; [|exact HW|exact HM]|split; [eexists _, _, _; reflexivity|]].
    { apply str_eqb_neq. intros E. injection E as E. now destruct HS. }
    intros st. rewrite run_option. unfold actions, following. cbn [h_explicit h_opt]. rewrite Ha.
    change (acts (Flags [o_long o])) with (acts (Flags (map o_long [o]))). rewrite acts_flags by now repeat constructor. reflexivity.
  - assert (HO : exists os, ls = map o_long os /\ Forall2 (flag_letter P) cs os /\ Forall (fun o => In o (p_options P)) os).
    { clear Hcs HM HN. induction HF as [|c l cs ls Hc HF IH]; [now exists []|]. 
      destruct IH as (os & -> & H1 & H2). destruct (in_sheet _ _ _ Hc) as (o & Ho & Hs & <- & Ha).
      exists (o :: os). split; [reflexivity|]. split; constructor; try assumption. split; [now right|now split]. }
    destruct HO as (os & -> & HF2 & HA). rewrite (acts_flags os HA).
    destruct HF2 as [|c o cs os0 (H1 & H2 & H3) HF2]; [easy|]. rename os0 into os. destruct (g_short P G o c H1 H2) as [Hc1 Hc2].
    assert (HD : str_eqb (45%N :: c :: cs) [DASH; DASH] = false).
    { apply str_eqb_neq. intros E. injection E as E _. now apply Hc1. }
    destruct HF2 as [|c1 o1 cs os K HF2].
    + eexists. split; [simpl app; apply mark_cons; [exact HD|exact (mark_short digit P G o c H1 H2)|exact HM]|split; [eexists _, _, _; reflexivity|]].
      intros st. rewrite run_option. unfold actions, following. cbn [h_explicit h_opt]. rewrite H3. reflexivity.
    + pose proof K as (K1 & K2 & K3). destruct (g_short P G o1 c1 K1 K2) as [_ Kc].
      eexists. split; [simpl app; apply mark_cons; [exact HD|exact (mark_glued digit P G o c c1 cs H1 H2 Kc)|exact HM]|split; [eexists _, _, _; reflexivity|]].
      intros st. rewrite run_option. unfold actions. cbn [h_explicit h_opt h_name].
      rewrite (chain_letters P G cs o c c1 os m' o1 H3 Hc1 K HF2). reflexivity.
  - destruct (in_sheet _ _ _ Hl) as (o & Ho & _ & <- & Ha). pose proof (abbreviates_stands _ _ Ho Hq) as HS.
    destruct (mark_long digit P G q o (or_intror Ho) HS) as (n & HW).
    eexists. split; [simpl app; apply mark_cons; [|exact HW|apply mark_cons; [exact (not_dashes_ordinary digit P v Hv)|exact (mark_ordinary digit P G v Hv)|exact HM]]|split; [eexists _, _, _; reflexivity|]].
    { apply str_eqb_neq. intros E. injection E as E. now destruct HS. }
    intros st. rewrite run_option. unfold actions, following. cbn [h_explicit h_opt]. rewrite Ha. simpl acts. rewrite (opt_of_in o Ho). reflexivity.
  - destruct (in_sheet _ _ _ Hl) as (o & Ho & _ & <- & Ha). pose proof (abbreviates_stands _ _ Ho Hq) as HS.
    destruct (mark_equals digit P G q o v (or_intror Ho) HS) as (n & HW).
    eexists. split; [simpl app; apply mark_cons; [|exact HW|exact HM]|split; [eexists _, _, _; reflexivity|]].
    { apply str_eqb_neq. intros E. injection E as E. destruct q; discriminate E. }
    intros st. rewrite run_option. unfold actions. cbn [h_explicit h_opt h_name].
    replace (chain P o n true v m') with (Some ([(o, [v])], false, m')) by (destruct v; simpl; now rewrite Ha).
    simpl acts. rewrite (opt_of_in o Ho). reflexivity.
  - destruct (in_sheet _ _ _ Hl) as (o & Ho & Hc & <- & Ha). destruct (g_short P G o c (or_intror Ho) Hc) as [Hc1 _].
    eexists. split; [simpl app; apply mark_cons; [|exact (mark_short digit P G o c (or_intror Ho) Hc)|apply mark_cons; [exact (not_dashes_ordinary digit P v Hv)|exact (mark_ordinary digit P G v Hv)|exact HM]]|split; [eexists _, _, _; reflexivity|]].
    { apply str_eqb_neq. intros E. injection E as E. now apply Hc1. }
    intros st. rewrite run_option. unfold actions, following. cbn [h_explicit h_opt]. rewrite Ha. simpl acts. rewrite (opt_of_in o Ho). reflexivity.
  - destruct (in_sheet _ _ _ Hl) as (o & Ho & Hc & <- & Ha). 
    eexists. split; [simpl app; apply mark_cons; [|exact (mark_glued digit P G o c d v (or_intror Ho) Hc Hd)|exact HM]|split; [eexists _, _, _; reflexivity|]].
    { apply str_eqb_neq. intros E. discriminate E. }
    intros st. rewrite run_option. unfold actions. cbn [h_explicit h_opt h_name].
    replace (chain P o [DASH; c] false (d :: v) m') with (Some ([(o, [d :: v])], false, m')) by (simpl; now rewrite Ha).
    simpl acts. rewrite (opt_of_in o Ho). reflexivity.
Qed.

(** *** File names *)
Definition with_path (st : state) (v : avalue) : state :=
  mk_state (dict_set (s2l "path") v (st_ns st)) true (st_extras st) (st_seen st).
Definition paths_step (st : state) (ws : list str) : state :=
  if st_path st then extra st
  else if p_many P then with_path st (AList ws)
  else match ws with
       | [] => st
       | [w] => with_path st (AStr w)
       | w :: _ => extra (with_path st (AStr w))
       end.
Definition args_of (ws : list str) : list (str * mark) := map (fun w => (w, MArg)) ws.
Lemma run_nil st : run st [] = finish st.
Proof.
  unfold run. rewrite run_eq. simpl. unfold conclude, consume_path, path_length. simpl. now destruct (st_path st).
Qed.
Lemma no_option ws : existsb is_opt (args_of ws) = false.
Proof. induction ws; [reflexivity|exact IHws]. Qed.
Lemma prefix_args p ws m : (forall w, p (w, MArg) = true) -> (m = [] \/ starts_option m) -> (forall w h, p (w, MOption h) = false) ->
  prefix_length p (args_of ws ++ m) = List.length ws.
Proof.
  intros H1 H2 H3. induction ws as [|w ws IH]; simpl.
  - destruct H2 as [->|(w & h & rest & ->)]; [reflexivity|]. simpl. now rewrite H3.
  - rewrite H1. now rewrite IH.
Qed.
Lemma args_length ws : List.length (args_of ws) = List.length ws.
Proof. apply map_length. Qed.
Lemma skip_args ws m : skipn (List.length ws) (args_of ws ++ m) = m.
Proof. rewrite <- (args_length ws). rewrite skipn_app, skipn_all, Nat.sub_diag. reflexivity. Qed.
Lemma first_args ws m : firstn (List.length ws) (args_of ws ++ m) = args_of ws.
Proof. rewrite <- (args_length ws). rewrite firstn_app, firstn_all, Nat.sub_diag. simpl. apply app_nil_r. Qed.
Lemma remove_ordinary ws : Forall (ordinary digit (sheet_of P)) ws -> remove_dashes ws = ws.
Proof. induction 1 as [|w ws Hw _ IH]; [reflexivity|]. simpl. rewrite (not_dashes_ordinary digit P w Hw). now rewrite IH. Qed.
Lemma args_words ws : map fst (args_of ws) = ws.
Proof. unfold args_of. rewrite map_map. simpl. apply map_id. Qed.

Lemma run_taken st ws m : ws <> [] -> st_path st = true -> (m = [] \/ starts_option m) ->
  run st (args_of ws ++ m) = run (extra st) m.
Proof.
  intros Hws Hst [->|HO].
  - rewrite app_nil_r, run_nil. unfold run. rewrite run_eq, no_option. unfold conclude, consume_path. rewrite Hst.
    destruct ws; [easy|]. reflexivity.
  - assert (HE : existsb is_opt (args_of ws ++ m) = true /\ existsb is_opt m = true).
    { destruct HO as (w & h & rest & ->). rewrite existsb_app. simpl. now rewrite orb_true_r. }
    unfold run. rewrite run_eq. rewrite (proj1 HE). cbv zeta.
    rewrite (prefix_args (fun x => negb (is_opt x)) ws m) by (try reflexivity; now right).
    replace (Nat.eqb (List.length ws) 0) with false by (destruct ws; [easy|reflexivity]).
    unfold consume_path. rewrite Hst, skip_args.
    rewrite (run_eq int_of P (extra st) m). rewrite (proj2 HE). destruct HO as (w & h & rest & ->). reflexivity.
Qed.
Lemma run_take st ws m n v : ws <> [] -> st_path st = false -> (m = [] \/ starts_option m) ->
  path_length (p_many P) (args_of ws ++ m) = Some n -> n <= List.length ws ->
  path_value (p_many P) (remove_dashes (firstn n ws)) = v ->
  run st (args_of ws ++ m) = run (with_path st v) (args_of (skipn n ws) ++ m).
Proof.
  intros Hws Hst HM Hn Hle Hv.
  assert (HC : consume_path P st (args_of ws ++ m) = Some (with_path st v, args_of (skipn n ws) ++ m)).
  { unfold consume_path. rewrite Hst, Hn. unfold with_path.
    assert (E1 : skipn n (args_of ws ++ m) = args_of (skipn n ws) ++ m).
    { rewrite skipn_app, args_length. replace (n - List.length ws) with 0 by lia. simpl. f_equal. unfold args_of. apply skipn_map. }
    assert (E2 : map fst (firstn n (args_of ws ++ m)) = firstn n ws).
    { rewrite firstn_app, args_length. replace (n - List.length ws) with 0 by lia. simpl. rewrite app_nil_r. unfold args_of.
      rewrite firstn_map, map_map. simpl. apply map_id. }
    now rewrite E1, E2, Hv. }
  unfold run. rewrite run_eq. destruct HM as [->|HO].
  - rewrite !app_nil_r in *. rewrite no_option. unfold conclude. rewrite HC. rewrite run_eq, no_option.
    unfold conclude, consume_path. simpl st_path. cbv iota. reflexivity.
  - replace (existsb is_opt (args_of ws ++ m)) with true.
    2:{ destruct HO as (w & h & rest & ->). rewrite existsb_app. simpl. now rewrite orb_true_r. }
    cbv zeta. rewrite (prefix_args (fun x => negb (is_opt x)) ws m) by (try reflexivity; now right).
    replace (Nat.eqb (List.length ws) 0) with false by (destruct ws; [easy|reflexivity]).
    now rewrite HC.
Qed.
Lemma paths_run st ws m : ws <> [] -> Forall (ordinary digit (sheet_of P)) ws -> (m = [] \/ starts_option m) ->
  run st (args_of ws ++ m) = run (paths_step st ws) m.
Proof.
  intros Hws HO HM. unfold paths_step. destruct (st_path st) eqn:Hst; [now apply run_taken|].
  assert (HL : path_length (p_many P) (args_of ws ++ m) = Some (if p_many P then List.length ws else 1)).
  { destruct ws as [|w ws]; [easy|]. unfold path_length. simpl. destruct (p_many P).
    - rewrite (prefix_args _ ws m); [reflexivity|intros; reflexivity|exact HM|intros; reflexivity].
    - f_equal. destruct ws as [|w' ws]; [|reflexivity]. simpl. destruct HM as [->|(w1 & h & rest & ->)]; reflexivity. }
  erewrite (run_take st ws m _ _ Hws Hst HM HL); [| |reflexivity].
  2:{ destruct ws; [easy|]. destruct (p_many P); simpl; lia. }
  destruct (p_many P).
  - rewrite firstn_all, skipn_all. simpl. now rewrite (remove_ordinary ws HO).
  - destruct ws as [|w [|w' ws]]; [easy| |].
    + simpl. inversion HO; subst. now rewrite (not_dashes_ordinary digit P w H1).
    + simpl skipn. simpl firstn. inversion HO; subst. cbn [remove_dashes]. rewrite (not_dashes_ordinary digit P w H1).
      rewrite run_taken; [reflexivity|discriminate|reflexivity|exact HM].
Qed.

(** *** Whole lines *)
(** [k] is what follows the last part. *)
Fixpoint exec (k : state -> parsed) (st : state) (items : list item) : parsed :=
  match items with
  | [] => k st
  | Paths ws :: items' => exec k (paths_step st ws) items'
  | i :: items' => match take_options int_of P st (acts i) with inl r => r | inr st' => exec k st' items' end
  end.
Lemma mark_args ws ws' m' : Forall (ordinary digit (sheet_of P)) ws -> mark_words digit P ws' = Some m' ->
  mark_words digit P (ws ++ ws') = Some (args_of ws ++ m').
Proof.
  intros H HM. induction H as [|w ws Hw _ IH]; [exact HM|]. simpl app.
  apply mark_cons; [exact (not_dashes_ordinary digit P w Hw)|exact (mark_ordinary digit P G w Hw)|exact IH].
Qed.
Lemma line_run items ws : line digit (sheet_of P) items ws ->
  exists m, mark_words digit P ws = Some m /\ (forall st, run st m = exec finish st items) /\
    ((exists a rest, items = Paths a :: rest) \/ m = [] \/ starts_option m).
Proof.
  induction 1 as [|i items ws ws' HS HL IH HA].
  - exists []. split; [reflexivity|]. split; [exact run_nil|]. right. now left.
  - destruct IH as (m' & HM & HR & HH). destruct i as [a|ls|l v].
    + inversion HS; subst. exists (args_of ws ++ m'). split; [now apply mark_args|]. split; [|left; now exists ws, items].
      intros st. simpl exec. rewrite paths_run; [apply HR|assumption|assumption|].
      destruct HH as [(a & rest & ->)|HH]; [|exact HH]. exfalso. now apply (HA ws a rest).
    + destruct (item_run (Flags ls) ws ws' m' HS) as (m & H1 & H2 & H3); [discriminate|exact HM|].
      exists m. split; [exact H1|]. split; [|right; now right]. intros st. rewrite H3. simpl exec.
      destruct (take_options _ _ _ _); [reflexivity|apply HR].
    + destruct (item_run (Value l v) ws ws' m' HS) as (m & H1 & H2 & H3); [discriminate|exact HM|].
      exists m. split; [exact H1|]. split; [|right; now right]. intros st. rewrite H3. simpl exec.
      destruct (take_options _ _ _ _); [reflexivity|apply HR].
Qed.
Theorem line_parsed items ws : line digit (sheet_of P) items ws -> parse_args digit int_of P ws = exec finish (start P) items.
Proof.
  intros H. destruct (line_run items ws H) as (m & H1 & H2 & _). rewrite parse_args_eq, H1. apply H2.
Qed.
(** Options in front of "--" and the words behind it. *)
Lemma options_run items ws : line digit (sheet_of P) items ws -> files items = [] -> forall ws' m', mark_words digit P ws' = Some m' ->
  exists m, mark_words digit P (ws ++ ws') = Some m /\ forall st, run st m = exec (fun st' => run st' m') st items.
Proof.
  induction 1 as [|i items ws ws0 HS HL IH HA]; intros HF ws' m' HM; [now exists m'|].
  destruct i as [a|ls|l v]; [discriminate HF| |].
  - destruct (IH HF ws' m' HM) as (m1 & H1 & H2). rewrite <- app_assoc.
    destruct (item_run (Flags ls) ws (ws0 ++ ws') m1 HS) as (m & K1 & _ & K3); [discriminate|exact H1|].
    exists m. split; [exact K1|]. intros st. rewrite K3. simpl exec. destruct (take_options _ _ _ _); [reflexivity|apply H2].
  - destruct (IH HF ws' m' HM) as (m1 & H1 & H2). rewrite <- app_assoc.
    destruct (item_run (Value l v) ws (ws0 ++ ws') m1 HS) as (m & K1 & _ & K3); [discriminate|exact H1|].
    exists m. split; [exact K1|]. intros st. rewrite K3. simpl exec. destruct (take_options _ _ _ _); [reflexivity|apply H2].
Qed.
Lemma run_dashes st ps : st_path st = false -> ps <> [] -> (p_many P = false -> exists p, ps = [p]) ->
  run st (([DASH; DASH], MDashes) :: args_of ps) = finish (with_path st (if p_many P then AList ps else AStr (hd [] ps))).
Proof.
  intros Hst Hps H1. unfold run. rewrite run_eq. simpl existsb. rewrite no_option. unfold conclude, consume_path. rewrite Hst.
  destruct ps as [|p ps]; [easy|].
  assert (HL : path_length (p_many P) (([DASH; DASH], MDashes) :: args_of (p :: ps)) = Some (S (List.length (p :: ps)))).
  { unfold path_length. simpl. f_equal. f_equal. destruct (p_many P).
    - rewrite <- (app_nil_r (args_of ps)). rewrite (prefix_args _ ps []); [reflexivity|reflexivity|now left|reflexivity].
    - destruct (H1 eq_refl) as (p' & E). injection E as -> ->. reflexivity. }
  rewrite HL. simpl firstn. simpl skipn.
  replace (firstn (List.length ps) (args_of ps)) with (args_of ps) by (rewrite <- (args_length ps); now rewrite firstn_all).
  replace (skipn (List.length ps) (args_of ps)) with (@nil (str * mark)) by (rewrite <- (args_length ps); now rewrite skipn_all).
  simpl. unfold with_path. rewrite args_words. destruct (p_many P); [reflexivity|].
  destruct (H1 eq_refl) as (p' & E). injection E as -> ->. reflexivity.
Qed.
Lemma dashes_parsed items ws ps : line digit (sheet_of P) items ws -> files items = [] ->
  parse_args digit int_of P (ws ++ [DASH; DASH] :: ps) =
  exec (fun st => run st (([DASH; DASH], MDashes) :: args_of ps)) (start P) items.
Proof.
  intros HL HF. rewrite parse_args_eq.
  destruct (options_run items ws HL HF ([DASH; DASH] :: ps) (([DASH; DASH], MDashes) :: args_of ps)) as (m & H1 & H2); [reflexivity|].
  rewrite H1. apply H2.
Qed.
End Lines.
