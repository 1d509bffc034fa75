(** * RegexFacts: what the backtracking matcher finds *)
From Verif Require Import Base Regex.

(** ** The matcher as a relation *)
Lemma m_seq x y st st' : In st' (m (Seq x y) st) <-> exists st1, In st1 (m x st) /\ In st' (m y st1).
Proof. destruct st as [[b s] e]. cbn [m]. rewrite in_flat_map. firstorder. Qed.
Lemma m_alt x y st st' : In st' (m (Alt x y) st) <-> In st' (m x st) \/ In st' (m y st).
Proof. destruct st as [[b s] e]. cbn [m]. apply in_app_iff. Qed.
Lemma m_chr p b s e st' : In st' (m (Chr p) (b, s, e)) <-> exists c s', s = c :: s' /\ p c = true /\ st' = (c :: b, s', e).
Proof.
  cbn [m]. split.
  - destruct s as [|c s']; [easy|]. destruct (p c) eqn:E; [|easy]. intros [<-|[]]. eauto.
  - intros (c & s' & -> & E & ->). rewrite E. now left.
Qed.
Lemma m_eps st st' : In st' (m Eps st) <-> st' = st.
Proof. destruct st as [[b s] e]. cbn. intuition. Qed.
Lemma m_bol b s e st' : In st' (m Bol (b, s, e)) <-> b = [] /\ st' = (b, s, e).
Proof. cbn [m]. destruct b; cbn; intuition congruence. Qed.
Lemma m_eol_end b s e b' e' : In (b', [], e') (m Eol (b, s, e)) <-> b' = b /\ s = [] /\ e' = e.
Proof.
  cbn [m]. destruct s as [|c [|d s]]; cbn.
  - split; [intros [[= <- <-]|[]]; auto|intros (-> & _ & ->); now left].
  - destruct (c =? LF)%N; cbn; intuition congruence.
  - intuition congruence.
Qed.
Lemma m_behind p b s e st' :
  In st' (m (Behind p) (b, s, e)) <-> st' = (b, s, e) /\ exists c b', b = c :: b' /\ p c = true.
Proof.
  cbn [m]. destruct b as [|c b]; [cbn; split; [easy|intros (_ & c & b' & [=] & _)]|].
  destruct (p c) eqn:E; cbn; split; try easy.
  - intros [<-|[]]. eauto.
  - intros (-> & _). now left.
  - intros (_ & c' & b' & [= <- <-] & E'). congruence.
Qed.
Lemma m_look r b s e st' : In st' (m (Look r) (b, s, e)) <-> st' = (b, s, e) /\ exists x, In x (m r (b, s, e)).
Proof.
  cbn [m]. destruct (m r (b, s, e)) as [|x l]; cbn; split; try easy.
  - intros (_ & x & []).
  - intros [<-|[]]. eauto.
  - intros (-> & _). now left.
Qed.
Lemma m_notlook r b s e st' : In st' (m (NotLook r) (b, s, e)) <-> st' = (b, s, e) /\ m r (b, s, e) = [].
Proof. cbn [m]. destruct (m r (b, s, e)) as [|x l]; cbn; intuition congruence. Qed.
Lemma m_grp n r b s e st' :
  In st' (m (Grp n r) (b, s, e)) <->
  exists b' s' e', In (b', s', e') (m r (b, s, e)) /\ st' = (b', s', (n, firstn (length s - length s') s) :: e').
Proof.
  cbn [m]. rewrite in_map_iff. split.
  - intros ([[b' s'] e'] & <- & H). eauto 6.
  - intros (b' & s' & e' & H & ->). exists (b', s', e'). auto.
Qed.
Lemma starts_with_iff p s : starts_with p s = true <-> exists t, s = p ++ t.
Proof.
  revert s. induction p as [|a p IH]; intros s; cbn.
  - split; [exists s|]; auto.
  - destruct s as [|c s]; [split; [easy|intros (t & [=])]|]. rewrite andb_true_iff, N.eqb_eq, IH.
    split; [intros (-> & t & ->); now exists t|intros (t & [= -> ->]); eauto].
Qed.
Lemma m_back n b s e st' :
  In st' (m (Back n) (b, s, e)) <->
  exists w s', group e n = Some w /\ s = w ++ s' /\ st' = (rev w ++ b, s', e).
Proof.
  cbn [m]. split.
  - destruct (group e n) as [w|]; [|easy]. destruct (starts_with w s) eqn:E; [|easy].
    intros [<-|[]]. apply starts_with_iff in E as (t & ->). exists w, t.
    rewrite skipn_app, skipn_all, Nat.sub_diag. auto.
  - intros (w & s' & -> & -> & ->). assert (E : starts_with w (w ++ s') = true) by (apply starts_with_iff; eauto).
    rewrite E. left. now rewrite skipn_app, skipn_all, Nat.sub_diag.
Qed.
Lemma m_ifgrp n x y b s e st' :
  In st' (m (IfGrp n x y) (b, s, e)) <->
  match group e n with Some _ => In st' (m x (b, s, e)) | None => In st' (m y (b, s, e)) end.
Proof. cbn [m]. now destruct (group e n). Qed.

Lemma group_head n w e : group ((n, w) :: e) n = Some w.
Proof. unfold group. cbn. now rewrite Nat.eqb_refl. Qed.

Lemma find_some_iff {A} (f : A -> bool) l : (exists x, find f l = Some x) <-> exists x, In x l /\ f x = true.
Proof.
  split.
  - intros (x & H). apply find_some in H. eauto.
  - intros (x & Hi & Hf). destruct (find f l) as [y|] eqn:E; [eauto|]. eapply find_none in E; [|exact Hi]. congruence.
Qed.
Theorem fullmatches_iff r s : fullmatches r s = true <-> exists b e, In (b, [], e) (m r ([], s, [])).
Proof.
  unfold fullmatches. split.
  - destruct (fullmatch r s) as [st|] eqn:E; [|easy]. intros _. unfold fullmatch in E. apply find_some in E as (Hi & He).
    destruct st as [[b [|c s']] e]; [eauto|easy].
  - intros (b & e & H). unfold fullmatch.
    match goal with |- match ?x with _ => _ end = _ => destruct x eqn:E end; [reflexivity|]. eapply find_none in E; [|exact H]. discriminate.
Qed.

(** ** Expressions without assertions and groups denote sets of words *)
Fixpoint pure (r : re) : bool :=
  match r with
  | Chr _ | Eps => true
  | Seq a b | Alt a b => pure a && pure b
  | Rep _ _ a => pure a
  | _ => false
  end.
Definition within (lo : nat) (hi : option nat) (n : nat) : Prop :=
  (lo <= n)%nat /\ match hi with Some h => (n <= h)%nat | None => True end.
Fixpoint word (r : re) (w : str) : Prop :=
  match r with
  | Chr p => exists c, w = [c] /\ p c = true
  | Eps => w = []
  | Seq a b => exists u v, w = u ++ v /\ word a u /\ word b v
  | Alt a b => word a w \/ word b w
  | Rep lo hi a => exists ws, w = concat ws /\ Forall (fun v => v <> [] /\ word a v) ws /\ within lo hi (length ws)
  | _ => False
  end.

Section Reps.
Variable f : mstate -> list mstate.
Variable W : str -> Prop.
Hypothesis f_ok : forall b s e st', In st' (f (b, s, e)) <-> exists w s', s = w ++ s' /\ st' = (rev w ++ b, s', e) /\ W w.

Lemma reps_ok fuel : forall lo hi b s e st', (length s <= fuel)%nat ->
  (In st' (reps f fuel lo hi (b, s, e)) <->
   exists ws s', s = concat ws ++ s' /\ st' = (rev (concat ws) ++ b, s', e) /\
     Forall (fun v => v <> [] /\ W v) ws /\ within lo hi (length ws)).
Proof.
  induction fuel as [|k IH]; intros lo hi b s e st' Hl.
  - destruct s; [|cbn in Hl; lia]. unfold reps. replace (match hi with Some 0%nat | _ => [] end) with (@nil mstate) by now destruct hi as [[|]|].
    cbn [app]. split.
    + destruct lo; cbn; [|easy]. intros [<-|[]]. exists [], []. cbn. repeat split; auto; destruct hi; auto with arith.
    + intros (ws & s' & E & -> & Hw & Hb). symmetry in E. apply app_eq_nil in E as (E & ->).
      destruct ws as [|w ws]; [|cbn in E; apply app_eq_nil in E as (-> & _); now inversion Hw as [|? ? (? & _)]].
      destruct Hb as (Hb & _). cbn in Hb. replace lo with 0%nat by lia. now left.
  - assert (HS : In st' (reps f (S k) lo hi (b, s, e)) <->
      (hi <> Some 0%nat /\ exists st1, In st1 (f (b, s, e)) /\ (length (snd (fst st1)) < length s)%nat /\
         In st' (reps f k (pred lo) (option_map pred hi) st1)) \/ (lo = 0%nat /\ st' = (b, s, e))).
    { cbn [reps]. rewrite in_app_iff. apply or_iff_compat_r || idtac.
      assert (H1 : In st' (flat_map (fun st1 => if Nat.ltb (length (snd (fst st1))) (length (snd (fst (b, s, e))))
              then reps f k (pred lo) (option_map pred hi) st1 else []) (f (b, s, e))) <->
            exists st1, In st1 (f (b, s, e)) /\ (length (snd (fst st1)) < length s)%nat /\ In st' (reps f k (pred lo) (option_map pred hi) st1)).
      { rewrite in_flat_map. split.
        - intros (st1 & H1 & H2). exists st1. split; [exact H1|]. cbn [fst snd] in H2.
          destruct (Nat.ltb (length (snd (fst st1))) (length s)) eqn:E; [|easy]. apply Nat.ltb_lt in E. auto.
        - intros (st1 & H1 & E & H2). exists st1. split; [exact H1|]. cbn [fst snd]. apply Nat.ltb_lt in E.
          match goal with |- In _ (if ?x then _ else _) => change x with (Nat.ltb (length (snd (fst st1))) (length s)) end. now rewrite E. }
      assert (H2 : In st' (if Nat.eqb lo 0 then [(b, s, e)] else []) <-> lo = 0%nat /\ st' = (b, s, e)).
      { destruct (Nat.eqb_spec lo 0); cbn; intuition congruence. }
      rewrite H2. destruct hi as [[|h]|]; [cbn [In]; intuition congruence| |]; rewrite H1; intuition congruence. }
    rewrite HS. clear HS. split.
    + intros [(Hh & [[b1 s1] e1] & H1 & H2 & H3)|(-> & ->)].
      * apply f_ok in H1 as (w & s' & -> & [= -> -> ->] & HW). cbn [fst snd] in H2.
        apply IH in H3; [|rewrite app_length in *; lia].
        destruct H3 as (ws & s2 & -> & -> & Hw & Hb). exists (w :: ws), s2. cbn [concat].
        rewrite rev_app_distr, <- !app_assoc. repeat split; auto.
        -- constructor; [split; [|exact HW]|exact Hw]. intros ->. cbn in H2. lia.
        -- destruct Hb as (Hb & _). cbn. lia.
        -- destruct Hb as (_ & Hb). destruct hi as [h|]; [|exact I]. cbn in *. destruct h; [now destruct Hh|]. cbn in Hb. lia.
      * exists [], s. cbn. repeat split; auto; destruct hi; auto with arith.
    + intros (ws & s' & -> & -> & Hw & Hb). destruct ws as [|w ws].
      * right. split; [destruct Hb as (Hb & _); cbn in Hb; lia|reflexivity].
      * left. inversion Hw as [|? ? (Hn & HW) Hw']; subst. split.
        { intros ->. destruct Hb as (_ & Hb). cbn in Hb. lia. }
        exists (rev w ++ b, concat ws ++ s', e). cbn [concat fst snd]. split; [|split].
        -- apply f_ok. exists w, (concat ws ++ s'). now rewrite <- app_assoc.
        -- rewrite <- app_assoc, (app_length w). destruct w; [easy|cbn; lia].
        -- apply IH.
           { cbn [concat] in Hl. rewrite <- app_assoc, (app_length w) in Hl. destruct w; [easy|cbn in Hl; lia]. }
           exists ws, s'. rewrite rev_app_distr, <- app_assoc. repeat split; auto; destruct Hb as (Hb1 & Hb2); cbn in *; [lia|].
           destruct hi as [h|]; cbn; [lia|exact I].
Qed.
End Reps.

Theorem m_pure r : pure r = true -> forall b s e st',
  In st' (m r (b, s, e)) <-> exists w s', s = w ++ s' /\ st' = (rev w ++ b, s', e) /\ word r w.
Proof.
  induction r; intros Hp b s e st'; try discriminate Hp; cbn [pure] in Hp.
  - rewrite m_chr. cbn [word]. split.
    + intros (c & s' & -> & E & ->). exists [c], s'. repeat split. eauto.
    + intros (w & s' & -> & -> & c & -> & E). exists c, s'. auto.
  - rewrite m_eps. cbn [word]. split; [intros ->; exists [], s; auto|intros (w & s' & -> & -> & ->); reflexivity].
  - apply andb_prop in Hp as (H1 & H2). rewrite m_seq. cbn [word]. split.
    + intros ([[b1 s1] e1] & Ha & Hb). apply (IHr1 H1) in Ha as (u & s' & -> & [= -> -> ->] & Hu).
      apply (IHr2 H2) in Hb as (v & s2 & -> & -> & Hv). exists (u ++ v), s2. rewrite rev_app_distr, <- !app_assoc.
      repeat split. exists u, v. auto.
    + intros (w & s' & -> & -> & u & v & -> & Hu & Hv). exists (rev u ++ b, v ++ s', e). split.
      * apply (IHr1 H1). exists u, (v ++ s'). now rewrite <- app_assoc.
      * apply (IHr2 H2). exists v, s'. now rewrite rev_app_distr, <- app_assoc.
  - apply andb_prop in Hp as (H1 & H2). rewrite m_alt, (IHr1 H1), (IHr2 H2). cbn [word]. firstorder.
  - cbn [m]. rewrite (reps_ok (m r) (word r)) by (auto). cbn [word]. split.
    + intros (ws & s' & -> & -> & Hw & Hb). exists (concat ws), s'. repeat split. exists ws. auto.
    + intros (w & s' & -> & -> & ws & -> & Hw & Hb). exists ws, s'. auto.
Qed.

Theorem fullmatches_pure r s : pure r = true -> (fullmatches r s = true <-> word r s).
Proof.
  intros Hp. rewrite fullmatches_iff. split.
  - intros (b & e & H). apply (m_pure r Hp) in H as (w & s' & -> & [= _ <- _] & Hw). now rewrite app_nil_r.
  - intros Hw. exists (rev s ++ []), []. apply (m_pure r Hp). exists s, []. now rewrite app_nil_r.
Qed.

(** ** Words of the usual shapes *)
Lemma word_chr p w : word (Chr p) w <-> exists c, w = [c] /\ p c = true.
Proof. reflexivity. Qed.
Lemma word_is c w : word (is c) w <-> w = [c].
Proof. cbn. split; [intros (d & -> & E); apply N.eqb_eq in E; now subst|intros ->; exists c; now rewrite N.eqb_refl]. Qed.
Lemma word_seq a b w : word (Seq a b) w <-> exists u v, w = u ++ v /\ word a u /\ word b v.
Proof. reflexivity. Qed.
Lemma word_alt a b w : word (Alt a b) w <-> word a w \/ word b w.
Proof. reflexivity. Qed.
Lemma word_eps w : word Eps w <-> w = [].
Proof. reflexivity. Qed.
Lemma word_opt r w : word (opt r) w <-> w = [] \/ (w <> [] /\ word r w).
Proof.
  cbn [opt word]. split.
  - intros (ws & -> & Hw & (_ & Hb)). destruct ws as [|u [|v ws]]; [now left| |cbn in Hb; lia].
    right. cbn. rewrite app_nil_r. now inversion Hw.
  - intros [->|(Hn & Hw)]; [exists []|exists [w]]; cbn; rewrite ?app_nil_r; repeat split; auto.
Qed.
Lemma concat_chars (p : N -> bool) (ws : list str) : Forall (fun v => v <> [] /\ exists c, v = [c] /\ p c = true) ws ->
  Forall (fun c => p c = true) (concat ws) /\ length (concat ws) = length ws.
Proof.
  induction 1 as [|v ws (_ & c & -> & E) Hw IH]; cbn; [auto|]. destruct IH as (H1 & H2). split; [now constructor|congruence].
Qed.
Lemma word_rep_chr lo hi p w : word (Rep lo hi (Chr p)) w <-> Forall (fun c => p c = true) w /\ within lo hi (length w).
Proof.
  cbn [word]. split.
  - intros (ws & -> & Hw & Hb). destruct (concat_chars p ws Hw) as (H1 & ->). auto.
  - intros (Hw & Hb). exists (map (fun c => [c]) w). rewrite map_length. split; [|split; [|exact Hb]].
    + clear. induction w; cbn; congruence.
    + apply Forall_map. eapply Forall_impl; [|exact Hw]. intros c E. split; [easy|eauto].
Qed.
Lemma word_star_chr p w : word (star (Chr p)) w <-> Forall (fun c => p c = true) w.
Proof. unfold star. rewrite word_rep_chr. split; [intros (H & _); exact H|intros H; split; [exact H|split; [lia|exact I]]]. Qed.
Lemma word_plus_chr p w : word (plus (Chr p)) w <-> w <> [] /\ Forall (fun c => p c = true) w.
Proof.
  unfold plus. rewrite word_rep_chr. unfold within. destruct w; cbn; [split; [intros (_ & H & _); lia|intros (H & _); congruence]|].
  split; [intros (H & _); split; [easy|exact H]|intros (_ & H); split; [exact H|split; [lia|exact I]]].
Qed.
Lemma word_any_of l w : word (any_of l) w <-> exists c, In c l /\ w = [c].
Proof.
  cbn. split.
  - intros (c & -> & E). apply existsb_exists in E as (d & Hd & E). apply N.eqb_eq in E. subst. eauto.
  - intros (c & Hc & ->). exists c. split; [reflexivity|]. apply existsb_exists. exists c. now rewrite N.eqb_refl.
Qed.
Lemma word_range a b w : word (range a b) w <-> exists c, w = [c] /\ (a <= c <= b)%N.
Proof.
  cbn. unfold in_range. split; intros (c & -> & E); exists c; (split; [reflexivity|]).
  - apply andb_prop in E as (E1 & E2). apply N.leb_le in E1, E2. lia.
  - apply andb_true_intro. split; apply N.leb_le; lia.
Qed.
Lemma word_lit l w : word (lit l) w <-> w = l.
Proof.
  unfold lit. revert w. induction l as [|c l IH]; intros w; [reflexivity|].
  cbn [map seqs]. destruct (map is l) as [|r rs] eqn:E.
  - destruct l; [|discriminate]. apply word_is.
  - rewrite word_seq. split.
    + intros (u & v & -> & Hu & Hv). apply word_is in Hu as ->. apply IH in Hv as ->. reflexivity.
    + intros ->. exists [c], l. repeat split; [now apply word_is|now apply IH].
Qed.

(** ** Nothing but characters of the classes is read *)
Fixpoint reads (P : N -> Prop) (r : re) : Prop :=
  match r with
  | Chr p => forall c, p c = true -> P c
  | Seq a b | Alt a b | IfGrp _ a b => reads P a /\ reads P b
  | Rep _ _ a | Grp _ a => reads P a
  | Back _ => False
  | _ => True
  end.
Definition advance (P : N -> Prop) (st st' : mstate) : Prop :=
  exists w, snd (fst st) = w ++ snd (fst st') /\ fst (fst st') = rev w ++ fst (fst st) /\ Forall P w.
Lemma advance_refl P st : advance P st st.
Proof. exists []. auto. Qed.
Lemma advance_trans P a b c : advance P a b -> advance P b c -> advance P a c.
Proof.
  intros (u & E1 & F1 & H1) (v & E2 & F2 & H2). exists (u ++ v). rewrite E1, E2, F2, F1, rev_app_distr, !app_assoc.
  repeat split. apply Forall_app. auto.
Qed.
Lemma reps_advance P f : (forall st st', In st' (f st) -> advance P st st') ->
  forall fuel lo hi st st', In st' (reps f fuel lo hi st) -> advance P st st'.
Proof.
  intros Hf. induction fuel as [|k IH]; intros lo hi st st' H; cbn [reps] in H; apply in_app_iff in H as [H|H].
  - now destruct hi as [[|]|].
  - destruct (Nat.eqb lo 0); [|easy]. destruct H as [<-|[]]. apply advance_refl.
  - assert (H' : In st' (flat_map (fun st1 => if Nat.ltb (length (snd (fst st1))) (length (snd (fst st)))
      then reps f k (pred lo) (option_map pred hi) st1 else []) (f st))) by (destruct hi as [[|]|]; easy).
    apply in_flat_map in H' as (st1 & H1 & H2). destruct (Nat.ltb _ _); [|easy].
    eapply advance_trans; [apply Hf, H1|eapply IH, H2].
  - destruct (Nat.eqb lo 0); [|easy]. destruct H as [<-|[]]. apply advance_refl.
Qed.
Theorem m_reads P r : reads P r -> forall st st', In st' (m r st) -> advance P st st'.
Proof.
  induction r; intros HP [[b s] e] st' H; cbn [reads] in HP.
  - apply m_chr in H as (c & s' & -> & E & ->). exists [c]. cbn. repeat split. constructor; auto.
  - apply m_eps in H as ->. apply advance_refl.
  - apply m_seq in H as (st1 & H1 & H2). eapply advance_trans; [eapply IHr1|eapply IHr2]; (easy || eassumption).
  - apply m_alt in H as [H|H]; [eapply IHr1|eapply IHr2]; (easy || eassumption).
  - cbn [m] in H. eapply reps_advance; [|exact H]. auto.
  - apply m_look in H as (-> & _). apply advance_refl.
  - apply m_notlook in H as (-> & _). apply advance_refl.
  - apply m_behind in H as (-> & _). apply advance_refl.
  - apply m_bol in H as (_ & ->). apply advance_refl.
  - cbn [m] in H. destruct s as [|c [|d s]]; [|destruct (c =? LF)%N|]; (easy || destruct H as [<-|[]]; apply advance_refl).
  - apply m_grp in H as (b' & s' & e' & H & ->). apply (IHr HP) in H. exact H.
  - easy.
  - apply m_ifgrp in H. destruct (group e name); [eapply IHr1|eapply IHr2]; (easy || eassumption).
Qed.

(** An optional part, whatever its assertions. *)
Theorem m_opt r b s e st' :
  In st' (m (opt r) (b, s, e)) <->
  st' = (b, s, e) \/ (In st' (m r (b, s, e)) /\ (length (snd (fst st')) < length s)%nat).
Proof.
  unfold opt. cbn [m]. destruct (length s) as [|k] eqn:El.
  - cbn [reps Nat.eqb app In]. split; [intros [<-|[]]; now left|intros [->|(_ & H)]; [now left|lia]].
  - cbn [reps Nat.eqb option_map pred]. rewrite in_app_iff, in_flat_map. cbn [fst snd]. split.
    + intros [(st1 & H1 & H2)|[<-|[]]]; [right|now left].
      match type of H2 with In _ (if ?x then _ else _) => destruct x eqn:E end; [|easy]. apply Nat.ltb_lt in E.
      destruct k; cbn [reps Nat.eqb app In] in H2; destruct H2 as [<-|[]]; (split; [exact H1|rewrite <- El; exact E]).
    + intros [->|(H1 & Hl)]; [right; now left|left]. exists st'. split; [exact H1|]. apply Nat.ltb_lt in Hl. rewrite El.
      match goal with |- In _ (if ?x then _ else _) => change x with (Nat.ltb (length (snd (fst st'))) (S k)) end.
      rewrite Hl. destruct k; cbn [reps Nat.eqb app In]; now left.
Qed.
