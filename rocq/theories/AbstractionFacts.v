(** * AbstractionFacts: the array code computes the list functions below *)
From Verif Require Import Base Parser Dialect Abstraction.

(** ** Arrays *)
Lemma put_app {A} (w : list A) y junk x :
  a_put (map Some w ++ y :: junk) (length w) x = map Some (w ++ [x]) ++ junk.
Proof.
  induction w as [|a w IH]; cbn; [reflexivity|]. now rewrite IH.
Qed.
Lemma set_app {A} (w : list A) y junk x :
  a_set (map Some w ++ y :: junk) (length w) x = Ok (map Some (w ++ [x]) ++ junk).
Proof.
  unfold a_set. rewrite app_length, map_length. cbn [length].
  replace (Nat.ltb _ _) with true by (symmetry; apply Nat.ltb_lt; lia). now rewrite put_app.
Qed.
Lemma get_app {A} (w : list A) junk i x : nth_error w i = Some x -> a_get (map Some w ++ junk) i = Ok x.
Proof.
  intros H. unfold a_get. rewrite nth_error_app1.
  - rewrite nth_error_map, H. reflexivity.
  - rewrite map_length. apply nth_error_Some. now rewrite H.
Qed.
Lemma realloc_app {A} (a : arr A) n : length a <= n -> a_realloc a n = a ++ repeat None (n - length a).
Proof. intros H. unfold a_realloc. now rewrite firstn_all2. Qed.
Lemma read_app w junk : forall pre, a_read (map Some (pre ++ w) ++ junk) (length pre) (length w) = Ok w.
Proof.
  induction w as [|c w IH]; intros pre; [reflexivity|].
  cbn [length a_read]. rewrite (get_app _ _ _ c).
  2:{ rewrite nth_error_app2, Nat.sub_diag by lia. reflexivity. }
  cbn [bind]. specialize (IH (pre ++ [c])). rewrite app_length in IH. cbn [length] in IH.
  rewrite <- app_assoc in IH. cbn [app] in IH. replace (length pre + 1) with (S (length pre)) in IH by lia.
  now rewrite IH.
Qed.
Lemma read_all w junk : a_read (map Some w ++ junk) 0 (length w) = Ok w.
Proof. exact (read_app w junk []). Qed.
Lemma zero_app : forall n w, a_zero (map Some w ++ a_new n) (length w) n = Ok (map Some (w ++ repeat NUL n)).
Proof.
  induction n as [|n IH]; intros w; cbn [a_zero a_new repeat].
  - now rewrite !app_nil_r.
  - rewrite set_app. cbn [bind]. specialize (IH (w ++ [NUL])). rewrite app_length in IH. cbn [length] in IH.
    replace (length w + 1) with (S (length w)) in IH by lia. unfold a_new in IH. rewrite IH.
    rewrite <- app_assoc. reflexivity.
Qed.
Lemma zero_new n : a_zero (a_new n) 0 n = Ok (map Some (repeat NUL n)).
Proof. exact (zero_app n []). Qed.

(** ** base_abstraction as a function on lists *)
(** The letter for one character; [l] is the letter before, [esc] whether the
    previous character was an active escape character. *)
Definition opt_is (l : option N) (x : N) : bool := match l with Some y => (y =? x)%N | None => false end.
Definition bstep (d q e : N) (l : option N) (esc : bool) (c : N) : list N * bool :=
  if is_nl c then (if opt_is l chR then [] else [chR], esc)
  else if (c =? d)%N then (if esc then [chC] else [chD], false)
  else if (c =? q)%N then (if esc then [chC] else [chQ], false)
  else if (c =? e)%N then (if esc then (if opt_is l chC then [] else [chC], false) else ([], true))
  else (if opt_is l chC then [] else [chC], false).
Definition lastl (l : option N) (w : list N) : option N := fold_left (fun _ x => Some x) w l.
Fixpoint bfun (d q e : N) (l : option N) (esc : bool) (s : str) : list N :=
  match s with
  | [] => []
  | c :: s' => let '(w, esc') := bstep d q e l esc c in w ++ bfun d q e (lastl l w) esc' s'
  end.

Lemma lastl_app l a b : lastl l (a ++ b) = lastl (lastl l a) b.
Proof. unfold lastl. apply fold_left_app. Qed.
Lemma lastl_snoc l a x : lastl l (a ++ [x]) = Some x.
Proof. rewrite lastl_app. reflexivity. Qed.

(** The stack holds [out]; [room] is what is allocated beyond it. *)
Definition binv (st : bstate) (out : list N) (room : arr N) (esc : bool) : Prop :=
  b_stack st = map Some out ++ room /\ b_len st = length out /\ b_esc st = esc.

Lemma push_ok st out y room esc x : binv st out (y :: room) esc ->
  exists st', b_push st x = Ok st' /\ binv st' (out ++ [x]) room esc.
Proof.
  intros (Hs & Hl & He). unfold b_push. rewrite Hs, Hl, set_app. cbn [bind].
  eexists. split; [reflexivity|]. unfold binv. cbn. rewrite app_length. cbn. repeat split; auto. lia.
Qed.
Lemma last_not_ok st out room esc x : binv st out room esc ->
  b_last_not st x = Ok (negb (opt_is (lastl None out) x)).
Proof.
  intros (Hs & Hl & He). unfold b_last_not. rewrite Hl.
  destruct out as [|a out] using rev_ind; [reflexivity|]. clear IHout.
  rewrite app_length. cbn [length]. rewrite Nat.add_comm. cbn [Nat.add].
  rewrite Hs, (get_app _ _ _ a).
  - cbn [bind]. rewrite lastl_snoc. reflexivity.
  - rewrite nth_error_app2, Nat.sub_diag by lia. reflexivity.
Qed.
Lemma unesc_ok st out room esc : binv st out room esc -> binv (b_unesc st) out room false.
Proof. intros (Hs & Hl & He). repeat split; assumption. Qed.
Lemma doesc_ok st out room esc : binv st out room esc -> binv (b_doesc st) out room true.
Proof. intros (Hs & Hl & He). repeat split; assumption. Qed.

(** One character writes at most one letter. *)
Lemma b_char_ok d q e st out y room esc c : binv st out (y :: room) esc ->
  let '(w, esc') := bstep d q e (lastl None out) esc c in
  exists st' room', b_char d q e st c = Ok st' /\ binv st' (out ++ w) room' esc' /\
    length (out ++ w) + length room' = length out + S (length room).
Proof.
  intros Hi. unfold b_char, bstep. assert (He : b_esc st = esc) by apply Hi.
  assert (Hpush : forall st x, binv st out (y :: room) esc -> exists st' room', b_push st x = Ok st' /\
     binv st' (out ++ [x]) room' esc /\ length (out ++ [x]) + length room' = length out + S (length room)).
  { intros st0 x H. destruct (push_ok _ _ _ _ _ x H) as (st' & E & I). exists st', room.
    split; [exact E|split; [exact I|]]. rewrite app_length. cbn. lia. }
  assert (Hcond : forall st x, binv st out (y :: room) esc -> exists st' room',
     b_push_if (negb (opt_is (lastl None out) x)) st x = Ok st' /\
     binv st' (out ++ (if opt_is (lastl None out) x then [] else [x])) room' esc /\
     length (out ++ (if opt_is (lastl None out) x then [] else [x])) + length room' = length out + S (length room)).
  { intros st0 x H. unfold b_push_if. destruct (opt_is (lastl None out) x); cbn [negb].
    - exists st0, (y :: room). rewrite app_nil_r. split; [reflexivity|split; [exact H|cbn; lia]].
    - now apply Hpush. }
  destruct (is_nl c).
  { rewrite (last_not_ok _ _ _ _ chR Hi). cbn [bind]. now apply Hcond. }
  rewrite He.
  assert (Hesc : exists st' room', bind (b_push st chC) (fun st0 => Ok (b_unesc st0)) = Ok st' /\
     binv st' (out ++ [chC]) room' false /\ length (out ++ [chC]) + length room' = length out + S (length room)).
  { destruct (Hpush _ chC Hi) as (st' & room' & E & I & L). rewrite E. cbn [bind].
    exists (b_unesc st'), room'. split; [reflexivity|]. split; [|exact L]. eapply unesc_ok, I. }
  assert (Hplain : forall x, esc = false -> exists st' room', b_push st x = Ok st' /\
     binv st' (out ++ [x]) room' false /\ length (out ++ [x]) + length room' = length out + S (length room)).
  { intros x Hf. destruct (Hpush _ x Hi) as (st' & room' & E & I & L). exists st', room'. rewrite <- Hf at 1. auto. }
  destruct (c =? d)%N.
  { destruct esc; [exact Hesc|now apply Hplain]. }
  destruct (c =? q)%N.
  { destruct esc; [exact Hesc|now apply Hplain]. }
  destruct (c =? e)%N.
  { destruct esc.
    - rewrite (last_not_ok _ _ _ _ chC Hi). cbn [bind]. destruct (Hcond _ chC Hi) as (st' & room' & E & I & L).
      rewrite E. cbn [bind]. exists (b_unesc st'), room'. split; [reflexivity|]. split; [|exact L]. eapply unesc_ok, I.
    - exists (b_doesc st), (y :: room). rewrite app_nil_r. split; [reflexivity|]. split; [|cbn; lia].
      eapply doesc_ok, Hi. }
  rewrite (last_not_ok _ _ _ _ chC Hi). cbn [bind].
  unfold b_push_if. destruct (opt_is (lastl None out) chC); cbn [negb].
  - exists (b_unesc st), (y :: room). rewrite app_nil_r. split; [reflexivity|]. split; [|cbn; lia].
    eapply unesc_ok, Hi.
  - destruct (push_ok _ _ _ _ _ chC (unesc_ok _ _ _ _ Hi)) as (st' & E & I). exists st', room.
    split; [exact E|split; [exact I|]]. rewrite app_length. cbn. lia.
Qed.

(** After the reallocation there is room again. *)
Lemma grow_ok st out room esc : binv st out room esc -> 1 <= length out + length room ->
  exists y room', binv (b_grow st) out (y :: room') esc.
Proof.
  intros (Hs & Hl & He) Hlen. unfold b_grow. rewrite Hs, Hl, app_length, map_length.
  destruct room as [|y room].
  - cbn [length] in *. rewrite Nat.add_0_r in *. rewrite Nat.eqb_refl.
    rewrite app_nil_r, realloc_app by (rewrite map_length; lia). rewrite map_length.
    destruct (2 * length out - length out) eqn:E; [lia|]. cbn [repeat]. eexists _, _. repeat split; auto.
  - destruct (Nat.eqb_spec (length out) (length out + length (y :: room))) as [E|_].
    + cbn in E. lia.
    + eexists _, _. repeat split; eauto.
Qed.

Lemma b_loop_ok d q e s : forall st out y room esc, binv st out (y :: room) esc ->
  exists st' room' esc', b_loop d q e st s = Ok st' /\
    binv st' (out ++ bfun d q e (lastl None out) esc s) room' esc'.
Proof.
  induction s as [|c s IH]; intros st out y room esc Hi; cbn [b_loop bfun].
  - rewrite app_nil_r. eauto 6.
  - pose proof (b_char_ok d q e st out y room esc c Hi) as H.
    destruct (bstep d q e (lastl None out) esc c) as [w esc'] eqn:E.
    destruct H as (st' & room' & Hc & I & L). rewrite Hc. cbn [bind].
    destruct (grow_ok _ _ _ _ I) as (y' & room'' & I'); [lia|].
    destruct (IH _ _ _ _ _ I') as (st'' & r'' & e'' & E'' & I''). exists st'', r'', e''.
    split; [exact E''|]. now rewrite <- lastl_app, app_assoc.
Qed.

Theorem base_sized_ok size d q e s : 1 <= size ->
  base_abstraction_sized size d q e s = Ok (bfun d q e None false s).
Proof.
  intros Hs. unfold base_abstraction_sized. rewrite zero_new. cbn [bind].
  destruct size as [|n]; [lia|]. cbn [repeat map].
  destruct (b_loop_ok d q e s (mk_bstate (Some NUL :: map Some (repeat NUL n)) 0 false) []
              (Some NUL) (map Some (repeat NUL n)) false) as (st' & room' & esc' & E & I).
  { repeat split. }
  rewrite E. cbn [bind]. destruct I as (Hst & Hl & _). rewrite Hst, Hl. cbn [app lastl fold_left].
  apply read_all.
Qed.

(** ** c_merge_with_quotechar as a function on lists *)
Fixpoint mg (acc : option (list N)) (s : str) : str :=
  match s with
  | [] => match acc with Some a => rev a | None => [] end
  | c :: s' =>
      match acc with
      | None => if (c =? chQ)%N then mg (Some [chQ]) s' else (c mod 256)%N :: mg None s'
      | Some a =>
          if (c =? chQ)%N then
            match s' with
            | c' :: s'' =>
                if (c' =? chQ)%N then mg (Some (NUL :: chQ :: a)) s''
                else repeat chC (S (length a)) ++ mg None s'
            | [] => repeat chC (S (length a)) ++ mg None s'
            end
          else mg (Some ((c mod 256)%N :: a)) s'
      end
  end.

Lemma skipn_add {A} n m (l : list A) : skipn n (skipn m l) = skipn (m + n) l.
Proof.
  revert l. induction m as [|m IH]; intros l; [reflexivity|]. destruct l; [now rewrite !skipn_nil|]. apply IH.
Qed.

(** Overwriting the closed intervals. *)
Definition fill1 (w : list N) (lr : nat * nat) : list N :=
  firstn (fst lr) w ++ repeat chC (S (snd lr) - fst lr) ++ skipn (S (snd lr)) w.
Definition fillp (w : list N) (ivs : list (nat * nat)) : list N := fold_left fill1 ivs w.
Definition iv_ok (n : nat) (lr : nat * nat) : Prop := fst lr <= snd lr /\ snd lr < n.

Lemma fill1_length w lr : iv_ok (length w) lr -> length (fill1 w lr) = length w.
Proof.
  intros [H1 H2]. unfold fill1. rewrite !app_length, firstn_length, repeat_length, skipn_length. lia.
Qed.
Lemma fill1_app w x lr : iv_ok (length w) lr -> fill1 (w ++ x) lr = fill1 w lr ++ x.
Proof.
  intros [H1 H2]. unfold fill1. rewrite firstn_app, skipn_app.
  replace (fst lr - length w) with 0 by lia. replace (S (snd lr) - length w) with 0 by lia.
  cbn. now rewrite app_nil_r, <- !app_assoc.
Qed.
Lemma fillp_length ivs : forall w, Forall (iv_ok (length w)) ivs -> length (fillp w ivs) = length w.
Proof.
  induction ivs as [|lr ivs IH]; intros w H; [reflexivity|].
  inversion H; subst. cbn. fold (fillp (fill1 w lr) ivs). rewrite IH; rewrite fill1_length; auto.
Qed.
Lemma fillp_app ivs : forall w x, Forall (iv_ok (length w)) ivs -> fillp (w ++ x) ivs = fillp w ivs ++ x.
Proof.
  induction ivs as [|lr ivs IH]; intros w x H; [reflexivity|].
  inversion H; subst. cbn. fold (fillp (fill1 (w ++ x) lr) ivs). fold (fillp (fill1 w lr) ivs).
  rewrite fill1_app, IH; auto. rewrite fill1_length; auto.
Qed.

Lemma put_mid (a b : list N) y x : a_put (map Some (a ++ y :: b)) (length a) x = map Some (a ++ x :: b).
Proof. induction a as [|c a IH]; cbn; [reflexivity|]. now rewrite IH. Qed.
Lemma m_fill_ok n : forall a b c, length b = n ->
  m_fill (map Some (a ++ b ++ c)) (length a) n = Ok (map Some (a ++ repeat chC n ++ c)).
Proof.
  induction n as [|n IH]; intros a b c Hb.
  - destruct b; [|discriminate]. reflexivity.
  - destruct b as [|y b]; [discriminate|]. cbn [m_fill]. unfold a_set.
    rewrite map_length, !app_length. cbn [length].
    replace (Nat.ltb _ _) with true by (symmetry; apply Nat.ltb_lt; lia).
    cbn [app]. rewrite put_mid. cbn [bind].
    specialize (IH (a ++ [chC]) b c). rewrite app_length in IH. cbn [length] in IH.
    replace (length a + 1) with (S (length a)) in IH by lia.
    rewrite <- !app_assoc in IH. cbn [app] in IH. rewrite IH by (cbn in Hb; lia).
    reflexivity.
Qed.
Lemma m_fill1 w lr : iv_ok (length w) lr ->
  m_fill (map Some w) (fst lr) (S (snd lr) - fst lr) = Ok (map Some (fill1 w lr)).
Proof.
  intros [H1 H2]. unfold fill1. destruct lr as [l r]. cbn [fst snd] in *.
  pose proof (m_fill_ok (S r - l) (firstn l w) (firstn (S r - l) (skipn l w)) (skipn (S r) w)) as H.
  rewrite !firstn_length, skipn_length in H.
  replace (Nat.min l (length w)) with l in H by lia.
  replace (firstn l w ++ firstn (S r - l) (skipn l w) ++ skipn (S r) w) with w in H.
  - apply H. lia.
  - rewrite <- (firstn_skipn l w) at 1. f_equal. rewrite <- (firstn_skipn (S r - l) (skipn l w)) at 1. f_equal.
    rewrite skipn_add. f_equal. lia.
Qed.
Lemma m_fill_all_ok xl xr : forall ivs pre w, Forall (iv_ok (length w)) ivs ->
  m_fill_all (map Some w) (map Some (map fst (pre ++ ivs)) ++ xl) (map Some (map snd (pre ++ ivs)) ++ xr)
    (length pre) (length ivs) = Ok (map Some (fillp w ivs)).
Proof.
  induction ivs as [|lr ivs IH]; intros pre w H; [reflexivity|].
  inversion H; subst. cbn [m_fill_all length].
  rewrite (get_app _ _ _ (fst lr)), (get_app _ _ _ (snd lr)).
  2,3: rewrite nth_error_map, nth_error_app2, Nat.sub_diag by lia; reflexivity.
  cbn [bind]. rewrite m_fill1 by assumption. cbn [bind].
  specialize (IH (pre ++ [lr]) (fill1 w lr)). rewrite <- !app_assoc in IH. cbn [app] in IH.
  rewrite app_length in IH. cbn [length] in IH. replace (length pre + 1) with (S (length pre)) in IH by lia.
  rewrite IH; [reflexivity|]. now rewrite fill1_length.
Qed.

(** The state of the loop: [w] has been written, [ivs] are the closed
    intervals, [acc] the letters of the open one. *)
Definition minv (s pre suf : str) (st : mstate) (acc : option (list N)) (done : list N) : Prop :=
  exists w ivs xl xr,
    s = pre ++ suf /\ m_i st = length pre /\
    m_out st = map Some (w ++ repeat NUL (length suf)) /\ length w = length pre /\
    m_l st = map Some (map fst ivs) ++ xl /\ m_r st = map Some (map snd ivs) ++ xr /\
    length xl = length xr /\ 1 <= length xl /\ m_idx st = length ivs /\
    Forall (iv_ok (length done)) ivs /\
    match acc with
    | None => m_inq st = false /\ fillp w ivs = done /\ length done = length w
    | Some a => m_inq st = true /\ fillp w ivs = done ++ rev a /\ hd None xl = Some (length done) /\
                length done + length a = length w
    end.

Lemma fill1_tail done a c : 
  fill1 ((done ++ rev a) ++ [c]) (length done, length done + length a) =
  done ++ repeat chC (S (length a)).
Proof.
  unfold fill1. cbn [fst snd]. rewrite <- app_assoc, firstn_app, firstn_all, Nat.sub_diag. cbn [firstn].
  rewrite app_nil_r. rewrite skipn_all2 by (rewrite !app_length, rev_length; cbn; lia).
  rewrite app_nil_r. f_equal. f_equal. lia.
Qed.

Lemma iv_mono n m lr : n <= m -> iv_ok n lr -> iv_ok m lr.
Proof. intros H [A B]. split; lia. Qed.

Lemma fillp_snoc w ivs lr : fillp w (ivs ++ [lr]) = fill1 (fillp w ivs) lr.
Proof. unfold fillp. now rewrite fold_left_app. Qed.

(** What [m_grow] gives. *)
Lemma m_grow_ok st (ls rs : list nat) xl xr :
  m_l st = map Some ls ++ xl -> m_r st = map Some rs ++ xr -> length xl = length xr ->
  m_idx st = length ls -> length ls = length rs -> 1 <= length ls ->
  exists xl' xr', m_grow st = mk_mstate (m_i st) (m_out st) (map Some ls ++ xl') (map Some rs ++ xr') (m_idx st) (m_inq st)
    /\ length xl' = length xr' /\ 1 <= length xl'.
Proof.
  intros Hl Hr Hx Hi Hlr H1. unfold m_grow. rewrite Hl, Hr, Hi, app_length, map_length.
  destruct (Nat.eqb_spec (length ls) (length ls + length xl)) as [E|E].
  - assert (xl = []) as -> by (destruct xl; [reflexivity|cbn in E; lia]).
    destruct xr; [|discriminate]. rewrite !app_nil_r. cbn [length]. rewrite Nat.add_0_r.
    rewrite !realloc_app by (rewrite map_length; lia). rewrite !map_length.
    eexists _, _. split; [reflexivity|]. rewrite !repeat_length. lia.
  - exists xl, xr. split; [|split; [assumption|lia]]. destruct st; cbn in *; congruence.
Qed.

Lemma m_step_ok s pre c suf st acc done : minv s pre (c :: suf) st acc done ->
  (* an ordinary letter *)
  ((c =? chQ)%N = false -> exists st', m_step s st = Ok st' /\
     minv s (pre ++ [c]) suf st' (match acc with None => None | Some a => Some ((c mod 256)%N :: a) end)
       (match acc with None => done ++ [(c mod 256)%N] | Some _ => done end)) /\
  (* an opening quote *)
  ((c =? chQ)%N = true -> acc = None -> exists st', m_step s st = Ok st' /\
     minv s (pre ++ [c]) suf st' (Some [chQ]) done) /\
  (* a doubled quote *)
  (forall a c' suf', (c =? chQ)%N = true -> acc = Some a -> suf = c' :: suf' -> (c' =? chQ)%N = true ->
     exists st', m_step s st = Ok st' /\ minv s (pre ++ [c; c']) suf' st' (Some (NUL :: chQ :: a)) done) /\
  (* a closing quote *)
  (forall a, (c =? chQ)%N = true -> acc = Some a -> opt_is (hd_error suf) chQ = false ->
     exists st', m_step s st = Ok st' /\ minv s (pre ++ [c]) suf st' None (done ++ repeat chC (S (length a)))).
Proof.
  intros (w & ivs & xl & xr & Hs & Hi & Ho & Hw & Hl & Hr & Hx & Hx1 & Hidx & Hiv & Hacc).
  assert (Hread : u_read s (m_i st) = Ok c).
  { unfold u_read. rewrite Hs, Hi, nth_error_app2, Nat.sub_diag by lia. reflexivity. }
  assert (Hset : a_set (m_out st) (m_i st) (c mod 256)%N =
                 Ok (map Some ((w ++ [(c mod 256)%N]) ++ repeat NUL (length suf)))).
  { rewrite Ho, Hi. cbn [length repeat]. unfold a_set. rewrite map_length, app_length. cbn [length].
    replace (Nat.ltb _ _) with true by (symmetry; apply Nat.ltb_lt; lia).
    rewrite <- Hw, put_mid. now rewrite <- app_assoc. }
  assert (Hsnext : s = (pre ++ [c]) ++ suf) by (rewrite Hs, <- app_assoc; reflexivity).
  assert (Hlen1 : S (length pre) = length (pre ++ [c])) by (rewrite app_length; cbn; lia).
  assert (Hlw : length (w ++ [(c mod 256)%N]) = length (pre ++ [c])) by (rewrite !app_length; cbn; lia).
  assert (Hivw : Forall (iv_ok (length w)) ivs).
  { eapply Forall_impl; [|exact Hiv]. intros lr. apply iv_mono. destruct acc; lia. }
  assert (Hstep : m_step s st =
    (if negb (c =? chQ)%N then
       Ok (mk_mstate (S (m_i st)) (map Some ((w ++ [(c mod 256)%N]) ++ repeat NUL (length suf))) (m_l st) (m_r st) (m_idx st) (m_inq st))
     else if negb (m_inq st) then
       bind (a_set (m_l st) (m_idx st) (m_i st)) (fun l =>
       Ok (mk_mstate (S (m_i st)) (map Some ((w ++ [(c mod 256)%N]) ++ repeat NUL (length suf))) l (m_r st) (m_idx st) true))
     else if opt_is (hd_error suf) chQ then
       Ok (mk_mstate (S (S (m_i st))) (map Some ((w ++ [(c mod 256)%N]) ++ repeat NUL (length suf))) (m_l st) (m_r st) (m_idx st) (m_inq st))
     else
      bind (a_set (m_r st) (m_idx st) (m_i st)) (fun r =>
      let st' := m_grow (mk_mstate (m_i st) (map Some ((w ++ [(c mod 256)%N]) ++ repeat NUL (length suf))) (m_l st) r (S (m_idx st)) false) in
      Ok (mk_mstate (S (m_i st)) (m_out st') (m_l st') (m_r st') (m_idx st') (m_inq st'))))).
  { unfold m_step. rewrite Hread. cbn [bind]. rewrite Hset. cbn [bind].
    destruct (c =? chQ)%N; [|reflexivity]. cbn [negb]. destruct (m_inq st); [|reflexivity]. cbn [negb].
    assert (Hlt : Nat.ltb (S (m_i st)) (length s) = match suf with [] => false | _ => true end).
    { rewrite Hi, Hs, app_length. destruct suf; cbn [length]; [apply Nat.ltb_ge|apply Nat.ltb_lt]; lia. }
    rewrite Hlt. destruct suf as [|c' suf']; [reflexivity|].
    unfold u_read. rewrite Hi, Hs, nth_error_app2 by lia.
    replace (S (length pre) - length pre) with 1 by lia. cbn [nth_error bind andb hd_error opt_is]. reflexivity. }
  rewrite Hstep. clear Hstep Hread Hset. repeat split.
  - intros Hc. rewrite Hc. cbn [negb]. eexists. split; [reflexivity|].
    exists (w ++ [(c mod 256)%N]), ivs, xl, xr.
    cbn. repeat (split; [solve [auto; lia | rewrite ?Hi; auto]|]).
    destruct acc as [a|]; (split; [|]).
    + exact Hiv.
    + destruct Hacc as (A1 & A2 & A3 & A4). split; [exact A1|]. rewrite fillp_app by exact Hivw. rewrite A2.
      cbn [rev]. rewrite app_assoc. split; [reflexivity|]. split; [exact A3|]. rewrite app_length. cbn. lia.
    + eapply Forall_impl; [|exact Hiv]. intros lr. apply iv_mono. rewrite app_length. lia.
    + destruct Hacc as (A1 & A2 & A3). split; [exact A1|]. rewrite fillp_app by exact Hivw. rewrite A2.
      split; [reflexivity|]. rewrite !app_length. cbn. lia.
  - intros Hc ->. destruct Hacc as (A1 & A2 & A3). rewrite Hc, A1. cbn [negb].
    destruct xl as [|y xl]; [cbn in Hx1; lia|].
    rewrite Hl, Hidx, Hi. rewrite <- (map_length fst ivs), set_app. cbn [bind].
    eexists. split; [reflexivity|]. apply N.eqb_eq in Hc. subst c.
    exists (w ++ [chQ]), ivs, (Some (length pre) :: xl), xr. cbn.
    rewrite (map_app Some (map fst ivs)), <- (app_assoc (map Some (map fst ivs))), map_length. cbn [map app].
    repeat (split; [solve [auto; lia | rewrite ?Hi; auto]|]).
    rewrite fillp_app by exact Hivw. rewrite A2. split; [reflexivity|].
    split; [f_equal; lia|]. rewrite app_length. cbn. lia.
  - intros a c' suf' Hc -> -> Hc'. destruct Hacc as (A1 & A2 & A3 & A4). rewrite Hc, A1. cbn [negb hd_error opt_is].
    rewrite Hc'. eexists. split; [reflexivity|]. apply N.eqb_eq in Hc, Hc'. subst c c'.
    exists ((w ++ [chQ]) ++ [NUL]), ivs, xl, xr. cbn.
    assert (E : S (S (length pre)) = length (pre ++ [chQ; chQ])) by (rewrite app_length; cbn; lia).
    split; [rewrite Hs, <- app_assoc; reflexivity|].
    split; [rewrite Hi; exact E|].
    split; [rewrite <- !app_assoc; reflexivity|].
    split; [rewrite !app_length; cbn; lia|].
    repeat (split; [solve [auto; lia]|]).
    rewrite <- app_assoc. rewrite fillp_app by exact Hivw. rewrite A2.
    split; [cbn [rev]; rewrite <- !app_assoc; reflexivity|]. split; [exact A3|]. rewrite app_length. cbn. lia.
  - intros a Hc -> Hn. destruct Hacc as (A1 & A2 & A3 & A4). rewrite Hc, A1, Hn. cbn [negb].
    destruct xl as [|y xl]; [cbn in Hx1; lia|]. destruct xr as [|z xr]; [discriminate|].
    cbn [hd] in A3. subst y.
    rewrite Hr, Hidx, Hi. rewrite <- (map_length snd ivs), set_app, map_length. cbn [bind].
    match goal with |- context [m_grow ?x] => 
      destruct (m_grow_ok x (map fst (ivs ++ [(length done, length done + length a)]))
                  (map snd (ivs ++ [(length done, length done + length a)])) xl xr) as (xl' & xr' & G & G1 & G2) end.
    + cbn [m_l]. rewrite Hl, !map_app, <- app_assoc. reflexivity.
    + cbn [m_r]. rewrite (map_app snd ivs). cbn [map snd]. now replace (length done + length a) with (length pre) by lia.
    + cbn in Hx. lia.
    + cbn [m_idx]. rewrite map_length, app_length. cbn. lia.
    + now rewrite !map_length.
    + rewrite map_length, app_length. cbn. lia.
    + rewrite G. cbn [m_i m_out m_l m_r m_idx m_inq]. eexists. split; [reflexivity|].
      exists (w ++ [(c mod 256)%N]), (ivs ++ [(length done, length done + length a)]), xl', xr'.
      cbn [m_i m_out m_l m_r m_idx m_inq].
      repeat (split; [solve [auto; lia]|]).
      split; [rewrite app_length; cbn; lia|].
      split.
      { rewrite app_length, repeat_length. apply Forall_app. split.
        - eapply Forall_impl; [|exact Hiv]. intros lr. apply iv_mono. lia.
        - constructor; [|constructor]. split; cbn; lia. }
      split; [reflexivity|]. split.
      * rewrite fillp_snoc, fillp_app by exact Hivw. rewrite A2. apply fill1_tail.
      * rewrite !app_length, repeat_length. cbn. lia.
Qed.

Lemma m_end_ok s st acc done : minv s s [] st acc done ->
  bind (m_fill_all (m_out st) (m_l st) (m_r st) 0 (m_idx st)) (fun out => a_read out 0 (length s)) =
  Ok (done ++ match acc with Some a => rev a | None => [] end).
Proof.
  intros (w & ivs & xl & xr & Hs & Hi & Ho & Hw & Hl & Hr & Hx & Hx1 & Hidx & Hiv & Hacc).
  assert (Hivw : Forall (iv_ok (length w)) ivs).
  { eapply Forall_impl; [|exact Hiv]. intros lr. apply iv_mono. destruct acc; lia. }
  cbn [length repeat] in Ho. rewrite app_nil_r in Ho. rewrite Ho, Hl, Hr, Hidx.
  pose proof (m_fill_all_ok xl xr ivs [] w Hivw) as F. cbn [app length] in F. rewrite F. cbn [bind].
  pose proof (read_all (fillp w ivs) []) as R. rewrite app_nil_r, fillp_length in R by exact Hivw.
  rewrite <- Hw, R. f_equal. destruct acc as [a|]; [apply Hacc|]. rewrite app_nil_r. apply Hacc.
Qed.

Lemma m_loop_ok s : forall n fuel suf pre st acc done, length suf <= n -> length suf <= fuel ->
  minv s pre suf st acc done ->
  bind (m_loop fuel s st) (fun st => bind (m_fill_all (m_out st) (m_l st) (m_r st) 0 (m_idx st))
    (fun out => a_read out 0 (length s))) = Ok (done ++ mg acc suf).
Proof.
  assert (Hend : forall fuel st acc done pre, minv s pre [] st acc done ->
    bind (m_loop fuel s st) (fun st => bind (m_fill_all (m_out st) (m_l st) (m_r st) 0 (m_idx st))
    (fun out => a_read out 0 (length s))) = Ok (done ++ mg acc [])).
  { intros fuel st acc done pre H. assert (pre = s) as ->.
    { destruct H as (w & ivs & xl & xr & Hs & _). now rewrite app_nil_r in Hs. }
    assert (E : Nat.ltb (m_i st) (length s) = false).
    { destruct H as (w & ivs & xl & xr & Hs & Hi & _). apply Nat.ltb_ge. lia. }
    destruct fuel; cbn [m_loop]; rewrite E; cbn [bind]; now apply m_end_ok. }
  induction n as [|n IH]; intros fuel suf pre st acc done Hn Hf Hm.
  - destruct suf; [|cbn in Hn; lia]. eapply Hend, Hm.
  - destruct suf as [|c suf]; [eapply Hend, Hm|].
    destruct fuel as [|fuel]; [cbn in Hf; lia|]. cbn [m_loop].
    assert (E : Nat.ltb (m_i st) (length s) = true).
    { destruct Hm as (w & ivs & xl & xr & Hs & Hi & _). apply Nat.ltb_lt. rewrite Hi, Hs, app_length. cbn. lia. }
    rewrite E. cbn in Hn, Hf.
    destruct (m_step_ok _ _ _ _ _ _ _ Hm) as (H1 & H2 & H3 & H4).
    destruct (c =? chQ)%N eqn:Ec.
    + destruct acc as [a|].
      * destruct (opt_is (hd_error suf) chQ) eqn:Eh.
        -- destruct suf as [|c' suf']; [discriminate|]. cbn in Eh.
           destruct (H3 a c' suf' eq_refl eq_refl eq_refl Eh) as (st' & S' & I'). rewrite S'. cbn [bind].
           rewrite (IH fuel suf' _ _ _ _ ltac:(cbn in Hn; lia) ltac:(cbn in Hf; lia) I').
           cbn [mg]. now rewrite Ec, Eh.
        -- destruct (H4 a eq_refl eq_refl eq_refl) as (st' & S' & I'). rewrite S'. cbn [bind].
           rewrite (IH fuel suf _ _ _ _ ltac:(lia) ltac:(lia) I'). rewrite <- app_assoc. f_equal. f_equal.
           cbn [mg]. rewrite Ec. destruct suf as [|c' suf']; [reflexivity|]. cbn in Eh. now rewrite Eh.
      * destruct (H2 eq_refl eq_refl) as (st' & S' & I'). rewrite S'. cbn [bind].
        rewrite (IH fuel suf _ _ _ _ ltac:(lia) ltac:(lia) I'). cbn [mg]. now rewrite Ec.
    + destruct (H1 eq_refl) as (st' & S' & I'). rewrite S'. cbn [bind].
      rewrite (IH fuel suf _ _ _ _ ltac:(lia) ltac:(lia) I'). cbn [mg]. rewrite Ec.
      destruct acc; [reflexivity|]. now rewrite <- app_assoc.
Qed.

Theorem merge_ok s : c_merge_with_quotechar s = Ok (mg None s).
Proof.
  destruct s as [|c s0]; [reflexivity|]. cbn [c_merge_with_quotechar]. set (s := c :: s0).
  rewrite zero_new. cbn [bind].
  rewrite (m_loop_ok s (length s) (length s) s [] _ None []); [reflexivity|lia|lia|].
  exists [], [], (a_new 4), (a_new 4). unfold a_new. rewrite !repeat_length.
  repeat split; auto.
Qed.
