(** * UrlLines: the shipped URL matcher stays on its line *)
From Coq Require Import String.
From Verif Require Import Base Parser Dialect Regex RegexFacts Types SpecTypes TypesFacts TypesUrl Potential SpecLayout SpecColumn SpecPotential SpecLines.
Local Notation len := List.length.

(** Patterns that read characters other than line ends, without groups, and
    without looking backwards. *)
Fixpoint in_line (r : re) : Prop :=
  match r with
  | Chr p => p CR = false /\ p LF = false
  | Eps => True
  | Seq a b | Alt a b => in_line a /\ in_line b
  | Rep _ _ r | NotLook r | Look r => in_line r
  | _ => False
  end.
Definition lift (b w : str) (e : list (nat * str)) (st : mstate) : mstate :=
  let '(b0, s0, _) := st in (b0 ++ b, s0 ++ w, e).
Local Notation st b s e := (@pair (str * str) (list (nat * str)) (@pair str str b s) e).
Definition stops (w : str) : Prop := forall c s, w = c :: s -> c = CR \/ c = LF.
Lemma stops_nil : stops [].
Proof. intros c s E. discriminate. Qed.
Lemma lift_lift b w e b' w' e' z : lift b w e (lift b' w' e' z) = lift (b' ++ b) (w' ++ w) e z.
Proof. destruct z as [[b0 s0] e0]. cbn. now rewrite <- !app_assoc. Qed.

Definition lifts (f : mstate -> list mstate) : Prop :=
  forall (b l w : str) e, stops w -> f (st b (l ++ w) e) = map (lift b w e) (f (st [] l [])).
Lemma lifts_from f (b l w : str) e (b0 : str) e0 : lifts f -> stops w -> f (st (b0 ++ b) (l ++ w) e) = map (lift b w e) (f (st b0 l e0)).
Proof.
  intros Hf Hw. refine (eq_trans (Hf (b0 ++ b) l w e Hw) _). pose proof (Hf b0 l [] e0 stops_nil) as E. rewrite app_nil_r in E.
  refine (eq_trans _ (f_equal (map (lift b w e)) (eq_sym E))). rewrite map_map. apply map_ext. intros z. rewrite lift_lift. now cbn [app].
Qed.
Lemma reps_stuck f k lo hi z : (forall z', In z' (f z) -> (len (snd (fst z)) <= len (snd (fst z')))%nat) ->
  reps f k lo hi z = if Nat.eqb lo 0 then [z] else [].
Proof.
  intros H. assert (E : forall g, flat_map (fun z' => if Nat.ltb (len (snd (fst z'))) (len (snd (fst z))) then g z' else []) (f z) = @nil mstate).
  { intros g. revert H. generalize (f z). intros L. induction L as [|x L IH]; intros H; [reflexivity|]. cbn [flat_map].
    rewrite (proj2 (Nat.ltb_ge _ _) (H x (or_introl eq_refl))). cbn [app]. apply IH. intros y Hy. apply H. now right. }
  destruct k as [|k]; cbn [reps]; [now destruct hi as [[|h]|]|]. rewrite E. now destruct hi as [[|h]|].
Qed.
Lemma lifts_reps f : lifts f -> forall k lo hi k' (b0 b l w : str) e e0, stops w -> (len l <= k)%nat -> (len l <= k')%nat ->
  reps f k lo hi (st (b0 ++ b) (l ++ w) e) = map (lift b w e) (reps f k' lo hi (st b0 l e0)).
Proof.
  intros Hf k. induction k as [|k IH]; intros lo hi k' b0 b l w e e0 Hw Hk Hk'.
  - assert (l = []) as -> by (destruct l; [reflexivity|cbn in Hk; lia]).
    rewrite (reps_stuck f k' lo hi (st b0 [] e0)) by (intros z' _; cbn; lia). 
    destruct hi as [[|h]|]; cbn [reps app]; now destruct (Nat.eqb lo 0).
  - destruct l as [|c l].
    + rewrite (reps_stuck f k' lo hi (st b0 [] e0)) by (intros z' _; cbn; lia). rewrite reps_stuck.
      * now destruct (Nat.eqb lo 0).
      * intros z' H. rewrite (lifts_from f b [] w e b0 e0 Hf Hw) in H. apply in_map_iff in H as ([[b1 s1] e1] & <- & _). cbn. rewrite app_length. lia.
    + destruct k' as [|k']; [cbn in Hk'; lia|].
      assert (EF : flat_map (fun z' : mstate => if Nat.ltb (len (snd (fst z'))) (len ((c :: l) ++ w)) then reps f k (pred lo) (option_map pred hi) z' else []) (f (st (b0 ++ b) ((c :: l) ++ w) e)) =
        map (lift b w e) (flat_map (fun z' : mstate => if Nat.ltb (len (snd (fst z'))) (len (c :: l)) then reps f k' (pred lo) (option_map pred hi) z' else []) (f (st b0 (c :: l) e0)))).
      { rewrite (lifts_from f b (c :: l) w e b0 e0 Hf Hw). generalize (f (st b0 (c :: l) e0)). intros L. induction L as [|[[b1 s1] e1] L IHL]; [reflexivity|].
        cbn [map flat_map]. rewrite map_app. f_equal; [|exact IHL]. cbn [lift fst snd]. rewrite !app_length.
        destruct (Nat.ltb_spec (len s1) (len (c :: l))) as [Hlt|Hge].
        - rewrite (proj2 (Nat.ltb_lt _ _)) by lia. apply IH; [exact Hw|lia|lia].
        - rewrite (proj2 (Nat.ltb_ge _ _)) by lia. reflexivity. }
      cbn [reps]. cbn [fst snd]. rewrite map_app. f_equal; [|now destruct (Nat.eqb lo 0)].
      destruct hi as [[|h]|]; [reflexivity|exact EF|exact EF].
Qed.
Theorem in_line_lifts r : in_line r -> lifts (m r).
Proof.
  induction r as [p| |x IHx y IHy|x IHx y IHy|lo hi x IHx|x IHx|x IHx|p| | |n x IHx|n|n x IHx y IHy]; cbn [in_line]; intros H; try contradiction; intros b l w e Hw.
  - cbn [m]. destruct l as [|c l]; cbn [app].
    + destruct w as [|c w]; [reflexivity|]. destruct (Hw c w eq_refl) as [->| ->]; destruct H as (H1 & H2); [now rewrite H1|now rewrite H2].
    + now destruct (p c).
  - reflexivity.
  - cbn [m]. rewrite (IHx (proj1 H) b l w e Hw). generalize (m x (st [] l [])). intros L.
    induction L as [|[[b1 s1] e1] L IHL]; [reflexivity|]. cbn [map flat_map lift]. rewrite map_app, IHL. f_equal.
    exact (lifts_from (m y) b s1 w e b1 e1 (IHy (proj2 H)) Hw).
  - cbn [m]. now rewrite (IHx (proj1 H) b l w e Hw), (IHy (proj2 H) b l w e Hw), map_app.
  - cbn [m]. apply (lifts_reps (m x) (IHx H) (len (l ++ w)) lo hi (len l) [] b l w e []); [exact Hw|rewrite app_length; lia|lia].
  - cbn [m]. rewrite (IHx H b l w e Hw). now destruct (m x (st [] l [])).
  - cbn [m]. rewrite (IHx H b l w e Hw). now destruct (m x (st [] l [])).
Qed.
Theorem in_line_match r b l w : in_line r -> stops w -> match_at r b (l ++ w) = match_at r [] l.
Proof.
  intros H Hw. unfold match_at. rewrite (in_line_lifts r H b l w [] Hw). destruct (m r (st [] l [])) as [|[[b1 s1] e1] L]; [reflexivity|].
  cbn [map lift]. rewrite !app_length. f_equal. lia.
Qed.
Theorem shipped_line U : control_ends (u_cat U) -> line_matcher (shipped_url U).
Proof.
  intros (H1 & H2) b l w Hw. unfold shipped_url. assert (HI : in_line (re_url U)).
  { cbn. unfold letter, numeral, nd, cat_is. rewrite H1, H2. repeat split; reflexivity. }
  split.
  - exact (in_line_match (re_url U) (rev b) l w HI Hw).
  - intros n. cbn [rev]. unfold match_at. destruct (m (re_url U) (st [] l [])) as [|[[b1 s1] e1] L]; [discriminate|]. intros [= <-]. lia.
Qed.
