(** * JsonText: [loads] reads the grammar of SpecJsonText *)
From Coq Require Import String.
From Verif Require Import Base Parser Dialect Json SpecJson JsonFacts JsonScan SpecJsonText.

(** ** White space *)
Definition ws_char (c : N) : bool := ((c =? SPACE) || (c =? TAB) || (c =? LF) || (c =? CR))%N.
Lemma ws_char_in c : ws_char c = true <-> In c [SPACE; TAB; LF; CR].
Proof. unfold ws_char. rewrite !orb_true_iff, !N.eqb_eq. cbn. intuition congruence. Qed.
Lemma span_split p s : s = fst (span p s) ++ snd (span p s).
Proof. induction s as [|c s IH]; [reflexivity|]. cbn. destruct (p c); [|reflexivity]. destruct (span p s). cbn in *. now rewrite <- IH. Qed.
Lemma span_all p s : Forall (fun c => p c = true) (fst (span p s)).
Proof. induction s as [|c s IH]; [constructor|]. cbn. destruct (p c) eqn:E; [|constructor]. destruct (span p s). cbn in *. now constructor. Qed.
Definition stops (p : N -> bool) (r : str) : Prop := match r with [] => True | c :: _ => p c = false end.
Lemma span_app p s r : Forall (fun c => p c = true) s -> stops p r -> span p (s ++ r) = (s, r).
Proof.
  intros H Hr. induction H as [|c s Hc H IH]; cbn.
  - destruct r as [|c r]; [reflexivity|]. cbn in *. now rewrite Hr.
  - now rewrite Hc, IH.
Qed.
Lemma span_stops p s : stops p (snd (span p s)).
Proof. induction s as [|c s IH]; [exact I|]. cbn. destruct (p c) eqn:E; [|exact E]. now destruct (span p s). Qed.
Lemma skip_split s : exists w, j_ws w /\ s = w ++ skip_ws s.
Proof.
  exists (fst (span ws_char s)). split; [|exact (span_split ws_char s)]. eapply Forall_impl; [|exact (span_all ws_char s)]. intros c. apply ws_char_in.
Qed.
Lemma skip_app w r : j_ws w -> stops ws_char r -> skip_ws (w ++ r) = r.
Proof.
  intros H Hr. unfold skip_ws. fold ws_char. change (snd (span ws_char (w ++ r)) = r). rewrite span_app; [reflexivity| |exact Hr]. eapply Forall_impl; [|exact H]. intros c. apply ws_char_in.
Qed.
Lemma skip_stops s : stops ws_char (skip_ws s).
Proof. exact (span_stops ws_char s). Qed.

(** ** Strings *)
Lemma hex_val_iff c v : hex_val c = Some v <-> j_hex c v.
Proof.
  unfold hex_val, j_hex. split.
  - destruct ((48 <=? c) && (c <=? 57))%N eqn:E1; [|destruct ((97 <=? c) && (c <=? 102))%N eqn:E2; [|destruct ((65 <=? c) && (c <=? 70))%N eqn:E3; [|discriminate]]]; intros [= <-].
    + apply between in E1. assert (G : (c = 48 \/ c = 49 \/ c = 50 \/ c = 51 \/ c = 52 \/ c = 53 \/ c = 54 \/ c = 55 \/ c = 56 \/ c = 57)%N) by lia.
      repeat (destruct G as [->|G]; [now left|]). subst. now left.
    + apply between in E2. assert (G : (c = 97 \/ c = 98 \/ c = 99 \/ c = 100 \/ c = 101 \/ c = 102)%N) by lia. repeat (destruct G as [->|G]; [now left|]). subst. now left.
    + apply between in E3. assert (G : (c = 65 \/ c = 66 \/ c = 67 \/ c = 68 \/ c = 69 \/ c = 70)%N) by lia. repeat (destruct G as [->|G]; [now right|]). subst. now right.
  - assert (G : forall l v, nth_error l (N.to_nat v) = Some c -> forallb (fun i => match nth_error l i with Some x => match hex_val x with Some y => (y =? N.of_nat i)%N | None => false end | None => false end) (seq 0 (List.length l)) = true -> hex_val c = Some v).
    { intros l u H HA. rewrite forallb_forall in HA. assert (L : (N.to_nat u < List.length l)%nat) by (apply nth_error_Some; congruence). specialize (HA (N.to_nat u)). rewrite in_seq in HA. specialize (HA ltac:(lia)). rewrite H in HA.
      destruct (hex_val c) as [y|]; [|discriminate]. apply N.eqb_eq in HA. now rewrite N2Nat.id in HA; subst. }
    intros [H|H]; exact (G _ _ H eq_refl).
Qed.
Lemma hex4_iff a b c d n : hex4 a b c d = Some n <-> piece_ok (PHex a b c d n).
Proof.
  cbn. unfold hex4. split.
  - destruct (hex_val a) as [va|] eqn:Ea; [|discriminate]. destruct (hex_val b) as [vb|] eqn:Eb; [|discriminate]. destruct (hex_val c) as [vc|] eqn:Ec; [|discriminate]. destruct (hex_val d) as [vd|] eqn:Ed; [|discriminate].
    intros [= <-]. exists va, vb, vc, vd. now rewrite <- !hex_val_iff.
  - intros (va & vb & vc & vd & Ha & Hb & Hc & Hd & ->). apply hex_val_iff in Ha as ->. apply hex_val_iff in Hb as ->. apply hex_val_iff in Hc as ->. apply hex_val_iff in Hd as ->. reflexivity.
Qed.
Lemma unescape_iff e c : unescape e = Some c <-> In (e, c) j_short.
Proof.
  unfold unescape, j_short. cbn [In]. split.
  - repeat match goal with |- context [(e =? ?k)%N] => destruct (N.eqb_spec e k) as [->|] end; intros [= <-]; tauto.
  - intros H. repeat (destruct H as [[= <- <-]|H]; [reflexivity|]). destruct H.
Qed.
Definition first_hex (ps : list piece) : option N := match ps with PHex _ _ _ _ l :: _ => Some l | _ => None end.
Lemma meaning_plain p r : (forall h, first_hex [p] = Some h -> high_surrogate h = true -> forall l, first_hex r = Some l -> low_surrogate l = false) -> meaning (p :: r) = piece_char p :: meaning r.
Proof.
  destruct p as [c|e c|a b c d h]; try reflexivity. destruct r as [|[c'|e' c'|a' b' c' d' l] r]; try reflexivity. intros H. specialize (H h eq_refl). cbn [meaning]. fold (high_surrogate h). rewrite <- andb_assoc. fold (high_surrogate h) (low_surrogate l) in *.
  change ((55296 <=? h) && (h <=? 56319))%N with (high_surrogate h). change ((56320 <=? l) && (l <=? 57343))%N with (low_surrogate l).
  destruct (high_surrogate h); [|reflexivity]. now rewrite (H eq_refl l eq_refl).
Qed.
Lemma meaning_pair a b c d h a' b' c' d' l r : high_surrogate h = true -> low_surrogate l = true ->
  meaning (PHex a b c d h :: PHex a' b' c' d' l :: r) = join_surrogates h l :: meaning r.
Proof.
  intros H1 H2. cbn [meaning]. rewrite <- andb_assoc. change ((55296 <=? h) && (h <=? 56319))%N with (high_surrogate h). change ((56320 <=? l) && (l <=? 57343))%N with (low_surrogate l). now rewrite H1, H2.
Qed.
Lemma scan_hex a b c d n z r : hex4 a b c d = Some n ->
  scan_string (BACKSLASH :: 117%N :: a :: b :: c :: d :: z :: r) =
  match z :: r with
  | b :: u :: y1 :: y2 :: y3 :: y4 :: ((_ :: _) as r3) =>
      if high_surrogate n && (b =? BACKSLASH)%N && (u =? 117)%N then
        match hex4 y1 y2 y3 y4 with
        | None => Err JSONDecodeError
        | Some c2 => if low_surrogate c2 then cons_char (join_surrogates n c2) (scan_string r3) else cons_char n (scan_string (z :: r))
        end
      else cons_char n (scan_string (z :: r))
  | _ => cons_char n (scan_string (z :: r))
  end.
Proof.
  intros H. cbn [scan_string]. change (BACKSLASH =? DQ)%N with false. change (BACKSLASH =? BACKSLASH)%N with true. change (117 =? 117)%N with true. cbn [negb]. cbv iota. rewrite H. reflexivity.
Qed.
Definition body (ps : list piece) (r : str) : str := List.concat (map piece_text ps) ++ DQ :: r.
Lemma body_cons p ps r : body (p :: ps) r = piece_text p ++ body ps r.
Proof. unfold body. cbn. now rewrite app_assoc. Qed.
Lemma body_nonempty ps r : exists z t, body ps r = z :: t.
Proof. destruct ps as [|[c|e c|a b c d n] ps]; cbn; eauto. Qed.
Lemma unescape_u c : unescape 117 = Some c -> False.
Proof. discriminate. Qed.
Lemma scan_complete n : forall ps r, (List.length ps <= n)%nat -> Forall piece_ok ps -> scan_string (body ps r) = Ok (meaning ps, r).
Proof.
  induction n as [|n IH]; intros [|p ps] r Hn HF; cbn in Hn; try lia; try reflexivity. apply Forall_cons_iff in HF as [Hp HF]. rewrite body_cons. assert (E := IH ps r ltac:(lia) HF).
  destruct p as [c|e c|a b c d h]; cbn [piece_text app].
  - cbn [piece_ok] in Hp. destruct Hp as (H1 & H2 & H3). cbn [scan_string]. apply N.eqb_neq in H2 as ->. apply N.eqb_neq in H3 as ->. apply N.leb_gt in H1 as ->. rewrite E. reflexivity.
  - cbn [piece_ok] in Hp. apply unescape_iff in Hp. cbn [scan_string]. change (BACKSLASH =? DQ)%N with false. change (BACKSLASH =? BACKSLASH)%N with true. cbv iota.
    destruct (N.eqb_spec e 117) as [->|]; [discriminate Hp|]. cbn [negb]. rewrite Hp, E. reflexivity.
  - apply hex4_iff in Hp. destruct (body_nonempty ps r) as (z & t & Eb). rewrite Eb. rewrite (scan_hex _ _ _ _ _ _ _ Hp). rewrite <- Eb.
    destruct ps as [|[c'|e' c'|a' b' c' d' l] ps].
    + cbn in Eb. injection Eb as <- <-. rewrite E. cbn [bind cons_char]. rewrite meaning_plain by discriminate.
      destruct r as [|? [|? [|? [|? [|? [|? ?]]]]]]; try reflexivity. change (DQ =? BACKSLASH)%N with false. now rewrite andb_false_r.
    + apply Forall_cons_iff in HF as [(H1 & H2 & H3) _]. cbn in Eb. injection Eb as <- <-. rewrite E. rewrite meaning_plain by discriminate. apply N.eqb_neq in H3. unfold body.
      destruct (List.concat (map piece_text ps) ++ DQ :: r) as [|? [|? [|? [|? [|? [|? ?]]]]]]; cbn [app]; rewrite ?H3, ?andb_false_r; reflexivity.
    + apply Forall_cons_iff in HF as [H1 _]. cbn [piece_ok] in H1. apply unescape_iff in H1. cbn in Eb. injection Eb as <- <-. rewrite E. rewrite meaning_plain by discriminate.
      assert (HU : (e' =? 117)%N = false) by (apply N.eqb_neq; intros ->; discriminate H1). unfold body.
      destruct (List.concat (map piece_text ps) ++ DQ :: r) as [|? [|? [|? [|? [|? ?]]]]]; cbn [app]; rewrite ?HU, ?andb_false_r; reflexivity.
    + apply Forall_cons_iff in HF as [H1 HF]. apply hex4_iff in H1. rewrite body_cons in *. cbn [piece_text app] in *. injection Eb as <- <-. destruct (body_nonempty ps r) as (z & t & Eb). rewrite Eb in *.
      change (BACKSLASH =? BACKSLASH)%N with true. change (117 =? 117)%N with true. rewrite !andb_true_r, H1. destruct (high_surrogate h) eqn:Eh.
      * destruct (low_surrogate l) eqn:El.
        -- rewrite meaning_pair by assumption. rewrite <- Eb. cbn in Hn. rewrite (IH ps r) by (lia || assumption). reflexivity.
        -- rewrite E. rewrite (meaning_plain (PHex a b c d h) (PHex a' b' c' d' l :: ps)); [reflexivity|]. intros h' [= ->] _ l' [= <-]. exact El.
      * rewrite E. rewrite (meaning_plain (PHex a b c d h) (PHex a' b' c' d' l :: ps)); [reflexivity|]. intros h' [= ->]. congruence.
Qed.
Lemma cons_char_inv c x s r : cons_char c x = Ok (s, r) -> exists s', x = Ok (s', r) /\ s = c :: s'.
Proof. destruct x as [[s' r']|]; [|discriminate]. intros [= <- <-]. eauto. Qed.
Lemma scan_sound n : forall t s r, (List.length t <= n)%nat -> scan_string t = Ok (s, r) -> exists ps, Forall piece_ok ps /\ s = meaning ps /\ t = body ps r.
Proof.
  induction n as [|n IH]; intros t s r Hn H; [destruct t; [discriminate H|cbn in Hn; lia]|]. destruct t as [|c t]; [discriminate H|]. cbn in Hn.
  destruct (N.eqb_spec c DQ) as [->|H1]; [cbn in H; injection H as <- <-; now exists []|].
  destruct (N.eqb_spec c BACKSLASH) as [->|H2].
  2:{ cbn [scan_string] in H. rewrite (proj2 (N.eqb_neq _ _) H1), (proj2 (N.eqb_neq _ _) H2) in H. destruct (N.leb_spec c 31) as [|H3]; [discriminate H|]. apply cons_char_inv in H as (s' & E & ->).
      destruct (IH t s' r ltac:(lia) E) as (ps & HF & -> & ->). exists (PPlain c :: ps). split; [constructor; [easy|exact HF]|]. split; [now rewrite meaning_plain by discriminate|now rewrite body_cons]. }
  destruct t as [|e t]; [discriminate H|]. destruct (N.eqb_spec e 117) as [->|HU].
  2:{ cbn [scan_string] in H. change (BACKSLASH =? DQ)%N with false in H. change (BACKSLASH =? BACKSLASH)%N with true in H. cbv iota in H. rewrite (proj2 (N.eqb_neq _ _) HU) in H. cbn [negb] in H.
      destruct (unescape e) as [x|] eqn:Eu; [|discriminate H]. apply cons_char_inv in H as (s' & E & ->). cbn in Hn.
      destruct (IH t s' r ltac:(lia) E) as (ps & HF & -> & ->). exists (PShort e x :: ps). split; [constructor; [now apply unescape_iff|exact HF]|]. split; [now rewrite meaning_plain by discriminate|now rewrite body_cons]. }
  destruct t as [|x1 [|x2 [|x3 [|x4 [|z t]]]]]; try discriminate H.
  destruct (hex4 x1 x2 x3 x4) as [h|] eqn:Eh.
  2:{ cbn [scan_string] in H. change (BACKSLASH =? DQ)%N with false in H. change (BACKSLASH =? BACKSLASH)%N with true in H. change (117 =? 117)%N with true in H. cbn [negb] in H. rewrite Eh in H. discriminate H. }
  rewrite (scan_hex _ _ _ _ _ _ _ Eh) in H. cbn in Hn.
  (* one character, unless a low surrogate follows *)
  assert (G : forall s', scan_string (z :: t) = Ok (s', r) -> (high_surrogate h = true -> forall y1 y2 y3 y4 l z' t', z :: t = BACKSLASH :: 117%N :: y1 :: y2 :: y3 :: y4 :: z' :: t' -> hex4 y1 y2 y3 y4 = Some l -> low_surrogate l = false) ->
    exists ps, Forall piece_ok ps /\ h :: s' = meaning ps /\ BACKSLASH :: 117%N :: x1 :: x2 :: x3 :: x4 :: z :: t = body ps r).
  { intros s' E HL. destruct (IH (z :: t) s' r ltac:(cbn; lia) E) as (ps & HF & -> & Eb). exists (PHex x1 x2 x3 x4 h :: ps). split; [constructor; [now apply hex4_iff|exact HF]|].
    rewrite body_cons, Eb. split; [|reflexivity]. rewrite meaning_plain; [reflexivity|]. intros h' [= <-] Hh l Hl. destruct ps as [|[| |a' b' c' d' l'] ps]; try discriminate Hl. injection Hl as ->.
    apply Forall_cons_iff in HF as [Hp _]. apply hex4_iff in Hp. rewrite body_cons in Eb. destruct (body_nonempty ps r) as (z' & t' & Eb'). cbn [piece_text app] in Eb. rewrite Eb' in Eb. exact (HL Hh _ _ _ _ _ _ _ Eb Hp). }
  assert (G1 : cons_char h (scan_string (z :: t)) = Ok (s, r) -> (high_surrogate h = true -> forall y1 y2 y3 y4 l z' t', z :: t = BACKSLASH :: 117%N :: y1 :: y2 :: y3 :: y4 :: z' :: t' -> hex4 y1 y2 y3 y4 = Some l -> low_surrogate l = false) ->
    exists ps, Forall piece_ok ps /\ s = meaning ps /\ BACKSLASH :: 117%N :: x1 :: x2 :: x3 :: x4 :: z :: t = body ps r).
  { intros E HL. apply cons_char_inv in E as (s' & E & ->). now apply G. }
  destruct t as [|u [|y1 [|y2 [|y3 [|y4 [|z' t']]]]]]; try (apply (G1 H); intros _ ? ? ? ? ? ? ? [=]).
  destruct (high_surrogate h && (z =? BACKSLASH)%N && (u =? 117)%N) eqn:EC.
  - destruct (hex4 y1 y2 y3 y4) as [l|] eqn:El; [|discriminate H]. destruct (low_surrogate l) eqn:Hl.
    + rewrite !andb_true_iff, !N.eqb_eq in EC. destruct EC as ((Hh & ->) & ->). apply cons_char_inv in H as (s' & E & ->). destruct (IH (z' :: t') s' r ltac:(cbn in *; lia) E) as (ps & HF & -> & Eb).
      exists (PHex x1 x2 x3 x4 h :: PHex y1 y2 y3 y4 l :: ps). split; [constructor; [now apply hex4_iff|constructor; [now apply hex4_iff|exact HF]]|]. rewrite meaning_pair by assumption. split; [reflexivity|].
      rewrite !body_cons, Eb. reflexivity.
    + apply (G1 H). intros _ a1 a2 a3 a4 l' z'' t'' [= -> -> -> -> -> -> -> ->] E. rewrite El in E. injection E as <-. exact Hl.
  - apply (G1 H). intros Hh a1 a2 a3 a4 l' z'' t'' [= -> -> -> -> -> -> -> ->] E. rewrite Hh in EC. discriminate EC.
Qed.
Lemma string_read s t r : j_string s t -> exists b, t = DQ :: b /\ scan_string (b ++ r) = Ok (s, r).
Proof.
  intros (ps & HF & -> & ->). exists (List.concat (map piece_text ps) ++ [DQ]). split; [reflexivity|]. rewrite <- app_assoc. exact (scan_complete (List.length ps) ps r (le_n _) HF).
Qed.
Lemma string_sound b s r : scan_string b = Ok (s, r) -> exists t, j_string s (DQ :: t) /\ b = t ++ r.
Proof.
  intros H. destruct (scan_sound _ b s r (le_n _) H) as (ps & HF & -> & ->). exists (List.concat (map piece_text ps) ++ [DQ]). split; [now exists ps|]. unfold body. now rewrite <- app_assoc.
Qed.
