(** * JsonFacts: serialisation round trips (C46) *)
From Coq Require Import String.
From Verif Require Import Base Parser Dialect Json SpecJson.

Lemma hex_digit_val n : (n < 16)%N -> hex_val (hex_digit n) = Some n.
Proof.
  intros H. unfold hex_digit, hex_val. destruct (n <? 10)%N eqn:E.
  - apply N.ltb_lt in E. replace ((48 <=? 48 + n) && (48 + n <=? 57))%N with true
      by (symmetry; apply andb_true_iff; rewrite !N.leb_le; lia). f_equal. lia.
  - apply N.ltb_ge in E. replace ((48 <=? 87 + n) && (87 + n <=? 57))%N with false
      by (symmetry; apply andb_false_iff; rewrite !N.leb_gt; lia).
    replace ((97 <=? 87 + n) && (87 + n <=? 102))%N with true
      by (symmetry; apply andb_true_iff; rewrite !N.leb_le; lia). f_equal. lia.
Qed.
Lemma hex4_ok c : (c < 65536)%N ->
  hex4 (hex_digit (c / 4096 mod 16)) (hex_digit (c / 256 mod 16)) (hex_digit (c / 16 mod 16)) (hex_digit (c mod 16)) = Some c.
Proof.
  intros H. unfold hex4. rewrite !hex_digit_val by (apply N.mod_lt; discriminate). f_equal.
  assert (E1 : (c / 256 = c / 16 / 16)%N) by (rewrite N.div_div by discriminate; reflexivity).
  assert (E2 : (c / 4096 = c / 256 / 16)%N) by (rewrite N.div_div by discriminate; reflexivity).
  assert (E3 : (c / 4096 < 16)%N) by (apply N.div_lt_upper_bound; [discriminate|exact H]).
  rewrite (N.mod_small _ _ E3).
  pose proof (N.div_mod c 16 ltac:(discriminate)). pose proof (N.div_mod (c / 16) 16 ltac:(discriminate)).
  pose proof (N.div_mod (c / 256) 16 ltac:(discriminate)). rewrite <- E1 in *. rewrite <- E2 in *. lia.
Qed.

(** Characters written as one escape or none: not astral. *)
Lemma scan_u c r : (c < 65536)%N -> r <> [] ->
  scan_string (u_escape c ++ r) =
  match r with
  | b :: u :: y1 :: y2 :: y3 :: y4 :: ((_ :: _) as r3) =>
      if high_surrogate c && (b =? BACKSLASH)%N && (u =? 117)%N then
        match hex4 y1 y2 y3 y4 with
        | None => Err JSONDecodeError
        | Some c2 => if low_surrogate c2 then cons_char (join_surrogates c c2) (scan_string r3) else cons_char c (scan_string r)
        end
      else cons_char c (scan_string r)
  | _ => cons_char c (scan_string r)
  end.
Proof.
  intros Hc Hr. unfold u_escape. cbn [app].
  assert (HH := hex4_ok c Hc). revert HH.
  generalize (hex_digit (c / 4096 mod 16)) (hex_digit (c / 256 mod 16)) (hex_digit (c / 16 mod 16)) (hex_digit (c mod 16)).
  intros x1 x2 x3 x4 HH. destruct r as [|z r]; [congruence|].
  cbn [scan_string]. change (BACKSLASH =? DQ)%N with false. change (BACKSLASH =? BACKSLASH)%N with true.
  change (117 =? 117)%N with true. cbn [negb]. cbv iota. rewrite HH. reflexivity.
Qed.

Inductive escaped (c : N) : str -> Prop :=
| esc_plain : (31 < c < 127)%N -> c <> BACKSLASH -> c <> DQ -> escaped c [c]
| esc_short e : unescape e = Some c -> e <> 117%N -> (c < 128)%N -> escaped c [BACKSLASH; e]
| esc_astral h l : high_surrogate h = true -> low_surrogate l = true -> join_surrogates h l = c -> (65536 <= c)%N ->
    escaped c (u_escape h ++ u_escape l)
| esc_u : (c < 65536)%N -> escaped c (u_escape c).

Lemma between a c b : ((a <=? c) && (c <=? b) = true <-> a <= c <= b)%N.
Proof. rewrite andb_true_iff, !N.leb_le. lia. Qed.
Lemma escape_cases c : (c < 1114112)%N -> escaped c (escape_char c).
Proof.
  intros H. unfold escape_char.
  destruct ((32 <=? c) && (c <=? 126) && negb (c =? BACKSLASH) && negb (c =? DQ))%N eqn:E.
  { rewrite !andb_true_iff, !negb_true_iff, !N.leb_le, !N.eqb_neq in E. apply esc_plain; tauto || lia. }
  destruct (c =? BACKSLASH)%N eqn:E1; [apply N.eqb_eq in E1; subst; now apply esc_short|].
  destruct (c =? DQ)%N eqn:E2; [apply N.eqb_eq in E2; subst; now apply esc_short|].
  destruct (c =? 8)%N eqn:E3; [apply N.eqb_eq in E3; subst; now apply esc_short|].
  destruct (c =? 12)%N eqn:E4; [apply N.eqb_eq in E4; subst; now apply esc_short|].
  destruct (c =? LF)%N eqn:E5; [apply N.eqb_eq in E5; subst; now apply esc_short|].
  destruct (c =? CR)%N eqn:E6; [apply N.eqb_eq in E6; subst; now apply esc_short|].
  destruct (c =? TAB)%N eqn:E7; [apply N.eqb_eq in E7; subst; now apply esc_short|].
  destruct (65536 <=? c)%N eqn:E8.
  - apply N.leb_le in E8. cbn zeta. set (v := (c - 65536)%N).
    assert (V : (v / 1024 < 1024)%N) by (apply N.div_lt_upper_bound; [discriminate|]; unfold v; lia).
    assert (M : (v mod 1024 < 1024)%N) by (apply N.mod_lt; discriminate).
    rewrite (N.mod_small _ _ V). pose proof (N.div_mod v 1024 ltac:(discriminate)) as DM.
    assert (EC : c = (65536 + v)%N) by (unfold v; lia). clearbody v.
    generalize dependent (v / 1024)%N. generalize dependent (v mod 1024)%N. intros l M h V DM.
    apply esc_astral; [apply between; lia|apply between; lia| |exact E8]. unfold join_surrogates. lia.
  - apply N.leb_gt in E8. now apply esc_u.
Qed.
Lemma high_range c : high_surrogate c = true <-> (55296 <= c <= 56319)%N. Proof. apply between. Qed.
Lemma low_range c : low_surrogate c = true <-> (56320 <= c <= 57343)%N. Proof. apply between. Qed.

Lemma scan_not_u c t : (c < 65536)%N -> t <> [] ->
  (high_surrogate c = true -> match t with b :: u :: _ => b <> BACKSLASH \/ u <> 117%N | _ => True end) ->
  scan_string (u_escape c ++ t) = cons_char c (scan_string t).
Proof.
  intros Hc Ht H. rewrite scan_u by assumption. destruct (high_surrogate c); cbn [andb].
  - specialize (H eq_refl). destruct t as [|b [|u [|y1 [|y2 [|y3 [|y4 [|y5 t]]]]]]]; try reflexivity.
    destruct (b =? BACKSLASH)%N eqn:E1; [|reflexivity]. destruct (u =? 117)%N eqn:E2; [|reflexivity].
    apply N.eqb_eq in E1. apply N.eqb_eq in E2. destruct H; congruence.
  - destruct t as [|b [|u [|y1 [|y2 [|y3 [|y4 [|y5 t]]]]]]]; reflexivity.
Qed.
Lemma scan_uu c x t : (c < 65536)%N -> (x < 65536)%N -> t <> [] -> high_surrogate c = true ->
  scan_string (u_escape c ++ u_escape x ++ t) =
  if low_surrogate x then cons_char (join_surrogates c x) (scan_string t) else cons_char c (scan_string (u_escape x ++ t)).
Proof.
  intros Hc Hx Ht HS. rewrite scan_u by (assumption || discriminate). rewrite HS. unfold u_escape.
  assert (HH := hex4_ok x Hx). revert HH.
  generalize (hex_digit (x / 4096 mod 16)) (hex_digit (x / 256 mod 16)) (hex_digit (x / 16 mod 16)) (hex_digit (x mod 16)).
  intros x1 x2 x3 x4 HH. cbn [app]. destruct t as [|z t]; [congruence|].
  change (BACKSLASH =? BACKSLASH)%N with true. change (117 =? 117)%N with true. cbn [andb]. rewrite HH. reflexivity.
Qed.

Lemma pair_up_cons c s : high_surrogate c = false -> pair_up (c :: s) = c :: pair_up s.
Proof.
  intros H. destruct s as [|x s]; [reflexivity|]. cbn [pair_up]. unfold high_surrogate in H. rewrite H. reflexivity.
Qed.
Lemma pair_up_cons2 c x s : high_surrogate c = true ->
  pair_up (c :: x :: s) = if low_surrogate x then join_surrogates c x :: pair_up s else c :: pair_up (x :: s).
Proof.
  intros H. cbn [pair_up]. unfold high_surrogate in H. rewrite H. reflexivity.
Qed.

Lemma scan_escaped n : forall s r, (List.length s <= n)%nat -> code_points s ->
  scan_string (concat (map escape_char s) ++ DQ :: r) = Ok (pair_up s, r).
Proof.
  induction n as [|n IH]; intros s r Hn HC; destruct s as [|c s]; [reflexivity|cbn in Hn; lia|reflexivity|].
  apply Forall_cons_iff in HC as [Hc HC]. cbn in Hn. cbn [map concat]. rewrite <- app_assoc.
  set (t := concat (map escape_char s) ++ DQ :: r).
  assert (Et : scan_string t = Ok (pair_up s, r)) by (apply IH; [lia|exact HC]).
  assert (Nt : t <> []) by (unfold t; destruct (concat (map escape_char s)); discriminate).
  destruct (escape_cases c Hc) as [H1 H2 H3|e H1 H2 H3|h l Hh Hl HJ HB|HB].
  - rewrite pair_up_cons by (apply not_true_iff_false; rewrite high_range; lia).
    cbn [app scan_string]. apply N.eqb_neq in H2. apply N.eqb_neq in H3. rewrite H2, H3.
    replace (c <=? 31)%N with false by (symmetry; apply N.leb_gt; lia). rewrite Et. reflexivity.
  - rewrite pair_up_cons by (apply not_true_iff_false; rewrite high_range; lia).
    cbn [app scan_string]. change (BACKSLASH =? DQ)%N with false. change (BACKSLASH =? BACKSLASH)%N with true. cbv iota.
    apply N.eqb_neq in H2. rewrite H2. cbn [negb]. rewrite H1, Et. reflexivity.
  - rewrite <- app_assoc. rewrite scan_uu; [| | |exact Nt|exact Hh].
    + rewrite Hl, HJ, Et. rewrite pair_up_cons by (apply not_true_iff_false; rewrite high_range; lia). reflexivity.
    + apply high_range in Hh. lia.
    + apply low_range in Hl. lia.
  - destruct (high_surrogate c) eqn:HS.
    2:{ rewrite scan_not_u by (congruence || assumption). rewrite Et, pair_up_cons by assumption. reflexivity. }
    destruct s as [|x s].
    { unfold t. cbn [map concat app]. rewrite scan_not_u; [reflexivity|exact HB|discriminate|]. intros _. destruct r; [trivial|]. left. discriminate. }
    assert (HX := proj1 (proj1 (Forall_cons_iff _ _ _) HC)). assert (HC' := proj2 (proj1 (Forall_cons_iff _ _ _) HC)).
    rewrite pair_up_cons2 by assumption.
    unfold t in *. cbn [map concat] in *. rewrite <- app_assoc in *.
    set (t' := concat (map escape_char s) ++ DQ :: r) in *.
    assert (Et' : scan_string t' = Ok (pair_up s, r)) by (apply IH; [cbn in Hn; lia|exact HC']).
    assert (Nt' : t' <> []) by (unfold t'; destruct (concat (map escape_char s)); discriminate).
    assert (LX : forall x', (56320 <= x' <= 57343)%N -> low_surrogate x' = true) by (intros; now apply low_range).
    destruct (escape_cases x HX) as [K1 K2 K3|e K1 K2 K3|h l Kh Kl KJ KB|KB].
    + rewrite scan_not_u; [| exact HB|discriminate|].
      * rewrite Et. replace (low_surrogate x) with false by (symmetry; apply not_true_iff_false; rewrite low_range; lia). reflexivity.
      * intros _. cbn [app]. destruct t'; [trivial|]. left. exact K2.
    + rewrite scan_not_u; [| exact HB|discriminate|].
      * rewrite Et. replace (low_surrogate x) with false by (symmetry; apply not_true_iff_false; rewrite low_range; lia). reflexivity.
      * intros _. cbn [app]. right. exact K2.
    + apply high_range in Kh as Kh'. apply low_range in Kl as Kl'.
      rewrite <- app_assoc in *. rewrite scan_uu; [|exact HB|lia|destruct t'; discriminate|exact HS].
      replace (low_surrogate h) with false by (symmetry; apply not_true_iff_false; rewrite low_range; lia).
      rewrite Et. replace (low_surrogate x) with false by (symmetry; apply not_true_iff_false; rewrite low_range; lia). reflexivity.
    + rewrite scan_uu by assumption. destruct (low_surrogate x); [now rewrite Et'|now rewrite Et].
Qed.
Lemma scan_dumps s r : code_points s -> scan_string (tl (dumps_str s) ++ r) = Ok (pair_up s, r).
Proof.
  intros H. unfold dumps_str. cbn [tl]. rewrite <- app_assoc. now apply (scan_escaped (List.length s)).
Qed.
Lemma pair_up_short s : (List.length s <= 1)%nat -> pair_up s = s.
Proof. destruct s as [|c [|c' s]]; [reflexivity|reflexivity|cbn; lia]. Qed.

Lemma member_scan scan k v f d text c rest : code_points k ->
  (c = COMMA \/ c = 125%N) ->
  scan (text ++ c :: rest) = Ok (v, c :: rest) -> (forall x, skip_ws (text ++ x) = text ++ x) ->
  scan_members scan (S f) d (dumps_str k ++ s2l ": " ++ text ++ c :: rest) =
  let d := dict_set (pair_up k) v d in
  if (c =? 125)%N then Ok (JObj d, rest) else scan_members scan f d (skip_ws rest).
Proof.
  intros Hk Hc HS HW. cbn zeta.
  replace (dumps_str k ++ s2l ": " ++ text ++ c :: rest) with (DQ :: tl (dumps_str k) ++ 58%N :: SPACE :: text ++ c :: rest) by reflexivity.
  cbn [scan_members]. change (DQ =? DQ)%N with true. cbv iota. rewrite scan_dumps by assumption. cbn [bind].
  change (skip_ws (58%N :: SPACE :: text ++ c :: rest)) with (58%N :: SPACE :: text ++ c :: rest). cbv iota.
  change (58 =? 58)%N with true. cbv iota.
  change (skip_ws (SPACE :: text ++ c :: rest)) with (snd (let '(a, b) := span (fun c => (c =? SPACE) || (c =? TAB) || (c =? LF) || (c =? CR))%N (text ++ c :: rest) in (SPACE :: a, b))).
  assert (EW : snd (let '(a, b) := span (fun c => (c =? SPACE) || (c =? TAB) || (c =? LF) || (c =? CR))%N (text ++ c :: rest) in (SPACE :: a, b)) = text ++ c :: rest).
  { rewrite <- (HW (c :: rest)) at 2. unfold skip_ws. now destruct (span _ _). }
  rewrite EW, HS. cbn [bind].
  destruct Hc as [->| ->]; reflexivity.
Qed.
Lemma scan_str md depth s r : code_points s -> scan_once md depth (dumps_str s ++ r) = Ok (JStr (pair_up s), r).
Proof.
  intros H. change (dumps_str s ++ r) with (DQ :: tl (dumps_str s) ++ r).
  destruct depth; cbn [scan_once]; change (DQ =? DQ)%N with true; cbv iota; rewrite scan_dumps by assumption; reflexivity.
Qed.

(** The text written for a dialect. *)
Lemma serialize_text D s : serialize D = Ok s -> exists d q e,
  sd_delimiter D = Some d /\ sd_quotechar D = Some q /\ sd_escapechar D = Some e /\
  (List.length d <= 1)%nat /\ (List.length q <= 1)%nat /\ (List.length e <= 1)%nat /\
  s = s2l "{""delimiter"": " ++ dumps_str d ++ s2l ", ""quotechar"": " ++ dumps_str q ++ s2l ", ""escapechar"": " ++ dumps_str e ++
      s2l ", ""strict"": " ++ s2l (if sd_strict D then "true" else "false") ++ s2l "}".
Proof.
  unfold serialize, to_dict, validate. destruct D as [d q e st]. cbn [sd_delimiter sd_quotechar sd_escapechar sd_strict].
  destruct d as [d|], q as [q|], e as [e|]; cbn [field_valid]; rewrite ?andb_false_r; try discriminate.
  destruct (Nat.leb (Datatypes.length d) 1) eqn:H1; [|discriminate].
  destruct (Nat.leb (Datatypes.length q) 1) eqn:H2; [|discriminate].
  destruct (Nat.leb (Datatypes.length e) 1) eqn:H3; [|discriminate]. cbn [andb bind]. intros [= <-].
  exists d, q, e. repeat (split; [reflexivity|]). apply Nat.leb_le in H1, H2, H3. repeat (split; [assumption|]).
  unfold dumps_str. destruct st; cbn -[escape_char DQ]; generalize (concat (map escape_char d)) (concat (map escape_char q)) (concat (map escape_char e)); intros x y z; repeat (rewrite <- app_assoc; cbn [app]); reflexivity.
Qed.
Lemma serialize_valid D : (exists s, serialize D = Ok s) <-> validate D = true.
Proof.
  unfold serialize, to_dict. destruct (validate D); cbn [bind]; split; intros H; try reflexivity; try discriminate; [eauto|].
  destruct H as [s H]. discriminate.
Qed.
Lemma serialize_error D : validate D = false -> serialize D = Err ValueError.
Proof. unfold serialize, to_dict. now intros ->. Qed.

Lemma points_ok s : forallb (fun c => c <? 1114112)%N s = true -> code_points s.
Proof. intros H. unfold code_points. rewrite forallb_forall in H. apply Forall_forall. intros c Hc. apply N.ltb_lt, H, Hc. Qed.

Lemma dumps_ws s x : skip_ws (dumps_str s ++ x) = dumps_str s ++ x.
Proof. reflexivity. Qed.
Lemma roundtrip md depth D s : dialect_points D -> serialize D = Ok s ->
  deserialize md (S depth) s = Ok (mk_jdialect
    (JStr (or_else (sd_delimiter D) [])) (JStr (or_else (sd_quotechar D) [])) (JStr (or_else (sd_escapechar D) [])) (JBool (sd_strict D))).
Proof.
  intros HP HS. apply serialize_text in HS as (d & q & e & E1 & E2 & E3 & L1 & L2 & L3 & ->).
  assert (P1 : code_points d) by (apply HP; rewrite E1; cbn; auto).
  assert (P2 : code_points q) by (apply HP; rewrite E2; cbn; auto).
  assert (P3 : code_points e) by (apply HP; rewrite E3; cbn; auto).
  rewrite E1, E2, E3. cbn [or_else]. unfold deserialize, loads.
  set (st := s2l (if sd_strict D then "true" else "false")).
  set (last := dumps_str (s2l "strict") ++ s2l ": " ++ st ++ [125%N]).
  set (third := dumps_str (s2l "escapechar") ++ s2l ": " ++ dumps_str e ++ COMMA :: SPACE :: last).
  set (second := dumps_str (s2l "quotechar") ++ s2l ": " ++ dumps_str q ++ COMMA :: SPACE :: third).
  set (first := dumps_str (s2l "delimiter") ++ s2l ": " ++ dumps_str d ++ COMMA :: SPACE :: second).
  match goal with |- bind ?x _ = _ => assert (EQ : x = Ok (JObj [(s2l "delimiter", JStr d); (s2l "quotechar", JStr q); (s2l "escapechar", JStr e); (s2l "strict", JBool (sd_strict D))])) end.
  2:{ rewrite EQ. reflexivity. }
  replace (s2l "{""delimiter"": " ++ dumps_str d ++ s2l ", ""quotechar"": " ++ dumps_str q ++ s2l ", ""escapechar"": " ++ dumps_str e ++
      s2l ", ""strict"": " ++ st ++ s2l "}") with (123%N :: first) by reflexivity.
  cbv iota. change (skip_ws (123%N :: first)) with (123%N :: first).
  cbn [scan_once]. change (123 =? DQ)%N with false. change (123 =? 123)%N with true. cbv iota.
  assert (EF : exists r, first = DQ :: r) by (eexists; reflexivity).
  assert (ES : skip_ws first = first) by reflexivity. rewrite ES.
  assert (EM : forall f, scan_members (scan_once md depth) (S (S (S (S f)))) [] first =
    Ok (JObj [(s2l "delimiter", JStr d); (s2l "quotechar", JStr q); (s2l "escapechar", JStr e); (s2l "strict", JBool (sd_strict D))], [])).
  { intros f. assert (K : forall k, forallb (fun c => c <? 1114112)%N k = true -> code_points k) by apply points_ok.
    unfold first. rewrite member_scan with (v := JStr (pair_up d)); [|apply K; reflexivity|now left|now apply scan_str|apply dumps_ws].
    cbn zeta. change (COMMA =? 125)%N with false. cbv iota. change (skip_ws (SPACE :: second)) with second.
    unfold second. rewrite member_scan with (v := JStr (pair_up q)); [|apply K; reflexivity|now left|now apply scan_str|apply dumps_ws].
    cbn zeta. change (COMMA =? 125)%N with false. cbv iota. change (skip_ws (SPACE :: third)) with third.
    unfold third. rewrite member_scan with (v := JStr (pair_up e)); [|apply K; reflexivity|now left|now apply scan_str|apply dumps_ws].
    cbn zeta. change (COMMA =? 125)%N with false. cbv iota. change (skip_ws (SPACE :: last)) with last.
    unfold last. rewrite member_scan with (v := JBool (sd_strict D)); [|apply K; reflexivity|now right| |].
    - rewrite (pair_up_short d L1), (pair_up_short q L2), (pair_up_short e L3). reflexivity.
    - unfold st. destruct (sd_strict D), depth; reflexivity.
    - unfold st. destruct (sd_strict D); reflexivity. }
  assert (EL : exists n, List.length first = S (S (S n))) by (eexists; reflexivity).
  destruct EL as [n EL]. rewrite EL. destruct EF as [r EF]. rewrite EF in *. change (DQ =? 125)%N with false. cbv iota. rewrite EM. reflexivity.
Qed.

Lemma roundtrip_same md depth D s : (1 <= depth)%nat -> dialect_points D -> serialize D = Ok s ->
  exists j, deserialize md depth s = Ok j /\ same_dialect j D.
Proof.
  intros Hd HP HS. destruct depth as [|depth]; [lia|]. eexists. split; [apply roundtrip; eassumption|].
  apply serialize_text in HS as (d & q & e & E1 & E2 & E3 & _). unfold same_dialect.
  cbn [jd_delimiter jd_quotechar jd_escapechar jd_strict]. rewrite E1, E2, E3. repeat split; reflexivity.
Qed.
Lemma serialize_injective D D' s : dialect_points D -> dialect_points D' -> serialize D = Ok s -> serialize D' = Ok s -> D = D'.
Proof.
  intros P P' H H'. pose proof (roundtrip 0 0 D s P H) as R. rewrite (roundtrip 0 0 D' s P' H') in R.
  apply serialize_text in H as (d & q & e & E1 & E2 & E3 & _).
  apply serialize_text in H' as (d' & q' & e' & E1' & E2' & E3' & _).
  destruct D as [? ? ? st], D' as [? ? ? st']. cbn in *. subst. cbn in R. now injection R as -> -> -> ->.
Qed.

(** The text is printable ASCII. *)
Definition printable (c : N) : bool := ((32 <=? c) && (c <=? 126))%N.
Lemma hex_digit_printable n : (n < 16)%N -> printable (hex_digit n) = true.
Proof. intros H. unfold hex_digit. destruct (n <? 10)%N eqn:E; [apply N.ltb_lt in E|apply N.ltb_ge in E]; apply between; lia. Qed.
Lemma u_escape_printable c : forallb printable (u_escape c) = true.
Proof. unfold u_escape. cbn [forallb]. now rewrite !hex_digit_printable by (apply N.mod_lt; discriminate). Qed.
Lemma escape_printable c : (c < 1114112)%N -> forallb printable (escape_char c) = true.
Proof.
  intros H. destruct (escape_cases c H) as [H1 H2 H3|e H1 H2 H3|h l Hh Hl HJ HB|HB].
  - cbn [forallb]. rewrite andb_true_r. apply between. lia.
  - cbn [forallb]. rewrite andb_true_r. change (printable BACKSLASH) with true. cbn [andb].
    unfold unescape in H1.
    destruct (N.eqb_spec e DQ) as [E|_]; [rewrite E; reflexivity|].
    destruct (N.eqb_spec e BACKSLASH) as [E|_]; [rewrite E; reflexivity|].
    destruct (N.eqb_spec e 47) as [E|_]; [rewrite E; reflexivity|].
    destruct (N.eqb_spec e 98) as [E|_]; [rewrite E; reflexivity|].
    destruct (N.eqb_spec e 102) as [E|_]; [rewrite E; reflexivity|].
    destruct (N.eqb_spec e 110) as [E|_]; [rewrite E; reflexivity|].
    destruct (N.eqb_spec e 114) as [E|_]; [rewrite E; reflexivity|].
    destruct (N.eqb_spec e 116) as [E|_]; [rewrite E; reflexivity|].
    discriminate.
  - rewrite forallb_app, !u_escape_printable. reflexivity.
  - apply u_escape_printable.
Qed.
Lemma dumps_printable s : code_points s -> forallb printable (dumps_str s) = true.
Proof.
  intros H. unfold dumps_str. cbn [forallb]. change (printable DQ) with true. cbn [andb]. rewrite forallb_app. cbn.
  rewrite andb_true_r. induction s as [|c s IH]; [reflexivity|]. apply Forall_cons_iff in H as [H1 H2]. cbn [map concat].
  rewrite forallb_app, escape_printable by assumption. now apply IH.
Qed.
Lemma serialize_printable D s : dialect_points D -> serialize D = Ok s -> Forall (fun c => 32 <= c <= 126)%N s.
Proof.
  intros HP HS. apply serialize_text in HS as (d & q & e & E1 & E2 & E3 & _ & _ & _ & ->).
  assert (P1 : code_points d) by (apply HP; rewrite E1; cbn; auto).
  assert (P2 : code_points q) by (apply HP; rewrite E2; cbn; auto).
  assert (P3 : code_points e) by (apply HP; rewrite E3; cbn; auto).
  assert (F : forall l, forallb printable l = true -> Forall (fun c => 32 <= c <= 126)%N l).
  { intros l Hl. rewrite forallb_forall in Hl. apply Forall_forall. intros c Hc. now apply between, Hl. }
  apply F. rewrite !forallb_app, !dumps_printable by assumption. destruct (sd_strict D); reflexivity.
Qed.

(** ** Strings of any length *)
Lemma loads_string md depth s : code_points s -> loads md depth (dumps_str s) = Ok (JStr (pair_up s)).
Proof.
  intros H. unfold loads. change (dumps_str s) with (DQ :: tl (dumps_str s)). cbv iota.
  change (skip_ws (DQ :: tl (dumps_str s))) with (dumps_str s). rewrite <- (app_nil_r (dumps_str s)), scan_str by assumption. reflexivity.
Qed.

(** ** Deserialising other texts *)
Lemma deserialize_unchecked : exists text j,
  deserialize 4300 900 text = Ok j /\ forall D, ~ same_dialect j D.
Proof.
  exists (s2l "{""delimiter"": 1, ""quotechar"": null, ""escapechar"": ""ab"", ""strict"": []}"). eexists. split; [vm_compute; reflexivity|].
  intros [[d|] q e st] (H & _); discriminate.
Qed.
Lemma deserialize_missing : 
  deserialize 4300 900 (s2l "{""delimiter"": "","", ""quotechar"": """"}") = Err KeyError /\
  deserialize 4300 900 (s2l "[1]") = Err TypeError /\
  deserialize 4300 900 (s2l "{""delimiter"": "",""") = Err JSONDecodeError.
Proof. repeat split; vm_compute; reflexivity. Qed.
Lemma serialize_case : serialize (dialect3 [DQ] [BACKSLASH] [128512%N]) =
  Ok (s2l "{""delimiter"": ""\"""", ""quotechar"": ""\\"", ""escapechar"": ""\ud83d\ude00"", ""strict"": false}").
Proof. reflexivity. Qed.
Lemma pairs_case : exists s, code_points s /\ pair_up s <> s.
Proof. exists [55357; 56832]%N. split; [repeat constructor|discriminate]. Qed.
