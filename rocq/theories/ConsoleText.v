(** * ConsoleText: reading back the three output formats of the detect command *)
From Coq Require Import String.
From Verif Require Import Base Parser Dialect CsvLib Reader Files Wrappers Potential SpecPotential Consistency Detect Json SpecJson JsonFacts
  Codegen SpecCodegen CodegenFacts Console SpecConsole.

(** ** repr *)
Definition yield (c : N) (r : option (str * str)) : option (str * str) :=
  match r with Some (v, rest) => Some (c :: v, rest) | None => None end.

Lemma rest_char q c r : ~ In c [q; BACKSLASH; LF; CR; NUL] -> string_rest q 0 (c :: r) = yield c (string_rest q 0 r).
Proof.
  intros H. cbn [string_rest].
  assert (E : forall x, In x [q; BACKSLASH; LF; CR; NUL] -> (c =? x)%N = false)
    by (intros x Hx; apply N.eqb_neq; intros ->; auto).
  rewrite !E by (cbn; auto 8). reflexivity.
Qed.
Lemma rest_skip q : forall a s, string_rest q (List.length a) (a ++ s) = string_rest q 0 s.
Proof. induction a as [|c a IH]; intros s; [reflexivity|]. cbn [List.length app string_rest]. apply IH. Qed.

Lemma rest_hex q n letter w r : (q = DQ \/ q = SQ) ->
  (letter = 120%N /\ n = 2%nat) \/ (letter = 117%N /\ n = 4%nat) \/ (letter = 85%N /\ n = 8%nat /\ (w <= 1114111)%N) ->
  (w < 16 ^ N.of_nat n)%N ->
  string_rest q 0 (BACKSLASH :: letter :: hex_digits n w ++ r) = yield w (string_rest q 0 r).
Proof.
  intros Hq H Hw.
  pose proof (hex_digits_number n w r Hw) as E.
  assert (Sk : string_rest q (S n) (letter :: hex_digits n w ++ r) = string_rest q 0 r).
  { change (letter :: hex_digits n w ++ r) with ((letter :: hex_digits n w) ++ r).
    rewrite <- (hex_digits_length n w) at 1.
    change (S (List.length (hex_digits n w))) with (List.length (letter :: hex_digits n w)).
    now rewrite rest_skip. }
  destruct H as [[-> ->]|[[-> ->]|(-> & -> & Hl)]].
  - assert (X : string_rest q 0 (BACKSLASH :: 120%N :: hex_digits 2 w ++ r) =
      (match hex_number 2 0 (hex_digits 2 w ++ r) with
       | Some v => yield v (string_rest q 3 (120%N :: hex_digits 2 w ++ r))
       | None => None end)) by (destruct Hq as [-> | ->]; reflexivity).
    now rewrite X, E, Sk.
  - assert (X : string_rest q 0 (BACKSLASH :: 117%N :: hex_digits 4 w ++ r) =
      (match hex_number 4 0 (hex_digits 4 w ++ r) with
       | Some v => yield v (string_rest q 5 (117%N :: hex_digits 4 w ++ r))
       | None => None end)) by (destruct Hq as [-> | ->]; reflexivity).
    now rewrite X, E, Sk.
  - assert (X : string_rest q 0 (BACKSLASH :: 85%N :: hex_digits 8 w ++ r) =
      (match hex_number 8 0 (hex_digits 8 w ++ r) with
       | Some v => if (v <=? 1114111)%N then yield v (string_rest q 9 (85%N :: hex_digits 8 w ++ r)) else None
       | None => None end)) by (destruct Hq as [-> | ->]; reflexivity).
    rewrite X, E, Sk. now replace (w <=? 1114111)%N with true by (symmetry; now apply N.leb_le).
Qed.

Lemma rest_repr_char printable q c r : (q = DQ \/ q = SQ) -> (c <= 1114111)%N ->
  string_rest q 0 (repr_char printable q c ++ r) = yield c (string_rest q 0 r).
Proof.
  intros Hq Hc. unfold repr_char.
  destruct (N.eqb_spec c q) as [->|Nq]; [destruct Hq as [-> | ->]; reflexivity|].
  destruct (N.eqb_spec c BACKSLASH) as [->|Nb]; [destruct Hq as [-> | ->]; reflexivity|]. cbn [orb].
  destruct (N.eqb_spec c TAB) as [->|Nt]; [destruct Hq as [-> | ->]; reflexivity|].
  destruct (N.eqb_spec c LF) as [->|Nl]; [destruct Hq as [-> | ->]; reflexivity|].
  destruct (N.eqb_spec c CR) as [->|Nc]; [destruct Hq as [-> | ->]; reflexivity|].
  destruct ((c <? 32) || (c =? 127))%N eqn:E1.
  { apply rest_hex; [exact Hq|auto|]. change (16 ^ N.of_nat 2)%N with 256%N.
    apply orb_true_iff in E1 as [E1|E1]; [apply N.ltb_lt in E1|apply N.eqb_eq in E1]; lia. }
  apply orb_false_iff in E1 as [E1 _]. apply N.ltb_ge in E1.
  assert (N0 : ~ In c [q; BACKSLASH; LF; CR; NUL]) by (cbn; unfold NUL; intuition (try congruence); lia).
  destruct (c <? 127)%N; [now apply rest_char|]. destruct (printable c); [now apply rest_char|].
  destruct (N.leb_spec c 255).
  { apply rest_hex; [exact Hq|auto|]. change (16 ^ N.of_nat 2)%N with 256%N. lia. }
  destruct (N.leb_spec c 65535).
  { apply rest_hex; [exact Hq|auto|]. change (16 ^ N.of_nat 4)%N with 65536%N. lia. }
  apply rest_hex; [exact Hq|auto|]. change (16 ^ N.of_nat 8)%N with 4294967296%N. lia.
Qed.
Lemma rest_repr printable q r : (q = DQ \/ q = SQ) -> forall s, scalar s ->
  string_rest q 0 (flat_map (repr_char printable q) s ++ q :: r) = Some (s, r).
Proof.
  intros Hq. induction s as [|c s IH]; intros Hs.
  - cbn [flat_map app string_rest]. now rewrite N.eqb_refl.
  - cbn [flat_map]. rewrite <- app_assoc, rest_repr_char by (try assumption; apply Hs; now left).
    rewrite IH by (intros x Hx; apply Hs; now right). reflexivity.
Qed.

(** A literal between quotes [q]. *)
Lemma quoted_literal q body r v : (q = DQ \/ q = SQ) -> (hd_error r <> Some q) -> string_rest q 0 (body ++ q :: r) = Some (v, r) ->
  (hd_error body <> Some q) -> string_literal (q :: body ++ q :: r) = Some (v, r).
Proof.
  intros Hq Hr H Hb. assert (Eq : ((q =? DQ) || (q =? SQ))%N = true) by (destruct Hq as [-> | ->]; reflexivity).
  unfold string_literal. rewrite Eq. destruct body as [|a body].
  - cbn [app] in *. destruct r as [|c r]; [exact H|]. rewrite N.eqb_refl.
    replace (c =? q)%N with false by (symmetry; apply N.eqb_neq; intros ->; now apply Hr). exact H.
  - cbn [app] in *.
    assert (E : (a =? q)%N = false) by (apply N.eqb_neq; intros ->; now apply Hb).
    destruct (body ++ q :: r) as [|b t] eqn:F; [destruct body; discriminate|].
    rewrite E. exact H.
Qed.
Lemma repr_body_start printable q s : (q = DQ \/ q = SQ) -> hd_error (flat_map (repr_char printable q) s) <> Some q.
Proof.
  intros Hq. destruct s as [|c s]; [discriminate|]. cbn [flat_map]. unfold repr_char.
  destruct (N.eqb_spec c q) as [->|Nq].
  { cbn. intros [= E]. destruct Hq as [-> | ->]; discriminate. }
  cbn [orb].
  repeat match goal with |- context [if ?b then _ else _] => destruct b eqn:?; cbn [app hd_error] end;
    intros [= E]; try contradiction; destruct Hq as [-> | ->]; discriminate.
Qed.
Lemma repr_literal printable s r : scalar s -> hd_error r <> Some DQ -> hd_error r <> Some SQ ->
  string_literal (repr printable s ++ r) = Some (s, r).
Proof.
  intros Hs H1 H2. unfold repr.
  set (q := if existsb (N.eqb SQ) s && negb (existsb (N.eqb DQ) s) then DQ else SQ).
  assert (Hq : q = DQ \/ q = SQ) by (unfold q; destruct (_ && _); auto).
  change ((q :: flat_map (repr_char printable q) s ++ [q]) ++ r) with (q :: (flat_map (repr_char printable q) s ++ [q]) ++ r).
  rewrite <- app_assoc. cbn [app]. apply quoted_literal; [exact Hq|destruct Hq as [-> | ->]; assumption|now apply rest_repr|now apply repr_body_start].
Qed.
Lemma repr_fields printable d q e st : scalar d -> scalar q -> scalar e ->
  detected_fields (s2l "Detected: " ++ dialect_repr printable (mk_dialect (Some d) (Some q) (Some e) st)) = Some (d, q, e).
Proof.
  intros Hd Hq He. unfold detected_fields, dialect_repr. cbn [sd_delimiter sd_quotechar sd_escapechar repr_opt].
  rewrite app_assoc. change (s2l "Detected: " ++ s2l "SimpleDialect(") with (s2l "Detected: SimpleDialect(").
  erewrite fields_cons by (apply repr_literal; [exact Hd|discriminate|discriminate]).
  erewrite fields_cons by (apply repr_literal; [exact Hq|discriminate|discriminate]).
  erewrite fields_cons by (apply repr_literal; [exact He|discriminate|discriminate]).
  reflexivity.
Qed.

(** ** Plain *)
Lemma lstrip_head (space : N -> bool) c s : space c = false -> lstrip_by space (c :: s) = c :: s.
Proof. intros H. cbn [lstrip_by]. now rewrite H. Qed.
Lemma rstrip_one space s c : space c = true -> rstrip_by space (s ++ [c]) = rstrip_by space s.
Proof. intros H. unfold rstrip_by. rewrite rev_app_distr. cbn [rev app lstrip_by]. now rewrite H. Qed.
Lemma rstrip_end space s c : space c = false -> rstrip_by space (s ++ [c]) = s ++ [c].
Proof. intros H. unfold rstrip_by. rewrite rev_app_distr. cbn [rev app lstrip_by]. rewrite H. cbn [rev]. now rewrite rev_involutive. Qed.
Lemma strip_line space key first v : (List.length v <= 1)%nat -> space first = false -> space 32%N = true -> space 61%N = false ->
  strip_by space ((first :: key) ++ s2l " = " ++ v) =
  ((first :: key) ++ s2l " =") ++ match visible space v with [] => [] | x => 32%N :: x end.
Proof.
  intros Hv Hf Hs He. unfold strip_by.
  change ((first :: key) ++ s2l " = " ++ v) with (first :: (key ++ s2l " = " ++ v)). rewrite lstrip_head by exact Hf.
  change (first :: (key ++ s2l " = " ++ v)) with ((first :: key) ++ s2l " = " ++ v). generalize (first :: key). intros k. clear key first Hf.
  assert (B : rstrip_by space (k ++ s2l " = ") = k ++ s2l " =").
  { replace (k ++ s2l " = ") with (((k ++ [32%N]) ++ [61%N]) ++ [32%N]) by (rewrite <- !app_assoc; reflexivity).
    rewrite rstrip_one, rstrip_end by assumption. rewrite <- app_assoc. reflexivity. }
  unfold visible. destruct v as [|c [|]]; [| |cbn in Hv; lia].
  - rewrite !app_nil_r. exact B.
  - cbn [forallb]. rewrite app_assoc. destruct (space c) eqn:Ec; cbn [andb].
    + rewrite rstrip_one, B, app_nil_r by exact Ec. reflexivity.
    + rewrite rstrip_end by exact Ec. rewrite <- !app_assoc. reflexivity.
Qed.

Lemma plain_line space key first v : python_space space -> (List.length v <= 1)%nat -> (33 <= first < 127)%N ->
  plain_value (first :: key) (strip_by space ((first :: key) ++ s2l " = " ++ v)) = Some (visible space v).
Proof.
  intros Hp Hv Hf.
  assert (E1 : space first = false).
  { rewrite Hp by lia. apply orb_false_iff. split; apply andb_false_iff; right; apply N.leb_gt; lia. }
  rewrite strip_line by (try assumption; rewrite Hp by reflexivity; reflexivity).
  unfold plain_value. rewrite after_app. now destruct (visible space v).
Qed.

(** ** Floats in JSON *)
Lemma digits_true s : Forall (fun c => 48 <= c <= 57)%N s -> forallb is_digit s = true.
Proof.
  intros H. apply forallb_forall. rewrite Forall_forall in H. intros c Hc. apply H in Hc. unfold is_digit.
  apply andb_true_iff. split; apply N.leb_le; lia.
Qed.
Lemma span_all p : forall s c r, forallb p s = true -> p c = false -> span p (s ++ c :: r) = (s, c :: r).
Proof.
  induction s as [|x s IH]; intros c r H Hc; cbn [app span].
  - now rewrite Hc.
  - cbn [forallb] in H. apply andb_true_iff in H as [Hx H]. rewrite Hx, IH by assumption. reflexivity.
Qed.
Lemma scan_float md t r : float_text t -> scan_number md (t ++ 125%N :: r) = Ok (JNum t, 125%N :: r).
Proof.
  intros (sign & int & frac & exp & -> & Hs & [Hi0 Hi] & Hz & Hf & He & Hn).
  assert (E1 : forall rest, match (sign ++ int) ++ rest with c :: r => if (c =? 45)%N then ([c], r) else ([], (sign ++ int) ++ rest) | [] => ([], []) end
    = (sign, int ++ rest)).
  { intros rest. destruct int as [|i0 int']; [congruence|]. destruct Hs as [-> | ->]; cbn [app]; [|reflexivity].
    apply Forall_inv in Hi. replace (i0 =? 45)%N with false by (symmetry; apply N.eqb_neq; lia). reflexivity. }
  set (tail := frac ++ exp ++ 125%N :: r).
  assert (ND : exists c0 t0, tail = c0 :: t0 /\ is_digit c0 = false).
  { unfold tail. destruct Hf as [-> | (ds & -> & _)]; [destruct He as [-> | (x & ds & -> & _)]|]; eexists _, _; (split; [reflexivity|reflexivity]). }
  assert (E2 : match int ++ tail with
    | c :: r' => if (c =? 48)%N then ([c], r') else span is_digit (int ++ tail) | [] => ([], []) end = (int, tail)).
  { destruct ND as (c0 & t0 & -> & Hc0). destruct int as [|i0 int']; [congruence|]. cbn [app].
    destruct (N.eqb_spec i0 48) as [-> | Hi1].
    - now rewrite (Hz int' eq_refl).
    - change (i0 :: int' ++ c0 :: t0) with ((i0 :: int') ++ c0 :: t0). apply span_all; [now apply digits_true|exact Hc0]. }
  set (tail2 := exp ++ 125%N :: r).
  assert (ND2 : exists c0 t0, tail2 = c0 :: t0 /\ is_digit c0 = false /\ (c0 =? 46)%N = false).
  { unfold tail2. destruct He as [-> | (x & ds & -> & _)]; eexists _, _; (split; [reflexivity|split; reflexivity]). }
  assert (E3 : match tail with
    | c :: d :: r' => if ((c =? 46)%N && is_digit d) then let '(a, b) := span is_digit (d :: r') in (c :: a, b) else ([], tail)
    | _ => ([], tail) end = (frac, tail2)).
  { unfold tail. fold tail2. destruct ND2 as (c0 & t0 & -> & Hc0 & Hc1). destruct Hf as [-> | (ds & -> & Hd0 & Hd)].
    - cbn [app]. rewrite Hc1. cbn [andb]. now destruct t0.
    - destruct ds as [|x ds]; [congruence|]. cbn [app]. rewrite N.eqb_refl.
      pose proof (digits_true _ Hd) as Hd'. assert (Hx : is_digit x = true) by (cbn in Hd'; now apply andb_true_iff in Hd' as [Hx _]).
      rewrite Hx. cbn [andb]. change (x :: ds ++ c0 :: t0) with ((x :: ds) ++ c0 :: t0). rewrite span_all by assumption. reflexivity. }
  assert (E4 : match tail2 with
    | c :: r' =>
        if ((c =? 101) || (c =? 69))%N then
          let '(sg, r'') := match r' with x :: r'' => if ((x =? 45) || (x =? 43))%N then ([x], r'') else ([], r') | [] => ([], []) end in
          match span is_digit r'' with
          | ([], _) => ([], tail2)
          | (ds, rest) => (c :: sg ++ ds, rest)
          end
        else ([], tail2)
    | [] => ([], []) end = (exp, 125%N :: r)).
  { unfold tail2. destruct He as [-> | (x & ds & -> & Hx & Hd0 & Hd)]; [reflexivity|].
    destruct ds as [|y ds]; [congruence|]. cbn [app]. change ((101 =? 101) || (101 =? 69))%N with true. cbv iota.
    assert (Ex : ((x =? 45) || (x =? 43))%N = true) by (destruct Hx as [-> | ->]; reflexivity). rewrite Ex.
    change (y :: ds ++ 125%N :: r) with ((y :: ds) ++ 125%N :: r). rewrite span_all by (try reflexivity; now apply digits_true). reflexivity. }
  replace ((sign ++ int ++ frac ++ exp) ++ 125%N :: r) with ((sign ++ int) ++ tail)
    by (unfold tail; rewrite <- !app_assoc; reflexivity).
  unfold scan_number. rewrite E1, E2. cbv beta iota zeta.
  destruct int as [|i0 int']; [congruence|]. rewrite E3. cbv beta iota zeta. rewrite E4. cbv beta iota zeta.
  destruct (frac ++ exp) eqn:EF; [congruence|]. rewrite <- EF. reflexivity.
Qed.
Lemma prefix_head p c s : match p with x :: _ => x <> c | [] => False end -> strip_prefix p (c :: s) = None.
Proof. destruct p as [|x p]; [contradiction|]. intros H. cbn [strip_prefix]. now replace (x =? c)%N with false by (symmetry; now apply N.eqb_neq). Qed.
Lemma scan_once_float md depth t r : float_text t -> scan_once md depth (t ++ 125%N :: r) = Ok (JNum t, 125%N :: r).
Proof.
  intros H. rewrite <- (scan_float md t r H).
  destruct H as (sign & int & frac & exp & -> & Hs & [Hi0 Hi] & Hz & Hf & He & Hn).
  destruct int as [|i0 int]; [congruence|]. apply Forall_inv in Hi.
  destruct Hs as [-> | ->].
  - change (([] ++ (i0 :: int) ++ frac ++ exp) ++ 125%N :: r) with (i0 :: ((int ++ frac ++ exp) ++ 125%N :: r)).
    assert (E' : forall k, (k < 48 \/ 57 < k)%N -> (i0 =? k)%N = false) by (intros k Hk; apply N.eqb_neq; lia).
    destruct depth; cbn [scan_once]; unfold DQ; rewrite !E' by lia; rewrite !prefix_head by (cbn; lia); reflexivity.
  - change ((s2l "-" ++ (i0 :: int) ++ frac ++ exp) ++ 125%N :: r) with (45%N :: i0 :: ((int ++ frac ++ exp) ++ 125%N :: r)).
    assert (EI : strip_prefix (s2l "-Infinity") (45%N :: i0 :: ((int ++ frac ++ exp) ++ 125%N :: r)) = None).
    { change (strip_prefix (s2l "-Infinity") (45%N :: ?x)) with (strip_prefix (s2l "Infinity") x). apply prefix_head. cbn. lia. }
    destruct depth; cbn [scan_once]; rewrite EI; rewrite !prefix_head by (cbn; lia); reflexivity.
Qed.
Lemma float_ws t x : float_text t -> skip_ws (t ++ x) = t ++ x.
Proof.
  intros (sign & int & frac & exp & -> & Hs & [Hi0 Hi] & Hz & Hf & He & Hn).
  destruct int as [|i0 int]; [congruence|]. apply Forall_inv in Hi.
  destruct Hs as [-> | ->]; [|reflexivity]. cbn [app]. unfold skip_ws. cbn [span].
  assert (E : forall k, (k < 48)%N -> (i0 =? k)%N = false) by (intros k Hk; apply N.eqb_neq; lia).
  unfold SPACE, TAB, LF, CR. rewrite !E by lia. reflexivity.
Qed.
