(** * JsonScan: which errors [loads] can give *)
From Coq Require Import String.
From Verif Require Import Base Parser Dialect Json.

(** The errors of the json module in this model. *)
Definition json_error (x : pyexc) : Prop := x = JSONDecodeError \/ x = ValueError \/ x = RecursionError.
Definition scans {A} (s : str) (r : res pyexc (A * str)) : Prop :=
  match r with
  | Ok (_, rest) => List.length rest < List.length s
  | Err x => json_error x
  end.

Lemma decode_error : json_error JSONDecodeError. Proof. now left. Qed.
Lemma scans_cons_char c s r : scans s r -> scans s (cons_char c r).
Proof. now destruct r as [[]|]. Qed.
Lemma scans_le {A} s s' (r : res pyexc (A * str)) : List.length s <= List.length s' -> scans s r -> scans s' r.
Proof. destruct r as [[a rest]|]; cbn; [lia|auto]. Qed.
Lemma scan_string_scans s : scans s (scan_string s).
Proof.
  remember (List.length s) as n eqn:E. revert s E. induction n as [n IH] using lt_wf_ind. intros s ->.
  destruct s as [|c r]; [now left|]. cbn [scan_string].
  assert (G : forall c' t, List.length t < List.length (c :: r) -> scans (c :: r) (cons_char c' (scan_string t))).
  { intros c' t Ht. apply scans_cons_char. apply (scans_le t); [lia|]. now apply (IH (List.length t)). }
  destruct (c =? DQ)%N; [cbn; lia|]. destruct (c =? BACKSLASH)%N.
  2:{ destruct (c <=? 31)%N; [apply decode_error|]. apply G. cbn. lia. }
  destruct r as [|e r1]; [apply decode_error|]. destruct (negb _).
  { destruct (unescape e); [|apply decode_error]. apply G. cbn. lia. }
  destruct r1 as [|x1 [|x2 [|x3 [|x4 [|b r2]]]]]; try apply decode_error.
  destruct (hex4 x1 x2 x3 x4); [|apply decode_error].
  destruct r2 as [|u [|y1 [|y2 [|y3 [|y4 [|b' r3]]]]]]; try (apply G; cbn; lia).
  destruct (high_surrogate n && (b =? BACKSLASH)%N && (u =? 117)%N); [|apply G; cbn; lia].
  destruct (hex4 y1 y2 y3 y4); [|apply decode_error].
  destruct (low_surrogate n0); apply G; cbn; lia.
Qed.

Lemma span_length p s : List.length (fst (span p s)) + List.length (snd (span p s)) = List.length s.
Proof. induction s as [|c s IH]; [reflexivity|]. cbn. destruct (p c); [|reflexivity]. destruct (span p s). cbn in *. lia. Qed.
Lemma skip_ws_length s : List.length (skip_ws s) <= List.length s.
Proof. unfold skip_ws. match goal with |- context [span ?p s] => pose proof (span_length p s) end. lia. Qed.
Lemma strip_prefix_length p : forall s r, strip_prefix p s = Some r -> List.length s = List.length p + List.length r.
Proof.
  induction p as [|c p IH]; intros s r; cbn; [now intros [= ->]|]. destruct s as [|d s]; [discriminate|].
  destruct (c =? d)%N; [|discriminate]. intros H. apply IH in H. cbn. lia.
Qed.

Lemma scan_number_scans md s : scans s (scan_number md s).
Proof.
  unfold scan_number.
  assert (H1 : exists sign r, (match s with c :: r => if (c =? 45)%N then ([c], r) else ([], s) | [] => ([], []) end) = (sign, r) /\
    List.length r <= List.length s).
  { destruct s as [|c r]; [repeat eexists; lia|]. destruct (c =? 45)%N; repeat eexists; cbn; lia. }
  destruct H1 as (sign & r & -> & H1).
  assert (H2 : exists int r', (match r with c :: r' => if (c =? 48)%N then ([c], r') else span is_digit r | [] => ([], []) end) = (int, r') /\
    List.length int + List.length r' = List.length r).
  { destruct r as [|c r']; [repeat eexists|]. destruct (c =? 48)%N; [repeat eexists|].
    pose proof (span_length is_digit (c :: r')). destruct (span is_digit (c :: r')) as [a b]. exists a, b. now split. }
  destruct H2 as (int & r1 & -> & H2). destruct int as [|i int]; [apply decode_error|].
  assert (H3 : exists frac r', (match r1 with
      | c :: d :: r' => if ((c =? 46)%N && is_digit d) then let '(a, b) := span is_digit (d :: r') in (c :: a, b) else ([], r1)
      | _ => ([], r1) end) = (frac, r') /\ List.length r' <= List.length r1).
  { destruct r1 as [|c [|d r']]; try (repeat eexists; lia). destruct ((c =? 46)%N && is_digit d); [|repeat eexists; lia].
    pose proof (span_length is_digit (d :: r')). destruct (span is_digit (d :: r')) as [a b]. repeat eexists. cbn in *. lia. }
  destruct H3 as (frac & r2 & -> & H3).
  match goal with |- scans s (let '(_, _) := ?E in _) => assert (H4 : exists ex r', E = (ex, r') /\ List.length r' <= List.length r2) end.
  { destruct r2 as [|c r']; [repeat eexists; lia|]. destruct ((c =? 101) || (c =? 69))%N; [|repeat eexists; lia].
    assert (H5 : exists sg r'', (match r' with x :: r'' => if ((x =? 45) || (x =? 43))%N then ([x], r'') else ([], r') | [] => ([], []) end) = (sg, r'') /\
      List.length r'' <= List.length r').
    { destruct r' as [|x r'']; [repeat eexists; lia|]. destruct ((x =? 45) || (x =? 43))%N; repeat eexists; cbn; lia. }
    destruct H5 as (sg & r'' & -> & H5). pose proof (span_length is_digit r''). destruct (span is_digit r'') as [a b].
    destruct a as [|a0 a]; repeat eexists; cbn in *; lia. }
  destruct H4 as (ex & r3 & -> & H4). cbn [List.length] in H2.
  destruct (frac ++ ex); [|cbn; lia]. destruct (Nat.ltb md (List.length (i :: int))); [right; now left|cbn; lia].
Qed.

Lemma scan_members_scans scan : (forall s, scans s (scan s)) -> forall fuel d s, List.length s < fuel -> scans s (scan_members scan fuel d s).
Proof.
  intros Hs. induction fuel as [|f IH]; intros d s Hf; [lia|]. cbn [scan_members].
  destruct s as [|c r]; [apply decode_error|]. destruct (c =? DQ)%N; [|apply decode_error].
  pose proof (scan_string_scans r) as H1. destruct (scan_string r) as [[k r1]|x]; cbn [bind scans] in *; [|exact H1].
  pose proof (skip_ws_length r1) as H2. destruct (skip_ws r1) as [|c2 r2]; [apply decode_error|].
  destruct (c2 =? 58)%N; [|apply decode_error].
  pose proof (Hs (skip_ws r2)) as H3. pose proof (skip_ws_length r2) as H4.
  destruct (scan (skip_ws r2)) as [[v r3]|x]; cbn [bind scans] in *; [|exact H3].
  pose proof (skip_ws_length r3) as H5. destruct (skip_ws r3) as [|c4 r4]; [apply decode_error|].
  cbn [List.length] in *. destruct (c4 =? 125)%N; [cbn; lia|]. destruct (c4 =? COMMA)%N; [|apply decode_error].
  pose proof (skip_ws_length r4) as H6. apply (scans_le (skip_ws r4)); [cbn; lia|]. apply IH. lia.
Qed.
Lemma scan_elements_scans scan : (forall s, scans s (scan s)) -> forall fuel l s, List.length s < fuel -> scans s (scan_elements scan fuel l s).
Proof.
  intros Hs. induction fuel as [|f IH]; intros l s Hf; [lia|]. cbn [scan_elements].
  pose proof (Hs s) as H3. destruct (scan s) as [[v r3]|x]; cbn [bind scans] in *; [|exact H3].
  pose proof (skip_ws_length r3) as H5. destruct (skip_ws r3) as [|c4 r4]; [apply decode_error|].
  cbn [List.length] in *. destruct (c4 =? 93)%N; [cbn; lia|]. destruct (c4 =? COMMA)%N; [|apply decode_error].
  pose proof (skip_ws_length r4) as H6. apply (scans_le (skip_ws r4)); [lia|]. apply IH. lia.
Qed.

Lemma scan_literals md (s : str) :
  scans s (match strip_prefix (s2l "null") s with Some r => Ok (JNull, r) | None =>
           match strip_prefix (s2l "true") s with Some r => Ok (JBool true, r) | None =>
           match strip_prefix (s2l "false") s with Some r => Ok (JBool false, r) | None =>
           match strip_prefix (s2l "NaN") s with Some r => Ok (JNum (s2l "NaN"), r) | None =>
           match strip_prefix (s2l "Infinity") s with Some r => Ok (JNum (s2l "Infinity"), r) | None =>
           match strip_prefix (s2l "-Infinity") s with Some r => Ok (JNum (s2l "-Infinity"), r) | None =>
           scan_number md s
           end end end end end end).
Proof.
  repeat match goal with |- scans _ (match strip_prefix ?p s with _ => _ end) =>
    let E := fresh "E" in destruct (strip_prefix p s) eqn:E;
    [apply strip_prefix_length in E; unfold scans; cbn in E; lia|clear E] end.
  apply scan_number_scans.
Qed.
Lemma scan_str_scans c r : scans (c :: r) (bind (scan_string r) (fun '(t, r) => Ok (JStr t, r))).
Proof.
  pose proof (scan_string_scans r) as H. destruct (scan_string r) as [[t r1]|x]; cbn [bind scans List.length] in *; [lia|exact H].
Qed.
Lemma scan_once_scans md : forall depth s, scans s (scan_once md depth s).
Proof.
  induction depth as [|depth IH]; intros s; (destruct s as [|c r]; [apply decode_error|]); cbn [scan_once].
  - destruct (c =? DQ)%N; [apply scan_str_scans|]. destruct (c =? 123)%N; [right; now right|].
    destruct (c =? 91)%N; [right; now right|]. apply scan_literals.
  - destruct (c =? DQ)%N; [apply scan_str_scans|]. destruct (c =? 123)%N; [|destruct (c =? 91)%N]; [| |apply scan_literals].
    + pose proof (skip_ws_length r) as H. destruct (skip_ws r) as [|c2 r2]; [apply decode_error|].
      destruct (c2 =? 125)%N; [cbn in *; lia|]. apply (scans_le (c2 :: r2)); [cbn in *; lia|].
      apply scan_members_scans; [exact IH|]. cbn in *. lia.
    + pose proof (skip_ws_length r) as H. destruct (skip_ws r) as [|c2 r2]; [apply decode_error|].
      destruct (c2 =? 93)%N; [cbn in *; lia|]. apply (scans_le (c2 :: r2)); [cbn in *; lia|].
      apply scan_elements_scans; [exact IH|]. cbn in *. lia.
Qed.

(** [loads] never runs out of fuel. *)
Lemma loads_errors md depth s x : loads md depth s = Err x -> json_error x.
Proof.
  assert (G : forall t, bind (scan_once md depth t) (fun '(v, r) => match skip_ws r with [] => Ok v | _ => Err JSONDecodeError end) = Err x -> json_error x).
  { intros t. pose proof (scan_once_scans md depth t) as H. destruct (scan_once md depth t) as [[v r]|y]; cbn [bind] in *.
    - destruct (skip_ws r); [discriminate|]. intros [= <-]. apply decode_error.
    - now intros [= <-]. }
  unfold loads. destruct s as [|c r]; [apply G|].
  destruct (N.eq_dec c 65279) as [->|Hc]; [intros [= <-]; apply decode_error|].
  intros H. apply (G (skip_ws (c :: r))).
  destruct c as [|c]; [exact H|]. do 16 (destruct c as [c|c|]; try exact H). now contradiction Hc.
Qed.
