(** * DetectCases: cache size, listing order and concrete detections (C32, C36, C44, C55-C57) *)
From Coq Require Import String SpecFloat Permutation.
From Verif Require Import Base Parser Dialect SpecLayout SpecParse Potential SpecPotential PotentialFacts MaskedFacts
  Abstraction SpecAbstraction AbstractionFacts Floats FloatFacts Ties TieFacts Consistency SpecConsistency ScoreFacts TypeFacts DetectFacts.

(** ** The cache size does not matter *)
Lemma loop_capacity known limit cap cap' skip data ds : forall inc m c c', sound known c -> sound known c' ->
  scores_loop known limit cap skip data ds inc m c = scores_loop known limit cap' skip data ds inc m c'.
Proof.
  induction ds as [|d ds IH]; intros inc m c c' Hc Hc'; [reflexivity|]. cbn [scores_loop].
  destruct (pattern_score data d) as [P|e]; cbn [bind]; [|reflexivity].
  destruct (fltb P inc && skip); [now apply IH|].
  pose proof (compute_sound known cap limit data d c Hc) as H.
  pose proof (compute_sound known cap' limit data d c' Hc') as H'.
  destruct (compute_type_score known limit cap data d c) as [[T c1]|e], (compute_type_score known limit cap' data d c') as [[T' c1']|e'];
    cbn [bind].
  - destruct H as [H Hs], H' as [H' Hs']. rewrite H in H'. injection H' as <-. now apply IH.
  - destruct H. congruence.
  - destruct H'. congruence.
  - congruence.
Qed.
Lemma scores_capacity known limit cap cap' skip data ds c c' : sound known c -> sound known c' ->
  compute_consistency_scores known limit cap skip data ds c = compute_consistency_scores known limit cap' skip data ds c'.
Proof.
  intros Hc Hc'. unfold compute_consistency_scores. destruct (py_sorted ds); cbn [bind]; [|reflexivity].
  now apply loop_capacity.
Qed.
Lemma detect_capacity cat url known O o_set cap cap' skip data user old :
  detect cat url known O o_set cap skip data user old = detect cat url known O o_set cap' skip data user old.
Proof.
  unfold detect. destruct (get_dialects cat url O utf8 data user false) as [L|e]; [|reflexivity]. cbn zeta.
  now rewrite (scores_capacity known _ cap cap' skip data L [] []) by apply sound_nil.
Qed.

(** ** The order of sets does not matter if there is one escape character *)
Lemma detect_any_order cat url kb O1 O2 o1 o2 capacity skip data user old :
  any_orders O1 -> any_orders O2 ->
  (forall l, Permutation (o1 l) l) -> (forall l, Permutation (o2 l) l) ->
  ~ In NUL data -> (Z.of_nat (length data) < two50)%Z ->
  (forall L d e, get_dialects cat url O1 utf8 data user false = Ok L -> In d L -> In e L -> one_escape d e) ->
  detect cat url (total_known kb) O1 o1 capacity skip data user old =
  detect cat url (total_known kb) O2 o2 capacity skip data user old.
Proof.
  intros H1 H2 P1 P2 Hn H50 HE. rewrite <- (detect_order cat url _ O1 O2) by assumption.
  destruct (clean_dec url data) as [Hc|Hc]; [|now rewrite !detect_surrogate by assumption].
  unfold detect. destruct (get_dialects_good cat url O1 data user false H1 Hc) as (L & E & HN & HL). rewrite E. cbn zeta.
  set (limit := (Z.of_nat (length data) + 1)%Z). pose proof (ready_detect data Hn H50) as Hr. fold limit in Hr.
  destruct (candidates_fine L HL) as [Hf Hd].
  destruct (best_scores kb limit capacity data Hr skip L [] Hf Hd (sound_nil _)) as (m & Em & HB & _ & HM).
  rewrite Em. cbn [bind].
  assert (T : tie_breaker limit data o1 (get_best_dialects m) = tie_breaker limit data o2 (get_best_dialects m)).
  { apply tie_breaker_order; auto. rewrite Forall_forall in Hf. split.
    - intros d Hi. apply HM in Hi as [Hi _]. destruct (Hf d Hi). apply parses_valid; auto; [unfold limit; lia].
    - intros d e Hi Hj. apply HM in Hi as [Hi _]. apply HM in Hj as [Hj _]. destruct (Hf d Hi) as [_ ->], (Hf e Hj) as [_ ->].
      split; [reflexivity|]. now apply (HE L). }
  now destruct (get_best_dialects m) as [|x [|y l]]; rewrite ?T.
Qed.

(** ** Evaluation

    The same functions with a row pattern that starts from a small stack (C25);
    the concrete cases below are computed with them. *)
Definition small_abstraction (data : str) (dl : SimpleDialect) : res aerr str :=
  bind (match set_char (sd_delimiter dl), set_char (sd_quotechar dl), set_char (sd_escapechar dl) with
        | Ok d, Ok q, Ok e => base_abstraction_sized 1 d q e data
        | _, _, _ => Err AType
        end) (fun a =>
  bind (c_merge_with_quotechar a) (fun a =>
  match fill_empties a with
  | None => Err AFuel
  | Some a => Ok (strip_trailing a)
  end)).
Definition small_score (data : str) (d : SimpleDialect) : res pyexc float :=
  match small_abstraction data d with
  | Ok A => Ok (score_of_abstraction A)
  | Err _ => Err TypeError
  end.
Lemma small_base s d q e : base_abstraction_sized stack_size0 d q e s = base_abstraction_sized 1 d q e s.
Proof. rewrite !base_sized_ok by (unfold stack_size0; lia). reflexivity. Qed.
Lemma small_score_ok data d : pattern_score data d = small_score data d.
Proof.
  unfold pattern_score, small_score, make_abstraction, small_abstraction, base_abstraction.
  destruct (set_char (sd_delimiter d)); [|reflexivity]. destruct (set_char (sd_quotechar d)); [|reflexivity].
  destruct (set_char (sd_escapechar d)); [|reflexivity]. rewrite small_base. reflexivity.
Qed.
Lemma small_score_eq a b d : small_score a d = small_score b d -> pattern_score a d = pattern_score b d.
Proof. rewrite (small_score_ok a d), (small_score_ok b d). auto. Qed.
Lemma small_score_neq a b d : small_score a d <> small_score b d -> pattern_score a d <> pattern_score b d.
Proof. rewrite (small_score_ok a d), (small_score_ok b d). auto. Qed.
Fixpoint small_loop known (limit capacity : Z) (skip : bool) (data : str) (ds : list SimpleDialect)
    (incumbent : float) (m : list (SimpleDialect * score)) (c : cache)
  : res pyexc (list (SimpleDialect * score)) :=
  match ds with
  | [] => Ok m
  | d :: ds' =>
      bind (small_score data d) (fun P =>
      if fltb P incumbent && skip
      then small_loop known limit capacity skip data ds' incumbent (scores_set d (mk_score P None None) m) c
      else bind (compute_type_score known limit capacity data d c) (fun '(T, c) =>
           let Q := fmul P T in
           small_loop known limit capacity skip data ds' (fmax incumbent Q)
             (scores_set d (mk_score P (Some T) (Some Q)) m) c))
  end.
Lemma small_loop_ok known limit capacity skip data ds : forall inc m c,
  scores_loop known limit capacity skip data ds inc m c = small_loop known limit capacity skip data ds inc m c.
Proof.
  induction ds as [|d ds IH]; intros inc m c; [reflexivity|]. cbn [scores_loop small_loop]. rewrite small_score_ok.
  destruct (small_score data d); cbn [bind]; [|reflexivity]. destruct (fltb _ _ && skip); [apply IH|].
  destruct (compute_type_score known limit capacity data d c) as [[T c']|]; cbn [bind]; [apply IH|reflexivity].
Qed.
Definition small_scores known (limit capacity : Z) (skip : bool) (data : str)
    (dialects : list SimpleDialect) (c : cache) : res pyexc (list (SimpleDialect * score)) :=
  bind (py_sorted dialects) (fun ds => small_loop known limit capacity skip data ds minus_inf [] c).
Lemma small_scores_ok known limit capacity skip data ds c :
  compute_consistency_scores known limit capacity skip data ds c = small_scores known limit capacity skip data ds c.
Proof.
  unfold compute_consistency_scores, small_scores. destruct (py_sorted ds); cbn [bind]; [apply small_loop_ok|reflexivity].
Qed.
Lemma small_scores_neq known limit capacity skip skip' data ds c :
  small_scores known limit capacity skip data ds c <> small_scores known limit capacity skip' data ds c ->
  compute_consistency_scores known limit capacity skip data ds c <> compute_consistency_scores known limit capacity skip' data ds c.
Proof. rewrite (small_scores_ok _ _ _ skip), (small_scores_ok _ _ _ skip'). auto. Qed.
Definition small_detect cat url known O o_set (capacity : Z) (skip : bool) (data : str)
    (delimiters : option (list str)) (old_limit : Z) : res pyexc (option SimpleDialect) * Z :=
  match get_dialects cat url O utf8 data delimiters false with
  | Err x => (Err x, old_limit)
  | Ok dialects =>
      let limit := (Z.of_nat (List.length data) + 1)%Z in
      match bind (small_scores known limit capacity skip data dialects []) (fun scores =>
            match get_best_dialects scores with
            | [d] => Ok (Some d)
            | best => tie_breaker limit data o_set best
            end) with
      | Ok r => (Ok r, old_limit)
      | Err x => (Err x, limit)
      end
  end.
Lemma small_detect_ok cat url known O o_set capacity skip data user old :
  detect cat url known O o_set capacity skip data user old = small_detect cat url known O o_set capacity skip data user old.
Proof.
  unfold detect, small_detect. destruct (get_dialects cat url O utf8 data user false) as [L|]; [|reflexivity]. cbn zeta.
  now rewrite small_scores_ok.
Qed.

(** ** Concrete detections *)
(** Only runs of digits are of a known type. *)
Definition digits (s : str) (q : bool) : bool :=
  negb (str_eqb s []) && forallb (fun c => (48 <=? c) && (c <=? 57))%N s.

Definition tied_text : str := s2l "1,2,3,b\'c@'d".
Definition esc_backslash : SimpleDialect := dialect3 [COMMA] [SQ] [BACKSLASH].
Definition esc_at : SimpleDialect := dialect3 [COMMA] [SQ] [64%N].
Lemma tied_case1 :
  detect ascii_cat no_urls (total_known digits) plain_orders (fun l => l) 9 true tied_text None 131072 =
  (Ok (Some esc_backslash), 131072%Z).
Proof. rewrite small_detect_ok. vm_compute. reflexivity. Qed.
Lemma tied_case2 :
  detect ascii_cat no_urls (total_known digits) plain_orders (@rev _) 9 true tied_text None 131072 =
  (Ok (Some esc_at), 131072%Z).
Proof. rewrite small_detect_ok. vm_compute. reflexivity. Qed.
Lemma hash_order_matters :
  exists cat url kb O o1 o2 data d1 d2,
    any_orders O /\ (forall l, Permutation (o1 l) l) /\ (forall l, Permutation (o2 l) l) /\ d1 <> d2 /\
    detect_dialect_consistency cat url (total_known kb) O o1 data None true 131072 = (Ok (Some d1), 131072%Z) /\
    detect_dialect_consistency cat url (total_known kb) O o2 data None true 131072 = (Ok (Some d2), 131072%Z).
Proof.
  exists ascii_cat, no_urls, digits, plain_orders, (fun l => l), (@rev SimpleDialect), tied_text, esc_backslash, esc_at.
  split; [apply plain_orders_ok|]. split; [intros; apply Permutation_refl|].
  split; [intros l; apply Permutation_sym, Permutation_rev|]. split; [discriminate|].
  unfold detect_dialect_consistency. rewrite !(detect_capacity _ _ _ _ _ 100000 9).
  split; [apply tied_case1|apply tied_case2].
Qed.

(** Two tied dialects with different escape characters. *)
Definition escape_text : str := s2l "a,b\'c@'d".
Lemma two_order_matters :
  break_ties_two 100 escape_text esc_backslash esc_at = Ok (Some esc_at) /\
  break_ties_two 100 escape_text esc_at esc_backslash = Ok (Some esc_backslash).
Proof. split; vm_compute; reflexivity. Qed.
Lemma two_order_same :
  break_ties_two 100 escape_text (dialect3 [COMMA] [SQ] []) (dialect3 [COMMA] [] []) =
    Ok (Some (dialect3 [COMMA] [] [])) /\
  break_ties_two 100 escape_text (dialect3 [COMMA] [] []) (dialect3 [COMMA] [SQ] []) =
    Ok (Some (dialect3 [COMMA] [] [])) /\
  one_escape (dialect3 [COMMA] [SQ] []) (dialect3 [COMMA] [] []).
Proof. split; [vm_compute; reflexivity|]. split; [vm_compute; reflexivity|]. now left. Qed.

(** Three dialects that differ in the quote character only. *)
Lemma three_quotes limit data o_set d e qa qb qc pA pB pC :
  (forall l, Permutation (o_set l) l) -> qa <> qb -> qb <> qc -> qa <> qc ->
  parse_string limit data (dialect3 d qa e) false = (pA, None) ->
  parse_string limit data (dialect3 d qb e) false = (pB, None) ->
  parse_string limit data (dialect3 d qc e) false = (pC, None) ->
  exists r, break_ties_three limit data o_set (dialect3 d qa e) (dialect3 d qb e) (dialect3 d qc e) = Ok r /\
    (r <> None <-> pA = pB /\ pB = pC /\ In [] [qa; qb; qc]) /\
    (r <> None -> r = Some (dialect3 d [] e)).
Proof.
  intros Ho H1 H2 H3 EA EB EC.
  assert (PA : plist limit data (dialect3 d qa e) = Ok pA) by (unfold plist; now rewrite EA).
  assert (PB : plist limit data (dialect3 d qb e) = Ok pB) by (unfold plist; now rewrite EB).
  assert (PC : plist limit data (dialect3 d qc e) = Ok pC) by (unfold plist; now rewrite EC).
  eexists. split.
  { eapply three_closed; try eassumption; try reflexivity; unfold dialect3; congruence. }
  unfold the_unquoted. cbn [find dialect3 sd_quotechar is_str].
  assert (T : table_eqb pA pB && table_eqb pB pC = true <-> pA = pB /\ pB = pC) by apply conj_table.
  destruct (table_eqb pA pB && table_eqb pB pC).
  - destruct T as [T _]. specialize (T eq_refl).
    assert (E : forall q, is_str (Some q) [] = true <-> q = []).
    { intros q. rewrite is_str_eq. split; congruence. }
    destruct (is_str (Some qa) []) eqn:Ka; [apply E in Ka as ->; cbn [In]; split; [split; [tauto|discriminate]|reflexivity]|].
    destruct (is_str (Some qb) []) eqn:Kb; [apply E in Kb as ->; cbn [In]; split; [split; [tauto|discriminate]|reflexivity]|].
    destruct (is_str (Some qc) []) eqn:Kc; [apply E in Kc as ->; cbn [In]; split; [split; [tauto|discriminate]|reflexivity]|].
    split; [|congruence]. split; [congruence|].
    intros (_ & _ & [H|[H|[H|[]]]]); apply E in H; congruence.
  - split; [|congruence]. split; [congruence|]. intros (K1 & K2 & _). destruct T as [_ T]. discriminate (T (conj K1 K2)).
Qed.

(** The dialect without quotes agrees with one of the others, but not with both. *)
Definition quoted_text : str := s2l "a,""b""".
Lemma three_documented :
  parse_string 100 quoted_text (dialect3 [COMMA] [] []) false = parse_string 100 quoted_text (dialect3 [COMMA] [SQ] []) false /\
  break_ties_two 100 quoted_text (dialect3 [COMMA] [] []) (dialect3 [COMMA] [SQ] []) = Ok (Some (dialect3 [COMMA] [] [])) /\
  break_ties_three 100 quoted_text (fun l => l) (dialect3 [COMMA] [] []) (dialect3 [COMMA] [SQ] []) (dialect3 [COMMA] [DQ] []) = Ok None.
Proof. split; [|split]; vm_compute; reflexivity. Qed.

(** ** Blank lines *)
Definition full_lengths {A} (rows : list (list A)) : list nat :=
  filter (fun n => negb (Nat.eqb n 0)) (map (@List.length A) rows).
Definition leading_blank {A} (rows : list (list A)) : bool := match rows with [] :: _ => true | _ => false end.
Lemma kinds_same {A B} (r1 : list (list A)) (r2 : list (list B)) :
  full_lengths r1 = full_lengths r2 -> leading_blank r1 = leading_blank r2 -> row_kinds r1 = row_kinds r2.
Proof.
  unfold full_lengths, leading_blank, row_kinds. intros -> H. destruct (filter _ _); [reflexivity|].
  destruct r1 as [|[|? ?] ?], r2 as [|[|? ?] ?]; congruence.
Qed.
Lemma blank_lines D d1 d2 strict : wf_chars D = true -> wf_doc D d1 = true -> closed d1 = true -> esc_ok d1 = true ->
  wf_doc D d2 = true -> closed d2 = true -> esc_ok d2 = true ->
  full_lengths (denote D d1) = full_lengths (denote D d2) -> leading_blank (denote D d1) = leading_blank (denote D d2) ->
  pattern_score (render D d1) (simple D strict) = pattern_score (render D d2) (simple D strict).
Proof. intros. rewrite !pattern_score_table by assumption. do 2 f_equal. now apply kinds_same. Qed.

Definition comma_only : chars := mk_chars (Some COMMA) None None.
Definition two_rows (lead : list (list (list piece) * eol)) (mid : list (list (list piece) * eol)) : doc :=
  mk_doc (lead ++ [([[PChar 97%N]; [PChar 98%N]], ELF)] ++ mid ++ [([[PChar 99%N]; [PChar 100%N]], ELF)]) TEnd.
Lemma leading_blank_line :
  pattern_score (s2l "a,b" ++ [LF] ++ s2l "c,d" ++ [LF]) (simple comma_only false) =
  pattern_score (s2l "a,b" ++ [LF; LF; LF] ++ s2l "c,d" ++ [LF; LF]) (simple comma_only false) /\
  pattern_score ([LF] ++ s2l "a,b" ++ [LF] ++ s2l "c,d" ++ [LF]) (simple comma_only false) <>
  pattern_score (s2l "a,b" ++ [LF] ++ s2l "c,d" ++ [LF]) (simple comma_only false).
Proof. split; [apply small_score_eq; vm_compute; reflexivity|apply small_score_neq; vm_compute; discriminate]. Qed.
Lemma blank_case :
  let d1 := two_rows [] [] in let d2 := two_rows [] [([], ELF); ([], ECR)] in
  wf_chars comma_only = true /\ wf_doc comma_only d1 = true /\ closed d1 = true /\ esc_ok d1 = true /\
  wf_doc comma_only d2 = true /\ closed d2 = true /\ esc_ok d2 = true /\
  full_lengths (denote comma_only d1) = full_lengths (denote comma_only d2) /\
  leading_blank (denote comma_only d1) = leading_blank (denote comma_only d2).
Proof. vm_compute. repeat split. Qed.

(** ** The statements for the property file *)
Lemma valid_defined d : validate d = true -> defined d.
Proof. intros H. destruct (simple_of_valid d H) as [D ->]. repeat split; discriminate. Qed.
Lemma valid_lists dialects : Forall (fun d => validate d = true /\ sd_strict d = false) dialects ->
  Forall fine dialects /\ Forall defined dialects.
Proof.
  intros H. split; [exact H|]. eapply Forall_impl; [|exact H]. intros d [Hv _]. now apply valid_defined.
Qed.
Lemma skip_harmless kb limit capacity data dialects :
  ~ In NUL data -> (Z.of_nat (List.length data) < two50)%Z -> (Z.of_nat (List.length data) <= limit)%Z ->
  Forall (fun d => validate d = true /\ sd_strict d = false) dialects ->
  exists m m',
    compute_consistency_scores (total_known kb) limit capacity true data dialects [] = Ok m /\
    compute_consistency_scores (total_known kb) limit capacity false data dialects [] = Ok m' /\
    get_best_dialects m = get_best_dialects m'.
Proof.
  intros H1 H2 H3 H. destruct (valid_lists _ H) as [Hf Hd].
  apply (skip_same kb limit capacity data (conj H1 (conj H2 H3)) dialects [] [] Hf Hd); apply sound_nil.
Qed.
Lemma detect_skip cat url kb O o_set capacity data user old :
  any_orders O -> ~ In NUL data -> (Z.of_nat (List.length data) < two50)%Z ->
  detect cat url (total_known kb) O o_set capacity true data user old =
  detect cat url (total_known kb) O o_set capacity false data user old.
Proof.
  intros HO Hn H50. destruct (clean_dec url data) as [Hc|Hc]; [|now rewrite !detect_surrogate by assumption].
  unfold detect. destruct (get_dialects_good cat url O data user false HO Hc) as (L & E & HN & HL). rewrite E. cbn zeta.
  destruct (candidates_fine L HL) as [Hf Hd].
  destruct (skip_same kb _ capacity data (ready_detect data Hn H50) L [] [] Hf Hd (sound_nil _) (sound_nil _))
    as (m & m' & E1 & E2 & EB).
  rewrite E1, E2. cbn [bind]. now rewrite EB.
Qed.
Lemma orders_differ :
  get_dialects ascii_cat no_urls plain_orders utf8 (s2l "a,b;c") None false <>
  get_dialects ascii_cat no_urls back_orders utf8 (s2l "a,b;c") None false.
Proof. vm_compute. discriminate. Qed.
Lemma skip_case :
  let ds := [dialect3 [COMMA] [] []; dialect3 [SEMI] [] []] in
  Forall (fun d => validate d = true /\ sd_strict d = false) ds /\
  compute_consistency_scores (total_known digits) 100 9 true (s2l "1,2") ds [] <>
  compute_consistency_scores (total_known digits) 100 9 false (s2l "1,2") ds [].
Proof. split; [repeat constructor|]. apply small_scores_neq. vm_compute. discriminate. Qed.
Lemma detect_answer cat url kb O o_set capacity skip data user old :
  any_orders O -> clean url data -> (forall l, Permutation (o_set l) l) ->
  ~ In NUL data -> (Z.of_nat (List.length data) < two50)%Z ->
  exists L r, get_dialects cat url O utf8 data user false = Ok L /\
    detect cat url (total_known kb) O o_set capacity skip data user old = (Ok r, old) /\
    match r with Some d => In d L | None => True end.
Proof.
  intros HO Hc Ho Hn H50.
  destruct (detect_best cat url kb O o_set capacity skip data user old HO Hc Ho Hn H50)
    as (L & Q & best & r & E & _ & _ & _ & HB & ED & _ & Hr).
  exists L, r. split; [exact E|]. split; [exact ED|]. destruct r as [d|]; [|exact I]. now apply HB in Hr.
Qed.
Lemma detect_returns cat url kb O o_set capacity skip data user old :
  any_orders O -> clean url data -> (forall l, Permutation (o_set l) l) ->
  ~ In NUL data -> (Z.of_nat (List.length data) < two50)%Z ->
  exists r, detect cat url (total_known kb) O o_set capacity skip data user old = (Ok r, old).
Proof.
  intros HO Hc Ho Hn H50.
  destruct (detect_answer cat url kb O o_set capacity skip data user old HO Hc Ho Hn H50) as (L & r & _ & E & _). eauto.
Qed.
Lemma tie_breaker_member limit data o_set ds :
  (forall l, Permutation (o_set l) l) ->
  Forall (fun d => validate d = true /\ sd_strict d = false) ds ->
  (Z.of_nat (List.length data) <= limit)%Z -> ~ In NUL data ->
  exists r, tie_breaker limit data o_set ds = Ok r /\ match r with Some d => In d ds | None => True end.
Proof.
  intros Ho Hd Hl Hn. apply tie_breaker_ok; [exact Ho|]. eapply Forall_impl; [|exact Hd].
  intros d [Hv Hs]. now apply parses_valid.
Qed.
Lemma null_case :
  detect ascii_cat no_urls (total_known digits) plain_orders (fun l => l) 9 true [49%N; COMMA; NUL] None 131072 =
  (Err (CleverError ENull), 4%Z).
Proof. rewrite small_detect_ok. vm_compute. reflexivity. Qed.
Lemma two_escapes_differ : exists limit data A B,
  break_ties_two limit data A B = Ok (Some B) /\ break_ties_two limit data B A = Ok (Some A) /\ A <> B.
Proof.
  exists 100%Z, escape_text, esc_backslash, esc_at. destruct two_order_matters as [H1 H2].
  split; [exact H1|]. split; [exact H2|discriminate].
Qed.
Lemma cache_case : exists c, reached (total_known digits) 2 c /\ List.length c = 2.
Proof.
  exists [((s2l "b", true), false); ((s2l "7", false), true)]. split; [|reflexivity].
  apply (reached_call _ _ (s2l "b") true false [((s2l "7", false), true); ((s2l "a", false), false)]); [|reflexivity].
  apply (reached_call _ _ (s2l "7") false true [((s2l "a", false), false)]); [|reflexivity].
  apply (reached_call _ _ (s2l "a") false false []); [constructor|reflexivity].
Qed.
Lemma share_case :
  type_score (total_known digits) 100 (s2l "1,2,a,4") (dialect3 [COMMA] [] []) =
  Ok (fdiv (float_of_Z 3) (float_of_Z 4)).
Proof. vm_compute. reflexivity. Qed.
Lemma three_rule_refuted : exists limit data A B C,
  sd_quotechar A = Some [] /\
  parse_string limit data A false = parse_string limit data B false /\
  break_ties_two limit data A B = Ok (Some A) /\
  break_ties_three limit data (fun l => l) A B C = Ok None /\
  sd_delimiter A = sd_delimiter B /\ sd_delimiter B = sd_delimiter C /\
  sd_escapechar A = sd_escapechar B /\ sd_escapechar B = sd_escapechar C.
Proof.
  exists 100%Z, quoted_text, (dialect3 [COMMA] [] []), (dialect3 [COMMA] [SQ] []), (dialect3 [COMMA] [DQ] []).
  destruct three_documented as (H1 & H2 & H3). repeat (split; [first [exact H1|exact H2|exact H3|reflexivity]|]). reflexivity.
Qed.
Lemma three_case :
  break_ties_three 100 (s2l "a,b") (fun l => l) (dialect3 [COMMA] [] []) (dialect3 [COMMA] [SQ] []) (dialect3 [COMMA] [DQ] []) =
  Ok (Some (dialect3 [COMMA] [] [])).
Proof. vm_compute. reflexivity. Qed.
Lemma leading_matters : exists data d,
  pattern_score (LF :: data) d <> pattern_score data d /\ pattern_score (data ++ [LF]) d = pattern_score data d.
Proof.
  exists (s2l "a,b" ++ [LF] ++ s2l "c,d" ++ [LF]), (simple comma_only false).
  split; [apply small_score_neq; vm_compute; discriminate|apply small_score_eq; vm_compute; reflexivity].
Qed.
Lemma one_escape_case : exists L,
  get_dialects ascii_cat no_urls plain_orders utf8 (s2l "a,'b\'c'") None false = Ok L /\ List.length L = 9 /\
  forall d e, In d L -> In e L -> one_escape d e.
Proof.
  eexists. split; [vm_compute; reflexivity|]. split; [reflexivity|].
  assert (H : forall L, forallb (fun d => match sd_escapechar d with Some [] => true | Some [c] => (c =? BACKSLASH)%N | _ => false end) L = true ->
    forall d e, In d L -> In e L -> one_escape d e).
  { intros L HL d e Hd He. rewrite forallb_forall in HL. apply HL in Hd, He. unfold one_escape.
    destruct (sd_escapechar d) as [[|a [|? ?]]|], (sd_escapechar e) as [[|b [|? ?]]|]; try discriminate; auto.
    apply N.eqb_eq in Hd, He. subst. auto. }
  apply H. reflexivity.
Qed.
Lemma semicolon_case :
  detect ascii_cat no_urls (total_known digits) plain_orders (fun l => l) 9 true (s2l "1;2;3") None 131072 =
  (Ok (Some (dialect3 [SEMI] [] [])), 131072%Z).
Proof. rewrite small_detect_ok. vm_compute. reflexivity. Qed.
