(** * ConsoleFacts: the console commands and read_dataframe *)
From Coq Require Import String Permutation.
From Verif Require Import Base Parser Dialect CsvLib Reader ReaderFacts Writer WriterFacts Files Wrappers SpecLayout SpecParse SpecFiles FilesFacts TableFacts
  Potential SpecPotential PotentialFacts MaskedFacts NormalForm NormalCases Ties Consistency SpecConsistency Detect Json SpecJson JsonFacts
  Codegen SpecCodegen CodegenFacts CodegenRun Console SpecConsole ConsoleText ScoreFacts DetectFacts DetectCases TieMember DetectorCases DetectorFacts.

(** ** JSON output *)
Definition members (d q e : str) (st : bool) : list (str * jvalue) :=
  [(s2l "delimiter", JStr d); (s2l "quotechar", JStr q); (s2l "escapechar", JStr e); (s2l "strict", JBool st)].

Lemma runtime_loads md depth d q e st rt : code_points d -> code_points q -> code_points e ->
  (List.length d <= 1)%nat -> (List.length q <= 1)%nat -> (List.length e <= 1)%nat -> float_text rt ->
  loads md (S depth) (dumps (JObj (members d q e st ++ [(s2l "runtime", JNum rt)]))) =
  Ok (JObj (members d q e st ++ [(s2l "runtime", JNum rt)])).
Proof.
  intros P1 P2 P3 L1 L2 L3 HF.
  set (sb := s2l (if st then "true" else "false")).
  set (last := dumps_str (s2l "runtime") ++ s2l ": " ++ rt ++ [125%N]).
  set (fourth := dumps_str (s2l "strict") ++ s2l ": " ++ sb ++ COMMA :: SPACE :: last).
  set (third := dumps_str (s2l "escapechar") ++ s2l ": " ++ dumps_str e ++ COMMA :: SPACE :: fourth).
  set (second := dumps_str (s2l "quotechar") ++ s2l ": " ++ dumps_str q ++ COMMA :: SPACE :: third).
  set (first := dumps_str (s2l "delimiter") ++ s2l ": " ++ dumps_str d ++ COMMA :: SPACE :: second).
  replace (dumps (JObj (members d q e st ++ [(s2l "runtime", JNum rt)]))) with (123%N :: first).
  2:{ unfold first, second, third, fourth, last, sb, members.
      destruct st; cbn -[dumps_str]; repeat (rewrite <- app_assoc; cbn [app]); reflexivity. }
  unfold loads.
  match goal with |- bind ?x _ = _ => assert (EQ : x = Ok (JObj (members d q e st ++ [(s2l "runtime", JNum rt)]), [])) end.
  2:{ cbv iota. rewrite EQ. reflexivity. }
  change (skip_ws (123%N :: first)) with (123%N :: first).
  cbn [scan_once]. change (123 =? DQ)%N with false. change (123 =? 123)%N with true. cbv iota.
  assert (EF : exists r, first = DQ :: r) by (eexists; reflexivity).
  assert (ES : skip_ws first = first) by reflexivity. rewrite ES.
  assert (EM : forall f, scan_members (scan_once md depth) (S (S (S (S (S f))))) [] first =
    Ok (JObj (members d q e st ++ [(s2l "runtime", JNum rt)]), [])).
  { intros f. assert (K : forall k, forallb (fun c => c <? 1114112)%N k = true -> code_points k) by apply points_ok.
    unfold first. rewrite member_scan with (v := JStr (pair_up d)); [|apply K; reflexivity|now left|now apply scan_str|apply dumps_ws].
    cbn zeta. change (COMMA =? 125)%N with false. cbv iota. change (skip_ws (SPACE :: second)) with second.
    unfold second. rewrite member_scan with (v := JStr (pair_up q)); [|apply K; reflexivity|now left|now apply scan_str|apply dumps_ws].
    cbn zeta. change (COMMA =? 125)%N with false. cbv iota. change (skip_ws (SPACE :: third)) with third.
    unfold third. rewrite member_scan with (v := JStr (pair_up e)); [|apply K; reflexivity|now left|now apply scan_str|apply dumps_ws].
    cbn zeta. change (COMMA =? 125)%N with false. cbv iota. change (skip_ws (SPACE :: fourth)) with fourth.
    unfold fourth. rewrite member_scan with (v := JBool st); [|apply K; reflexivity|now left|unfold sb; destruct st, depth; reflexivity|unfold sb; destruct st; reflexivity].
    cbn zeta. change (COMMA =? 125)%N with false. cbv iota. change (skip_ws (SPACE :: last)) with last.
    unfold last. rewrite member_scan with (v := JNum rt); [|apply K; reflexivity|now right|now apply scan_once_float|intros x; now apply float_ws].
    rewrite (pair_up_short d L1), (pair_up_short q L2), (pair_up_short e L3). reflexivity. }
  assert (EL : exists n, List.length first = S (S (S (S n)))) by (eexists; reflexivity).
  destruct EL as [n EL]. rewrite EL. destruct EF as [r EF]. rewrite EF in *. change (DQ =? 125)%N with false. cbv iota. rewrite EM. reflexivity.
Qed.

(** ** The detect command *)
Lemma detect_by_head E det f p n encoding m skip c b t :
  open_text E f p (or_encoding encoding) = Ok (c, b) -> cd_decode c b = (t, true) ->
  detect_dialect_by E det f p n encoding m skip = det m skip (head_chars n t).
Proof.
  intros HO HD. unfold detect_dialect_by, detect_dialect.
  change (open_text (with_detect E (det m skip)) f p (or_encoding encoding)) with (open_text E f p (or_encoding encoding)).
  rewrite HO. cbn [bind]. rewrite (read_chars_head c b t n HD). reflexivity.
Qed.

Definition method_of (A : detect_args) : method_arg := MStr (if da_consistency A then s2l "consistency" else s2l "auto").

Theorem detect_exit E det printable space rt rt6 f p A :
  let r := detect_dialect_by E det f p (da_num_chars A) (da_encoding A) (method_of A) (negb (da_no_skip A)) in
  let out := detect_command E det printable space rt rt6 f p A in
  (forall x, r = Err x -> out = Raised x) /\
  (r = Ok None -> out = Printed [] 1) /\
  (forall D, r = Ok (Some D) -> validate D = true -> exists lines, lines <> [] /\ out = Printed lines 0).
Proof.
  cbn zeta. unfold detect_command. fold (method_of A).
  destruct (detect_dialect_by _ _ _ _ _ _ _ _) as [[D|]|x]; (split; [|split]); try discriminate.
  - intros D' [= <-] HV. destruct (da_plain A); [eexists; split; [|reflexivity]; discriminate|].
    unfold to_dict. rewrite HV. destruct (da_json A); [|destruct (da_add_runtime A)]; eexists; (split; [|reflexivity]); discriminate.
  - reflexivity.
  - now intros y [= <-].
Qed.

(** What is known about the dialect of a detector. *)
Lemma one_scalar c : (c <= 1114111)%N -> scalar [c].
Proof. intros H x [<-|[]]. exact H. Qed.
Lemma candidate_scalar cat url sample d q e :
  candidate cat None (filter_urls url sample) sample d q e -> scalar sample -> scalar d /\ scalar q.
Proof.
  intros (Hd & Hq & He) Hs. split.
  - destruct Hd as [->|(c & -> & Hi & Hw)]; [apply scalar_nil|]. apply one_scalar.
    destruct (url_sub_In _ _ (filter_urls_sub url sample) c Hi) as [H| ->]; [now apply Hs|discriminate].
  - destruct Hq as [->|(c & -> & _ & Hl)]; [apply scalar_nil|]. apply one_scalar.
    unfold quote_like in Hl. cbn in Hl. intuition (subst; discriminate).
Qed.
Lemma detected_scalar cat url known O o_set sample m skip s d q e s' : any_orders O -> (forall l, incl (o_set l) l) ->
  detector_detect cat url known O o_set sample None m skip s = (Ok (Some (dialect3 d q e)), s') -> scalar sample ->
  scalar d /\ scalar q.
Proof.
  intros HO Ho HD Hs. unfold detector_detect in HD.
  assert (HC : forall r limit, detect cat url known O o_set 100000 skip sample None (st_limit s) = (r, limit) ->
    r = Ok (Some (dialect3 d q e)) -> scalar d /\ scalar q).
  { intros r limit E ->. destruct (detect_candidate _ _ _ _ _ _ _ _ _ _ _ _ Ho E) as (L & EL & HL).
    destruct (clean_dec url sample) as [Hc|Hc]; [|now rewrite get_dialects_surrogate in EL].
    destruct (get_dialects_utf8 cat url O sample None false HO Hc) as (L' & E' & _ & HC).
    rewrite EL in E'. injection E' as <-. apply HC in HL as (d' & q' & e' & ED & HL & _).
    injection ED as -> -> ->. now apply (candidate_scalar cat url sample d' q' e'). }
  match type of HD with match ?x with _ => _ end = _ => destruct x as [mm|] end; [|discriminate].
  cbn zeta in HD.
  match type of HD with match (if ?b then _ else _) with _ => _ end = _ => destruct b end.
  - destruct (detect_dialect_normal cat sample utf8 None) as [[D|]|] eqn:EN; [| |discriminate].
    + injection HD as -> _. apply detect_shape in EN as (d' & q' & ED & Hq & Hd). injection ED as -> -> ->.
      split.
      * cbn in Hd. destruct Hd as [->|[<-|[<-|[<-|[<-|[]]]]]]; try apply scalar_nil; apply one_scalar; discriminate.
      * cbn in Hq. destruct Hq as [<-|[<-|[<-|[]]]]; try apply scalar_nil; apply one_scalar; discriminate.
    + destruct (detect cat url known O o_set 100000 skip sample None (st_limit s)) as [r limit] eqn:E. injection HD as -> _.
      now apply (HC _ _ eq_refl).
  - destruct (detect cat url known O o_set 100000 skip sample None (st_limit s)) as [r limit] eqn:E. injection HD as -> _.
    now apply (HC _ _ eq_refl).
Qed.
Lemma detector_shape det m skip sample D : is_detector det -> det m skip sample = Ok (Some D) -> ~ In NUL sample -> scalar sample ->
  exists d q e, D = dialect3 d q e /\ inline d /\ inline q /\ scalar d /\ scalar q /\ scalar e /\
    (List.length d <= 1)%nat /\ (List.length q <= 1)%nat /\ (List.length e <= 1)%nat.
Proof.
  intros (cat & url & known & O & o_set & s & HO & Ho & HD) H H0 Hs. rewrite HD in H.
  destruct (detector_detect cat url known O o_set sample None m skip s) as [r s'] eqn:E. cbn [fst] in H. subst r.
  destruct (detected_good cat url known O o_set _ _ _ _ _ _ HO Ho E H0 Hs) as (d & q & e & -> & _ & _ & Id & Iq & Se & _ & Ld & Lq & Le).
  destruct (detected_scalar cat url known O o_set _ _ _ _ _ _ _ _ HO Ho E Hs) as [Sd Sq].
  exists d, q, e. repeat (split; [reflexivity || assumption|]). exact Le.
Qed.
Lemma detector_valid d q e : (List.length d <= 1)%nat -> (List.length q <= 1)%nat -> (List.length e <= 1)%nat -> validate (dialect3 d q e) = true.
Proof.
  intros Ld Lq Le. unfold validate. cbn [dialect3 sd_delimiter sd_quotechar sd_escapechar field_valid].
  apply Nat.leb_le in Ld, Lq, Le. now rewrite Ld, Lq, Le.
Qed.
Lemma scalar_points s : scalar s -> code_points s.
Proof. intros H. apply Forall_forall. intros c Hc. apply H in Hc. lia. Qed.

Lemma plain_three a b c rest d q e : plain_value (s2l "delimiter") a = Some d -> plain_value (s2l "quotechar") b = Some q ->
  plain_value (s2l "escapechar") c = Some e -> plain_fields ([a; b; c] ++ rest) = Some (d, q, e).
Proof. intros H1 H2 H3. cbn [plain_fields app]. now rewrite H1, H2, H3. Qed.

Section Detected.
Variables (E : env) (det : detector) (printable space : N -> bool) (rt rt6 : str) (f : fs) (p : path) (A : detect_args).
Variables (c : codec) (b : bytes) (t : str).
Hypothesis HD : is_detector det.
Hypothesis HO : open_text E f p (or_encoding (da_encoding A)) = Ok (c, b).
Hypothesis Ht : cd_decode c b = (t, true).
Hypothesis H0 : ~ In NUL t.
Hypothesis Hs : scalar t.
Notation out := (detect_command E det printable space rt rt6 f p A).
Notation found := (det (method_of A) (negb (da_no_skip A)) (head_chars (da_num_chars A) t)).

Lemma found_shape D : found = Ok (Some D) ->
  exists d q e, D = dialect3 d q e /\ inline d /\ inline q /\ scalar d /\ scalar q /\ scalar e /\
    (List.length d <= 1)%nat /\ (List.length q <= 1)%nat /\ (List.length e <= 1)%nat.
Proof.
  intros HF. refine (detector_shape det _ _ _ D HD HF _ _).
  - intros H. apply H0. now apply head_chars_In in H.
  - intros x H. apply Hs. now apply head_chars_In in H.
Qed.
Lemma out_found : out = match found with
  | Err x => Raised x
  | Ok None => Printed [] 1
  | Ok (Some D) => out
  end.
Proof.
  unfold detect_command. fold (method_of A). rewrite (detect_by_head E det f p _ _ _ _ c b t HO Ht).
  now destruct found as [[D|]|].
Qed.

Theorem detect_cases :
  (forall x, found = Err x <-> out = Raised x) /\
  (found = Ok None <-> exists lines, out = Printed lines 1) /\
  (found = Ok None -> out = Printed [] 1) /\
  ((exists D, found = Ok (Some D)) <-> exists lines, out = Printed lines 0).
Proof.
  pose proof (detect_exit E det printable space rt rt6 f p A) as HE. cbn zeta in HE.
  rewrite (detect_by_head E det f p _ _ _ _ c b t HO Ht) in HE. destruct HE as (H1 & H2 & H3).
  destruct found as [[D|]|x] eqn:EF.
  - destruct (found_shape D EF) as (d & q & e & -> & _ & _ & _ & _ & _ & Ld & Lq & Le).
    destruct (H3 _ eq_refl (detector_valid d q e Ld Lq Le)) as (lines & _ & ->).
    split; [split; discriminate|]. split; [split; [discriminate|intros (l & Hl); discriminate]|]. split; [discriminate|]. split; eauto.
  - rewrite (H2 eq_refl). split; [split; discriminate|]. split; [split; eauto|]. split; [reflexivity|].
    split; [intros (D & HX); discriminate|intros (l & Hl); discriminate].
  - rewrite (H1 x eq_refl). split; [intros y; split; intros [= <-]; reflexivity|]. split; [split; [discriminate|intros (l & Hl); discriminate]|].
    split; [discriminate|]. split; [intros (D & HX); discriminate|intros (l & Hl); discriminate].
Qed.

Lemma printed_found lines : out = Printed lines 0 -> exists d q e, found = Ok (Some (dialect3 d q e)) /\
    detect_dialect_by E det f p (da_num_chars A) (da_encoding A) (method_of A) (negb (da_no_skip A)) = Ok (Some (dialect3 d q e)) /\
    inline d /\ inline q /\ scalar d /\ scalar q /\ scalar e /\
    (List.length d <= 1)%nat /\ (List.length q <= 1)%nat /\ (List.length e <= 1)%nat.
Proof.
  intros HP. pose proof out_found as HF. rewrite HP in HF. destruct found as [[D|]|x] eqn:EF; try discriminate.
  destruct (found_shape D EF) as (d & q & e & -> & H). exists d, q, e. split; [reflexivity|].
  rewrite (detect_by_head E det f p _ _ _ _ c b t HO Ht). split; assumption.
Qed.

Theorem detect_default lines : out = Printed lines 0 -> da_plain A = false -> da_json A = false ->
  exists d q e line more, lines = line :: more /\ found = Ok (Some (dialect3 d q e)) /\ detected_fields line = Some (d, q, e) /\
    more = (if da_add_runtime A then [s2l "Runtime: " ++ rt6 ++ s2l " seconds"] else []).
Proof.
  intros HP H1 H2. destruct (printed_found lines HP) as (d & q & e & EF & EB & _ & _ & Sd & Sq & Se & _).
  unfold detect_command in HP. fold (method_of A) in HP. rewrite EB, H1, H2 in HP. injection HP as <-.
  eexists d, q, e, _, _. split; [reflexivity|]. split; [exact EF|]. split; [now apply repr_fields|reflexivity].
Qed.
Theorem detect_plain lines : python_space space -> out = Printed lines 0 -> da_plain A = true ->
  exists d q e, found = Ok (Some (dialect3 d q e)) /\
    plain_fields lines = Some (visible space d, visible space q, visible space e) /\
    List.length lines = (if da_add_runtime A then 4%nat else 3%nat).
Proof.
  intros Hp HP H1. destruct (printed_found lines HP) as (d & q & e & EF & EB & _ & _ & _ & _ & _ & Ld & Lq & Le).
  unfold detect_command in HP. fold (method_of A) in HP. rewrite EB, H1 in HP. injection HP as <-.
  exists d, q, e. split; [exact EF|]. split.
  - cbn [dialect3 sd_delimiter sd_quotechar sd_escapechar fmt].
    assert (E1 : plain_value (s2l "delimiter") (strip_by space (s2l "delimiter = " ++ d)) = Some (visible space d))
      by exact (plain_line space (s2l "elimiter") 100 d Hp Ld ltac:(split; [discriminate|reflexivity])).
    assert (E2 : plain_value (s2l "quotechar") (strip_by space (s2l "quotechar = " ++ q)) = Some (visible space q))
      by exact (plain_line space (s2l "uotechar") 113 q Hp Lq ltac:(split; [discriminate|reflexivity])).
    assert (E3 : plain_value (s2l "escapechar") (strip_by space (s2l "escapechar = " ++ e)) = Some (visible space e))
      by exact (plain_line space (s2l "scapechar") 101 e Hp Le ltac:(split; [discriminate|reflexivity])).
    now apply plain_three.
  - destruct (da_add_runtime A); reflexivity.
Qed.
Theorem detect_json md depth lines : float_text rt -> out = Printed lines 0 -> da_plain A = false -> da_json A = true -> (1 <= depth)%nat ->
  exists d q e line v j, lines = [line] /\ found = Ok (Some (dialect3 d q e)) /\
    loads md depth line = Ok v /\ from_dict v = Ok j /\ same_dialect j (dialect3 d q e) /\
    (da_add_runtime A = true -> subscript v (s2l "runtime") = Ok (JNum rt)).
Proof.
  intros Hr HP H1 H2 Hd. destruct depth as [|depth]; [lia|].
  destruct (printed_found lines HP) as (d & q & e & EF & EB & _ & _ & Sd & Sq & Se & Ld & Lq & Le).
  unfold detect_command in HP. fold (method_of A) in HP. rewrite EB, H1, H2 in HP.
  unfold to_dict in HP. rewrite (detector_valid d q e Ld Lq Le) in HP. cbv iota beta in HP. injection HP as <-.
  exists d, q, e. destruct (da_add_runtime A).
  - exists (dumps (JObj (members d q e false ++ [(s2l "runtime", JNum rt)]))), (JObj (members d q e false ++ [(s2l "runtime", JNum rt)])).
    eexists. split; [reflexivity|]. split; [exact EF|].
    split; [apply runtime_loads; try assumption; now apply scalar_points|]. split; [reflexivity|]. split; [repeat split|reflexivity].
  - assert (SE : serialize (dialect3 d q e) = Ok (dumps (JObj (members d q e false)))).
    { unfold serialize, to_dict. rewrite (detector_valid d q e Ld Lq Le). reflexivity. }
    assert (HP : dialect_points (dialect3 d q e)).
    { intros s [[= <-]|[[= <-]|[[= <-]|[]]]]; now apply scalar_points. }
    destruct (roundtrip_same md (S depth) _ _ Hd HP SE) as (j & EJ & HJ). unfold deserialize in EJ.
    destruct (loads md (S depth) (dumps (JObj (members d q e false)))) as [v|] eqn:EL; [|discriminate]. cbn [bind] in EJ.
    exists (dumps (JObj (members d q e false))), v, j. split; [reflexivity|]. split; [exact EF|]. split; [exact EL|]. split; [exact EJ|]. split; [exact HJ|discriminate].
Qed.

(** The same with the answer of [detect_dialect]. *)
Notation answer := (detect_dialect_by E det f p (da_num_chars A) (da_encoding A)
  (MStr (if da_consistency A then s2l "consistency" else s2l "auto")) (negb (da_no_skip A))).
Lemma answer_found : answer = found.
Proof. exact (detect_by_head E det f p _ _ _ _ c b t HO Ht). Qed.
Theorem command_exit :
  (forall x, answer = Err x <-> out = Raised x) /\
  (answer = Ok None <-> exists lines, out = Printed lines 1) /\
  (answer = Ok None -> out = Printed [] 1) /\
  ((exists D, answer = Ok (Some D)) <-> exists lines, out = Printed lines 0).
Proof. rewrite answer_found. exact detect_cases. Qed.
Theorem command_default lines : out = Printed lines 0 -> da_plain A = false -> da_json A = false ->
  exists d q e line more, lines = line :: more /\ answer = Ok (Some (dialect3 d q e)) /\ detected_fields line = Some (d, q, e) /\
    more = (if da_add_runtime A then [s2l "Runtime: " ++ rt6 ++ s2l " seconds"] else []).
Proof. rewrite answer_found. exact (detect_default lines). Qed.
Theorem command_plain lines : python_space space -> out = Printed lines 0 -> da_plain A = true ->
  exists d q e, answer = Ok (Some (dialect3 d q e)) /\
    plain_fields lines = Some (visible space d, visible space q, visible space e) /\
    List.length lines = (if da_add_runtime A then 4%nat else 3%nat).
Proof. rewrite answer_found. exact (detect_plain lines). Qed.
Theorem command_json md depth lines : float_text rt -> out = Printed lines 0 -> da_plain A = false -> da_json A = true -> (1 <= depth)%nat ->
  exists d q e line v j, lines = [line] /\ answer = Ok (Some (dialect3 d q e)) /\
    loads md depth line = Ok v /\ from_dict v = Ok j /\ same_dialect j (dialect3 d q e) /\
    (da_add_runtime A = true -> subscript v (s2l "runtime") = Ok (JNum rt)).
Proof. rewrite answer_found. exact (detect_json md depth lines). Qed.
End Detected.
(** Skipping *)
Lemma detector_skip cat url kb O o_set sample m s : any_orders O -> ~ In NUL sample -> (Z.of_nat (List.length sample) < 2 ^ 50)%Z ->
  detector_detect cat url (total_known kb) O o_set sample None m true s = detector_detect cat url (total_known kb) O o_set sample None m false s.
Proof. intros HO H0 HL. unfold detector_detect. now rewrite (detect_skip cat url kb O o_set 100000 sample None (st_limit s) HO H0 HL). Qed.
Lemma head_length n t : (List.length (head_chars n t) <= List.length t)%nat.
Proof. unfold head_chars. destruct n as [z|]; [|lia]. destruct (0 <? z)%Z; [|lia]. rewrite firstn_length. lia. Qed.
Theorem no_skip_same cat url kb O o_set s E printable space rt rt6 f p enc n cons plain json run c b t :
  let det := fun m skip sample => fst (detector_detect cat url (total_known kb) O o_set sample None m skip s) in
  any_orders O -> open_text E f p (or_encoding enc) = Ok (c, b) -> cd_decode c b = (t, true) -> ~ In NUL t ->
  (Z.of_nat (List.length t) < 2 ^ 50)%Z ->
  detect_command E det printable space rt rt6 f p (mk_detect_args enc n cons plain json true run) =
  detect_command E det printable space rt rt6 f p (mk_detect_args enc n cons plain json false run).
Proof.
  intros det HO Ho Ht H0 HL. unfold detect_command. cbn [da_encoding da_num_chars da_consistency da_plain da_json da_no_skip da_add_runtime negb].
  rewrite !(detect_by_head E det f p _ _ _ _ c b t Ho Ht). unfold det.
  rewrite (detector_skip cat url kb O o_set (head_chars n t)); [reflexivity|exact HO| |].
  - intros H. apply H0. now apply head_chars_In in H.
  - pose proof (head_length n t). lia.
Qed.

(** ** The view command *)
Lemma fold_max_ge rs : forall m, (m <= fold_left (fun m (r : list cell) => Nat.max m (List.length r)) rs m)%nat.
Proof. induction rs as [|r rs IH]; intros m; cbn [fold_left]; [lia|]. specialize (IH (Nat.max m (List.length r))). lia. Qed.
Lemma fold_max_in rs : forall m r, In r rs -> (List.length r <= fold_left (fun m (r : list cell) => Nat.max m (List.length r)) rs m)%nat.
Proof.
  induction rs as [|a rs IH]; intros m r H; [contradiction|]. cbn [fold_left]. destruct H as [->|H]; [|now apply IH].
  pose proof (fold_max_ge rs (Nat.max m (List.length r))). lia.
Qed.
Lemma fold_max_attained rs : forall m, fold_left (fun m (r : list cell) => Nat.max m (List.length r)) rs m = m \/
  exists r, In r rs /\ fold_left (fun m (r : list cell) => Nat.max m (List.length r)) rs m = List.length r.
Proof.
  induction rs as [|a rs IH]; intros m; cbn [fold_left]; [now left|].
  destruct (IH (Nat.max m (List.length a))) as [->|(r & Hr & ->)].
  - destruct (Nat.max_dec m (List.length a)) as [->| ->]; [now left|right; exists a; split; [now left|reflexivity]].
  - right. exists r. split; [now right|reflexivity].
Qed.
Lemma max_row_spec rows n : max_row_length rows = Some n ->
  (forall r, In r rows -> (List.length r <= n)%nat) /\ exists r, In r rows /\ List.length r = n.
Proof.
  destruct rows as [|a rs]; [discriminate|]. intros [= <-]. split.
  - intros r [->|H]; [apply fold_max_ge|now apply fold_max_in].
  - destruct (fold_max_attained rs (List.length a)) as [->|(r & Hr & ->)]; [exists a; split; [now left|reflexivity]|exists r; split; [now right|reflexivity]].
Qed.
Lemma fix_row_length n r : (List.length r <= n)%nat -> List.length (fix_row n r) = n.
Proof.
  intros H. unfold fix_row. destruct (Nat.eqb_spec (List.length r) n) as [E|E]; [now rewrite map_length|].
  rewrite app_length, map_length, repeat_length. lia.
Qed.
Lemma fix_row_nth n r j : (List.length r <= n)%nat ->
  nth_error (fix_row n r) j = match nth_error r j with Some x => Some (Some x) | None => if Nat.ltb j n then Some None else None end.
Proof.
  intros H. assert (HL := fix_row_length n r H). unfold fix_row in *.
  assert (E : nth_error (map Some r) j = match nth_error r j with Some x => Some (Some x) | None => None end)
    by (rewrite nth_error_map; now destruct (nth_error r j)).
  destruct (Nat.eqb_spec (List.length r) n) as [En|En].
  - rewrite E. destruct (nth_error r j) eqn:ER; [reflexivity|]. apply nth_error_None in ER.
    replace (Nat.ltb j n) with false by (symmetry; apply Nat.ltb_ge; lia). reflexivity.
  - destruct (Nat.ltb_spec j (List.length r)) as [Hj|Hj].
    + rewrite nth_error_app1 by now rewrite map_length. rewrite E.
      destruct (nth_error r j) eqn:ER; [reflexivity|]. apply nth_error_None in ER. lia.
    + rewrite nth_error_app2 by now rewrite map_length. rewrite map_length.
      assert (ER : nth_error r j = None) by now apply nth_error_None. rewrite ER.
      destruct (Nat.ltb_spec j n) as [Hn|Hn].
      * rewrite (nth_error_nth' _ None) by (rewrite repeat_length; lia). f_equal. apply nth_repeat.
      * apply nth_error_None. rewrite repeat_length. lia.
Qed.
Lemma fixed_rect rows n : max_row_length rows = Some n -> rectangular n (map (fix_row n) rows).
Proof. intros H r Hr. apply in_map_iff in Hr as (x & <- & Hx). apply fix_row_length. now apply (max_row_spec rows n H). Qed.
Lemma fixed_cell rows n i j : max_row_length rows = Some n ->
  cell_at (zip_star (map (fix_row n) rows)) j i =
  match nth_error rows i with Some r => match nth_error r j with Some x => Some (Some x) | None => if Nat.ltb j n then Some None else None end | None => None end.
Proof.
  intros H. rewrite (zip_star_cell n); [|destruct rows; [discriminate|discriminate]|now apply fixed_rect].
  unfold cell_at. rewrite nth_error_map. destruct (nth_error rows i) as [r|] eqn:E; [|reflexivity]. cbn [option_map].
  apply fix_row_nth. apply (max_row_spec rows n H). now apply nth_error_In in E.
Qed.

Lemma tabview_shown imp vlt rows : tabview imp vlt false rows = match import_optional_dependency imp vlt (s2l "tabview") true with Err x => ViewRaised x | Ok _ => Viewed rows end.
Proof. reflexivity. Qed.
Theorem view_plain E imp vlt f h p enc n rows m : read_table E f h p None enc n = Ok rows ->
  import_optional_dependency imp vlt (s2l "tabview") true = Ok m ->
  view_command E imp vlt false f h p enc n false = Viewed (map (map Some) rows).
Proof. intros HR HI. unfold view_command. rewrite HR. unfold tabview. now rewrite HI. Qed.
Theorem view_transposed E imp vlt f h p enc n rows m : read_table E f h p None enc n = Ok rows -> rows <> [] ->
  import_optional_dependency imp vlt (s2l "tabview") true = Ok m ->
  exists shown, view_command E imp vlt false f h p enc n true = Viewed shown /\
    (forall i j x, cell_at rows i j = Some x <-> cell_at shown j i = Some (Some x)) /\
    (forall i j, cell_at shown j i = Some None <->
       (i < List.length rows)%nat /\ cell_at rows i j = None /\ exists r, In r rows /\ (j < List.length r)%nat).
Proof.
  intros HR HN HI. unfold view_command. rewrite HR. destruct (max_row_length rows) as [k|] eqn:EM; [|destruct rows; [congruence|discriminate]].
  unfold tabview. rewrite HI. eexists. split; [reflexivity|]. destruct (max_row_spec rows k EM) as [Hle (r0 & Hr0 & Hk)].
  split; intros i j.
  - intros x. rewrite (fixed_cell rows k i j EM). unfold cell_at. destruct (nth_error rows i) as [r|]; [|split; discriminate].
    destruct (nth_error r j) as [y|]; [split; congruence|]. destruct (Nat.ltb j k); split; discriminate.
  - rewrite (fixed_cell rows k i j EM). unfold cell_at. destruct (nth_error rows i) as [r|] eqn:EI.
    + assert (Hi : (i < List.length rows)%nat) by (apply nth_error_Some; congruence).
      destruct (nth_error r j) as [y|]; [split; [discriminate|intros (_ & HX & _); discriminate]|].
      destruct (Nat.ltb_spec j k) as [Hj|Hj].
      * split; [|reflexivity]. intros _. split; [exact Hi|]. split; [reflexivity|]. exists r0. split; [exact Hr0|lia].
      * split; [discriminate|]. intros (_ & _ & r1 & Hr1 & Hj1). specialize (Hle r1 Hr1). lia.
    + split; [discriminate|]. intros (Hi & _). apply nth_error_None in EI. lia.
Qed.
Theorem view_exits E imp vlt win32 f h p enc n tr :
  (view_command E imp vlt win32 f h p enc n tr = NotViewed 1 <-> read_table E f h p None enc n = Err NoDetectionResult) /\
  (read_table E f h p None enc n = Ok [] -> view_command E imp vlt win32 f h p enc n true = ViewRaised ValueError) /\
  (forall x, read_table E f h p None enc n = Err x -> x <> NoDetectionResult -> view_command E imp vlt win32 f h p enc n tr = ViewRaised x).
Proof.
  assert (HT : forall rows, tabview imp vlt win32 rows <> NotViewed 1).
  { intros rows. unfold tabview. destruct win32; [discriminate|]. now destruct (import_optional_dependency _ _ _ _). }
  unfold view_command. split; [|split].
  - destruct (read_table E f h p None enc n) as [rows|x].
    + split; [|discriminate]. intros H. exfalso. destruct tr; [destruct (max_row_length rows); [|discriminate]|]; now apply HT in H.
    + destruct x; split; congruence.
  - intros ->. reflexivity.
  - intros x -> Hx. destruct x; congruence.
Qed.
Theorem view_windows E imp vlt f h p enc n rows : read_table E f h p None enc n = Ok rows ->
  view_command E imp vlt true f h p enc n false = NotViewed 0.
Proof. intros H. unfold view_command. now rewrite H. Qed.

(** ** Optional dependencies *)
Lemma optional_get name v : dict_get name optional_dependencies = Some v <->
  In (name, v) [(s2l "tabview", s2l "1.4"); (s2l "pandas", s2l "0.24.1"); (s2l "cchardet", s2l "2.1.18"); (s2l "wilderness", s2l "0.1.5")].
Proof.
  unfold dict_get, optional_dependencies. cbn [find fst].
  split.
  - repeat (match goal with |- context [str_eqb ?a ?b] => destruct (str_eqb a b) eqn:E; [apply str_eqb_eq in E; subst name; cbn; intros [= <-]; auto 8|]; clear E end). discriminate.
  - intros [H|[H|[H|[H|[]]]]]; injection H as <- <-; reflexivity.
Qed.
Theorem optional_module imp vlt name raise m :
  import_optional_dependency imp vlt name raise = Ok (Some m) <->
  imp name = Ok m /\ exists v,
    In (name, v) [(s2l "tabview", s2l "1.4"); (s2l "pandas", s2l "0.24.1"); (s2l "cchardet", s2l "2.1.18"); (s2l "wilderness", s2l "0.1.5")] /\
    (mod_version m = None \/ exists w, mod_version m = Some w /\ vlt w v = Ok false).
Proof.
  unfold import_optional_dependency. split.
  - destruct (imp name) as [m'|x]; [|destruct x, raise; discriminate].
    destruct (dict_get name optional_dependencies) as [v|] eqn:EV; [|discriminate].
    intros H. assert (EM : m' = m).
    { destruct (mod_version m') as [w|]; [|now injection H]. destruct (vlt w v) as [[]|]; cbn [bind] in H; try discriminate. now injection H. }
    subst m'. split; [reflexivity|]. exists v. split; [now apply optional_get|].
    destruct (mod_version m) as [w|]; [|now left]. right. exists w. split; [reflexivity|].
    destruct (vlt w v) as [[]|]; cbn [bind] in H; try discriminate. reflexivity.
  - intros (-> & v & Hv & HM). apply optional_get in Hv. rewrite Hv. destruct HM as [->|(w & -> & ->)]; reflexivity.
Qed.
Theorem optional_none imp vlt name raise :
  import_optional_dependency imp vlt name raise = Ok None <-> imp name = Err ImportError /\ raise = false.
Proof.
  unfold import_optional_dependency. destruct (imp name) as [m|x].
  - split; [|intros [H _]; discriminate]. destruct (dict_get _ _) as [v|]; [|discriminate].
    destruct (mod_version m) as [w|]; [|discriminate]. destruct (vlt w v) as [[]|]; discriminate.
  - destruct x; (split; [try (destruct raise; (discriminate || (split; reflexivity)))|intros [H H']; try discriminate; now subst]).
Qed.
Theorem encoding_choice imp vlt chardet cchardet f p b : f p = Some b ->
  get_encoding_by imp vlt chardet cchardet f p false = Ok (chardet b) /\
  (imp (s2l "cchardet") = Err ImportError -> get_encoding_by imp vlt chardet cchardet f p true = Ok (chardet b)) /\
  (forall m, imp (s2l "cchardet") = Ok m -> mod_version m = None -> get_encoding_by imp vlt chardet cchardet f p true = Ok (cchardet b)) /\
  (forall m w, imp (s2l "cchardet") = Ok m -> mod_version m = Some w -> vlt w (s2l "2.1.18") = Ok false ->
     get_encoding_by imp vlt chardet cchardet f p true = Ok (cchardet b)) /\
  (forall m w, imp (s2l "cchardet") = Ok m -> mod_version m = Some w -> vlt w (s2l "2.1.18") = Ok true ->
     get_encoding_by imp vlt chardet cchardet f p true = Err ImportError).
Proof.
  intros Hb. unfold get_encoding_by, import_optional_dependency. rewrite Hb.
  change (dict_get (s2l "cchardet") optional_dependencies) with (Some (s2l "2.1.18")).
  split; [reflexivity|]. split; [intros ->; reflexivity|]. split; [intros m -> ->; reflexivity|].
  split; intros m w -> -> ->; reflexivity.
Qed.

(** ** read_dataframe *)
Lemma dataframe_open E f p b encoding n : f p = Some b ->
  detect_dialect E f p encoding n =
  bind (e_codec E (match or_encoding encoding with Some e => Some e | None => e_get_encoding E b end)) (fun c =>
  bind (read_chars c b n) (e_detect E)).
Proof.
  intros Hb. unfold detect_dialect, open_text. rewrite Hb.
  destruct (or_encoding encoding) as [e|]; cbn zeta iota; now destruct (e_codec E _).
Qed.
Theorem dataframe_call {V} E imp vlt f p b (args : list V) n encoding kwargs m :
  f p = Some b -> import_optional_dependency imp vlt (s2l "pandas") true = Ok m ->
  read_dataframe E imp vlt f p args n encoding kwargs =
  match detect_dialect E f p encoding n with
  | Err x => Err x
  | Ok None => Err NoDetectionResult
  | Ok (Some D) =>
      match to_csv_dialect D with
      | Err x => Err x
      | Ok cd =>
          if existsb (fun kv => str_eqb (fst kv) (s2l "dialect")) kwargs then Err TypeError
          else Ok (mk_csv_call p args cd (match or_encoding encoding with Some e => Some e | None => e_get_encoding E b end) kwargs)
      end
  end.
Proof.
  intros Hb HI. rewrite (dataframe_open E f p b encoding n Hb). unfold read_dataframe. rewrite Hb, HI. cbn [bind].
  destruct (e_codec E _) as [c|x]; [|reflexivity]. cbn [bind].
  destruct (bind (read_chars c b n) (e_detect E)) as [[D|]|x]; cbn [bind]; try reflexivity; now destruct (to_csv_dialect D).
Qed.
Theorem dataframe_same {V} E imp vlt f p (args : list V) n encoding kwargs call :
  read_dataframe E imp vlt f p args n encoding kwargs = Ok call ->
  exists b D, f p = Some b /\ detect_dialect E f p encoding n = Ok (Some D) /\
    call_path call = p /\ call_args call = args /\ call_kwargs call = kwargs /\
    call_encoding call = match or_encoding encoding with Some e => Some e | None => e_get_encoding E b end /\
    to_csv_dialect D = Ok (call_dialect call) /\ sd_delimiter D <> Some [].
Proof.
  intros H. destruct (f p) as [b|] eqn:Hb; [|unfold read_dataframe in H; rewrite Hb in H; discriminate].
  destruct (import_optional_dependency imp vlt (s2l "pandas") true) as [m|] eqn:HI; [|unfold read_dataframe in H; rewrite Hb, HI in H; discriminate].
  rewrite (dataframe_call E imp vlt f p b args n encoding kwargs m Hb HI) in H.
  destruct (detect_dialect E f p encoding n) as [[D|]|]; try discriminate.
  destruct (to_csv_dialect D) as [cd|] eqn:EC; [|discriminate]. destruct (existsb _ kwargs); [discriminate|]. injection H as <-.
  exists b, D. repeat (split; [reflexivity || assumption|]). intros HN. rewrite (conversion_without_delimiter D HN) in EC. discriminate.
Qed.

Theorem dataframe_missing {V} E imp vlt f p (args : list V) n encoding kwargs :
  (f p = None -> read_dataframe E imp vlt f p args n encoding kwargs = Err ValueError) /\
  (f p <> None -> imp (s2l "pandas") = Err ImportError -> read_dataframe E imp vlt f p args n encoding kwargs = Err ImportError).
Proof.
  unfold read_dataframe. split; [intros ->; reflexivity|]. destruct (f p) as [b|]; [|congruence]. intros _ HI.
  unfold import_optional_dependency. now rewrite HI.
Qed.

(** ** The explore command *)
Lemma push_lines_fold {C} (push : C -> str -> C * bool) : forall lines c r l,
  push_lines push c r (lines ++ [l]) =
  let c' := fold_left (fun c l => fst (push c l)) lines c in (fst (push c' l), Some (snd (push c' l))).
Proof.
  induction lines as [|a lines IH]; intros c r l; cbn [app push_lines fold_left].
  - cbn zeta. now destruct (push c l).
  - destruct (push c a) as [c' r'] eqn:E. rewrite IH. reflexivity.
Qed.
Theorem explore_runs {C} (push : C -> str -> C * bool) (console : C) E printable int_of locate f name encoding num_chars pandas :
  let code := code_command E printable int_of locate f name encoding num_chars pandas in
  let explore := explore_command push console E printable int_of locate f name encoding num_chars pandas in
  (forall x, code = Raised x <-> explore = ExploreRaised x) /\
  (code = Printed [] 1 <-> explore = NoDialect) /\
  (forall lines, code = Printed lines 0 ->
     exists before last, lines = before ++ [last] /\
       let before_last := fold_left (fun c l => fst (push c l)) before console in
       explore = if snd (push before_last last) then Listed lines
                 else Interacting (fst (push before_last last)) (if pandas then s2l "df" else s2l "rows")).
Proof.
  cbn zeta. unfold code_command, explore_command.
  set (opened := match or_encoding encoding with Some e => Ok (Some e) | None => _ end).
  destruct opened as [enc|x].
  2:{ split; [intros y; split; congruence|]. split; [split; discriminate|discriminate]. }
  destruct (parse_int int_of num_chars) as [n|x].
  2:{ split; [intros y; split; congruence|]. split; [split; discriminate|discriminate]. }
  destruct (detect_dialect E f (locate name) enc n) as [[D|]|x].
  2:{ split; [intros y; split; discriminate|]. split; [split; reflexivity|discriminate]. }
  2:{ split; [intros y; split; congruence|]. split; [split; discriminate|discriminate]. }
  destruct (generate_code printable name D enc pandas) as [lines|x] eqn:EG.
  2:{ split; [intros y; split; congruence|]. split; [split; discriminate|discriminate]. }
  assert (HL : lines <> []).
  { unfold generate_code in EG. destruct (sd_quotechar D); [|discriminate]. cbn zeta in EG. destruct pandas; injection EG as <-; discriminate. }
  destruct (exists_last HL) as (before & last & ->). rewrite push_lines_fold. cbn zeta.
  set (c' := fold_left _ before console).
  split; [intros y; split; [discriminate|]; destruct (snd (push c' last)); discriminate|].
  split; [split; [intros [= H]; destruct before; discriminate|destruct (snd (push c' last)); discriminate]|].
  intros l [= <-]. exists before, last. split; [reflexivity|]. fold c'. now destruct (push c' last) as [c2 []].
Qed.
