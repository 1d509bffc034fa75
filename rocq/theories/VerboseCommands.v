(** * VerboseCommands: the output of the commands in verbose mode *)
From Coq Require Import String.
From Verif Require Import Base Parser Dialect CsvLib Reader Writer Files Wrappers Standardize Potential Floats Ties Consistency NormalForm Detect Json Codegen Console.
From Verif Require Import SpecLayout SpecParse ParserFacts LayoutFacts ParserProps Verbose SpecVerbose VerboseFacts.
Open Scope N_scope.
Local Notation len := List.length.

Section Commands.
Variable cat : N -> str.
Variable url : str -> str -> option nat.
Variable known : str -> bool -> res pyexc bool.
Variable O : orders.
Variable o_set : list SimpleDialect -> list SimpleDialect.
Variable printable : N -> bool.
Variable f6 : float -> str.
Variable limit : Z.

Notation loud := (loud cat url known O o_set printable f6 limit).

Lemma loud_result method skip data : quiet loud method skip data = fst (detector_detect cat url known O o_set data None method skip (mk_state None limit)).
Proof.
  unfold quiet, Verbose.loud. rewrite <- (detector_all cat url known O o_set printable f6). destruct (detector_detect_v _ _ _ _ _ _ _ _ _ _ _ _ _ _) as [ls [r s]]. reflexivity.
Qed.
Lemma loud_auto skip data method : method = MEnum AUTO \/ method = MStr (s2l "auto") -> exists rest, fst (loud method skip data) = running_normal :: rest.
Proof.
  intros Hm. unfold Verbose.loud, detector_detect_v.
  replace (match method with MStr v => bind (dmethod_of_str v) (fun m => Ok (Some m)) | MEnum m => bind (dmethod_of_str (dmethod_value m)) (fun m => Ok (Some m)) | MOther => Ok None end)
    with (@Ok pyexc _ (Some AUTO)) by (destruct Hm as [-> | ->]; reflexivity).
  cbn [dmethod_eqb orb say takes_all fst snd]. change (s2l "Running normal form detection ...") with running_normal.
  destruct (normal_v cat takes_all true data None) as [l1 [[d|]|x]]; cbn [fst snd]; [eexists; reflexivity| |eexists; reflexivity].
  destruct (detect_v _ _ _ _ _ _ _ _ _ _ _ _ _) as [l3 [r3 z3]]. eexists. reflexivity.
Qed.
Lemma loud_consistency skip data : exists rest, fst (loud (MStr (s2l "consistency")) skip data) = running_consistency :: rest.
Proof.
  unfold Verbose.loud, detector_detect_v. change (bind (dmethod_of_str (s2l "consistency")) (fun m => Ok (Some m))) with (@Ok pyexc _ (Some CONSISTENCY)).
  cbn [dmethod_eqb orb say takes_all fst snd app]. change (s2l "Running data consistency measure ...") with running_consistency.
  destruct (detect_v _ _ _ _ _ _ _ _ _ _ _ _ _) as [l3 [r3 z3]]. eexists. reflexivity.
Qed.

(** ** detect *)
Lemma not_json md depth r : loads md depth (82 :: r) = Err JSONDecodeError.
Proof. destruct depth; reflexivity. Qed.
Lemma empty_not_json md depth : loads md depth [] = Err JSONDecodeError.
Proof. destruct depth; reflexivity. Qed.
Lemma printed_cons l ls : printed (l :: ls) = l ++ LF :: printed ls.
Proof. unfold printed. cbn [map List.concat]. now rewrite <- app_assoc. Qed.
Lemma unreadable E det pr space rt rt6 f p A x :
  bind (open_text E f p (or_encoding (da_encoding A))) (fun '(c, b) => read_chars c b (da_num_chars A)) = Err x ->
  detect_command E det pr space rt rt6 f p A = Raised x.
Proof.
  intros H. unfold detect_command, detect_dialect_by, detect_dialect. change (open_text (with_detect E _) f p) with (open_text E f p).
  destruct (open_text E f p (or_encoding (da_encoding A))) as [[c b]|y]; cbn [bind] in *; [|injection H as ->; reflexivity]. rewrite H. reflexivity.
Qed.
Lemma verbose_json E pr space rt rt6 f p A md depth :
  loads md depth (detect_stdout (detect_command_v E loud pr space rt rt6 f p A)) = Err JSONDecodeError.
Proof.
  unfold detect_command_v, detect_stdout. cbn [fst snd]. unfold detection_lines.
  destruct (bind (open_text E f p (or_encoding (da_encoding A))) _) as [data|x] eqn:E1.
  - assert (H : exists l rest, fst (loud (MStr (if da_consistency A then s2l "consistency" else s2l "auto")) (negb (da_no_skip A)) data) = (82 :: l) :: rest).
    { destruct (da_consistency A).
      - destruct (loud_consistency (negb (da_no_skip A)) data) as (rest & ->). eexists _, rest. reflexivity.
      - destruct (loud_auto (negb (da_no_skip A)) data (MStr (s2l "auto"))) as (rest & ->); [now right|]. eexists _, rest. reflexivity. }
    destruct H as (l & rest & ->). cbn [app]. rewrite printed_cons. cbn [app]. apply not_json.
  - rewrite (unreadable _ _ _ _ _ _ _ _ _ _ E1). apply empty_not_json.
Qed.

(** ** standardize *)
Lemma verbose_files S A f p output enc :
  fst (handle_path_v S loud A f p output enc) = fst (handle_path (silent S loud) A f p output enc).
Proof. unfold handle_path_v.  destruct (handle_path _ A f p output enc) as [[c f'] t]. destruct (f p); reflexivity. Qed.
Lemma verbose_stdout S A f p output enc c f' t : handle_path (silent S loud) A f p output enc = (Code c, f', t) ->
  exists rest, handle_path_v S loud A f p output enc = (Code c, f', running_normal ++ LF :: rest ++ t).
Proof.
  unfold handle_path_v. change (s_env (silent S loud)) with (talking_env (s_env S) loud). intros H. rewrite H.
  assert (Hp : exists b, f p = Some b). { unfold handle_path in H. destruct (f p) as [b|]; [eauto|discriminate]. }
  destruct Hp as (b & Eb). rewrite Eb. set (e := match or_encoding enc with None => _ | e => e end) in *.
  unfold detection_lines.
  assert (HD : exists data, bind (open_text (talking_env (s_env S) loud) f p (or_encoding e)) (fun '(c, b) => read_chars c b (a_num_chars A)) = Ok data).
  { unfold handle_path in H. rewrite Eb in H. change (s_env (silent S loud)) with (talking_env (s_env S) loud) in H. fold e in H. unfold detect_dialect in H.
    destruct (open_text (talking_env (s_env S) loud) f p (or_encoding e)) as [[c0 b0]|x]; cbn [bind] in *; [|discriminate].
    destruct (read_chars c0 b0 (a_num_chars A)) as [data|x]; [eauto|discriminate]. }
  destruct HD as (data & ->). unfold auto_detect. destruct (loud_auto true data (MEnum AUTO)) as (rest & ->); [now left|].
  rewrite printed_cons. exists (printed rest). rewrite <- app_assoc. reflexivity.
Qed.

End Commands.

(** Reading the output back. *)
Lemma lines_first l rest : ~ In LF l -> ~ In CR l -> univ_lines (l ++ LF :: rest) = (l ++ [LF]) :: univ_lines rest.
Proof.
  unfold univ_lines. intros H1 H2. assert (G : forall cur, univ_lines_aux cur (l ++ LF :: rest) = (cur ++ l ++ [LF]) :: univ_lines_aux [] rest).
  { revert H1 H2. induction l as [|c l IH]; intros H1 H2 cur; [reflexivity|]. cbn [app univ_lines_aux].
    assert (N1 : c <> LF) by (intros ->; apply H1; now left). assert (N2 : c <> CR) by (intros ->; apply H2; now left).
    rewrite (proj2 (N.eqb_neq c LF) N1), (proj2 (N.eqb_neq c CR) N2). rewrite IH; [|intros H; apply H1; now right|intros H; apply H2; now right].
    now rewrite <- app_assoc. }
  apply G.
Qed.
Lemma data_conf l input d q e strict rq cf : make_conf l d q e strict rq = Ok cf ->
  parse_data_ l input d q e strict rq = (fst (parse_items cf input), py_ending (snd (parse_items cf input))).
Proof. intros H. unfold parse_data_. rewrite H. now destruct (parse_items cf input). Qed.
Lemma first_row rest : exists rows x, parse_string 131072 (running_normal ++ LF :: rest) (dialect3 [COMMA] [DQ] []) false = ([CStr running_normal] :: rows, x).
Proof.
  unfold parse_string. rewrite lines_first by (vm_compute; intuition discriminate). cbn [map].
  unfold parse_data.
  destruct (make_conf 131072 (Some [COMMA]) (Some [DQ]) (Some []) false false) as [cf|y] eqn:Ec; [|vm_compute in Ec; discriminate].
  assert (E1 : nexts_results mem_ops 1 cf new_parser ([ILine (running_normal ++ [LF])] ++ [IExc]) = map Row [[CStr running_normal]]) by (vm_compute in Ec; injection Ec as <-; vm_compute; reflexivity).
  assert (E2 : nexts_rest mem_ops 1 cf new_parser ([ILine (running_normal ++ [LF])] ++ [IExc]) = [IExc]) by (vm_compute in Ec; injection Ec as <-; vm_compute; reflexivity).
  pose proof (parse_items_compose cf [ILine (running_normal ++ [LF])] (map ILine (univ_lines rest)) 1 _ IExc E1 E2) as HC. cbn [app] in HC.
  pose proof (data_conf _ (ILine (running_normal ++ [LF]) :: map ILine (univ_lines rest)) _ _ _ _ _ _ Ec) as HD. rewrite HC in HD. cbn [fst snd] in HD.
  eexists _, _. exact HD.
Qed.
