(** * ArgErrorCases: refused lines and the help as results of the commands, and concrete words *)
From Coq Require Import String.
From Verif Require Import Base Dialect Files Wrappers Standardize Json Codegen Console ArgParse SpecArgs ArgMain ArgDashed ArgCommands ArgCases ArgErrors.
Open Scope nat_scope.

(** ** The processes *)
Section Mains.
Variables (digit : N -> bool) (int_of : str -> option Z) (locate : str -> path).

Theorem main_refused items ws :
  (line digit detect_sheet items ws ->
     ~ ((exists p, files items = [[p]]) /\ numbers int_of items /\ ~ (given items "plain" = true /\ given items "json" = true)) ->
     forall E det printable space rt rt6 f, detect_main locate E det printable space rt rt6 f digit int_of ws = UsageShown) /\
  (line digit standardize_sheet items ws -> ~ (List.length (files items) = 1 /\ numbers int_of items) ->
     forall S f, standardize_main locate S f digit int_of ws = UsageShown).
Proof.
  destruct (lines_refused digit int_of items ws) as (H1 & H2 & _). split.
  - intros HL HX E det printable space rt rt6 f. unfold detect_main, run_command. now rewrite (H1 HL HX).
  - intros HL HX S f. unfold standardize_main, run_command. now rewrite (H2 HL HX).
Qed.
Theorem main_strange ws1 w ws2 : ~ In (s2l "--") ws1 ->
  (unknown digit detect_sheet w -> sensible digit -> forall E det printable space rt rt6 f r,
     detect_main locate E det printable space rt rt6 f digit int_of (ws1 ++ w :: ws2) <> Finished r) /\
  (unknown digit standardize_sheet w -> sensible digit -> forall S f r, standardize_main locate S f digit int_of (ws1 ++ w :: ws2) <> Finished r) /\
  (ambiguous detect_sheet w -> forall E det printable space rt rt6 f,
     detect_main locate E det printable space rt rt6 f digit int_of (ws1 ++ w :: ws2) = UsageShown) /\
  (ambiguous standardize_sheet w -> forall S f, standardize_main locate S f digit int_of (ws1 ++ w :: ws2) = UsageShown).
Proof.
  assert (D1 : described detect_parser detect_sheet) by now left.
  assert (D2 : described standardize_parser standardize_sheet) by (right; right; now left).
  intros HN. split; [|split; [|split]].
  - intros HU HS E det printable space rt rt6 f r. unfold detect_main, run_command.
    pose proof (fun ns => five_unknown digit int_of _ _ ws1 w ws2 ns D1 HS HN HU) as H.
    destruct (parse_args digit int_of detect_parser (ws1 ++ w :: ws2)) as [ns| | |]; [now destruct (H ns)|discriminate..].
  - intros HU HS S f r. unfold standardize_main, run_command.
    pose proof (fun ns => five_unknown digit int_of _ _ ws1 w ws2 ns D2 HS HN HU) as H.
    destruct (parse_args digit int_of standardize_parser (ws1 ++ w :: ws2)) as [ns| | |]; [now destruct (H ns)|discriminate..].
  - intros HU E det printable space rt rt6 f. unfold detect_main, run_command. now rewrite (five_ambiguous digit int_of _ _ ws1 w ws2 D1 HN HU).
  - intros HU S f. unfold standardize_main, run_command. now rewrite (five_ambiguous digit int_of _ _ ws1 w ws2 D2 HN HU).
Qed.
Theorem main_help items ws h : h = s2l "-h" \/ h = s2l "--help" ->
  (line digit detect_sheet items ws -> forall E det printable space rt rt6 f,
     detect_main locate E det printable space rt rt6 f digit int_of (h :: ws) = HelpShown) /\
  (line digit standardize_sheet items ws -> forall S f, standardize_main locate S f digit int_of (h :: ws) = HelpShown).
Proof.
  assert (D1 : described detect_parser detect_sheet) by now left.
  assert (D2 : described standardize_parser standardize_sheet) by (right; right; now left).
  assert (HA : forall S, abbreviates S (s2l "help") (s2l "help")) by (intros S; split; [discriminate|split; [exists []; reflexivity|now left]]).
  intros Hh. split.
  - intros HL E det printable space rt rt6 f. unfold detect_main, run_command.
    destruct (five_help digit int_of _ _ items ws D1 HL) as [H1 H2]. destruct Hh as [->| ->]; [now rewrite H1|].
    assert (K : parse_args digit int_of detect_parser (s2l "--help" :: ws) = Helped) by exact (H2 _ (HA _)). now rewrite K.
  - intros HL S f. unfold standardize_main, run_command.
    destruct (five_help digit int_of _ _ items ws D2 HL) as [H1 H2]. destruct Hh as [->| ->]; [now rewrite H1|].
    assert (K : parse_args digit int_of standardize_parser (s2l "--help" :: ws) = Helped) by exact (H2 _ (HA _)). now rewrite K.
Qed.
End Mains.

(** ** Concrete words *)
Example digits_sensible : sensible digits. Proof. now repeat split. Qed.
Lemma no_beginning (L : list str) q : forallb (fun l => negb (starts_with q l)) L = true -> forall l r, In l L -> l <> q ++ r.
Proof.
  intros H l r Hl E. rewrite forallb_forall in H. specialize (H l Hl). apply negb_true_iff in H. apply not_true_iff_false in H. apply H.
  apply ArgWords.starts_with_iff. now exists r.
Qed.
Lemma not_negative w : negative_number digits w = false -> ~ negative digits w.
Proof. intros H K. apply (negative_iff digits _ digits_sensible) in K. congruence. Qed.
(** detect --unknown=1 and detect -x *)
Example unknown_cases : unknown digits detect_sheet (s2l "--unknown=1") /\ unknown digits detect_sheet (s2l "-x").
Proof.
  split; (split; [|split]).
  - apply (no_long detect_sheet (s2l "unknown") (s2l "=1")).
    + intros H. repeat (destruct H as [H|H]; [discriminate|]). exact H.
    + right. now exists (s2l "1").
    + apply no_beginning. reflexivity.
  - intros H. repeat (destruct H as [H|H]; [discriminate|]). exact H.
  - apply not_negative. reflexivity.
  - apply (no_letter detect_sheet 120 []); [discriminate|]. intros H. repeat (destruct H as [H|H]; [discriminate|]). exact H.
  - intros H. repeat (destruct H as [H|H]; [discriminate|]). exact H.
  - apply not_negative. reflexivity.
Qed.
(** detect --n=1: num-chars or no-skip *)
Example ambiguous_case : ambiguous detect_sheet (s2l "--n=1").
Proof.
  apply (two_names detect_sheet (s2l "n") (s2l "=1") (s2l "num-chars") (s2l "no-skip") (s2l "um-chars") (s2l "o-skip")); try reflexivity; try discriminate.
  - intros [H|[]]. discriminate.
  - right. now exists (s2l "1").
  - intros H. repeat (destruct H as [H|H]; [discriminate|]). exact H.
  - right. right. right. now left.
  - do 6 right. now left.
Qed.
(** files that are called -1.5 and "-x y" *)
Example dashed_cases : dashed_name digits detect_sheet (s2l "-1.5") /\ dashed_name digits detect_sheet (s2l "-x y").
Proof.
  split; split.
  - apply (no_letter detect_sheet 49 (s2l ".5")); [discriminate|]. intros H. repeat (destruct H as [H|H]; [discriminate|]). exact H.
  - right. apply (negative_iff digits _ digits_sensible). reflexivity.
  - apply (no_letter detect_sheet 120 (s2l " y")); [discriminate|]. intros H. repeat (destruct H as [H|H]; [discriminate|]). exact H.
  - left. right. right. now left.
Qed.
(** a value for a flag, a letter behind a flag that is no flag, a dot without a digit *)
Example more_refused : forallb (fun ws => match parse_args digits decimal detect_parser (words ws) with Usage => true | _ => false end)
  [["-c=x"; "f"]; ["--plain=x"; "f"]; ["--plain="; "f"]; ["-cx"; "f"]; ["-1."; "f"]; ["-."; "f"]; ["-5"; "-6"]; ["-5x"]; ["-e"; "-x"; "f"]]%string = true.
Proof. vm_compute. reflexivity. Qed.
Example more_helped : forallb (fun ws => match parse_args digits decimal detect_parser (words ws) with Helped => true | _ => false end)
  [["--help"; "-x"]; ["-x"; "--help"]; ["-ch"]; ["--he"]]%string = true.
Proof. vm_compute. reflexivity. Qed.
(** a negative number as a value and a dash as a file: detect -e -.5 - *)
Example dash_written : line digits detect_sheet [Value (s2l "encoding") (s2l "-.5"); Paths [s2l "-"]] (words ["-e"; "-.5"; "-"]%string).
Proof.
  apply (line_cons _ _ _ _ (words ["-e"; "-.5"]%string)); [|apply (line_cons _ _ _ _ [s2l "-"] []); [|constructor|]|].
  - apply (sp_letter _ _ 101%N (s2l "encoding") (s2l "-.5")); [simpl; tauto|]. right. right. split; [exact digits_sensible|]. split.
    + apply (no_letter detect_sheet 46 (s2l "5")); [discriminate|]. intros H. repeat (destruct H as [H|H]; [discriminate|]). exact H.
    + right. apply (negative_iff digits _ digits_sensible). reflexivity.
  - apply sp_paths; [discriminate|]. constructor; [right; now left|constructor].
  - intros a b r [_ H]. discriminate H.
  - intros a b r [H _]. discriminate H.
Qed.
(** a negative number as a value *)
Example negative_value : exists ns, parse_args digits decimal detect_parser (words ["-e"; "-.5"; "f"]%string) = Parsed ns /\
  dict_get (s2l "encoding") ns = Some (AStr (s2l "-.5")) /\ dict_get (s2l "path") ns = Some (AStr (s2l "f")).
Proof. eexists. split; [vm_compute; reflexivity|]. split; vm_compute; reflexivity. Qed.
