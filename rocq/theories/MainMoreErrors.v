(** * MainMoreErrors: view, code and explore on other command lines *)
From Coq Require Import String.
From Verif Require Import Base Dialect Files Wrappers Codegen Console ArgParse SpecArgs ArgLoop ArgCommands ArgCases ArgErrors ArgErrorCases ArgMain ArgMainMore.

Section Run.
Context {A R : Type}.
Variables (P : parser) (S : sheet) (args_of : namespace -> res pyexc A) (command : A -> R) (digit : N -> bool) (int_of : str -> option Z).
Hypothesis D : described P S.
Lemma run_strange ws1 w ws2 : ~ In (s2l "--") ws1 ->
  unknown digit S w -> sensible digit -> forall r, run_command P args_of command digit int_of (ws1 ++ w :: ws2) <> Finished r.
Proof.
  intros HN HU HS r. unfold run_command. pose proof (fun ns => five_unknown digit int_of _ _ ws1 w ws2 ns D HS HN HU) as H.
  destruct (parse_args digit int_of P (ws1 ++ w :: ws2)) as [ns| | |]; [now destruct (H ns)|discriminate..].
Qed.
Lemma run_help items ws h : h = s2l "-h" \/ h = s2l "--help" -> line digit S items ws -> run_command P args_of command digit int_of (h :: ws) = HelpShown.
Proof.
  assert (HA : abbreviates S (s2l "help") (s2l "help")) by (split; [discriminate|split; [exists []; reflexivity|now left]]).
  intros Hh HL. unfold run_command. destruct (five_help digit int_of _ _ items ws D HL) as [H1 H2]. destruct Hh as [->| ->]; [now rewrite H1|].
  assert (K : parse_args digit int_of P (s2l "--help" :: ws) = Helped) by exact (H2 _ HA). now rewrite K.
Qed.
End Run.

Theorem more_strange digit int_of locate ws1 w ws2 : ~ In (s2l "--") ws1 -> sensible digit ->
  (unknown digit view_sheet w -> forall E imp vlt win32 f h r, view_main locate E imp vlt win32 f h digit int_of (ws1 ++ w :: ws2) <> Finished r) /\
  (unknown digit code_sheet w -> forall E printable f, (forall r, code_main locate E printable f digit int_of (ws1 ++ w :: ws2) <> Finished r) /\
     forall C (push : C -> str -> C * bool) (console : C) r, explore_main push console locate E printable f digit int_of (ws1 ++ w :: ws2) <> Finished r).
Proof.
  intros HN HS. split; [|split]; intros.
  - apply (run_strange view_parser view_sheet); [unfold described; simpl; tauto|assumption..].
  - apply (run_strange code_parser code_sheet); [unfold described; simpl; tauto|assumption..].
  - apply (run_strange explore_parser code_sheet); [unfold described; simpl; tauto|assumption..].
Qed.
Theorem more_help digit int_of locate items ws x : x = s2l "-h" \/ x = s2l "--help" ->
  (line digit view_sheet items ws -> forall E imp vlt win32 f h, view_main locate E imp vlt win32 f h digit int_of (x :: ws) = HelpShown) /\
  (line digit code_sheet items ws -> forall E printable f, code_main locate E printable f digit int_of (x :: ws) = HelpShown /\
     forall C (push : C -> str -> C * bool) (console : C), explore_main push console locate E printable f digit int_of (x :: ws) = HelpShown).
Proof.
  intros Hx. split; [|split]; intros.
  - apply (run_help view_parser view_sheet) with (items := items); [unfold described; simpl; tauto|assumption..].
  - apply (run_help code_parser code_sheet) with (items := items); [unfold described; simpl; tauto|assumption..].
  - apply (run_help explore_parser code_sheet) with (items := items); [unfold described; simpl; tauto|assumption..].
Qed.
Theorem more_never_crash digit int_of locate ws :
  (forall E imp vlt win32 f h x, view_main locate E imp vlt win32 f h digit int_of ws <> Crashed x) /\
  (forall E printable f, (forall x, code_main locate E printable f digit int_of ws <> Crashed x) /\
     forall C (push : C -> str -> C * bool) (console : C) x, explore_main push console locate E printable f digit int_of ws <> Crashed x).
Proof.
  destruct (any_words digit int_of (fun _ => 0%N) ws) as (HS & _ & _ & H1 & H2 & H3).
  split; [|split]; intros; unfold view_main, code_main, explore_main, run_command.
  - pose proof (HS view_parser). destruct (parse_args digit int_of view_parser ws) as [ns| | |]; try discriminate; [|easy]. destruct (H1 ns eq_refl) as (A & ->). discriminate.
  - pose proof (HS code_parser). destruct (parse_args digit int_of code_parser ws) as [ns| | |]; try discriminate; [|easy]. destruct (H2 ns eq_refl) as (A & ->). discriminate.
  - pose proof (HS explore_parser). destruct (parse_args digit int_of explore_parser ws) as [ns| | |]; try discriminate; [|easy]. destruct (H3 ns eq_refl) as (A & ->). discriminate.
Qed.

Example unknown_to_all : unknown digits view_sheet (s2l "-x") /\ unknown digits code_sheet (s2l "-x").
Proof.
  split; (split; [|split]).
  - apply (no_letter view_sheet 120 []); [discriminate|]. intros H. repeat (destruct H as [H|H]; [discriminate|]). exact H.
  - intros H. repeat (destruct H as [H|H]; [discriminate|]). exact H.
  - apply not_negative. reflexivity.
  - apply (no_letter code_sheet 120 []); [discriminate|]. intros H. repeat (destruct H as [H|H]; [discriminate|]). exact H.
  - intros H. repeat (destruct H as [H|H]; [discriminate|]). exact H.
  - apply not_negative. reflexivity.
Qed.
