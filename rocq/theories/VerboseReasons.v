(** * VerboseReasons: why a message is printed, and files that cannot be read *)
From Coq Require Import String.
From Verif Require Import Base Parser Dialect CsvLib Reader Writer Files Wrappers Standardize Potential Floats Ties Consistency NormalForm Detect Json Codegen Console.
From Verif Require Import SpecPotential SpecNormal NormalForms Verbose SpecVerbose VerboseFacts VerboseCommands.
Local Notation len := List.length.

Section Runs.
Variable cat : N -> str.
Variable url : str -> str -> option nat.
Variable known : str -> bool -> res pyexc bool.
Variable O : orders.
Variable o_set : list SimpleDialect -> list SimpleDialect.
Variable printable : N -> bool.
Variable f6 : float -> str.
Notation full_v := (detector_detect_v cat url known O o_set printable f6).

Lemma second_line sample user m skip s line : m = NORMAL \/ m = AUTO -> fst (normal_v cat takes_all true sample user) = [line] ->
  nth_error (fst (full_v takes_all true sample user (MEnum m) skip s)) 1 = Some line.
Proof.
  intros Hm HL. unfold detector_detect_v. replace (bind (dmethod_of_str (dmethod_value m)) (fun m => Ok (Some m))) with (@Ok pyexc _ (Some m)) by (destruct m; reflexivity). cbn zeta.
  replace (dmethod_eqb m NORMAL || dmethod_eqb m AUTO) with true by (destruct Hm as [-> | ->]; reflexivity).
  destruct (normal_v cat takes_all true sample user) as [l1 r1]. cbn [fst snd] in *. subst l1. cbn [say takes_all fst snd].
  destruct r1 as [[d|]|x]; [reflexivity| |reflexivity].
  destruct (detect_v _ _ _ _ _ _ _ _ _ _ _ _ _) as [l3 [r3 z3]]. reflexivity.
Qed.
Lemma escape_reason sample ds m skip s : m = NORMAL \/ m = AUTO ->
  let line := nth_error (fst (full_v takes_all true sample (Some (map (fun c => [c]) ds)) (MEnum m) skip s)) 1 in
  (escape_suspect cat ds sample -> line = Some (s2l "Not normal, has potential escapechar.")) /\
  (~ escape_suspect cat ds sample -> exists l, line = Some l /\ l <> s2l "Not normal, has potential escapechar.").
Proof.
  intros Hm. cbv zeta. set (user := Some (map (fun c => [c]) ds)).
  assert (E : any_escapechar cat sample utf8 (list_prod (match user with None => DELIMS | Some l => l end) QUOTECHARS) =
    Ok (existsb (fun '(d, q) => esc_pair cat sample d q) (list_prod (map (fun c => [c]) ds) QUOTECHARS))) by exact (any_escape_ok cat utf8 sample _ (or_introl eq_refl)).
  pose proof (escape_suspect_spec cat sample ds) as ES.
  destruct (existsb (fun '(d, q) => esc_pair cat sample d q) (list_prod (map (fun c => [c]) ds) QUOTECHARS)).
  - split; [|intros H; elim H; now apply ES]. intros _. apply second_line; [exact Hm|]. unfold normal_v. cbv zeta. match goal with |- context [any_escapechar ?a ?b ?c ?d] => replace (any_escapechar a b c d) with (@Ok pyexc bool true) by (symmetry; exact E) end. reflexivity.
  - split; [intros H; apply ES in H; discriminate|]. intros _.
    assert (HL : exists l, fst (normal_v cat takes_all true sample user) = [l] /\ l <> s2l "Not normal, has potential escapechar.").
    { unfold normal_v. cbv zeta. match goal with |- context [any_escapechar ?a ?b ?c ?d] => replace (any_escapechar a b c d) with (@Ok pyexc bool false) by (symmetry; exact E) end. destruct (find _ _) as [[[k d] q]|]; (eexists; split; [reflexivity|]); [destruct k|]; vm_compute; intros [=]. }
    destruct HL as (l & HL & Hl). exists l. split; [|exact Hl]. now apply second_line.
Qed.
End Runs.

Lemma unread_detect E det pr space rt rt6 f p A x :
  bind (open_text E f p (or_encoding (da_encoding A))) (fun '(c, b) => read_chars c b (da_num_chars A)) = Err x ->
  detect_stdout (detect_command_v E det pr space rt rt6 f p A) = [].
Proof.
  intros H. unfold detect_command_v, detect_stdout, detection_lines. cbn [fst snd]. rewrite H. now rewrite (unreadable _ _ _ _ _ _ _ _ _ _ H).
Qed.
Lemma unread_standardize S det A f p output encoding b x : f p = Some b ->
  let e := match or_encoding encoding with None => e_get_encoding (s_env S) b | e => e end in
  bind (open_text (s_env S) f p (or_encoding e)) (fun '(c, b) => read_chars c b (a_num_chars A)) = Err x ->
  handle_path_v S det A f p output encoding = (Uncaught x, f, []).
Proof.
  cbv zeta. intros Eb H. unfold handle_path_v. unfold handle_path. rewrite Eb. change (e_get_encoding (s_env (silent S det))) with (e_get_encoding (s_env S)).
  set (e := match or_encoding encoding with None => _ | e => e end) in *. unfold detect_dialect, detection_lines.
  change (open_text (s_env (silent S det))) with (open_text (s_env S)).
  destruct (open_text (s_env S) f p (or_encoding e)) as [[c b0]|y]; cbn [bind] in *; [|injection H as ->; reflexivity]. rewrite H. reflexivity.
Qed.
