(** * ArgCases: the order of the parts, and concrete command lines *)
From Coq Require Import String Lia Permutation.
From Verif Require Import Base Json Files Standardize Console ArgParse SpecArgs ArgLoop ArgWords ArgLines ArgMeaning ArgSound ArgCommands.
Open Scope nat_scope.

(** ** Order *)
Lemma given_perm a b l : Permutation a b -> given a l = given b l.
Proof.
  intros H. apply eq_true_iff_eq. unfold given. rewrite !existsb_exists.
  split; intros (i & Hi & E); exists i; (split; [|exact E]); [now apply (Permutation_in i H)|now apply (Permutation_in i (Permutation_sym H))].
Qed.
Lemma short_perm {A} (a b : list A) : Permutation a b -> List.length a <= 1 -> a = b.
Proof.
  intros H HL. destruct a as [|x [|y a]].
  - now apply Permutation_nil in H.
  - apply Permutation_length_1_inv in H. now subst.
  - simpl in HL. lia.
Qed.
Lemma values_perm a b l : Permutation a b -> List.length (values a l) <= 1 -> values a l = values b l.
Proof. intros H. apply short_perm. unfold values. now apply Permutation_flat_map. Qed.
Lemma files_perm a b : Permutation a b -> List.length (files a) <= 1 -> files a = files b.
Proof. intros H. apply short_perm. unfold files. now apply Permutation_flat_map. Qed.

Theorem detect_order digit int_of items ws items' ws' p : line digit detect_sheet items ws -> line digit detect_sheet items' ws' ->
  Permutation items items' -> (forall l, List.length (values items l) <= 1) ->
  files items = [[p]] -> numbers int_of items -> ~ (given items "plain" = true /\ given items "json" = true) ->
  exists ns ns' A, parse_args digit int_of detect_parser ws = Parsed ns /\ parse_args digit int_of detect_parser ws' = Parsed ns' /\
    detect_args_of ns = Ok A /\ detect_args_of ns' = Ok A.
Proof.
  intros HL HL' HP H1 HF HN HX.
  assert (HV : forall l, values items' l = values items l) by (intros l; symmetry; now apply values_perm).
  assert (HG : forall l, given items' l = given items l) by (intros l; symmetry; now apply given_perm).
  assert (HF' : files items' = [[p]]) by (rewrite <- HF; symmetry; apply files_perm; [exact HP|rewrite HF; simpl; lia]).
  destruct (detect_line digit int_of items ws p HL HF HN HX) as (ns & E1 & E2).
  destruct (detect_line digit int_of items' ws' p HL' HF') as (ns' & E1' & E2').
  - intros v. rewrite HV. apply HN.
  - now rewrite !HG.
  - exists ns, ns', (detect_says int_of items p). split; [exact E1|]. split; [exact E1'|]. split; [exact E2|].
    rewrite E2'. unfold detect_says, number. now rewrite !HV, !HG.
Qed.
Theorem standardize_order digit int_of locate items ws items' ws' ps : line digit standardize_sheet items ws -> line digit standardize_sheet items' ws' ->
  Permutation items items' -> (forall l, List.length (values items l) <= 1) ->
  files items = [ps] -> numbers int_of items ->
  exists ns ns' A, parse_args digit int_of standardize_parser ws = Parsed ns /\ parse_args digit int_of standardize_parser ws' = Parsed ns' /\
    sargs_of locate ns = Ok A /\ sargs_of locate ns' = Ok A.
Proof.
  intros HL HL' HP H1 HF HN.
  assert (HV : forall l, values items' l = values items l) by (intros l; symmetry; now apply values_perm).
  assert (HG : forall l, given items' l = given items l) by (intros l; symmetry; now apply given_perm).
  assert (HF' : files items' = [ps]) by (rewrite <- HF; symmetry; apply files_perm; [exact HP|rewrite HF; simpl; lia]).
  destruct (standardize_line digit int_of items ws locate ps HL HF HN) as (ns & E1 & E2).
  destruct (standardize_line digit int_of items' ws' locate ps HL' HF') as (ns' & E1' & E2').
  - intros v. rewrite HV. apply HN.
  - exists ns, ns', (sargs_says int_of items locate ps). split; [exact E1|]. split; [exact E1'|]. split; [exact E2|].
    rewrite E2'. unfold sargs_says, number. now rewrite !HV, !HG.
Qed.

(** ** Concrete command lines *)
Definition digits (c : N) : bool := ((48 <=? c) && (c <=? 57))%N.
Definition decimal (s : str) : option Z :=
  match s with
  | [] => None
  | _ => if forallb digits s then Some (fold_left (fun a c => (10 * a + Z.of_N (c - 48))%Z) s 0%Z) else None
  end.
Definition words (l : list string) : list str := map s2l l.

(** detect -cp --enc=utf-8 data.csv -n 100 --no *)
Definition detect_items : list item :=
  [Flags (words ["consistency"; "plain"]%string); Value (s2l "encoding") (s2l "utf-8"); Paths [s2l "data.csv"];
   Value (s2l "num-chars") (s2l "100"); Flags [s2l "no-skip"]].
Definition detect_words : list str := words ["-cp"; "--enc=utf-8"; "data.csv"; "-n"; "100"; "--no"]%string.
Lemma short_for q r l S : l = q ++ r -> q <> [] ->
  forallb (fun l' => negb (starts_with q l') || str_eqb l' l) (s2l "help" :: map (fun x => snd (fst x)) S) = true -> abbreviates S q l.
Proof.
  intros E Hq H. split; [exact Hq|]. split; [now exists r|]. right. intros l' r' HI E'. rewrite forallb_forall in H.
  specialize (H l' HI). apply orb_true_iff in H as [H|H]; [|now apply str_eqb_eq].
  exfalso. apply negb_true_iff in H. apply not_true_iff_false in H. apply H. apply starts_with_iff. now exists r'.
Qed.
Ltac apart := let a := fresh in let b := fresh in let r := fresh in let H := fresh in
  intros a b r [H _]; discriminate H.
Example detect_written : line digits detect_sheet detect_items detect_words.
Proof.
  apply (line_cons _ _ _ _ [s2l "-cp"]); [|apply (line_cons _ _ _ _ [s2l "--enc=utf-8"]); [|apply (line_cons _ _ _ _ [s2l "data.csv"]);
    [|apply (line_cons _ _ _ _ (words ["-n"; "100"]%string)); [|apply (line_cons _ _ _ _ [s2l "--no"]); [|constructor|apart]|apart]|]|apart]|apart].
  - apply (sp_letters _ _ (s2l "cp")); [discriminate|]. constructor; [simpl; tauto|]. constructor; [simpl; tauto|constructor].
  - apply (sp_equals _ _ (letter_of "e") (s2l "encoding") (s2l "enc") (s2l "utf-8")); [simpl; tauto|].
    apply (short_for _ (s2l "oding")); [reflexivity|discriminate|reflexivity].
  - apply sp_paths; [discriminate|]. constructor; [left; discriminate|constructor].
  - apply (sp_letter _ _ 110%N (s2l "num-chars") (s2l "100")); [simpl; tauto|left; discriminate].
  - apply (sp_flag _ _ None (s2l "no-skip") (s2l "no")); [simpl; tauto|].
    apply (short_for _ (s2l "-skip")); [reflexivity|discriminate|reflexivity].
  - intros a b r [_ H]. discriminate H.
Qed.
Example detect_said : files detect_items = [[s2l "data.csv"]] /\ number decimal detect_items = Some 100%Z /\
  latest (values detect_items "encoding") = Some (s2l "utf-8") /\ given detect_items "plain" = true /\ given detect_items "json" = false.
Proof. repeat split. Qed.
Example detect_parsed : exists ns, parse_args digits decimal detect_parser detect_words = Parsed ns /\
  detect_args_of ns = Ok (s2l "data.csv", mk_detect_args (Some (s2l "utf-8")) (Some 100%Z) true true false true false).
Proof. eexists. split; vm_compute; reflexivity. Qed.

(** standardize a.csv b.csv -o x -oy --target-encoding utf-8 *)
Definition standardize_items : list item :=
  [Paths (words ["a.csv"; "b.csv"]%string); Value (s2l "output") (s2l "x"); Value (s2l "output") (s2l "y");
   Value (s2l "target-encoding") (s2l "utf-8")].
Definition standardize_words : list str := words ["a.csv"; "b.csv"; "-o"; "x"; "-oy"; "--target-encoding"; "utf-8"]%string.
Example standardize_written : line digits standardize_sheet standardize_items standardize_words.
Proof.
  apply (line_cons _ _ _ _ (words ["a.csv"; "b.csv"]%string)); [|apply (line_cons _ _ _ _ (words ["-o"; "x"]%string)); [|apply (line_cons _ _ _ _ [s2l "-oy"]);
    [|apply (line_cons _ _ _ _ (words ["--target-encoding"; "utf-8"]%string)); [|constructor|apart]|apart]|apart]|].
  - apply sp_paths; [discriminate|]. constructor; [left; discriminate|]. constructor; [left; discriminate|constructor].
  - apply (sp_letter _ _ 111%N (s2l "output") (s2l "x")); [simpl; tauto|left; discriminate].
  - apply (sp_glued _ _ 111%N (s2l "output") 121%N []); [simpl; tauto|discriminate].
  - apply (sp_long _ _ (letter_of "E") (s2l "target-encoding") (s2l "target-encoding") (s2l "utf-8")); [simpl; tauto| |left; discriminate].
    apply (short_for _ []); [reflexivity|discriminate|reflexivity].
  - intros a b r [_ H]. discriminate H.
Qed.
Example standardize_said : files standardize_items = [words ["a.csv"; "b.csv"]%string] /\
  values standardize_items "output" = words ["x"; "y"]%string /\ given standardize_items "transpose" = false.
Proof. repeat split. Qed.

(** The file names of standardize must not be separated by an option. *)
Theorem apart_refused : exists ws ws' ns, Permutation ws ws' /\
  parse_args digits decimal standardize_parser ws = Parsed ns /\ parse_args digits decimal standardize_parser ws' = Usage /\
  line digits standardize_sheet [Flags [s2l "transpose"]; Paths (words ["a"; "b"]%string)] ws /\
  line digits standardize_sheet [Paths [s2l "a"]; Flags [s2l "transpose"]; Paths [s2l "b"]] ws'.
Proof.
  exists (words ["-t"; "a"; "b"]%string), (words ["a"; "-t"; "b"]%string). eexists. split; [apply perm_swap|].
  split; [vm_compute; reflexivity|]. split; [vm_compute; reflexivity|].
  assert (HT : spelled digits standardize_sheet (Flags [s2l "transpose"]) [s2l "-t"]).
  { apply (sp_letters _ _ [116%N]); [discriminate|]. constructor; [simpl; tauto|constructor]. }
  assert (HP : forall w, ordinary digits standardize_sheet w -> spelled digits standardize_sheet (Paths [w]) [w]).
  { intros w Hw. apply sp_paths; [discriminate|]. now constructor. }
  split.
  - apply (line_cons _ _ _ _ [s2l "-t"] (words ["a"; "b"]%string)); [exact HT| |apart].
    apply (line_cons _ _ _ _ (words ["a"; "b"]%string) []); [|constructor|].
    + apply sp_paths; [discriminate|]. constructor; [left; discriminate|]. constructor; [left; discriminate|constructor].
    + intros x y r [_ H]. discriminate H.
  - apply (line_cons _ _ _ _ [s2l "a"] (words ["-t"; "b"]%string)); [apply HP; left; discriminate| |].
    + apply (line_cons _ _ _ _ [s2l "-t"] [s2l "b"]); [exact HT| |apart].
      apply (line_cons _ _ _ _ [s2l "b"] []); [apply HP; left; discriminate|constructor|]. intros x y r [_ H]. discriminate H.
    + intros x y r [_ H]. discriminate H.
Qed.
(** detect --plain -j data.csv; detect; detect -n many data.csv *)
Example refused_lines : forallb (fun ws => match parse_args digits decimal detect_parser (words ws) with Usage => true | _ => false end)
  [["--plain"; "-j"; "data.csv"]; []; ["-n"; "many"; "data.csv"]; ["a"; "b"]]%string = true.
Proof. vm_compute. reflexivity. Qed.
(** standardize -t -- -strange.csv *)
Example dashes_case : exists ns, parse_args digits decimal standardize_parser (words ["-t"; "--"; "-strange.csv"]%string) = Parsed ns /\
  dict_get (s2l "path") ns = Some (AList [s2l "-strange.csv"]).
Proof. eexists. split; vm_compute; reflexivity. Qed.
