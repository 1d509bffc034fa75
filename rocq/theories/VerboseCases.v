(** * VerboseCases: concrete runs in verbose mode *)
From Coq Require Import String SpecFloat.
From Verif Require Import Base Parser Dialect CsvLib Reader Files Wrappers Standardize Potential Floats Ties Consistency NormalForm Detect Json Codegen Console.
From Verif Require Import SpecPotential PotentialFacts MaskedFacts SpecConsistency DetectCases Verbose SpecVerbose VerboseFacts VerboseCommands TableFacts.

(** The loop with the pattern score that is cheap to evaluate. *)
Fixpoint small_loop_v known printable f6 stdout verbose (limit capacity : Z) (skip : bool) (data : str) (ds : list SimpleDialect)
    (incumbent : float) (m : list (SimpleDialect * score)) (c : cache) : list str * res pyexc (list (SimpleDialect * score)) :=
  match ds with
  | [] => ([], Ok m)
  | d :: ds' =>
      match small_score data d with
      | Err x => ([], Err x)
      | Ok P =>
          if fltb P incumbent && skip
          then say stdout verbose (skip_text printable f6 d P)
                 (small_loop_v known printable f6 stdout verbose limit capacity skip data ds' incumbent (scores_set d (mk_score P None None) m) c)
          else
            match compute_type_score known limit capacity data d c with
            | Err x => ([], Err x)
            | Ok (T, c) =>
                let Q := fmul P T in
                say stdout verbose (score_text printable f6 d P T Q)
                  (small_loop_v known printable f6 stdout verbose limit capacity skip data ds' (fmax incumbent Q) (scores_set d (mk_score P (Some T) (Some Q)) m) c)
            end
      end
  end.
Lemma small_loop_v_ok known printable f6 stdout verbose limit capacity skip data ds : forall inc m c,
  scores_loop_v known printable f6 stdout verbose limit capacity skip data ds inc m c = small_loop_v known printable f6 stdout verbose limit capacity skip data ds inc m c.
Proof.
  induction ds as [|d ds IH]; intros inc m c; [reflexivity|]. cbn [scores_loop_v small_loop_v]. rewrite small_score_ok.
  destruct (small_score data d); [|reflexivity]. destruct (fltb _ _ && skip); [now rewrite IH|].
  destruct (compute_type_score _ _ _ _ _ _) as [[T c']|]; [|reflexivity]. now rewrite IH.
Qed.

(** Three numbers with six decimals. *)
Definition sample_f6 (x : float) : str :=
  if feqb x fone then s2l "       1.000000" else if feqb x (fdiv fone (float_of_Z 2)) then s2l "       0.500000" else s2l "       0.001000".
Definition sample_run (stdout : str -> option pyexc) :=
  detect_v ascii_cat no_urls (total_known digits) plain_orders (fun l => l) (fun _ => true) sample_f6 stdout true 9 true (s2l "1,2") None 131072.
Definition tabs (s : str) : str := map (fun c => if (c =? 94)%N then 9%N else c) s.
(** Standard output that does not take some lines. *)
Definition only_scores (l : str) : option pyexc := if Nat.ltb 60 (List.length l) then None else Some UnicodeEncodeError.

Lemma sample_dialects : get_dialects ascii_cat no_urls plain_orders utf8 (s2l "1,2") None false = Ok [dialect3 [COMMA] [] []; dialect3 [] [] []] \/
  get_dialects ascii_cat no_urls plain_orders utf8 (s2l "1,2") None false = Ok [dialect3 [] [] []; dialect3 [COMMA] [] []].
Proof. vm_compute. auto. Qed.
Lemma sample_lines : sample_run takes_all =
  ([tabs (s2l "SimpleDialect(',', '', ''):^P =        0.500000^T =        1.000000^Q =        0.500000");
    tabs (s2l "SimpleDialect('', '', ''):^P =        0.001000^skip.")], (Ok (Some (dialect3 [COMMA] [] [])), 131072%Z)).
Proof.
  unfold sample_run, detect_v. destruct sample_dialects as [E|E]; rewrite E; clear E;
    (match goal with |- context [py_sorted ?l] => let v := eval vm_compute in (py_sorted l) in change (py_sorted l) with v end);
    cbv beta zeta iota; rewrite small_loop_v_ok; vm_compute; reflexivity.
Qed.
Lemma sample_refused : sample_run only_scores =
  ([tabs (s2l "SimpleDialect(',', '', ''):^P =        0.500000^T =        1.000000^Q =        0.500000")], (Err UnicodeEncodeError, 4%Z)).
Proof.
  unfold sample_run, detect_v. destruct sample_dialects as [E|E]; rewrite E; clear E;
    (match goal with |- context [py_sorted ?l] => let v := eval vm_compute in (py_sorted l) in change (py_sorted l) with v end);
    cbv beta zeta iota; rewrite small_loop_v_ok; vm_compute; reflexivity.
Qed.

(** The standardize command on a small file. *)
Definition small_loud : talker := loud ascii_cat no_urls (total_known digits) plain_orders (fun l => l) (fun _ => true) sample_f6 131072.
Definition plain_args : sargs := mk_sargs [1%N] [] None false None [] false.
Definition semi_file : fs := one_file (s2l "a;b" ++ [LF] ++ s2l "c;d" ++ [LF]).
Lemma small_standardize :
  let S := demo_senv (fun _ => Ok None) in
  handle_path (silent S small_loud) plain_args semi_file 1%N None None = (Code 0, semi_file, s2l "a,b" ++ [CR; LF] ++ s2l "c,d" ++ [CR; LF]) /\
  snd (handle_path_v S small_loud plain_args semi_file 1%N None None) =
    running_normal ++ [LF] ++ s2l "Matched normal form 2." ++ [LF] ++ s2l "a,b" ++ [CR; LF] ++ s2l "c,d" ++ [CR; LF].
Proof. cbv zeta. split; vm_compute; reflexivity. Qed.
