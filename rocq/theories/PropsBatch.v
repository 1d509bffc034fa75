(** * Properties: several files on one command line (C96) *)
From Coq Require Import String.
From Verif Require Import Base Parser Dialect Files Standardize SpecLayout SpecParse SpecFiles TableFacts SpecBatch Batch.

(** Which files the command can change, whatever happens: the named outputs,
    or in place the inputs and, after an exception, one new temporary file. *)
Theorem C96_touched S A f ex f' t : (a_in_place A = true -> new_names S (a_paths A) f) -> handle S A f = (ex, f', t) ->
  if a_in_place A then
    match ex with
    | Code _ => same_fs_but (a_paths A) f' f
    | Uncaught _ => exists tmp, same_fs_but (tmp :: a_paths A) f' f /\ (~ In tmp (a_paths A) -> f tmp = None)
    end
  else same_fs_but (a_outputs A) f' f.
Proof. exact (touched_files S A f ex f' t). Qed.
Print Assumptions C96_touched.
Theorem C96_no_leftover_refuted : exists S A f x f' tmp content, a_in_place A = true /\ handle S A f = (Uncaught x, f', []) /\
  f tmp = None /\ f' tmp = Some content /\ content <> [].
Proof. exact leftover_refutes. Qed.
Print Assumptions C96_no_leftover_refuted.

(** Every file ends up as if it were the only one on the command line. *)
Theorem C96_in_place S A f r f' t : a_in_place A = true -> NoDup (a_paths A) -> new_names S (a_paths A) f ->
  handle S A f = (Code r, f', t) -> r <> 1%nat ->
  exists ns, List.length ns = List.length (a_paths A) /\ r = first_nonzero ns /\ t = [] /\ same_fs_but (a_paths A) f' f /\
    forall i p, nth_error (a_paths A) i = Some p ->
      exists n fa, nth_error ns i = Some n /\ handle S (alone A i p) f = (Code n, fa, []) /\ f' p = fa p.
Proof. exact (in_place_each S A f r f' t). Qed.
Print Assumptions C96_in_place.
Example C96_in_place_case :
  let A := mk_sargs [1; 2]%N [s2l "x"; s2l "y"] None true None [] false in
  NoDup (a_paths A) /\ new_names semi_senv (a_paths A) two_files /\
  (exists f', handle semi_senv A two_files = (Code 2, f', []) /\ f' 1%N = Some (s2l "a,b" ++ [CR; LF]) /\ f' 2%N = Some (s2l "c,d" ++ [CR; LF])) /\
  alone A 1 2%N = mk_sargs [2%N] [s2l "y"] None true None [] false.
Proof.
  cbv zeta. split; [constructor; [intros [H|[]]; discriminate H|constructor; [intros []|constructor]]|]. split.
  - intros g Hg. change (s_mkstemp semi_senv g) with 99%N. rewrite Hg; [reflexivity|]. intros [H|[H|[]]]; discriminate H.
  - split; [|reflexivity]. eexists. split; [vm_compute; reflexivity|]. split; reflexivity.
Qed.
Theorem C96_outputs S A f r f' t : a_in_place A = false -> a_outputs A <> [] -> NoDup (a_outputs A) ->
  (forall o, In o (a_outputs A) -> ~ In o (a_paths A)) -> handle S A f = (Code r, f', t) -> r <> 1%nat ->
  r = 0%nat /\ t = [] /\ same_fs_but (a_outputs A) f' f /\
    forall i p o, nth_error (a_paths A) i = Some p -> nth_error (a_outputs A) i = Some o ->
      exists fa, handle S (alone A i p) f = (Code 0, fa, []) /\ f' o = fa o.
Proof. exact (outputs_each S A f r f' t). Qed.
Print Assumptions C96_outputs.
Example C96_outputs_case :
  let A := mk_sargs [1; 2]%N [s2l "x"] None false None [3; 4]%N false in
  NoDup (a_outputs A) /\ (forall o, In o (a_outputs A) -> ~ In o (a_paths A)) /\
  exists f', handle semi_senv A two_files = (Code 0, f', []) /\ f' 3%N = Some (s2l "a,b" ++ [CR; LF]) /\ f' 4%N = Some (s2l "c,d" ++ [CR; LF]).
Proof.
  cbv zeta. split; [constructor; [intros [H|[]]; discriminate H|constructor; [intros []|constructor]]|]. split.
  - intros o [<-|[<-|[]]] [H|[H|[]]]; discriminate H.
  - eexists. split; [vm_compute; reflexivity|]. split; reflexivity.
Qed.
(** Not if an output is a later input. *)
Theorem C96_chain_refuted : exists S A f f' fa, NoDup (a_outputs A) /\ NoDup (a_paths A) /\ a_in_place A = false /\
  handle S A f = (Code 0, f', []) /\ handle S (alone A 1 2%N) f = (Code 0, fa, []) /\ nth_error (a_outputs A) 1 = Some 3%N /\ f' 3%N <> fa 3%N.
Proof. exact chain_refutes. Qed.
Print Assumptions C96_chain_refuted.
(** Without outputs no file changes, and the texts are printed one after the
    other. *)
Theorem C96_stdout S A f ex f' t : a_in_place A = false -> a_outputs A = [] -> handle S A f = (ex, f', t) ->
  same_fs f' f /\ forall r, ex = Code r -> r <> 1%nat -> r = 0%nat /\ exists ts, List.length ts = List.length (a_paths A) /\ t = List.concat ts /\
    forall i p, nth_error (a_paths A) i = Some p -> exists u fa, nth_error ts i = Some u /\ handle S (alone A i p) f = (Code 0, fa, u).
Proof. exact (stdout_each S A f ex f' t). Qed.
Print Assumptions C96_stdout.
Example C96_stdout_case :
  fst (fst (handle semi_senv (mk_sargs [2; 1]%N [] None false None [] false) two_files)) = Code 0 /\
  snd (handle semi_senv (mk_sargs [2; 1]%N [] None false None [] false) two_files) = s2l "c,d" ++ [CR; LF] ++ s2l "a,b" ++ [CR; LF].
Proof. vm_compute. split; reflexivity. Qed.
