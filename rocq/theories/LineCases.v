(** * LineCases: concrete texts with different line ends *)
From Coq Require Import String Permutation.
From Verif Require Import Base Parser Dialect SpecLayout Potential SpecPotential PotentialFacts MaskedFacts NormalForm SpecNormal NormalFacts NormalForms Detect Types SpecTypes TypesUrl
  SpecColumn SpecLines LineLayout UrlLines LineEnds LineDetect LineNormal.
Local Notation len := List.length.

(** A test for balanced lines. *)
Fixpoint escapes_apart (cat : N -> str) (l : str) : bool :=
  match l with
  | [] => true
  | u :: l' => (negb (is_esc cat u) || match l' with v :: _ => (negb (v =? u)%N || (u =? 47)%N) && negb (mem_char v [34; 39]%N) | [] => false end) && escapes_apart cat l'
  end.
Definition balanced_test (cat : N -> str) (l : str) : bool :=
  forallb (fun c => negb (mem_char c l)) [NUL; CR; LF; 126; 96]%N &&
  forallb (fun q => Nat.even (occurrences q l)) [34; 39]%N && escapes_apart cat l.
Lemma escapes_apart_ok cat l : escapes_apart cat l = true -> forall a u b, l = a ++ u :: b -> escape_like cat u ->
  exists v b', b = v :: b' /\ (wanted_delimiter cat None u -> v <> u) /\ ~ In v [34; 39]%N.
Proof.
  induction l as [|x l IH]; intros H a u b E Hu; [now destruct a|]. cbn [escapes_apart] in H. apply andb_true_iff in H as (H & H'). destruct a as [|y a].
  - injection E as -> ->. apply is_esc_spec in Hu. rewrite Hu in H. cbn [negb orb] in H. destruct b as [|v b]; [discriminate|]. apply andb_true_iff in H as (H1 & H2).
    apply negb_true_iff in H2. exists v, b. split; [reflexivity|]. split; [|now apply mem_char_false].
    apply orb_true_iff in H1 as [H1|H1]; [intros _; apply negb_true_iff in H1; now apply N.eqb_neq|]. apply N.eqb_eq in H1 as ->.
    intros [Hw|(Hw & _)]; [discriminate|]. elim Hw. cbn. tauto.
  - injection E as -> ->. now apply (IH H' a u b).
Qed.
Lemma balanced_ok cat l : balanced_test cat l = true -> balanced_line cat None l.
Proof.
  unfold balanced_test. rewrite !andb_true_iff, !forallb_forall. intros ((H1 & H2) & H3). split; [|split].
  - intros c Hc. apply mem_char_false, negb_true_iff. now apply H1.
  - exact H2.
  - now apply escapes_apart_ok.
Qed.
Lemma ascii_control : control_ends ascii_cat.
Proof. split; reflexivity. Qed.

(** A table with quoted cells, an address and a blank line, once with LF and
    once with CRLF and without the last line end. *)
Definition sample_lines : list str :=
  [s2l "name,address,when"; s2l """Li, A."",li@example.org,1/2/2024"; s2l "O,'x' 'y',"; []; s2l "B,http://a.io/b?c=d,3"].
Definition sample_lf : list (str * eol) := map (fun l => (l, ELF)) sample_lines.
Definition sample_mixed : list (str * eol) := zip (removelast sample_lines) [ECRLF; ECR; ELF; ECR].
Lemma sample_case :
  control_ends ascii_cat /\ usual_delimiters None /\
  column_of sample_lf None = column_of sample_mixed (Some (List.last sample_lines [])) /\
  (forall l, In l (column_of sample_lf None) -> balanced_line ascii_cat None l) /\
  clear_ends sample_lf None /\ clear_ends sample_mixed (Some (List.last sample_lines [])) /\
  column_text sample_lf None <> column_text sample_mixed (Some (List.last sample_lines [])).
Proof.
  assert (HB : forall l, In l (column_of sample_lf None) -> balanced_line ascii_cat None l).
  { assert (K : forallb (balanced_test ascii_cat) (column_of sample_lf None) = true) by (vm_compute; reflexivity).
    intros l Hl. apply balanced_ok. rewrite forallb_forall in K. now apply K. }
  split; [exact ascii_control|]. split; [intros l E; discriminate|]. split; [reflexivity|]. split; [exact HB|].
  split; [|split; [|vm_compute; discriminate]].
  - split; [|discriminate]. intros a s b E. assert (K : In (s, ECR) sample_lf) by (rewrite E; apply in_or_app; right; now left).
    apply in_map_iff in K as (l & [= _] & _).
  - split; [|vm_compute; discriminate]. intros a s b E. assert (K : In ([], ELF) sample_mixed) by (rewrite E; apply in_or_app; right; right; now left).
    vm_compute in K. destruct K as [K|[K|[K|[K|[]]]]]; discriminate K.
Qed.

(** Blank lines at the end count only for CRLF, and LF hides in a CRLF file. *)
Lemma blank_end : let lf := map (fun l => (l, ELF)) [s2l "a,b"; s2l "c,d"; []] in
  let crlf := map (fun l => (l, ECRLF)) [s2l "a,b"; s2l "c,d"; []] in
  detect_dialect_normal ascii_cat (column_text lf None) utf8 None = Ok (Some (dialect3 [COMMA] [] [])) /\
  detect_dialect_normal ascii_cat (column_text crlf None) utf8 None = Ok None.
Proof. vm_compute. split; reflexivity. Qed.
Lemma mixed_ends : let one := [(s2l "a,b", ELF); (s2l "c,d", ELF); (s2l "e,f", ELF)] in
  let two := [(s2l "a,b", ELF); (s2l "c,d", ECRLF); (s2l "e,f", ELF)] in
  detect_dialect_normal ascii_cat (column_text one None) utf8 None = Ok (Some (dialect3 [COMMA] [] [])) /\
  detect_dialect_normal ascii_cat (column_text two None) utf8 None = Ok None.
Proof. vm_compute. split; reflexivity. Qed.
Lemma mixed_refuted : exists rows1 rows2, map fst rows1 = map fst rows2 /\ Forall (fun l => ~ In CR l /\ ~ In LF l /\ l <> []) (map fst rows1) /\
  detect_dialect_normal ascii_cat (column_text rows1 None) utf8 None <> detect_dialect_normal ascii_cat (column_text rows2 None) utf8 None.
Proof.
  exists [(s2l "a,b", ELF); (s2l "c,d", ELF); (s2l "e,f", ELF)], [(s2l "a,b", ELF); (s2l "c,d", ECRLF); (s2l "e,f", ELF)]. split; [reflexivity|]. split.
  - repeat (constructor; [repeat split; vm_compute; intuition discriminate|]). constructor.
  - destruct mixed_ends as (E1 & E2). rewrite E1, E2. discriminate.
Qed.
