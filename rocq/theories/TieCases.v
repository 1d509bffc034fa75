(** * TieCases: concrete ties *)
From Coq Require Import String.
From Verif Require Import Base Parser Dialect SpecParse Ties SpecTies.
Lemma quote_case_same :
  break_ties_two 100 (s2l "a,b~c") (dialect3 [COMMA] [] []) (dialect3 [COMMA] [126%N] []) = Ok (Some (dialect3 [COMMA] [] [])).
Proof. vm_compute. reflexivity. Qed.
Lemma quote_case_differ :
  break_ties_two 100 (s2l "a,~b~") (dialect3 [COMMA] [] []) (dialect3 [COMMA] [126%N] []) = Ok (Some (dialect3 [COMMA] [126%N] [])).
Proof. vm_compute. reflexivity. Qed.
Lemma both_case_yes :
  break_ties_two 100 (s2l "Jill\'s,2") (dialect3 [COMMA] [] []) (dialect3 [COMMA] [39%N] [92%N]) =
  Ok (Some (dialect3 [COMMA] [39%N] [92%N])).
Proof. vm_compute. reflexivity. Qed.
Lemma both_case_no :
  break_ties_two 100 (s2l "'a',b\'c") (dialect3 [COMMA] [] []) (dialect3 [COMMA] [39%N] [92%N]) = Ok None.
Proof. vm_compute. reflexivity. Qed.
Lemma each_cell_refuted : exists limit data d q c X Y,
  parse_string limit data (dialect3 d [q] []) false = (X, None) /\
  parse_string limit data (dialect3 d [q] [c]) false = (Y, None) /\ shape_of X = shape_of Y /\
  (exists k t v, nth_error (List.concat X) k = Some (CStr t) /\ nth_error (List.concat Y) k = Some v /\ CStr t <> v /\
     adjacent c q t = 1%nat) /\
  break_ties_two limit data (dialect3 d [q] []) (dialect3 d [q] [c]) = Ok (Some (dialect3 d [q] [c])).
Proof.
  exists 100%Z, (s2l "a\'b\'c,x\'y"), [COMMA], 39%N, 92%N,
    [[CStr (s2l "a\'b\'c"); CStr (s2l "x\'y")]], [[CStr (s2l "a'b'c"); CStr (s2l "x'y")]].
  split; [vm_compute; reflexivity|]. split; [vm_compute; reflexivity|]. split; [vm_compute; reflexivity|].
  split; [|vm_compute; reflexivity].
  exists 1%nat, (s2l "x\'y"), (CStr (s2l "x'y")). repeat split; try (vm_compute; reflexivity). vm_compute. discriminate.
Qed.
Lemma column_order_refuted : exists limit a b d q c,
  break_ties_two limit (a ++ d ++ b) (dialect3 d [q] []) (dialect3 d [q] [c]) = Ok (Some (dialect3 d [q] [c])) /\
  break_ties_two limit (b ++ d ++ a) (dialect3 d [q] []) (dialect3 d [q] [c]) = Ok (Some (dialect3 d [q] [])).
Proof.
  exists 100%Z, (s2l "a\'b\'c"), (s2l "x\\y"), [COMMA], 39%N, 92%N. split; vm_compute; reflexivity.
Qed.
Lemma four_case :
  tie_breaker 100 (s2l "a,b") (fun l => l)
    [dialect3 [COMMA] [39%N] []; dialect3 [COMMA] [] []; dialect3 [COMMA] [DQ] []; dialect3 [COMMA] [126%N] []] =
  Ok (Some (dialect3 [COMMA] [] [])).
Proof. vm_compute. reflexivity. Qed.
Lemma four_case_none :
  tie_breaker 100 (s2l "a,b") (fun l => l)
    [dialect3 [COMMA] [39%N] []; dialect3 [COMMA] [96%N] []; dialect3 [COMMA] [DQ] []; dialect3 [COMMA] [126%N] []] = Ok None.
Proof. vm_compute. reflexivity. Qed.
Lemma three_escapes_case :
  tie_breaker 100 (s2l "a\'b\'c,x") (fun l => l)
    [dialect3 [COMMA] [39%N] []; dialect3 [COMMA] [39%N] [92%N]; dialect3 [COMMA] [] []] =
  Ok (Some (dialect3 [COMMA] [39%N] [92%N])).
Proof. vm_compute. reflexivity. Qed.
