(** * PiecesCases: divisions of a text that change the rows *)
From Coq Require Import String.
From Verif Require Import Base Parser ParserFacts SpecLayout SpecPotential SpecParse SpecPieces Pieces.
Open Scope list_scope.

Lemma plain_excel limit : plain_conf (mk_pconf 44%N 34%N 0%N limit false false).
Proof. repeat split; try discriminate. right. discriminate. Qed.
Lemma any_division_fails :
  exists cf ls1 ls2, plain_conf cf /\ List.concat ls1 = List.concat ls2 /\
    parse_items cf (map ILine ls1) <> parse_items cf (map ILine ls2).
Proof.
  exists (mk_pconf 44%N 34%N 0%N 100 false false), [s2l "a,b"], [s2l "a"; s2l ",b"]. split; [apply plain_excel|]. split; [reflexivity|].
  vm_compute. intros [=].
Qed.
Lemma open_fails :
  exists cf l e, plain_conf cf /\ ~ In CR l /\ ~ In LF l /\ line_end e /\ snd (parse_items cf [ILine (l ++ e)]) = Done /\
    parse_items cf [ILine l] <> (map (map unlined_cell) (fst (parse_items cf [ILine (l ++ e)])), Done).
Proof.
  exists (mk_pconf 44%N 34%N 0%N 100 false false), (s2l """"""""), [LF]. split; [apply plain_excel|].
  repeat split; [vm_compute; intuition discriminate..|right; now exists ELF|]. vm_compute. intros [=].
Qed.
Lemma limit_fails :
  exists cf l1 l2 e, plain_conf cf /\ line_end e /\ ~ leaves_open cf (l1 ++ l2) /\
    snd (parse_items cf [ILine (l1 ++ e); ILine l2]) = Raised EFieldLimit /\ snd (parse_items cf [ILine l1; ILine l2]) = Done.
Proof.
  exists (mk_pconf 44%N 34%N 0%N 3 false false), (s2l """a"), (s2l """"), [LF]. split; [apply plain_excel|]. split; [right; now exists ELF|].
  split; [intros (_ & H); vm_compute in H; discriminate H|]. split; reflexivity.
Qed.
