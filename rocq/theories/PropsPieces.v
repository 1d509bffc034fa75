(** * PropsPieces: how the input is divided into strings (C103) *)
From Coq Require Import String.
From Verif Require Import Base Parser ParserFacts SpecLayout SpecPotential SpecParse SpecPieces Pieces PiecesCases.
Open Scope list_scope.

(** ** C103: the parser takes any iterable of strings.  Every piece of input is
    one string; [parse_items] gives all rows and the way the iteration ends. *)

(** A cut inside a quoted cell makes no difference. *)
Theorem C103_cut_inside cf pre x y post :
  plain_conf cf ->
  leaves_open cf (List.concat (pre ++ [x])) ->
  parse_items cf (map ILine (pre ++ x :: y :: post)) = parse_items cf (map ILine (pre ++ (x ++ y) :: post)).
Proof. exact (fun HC => cut_inside cf HC pre x y post). Qed.
Print Assumptions C103_cut_inside.
Example C103_cut_inside_case :
  let cf := mk_pconf 44%N 34%N 0%N 100 false false in
  plain_conf cf /\ leaves_open cf (List.concat ([s2l "k,l"] ++ [s2l "a,""b"])) /\
  parse_items cf (map ILine ([s2l "k,l"] ++ s2l "a,""b" :: s2l "c"",d" :: [s2l "e"])) =
    ([[CStr (s2l "k"); CStr (s2l "l")]; [CStr (s2l "a"); CStr (s2l "bc"); CStr (s2l "d")]; [CStr (s2l "e")]], Done).
Proof. repeat split; try discriminate; vm_compute; auto; right; discriminate. Qed.

(** A string that ends outside of quoted cells ends a row, with or without a
    line end: the strings after it are parsed as if they were the whole input. *)
Theorem C103_ends_row cf ls post :
  plain_conf cf ->
  ~ leaves_open cf (List.concat ls) ->
  snd (parse_items cf (map ILine ls)) = Done ->
  parse_items cf (map ILine (ls ++ post)) =
    (fst (parse_items cf (map ILine ls)) ++ fst (parse_items cf (map ILine post)), snd (parse_items cf (map ILine post))).
Proof. exact (fun HC => ends_row cf HC ls post). Qed.
Print Assumptions C103_ends_row.
Example C103_ends_row_case :
  let cf := mk_pconf 44%N 34%N 0%N 100 false false in
  ~ leaves_open cf (List.concat [s2l "a,""b"; s2l "c"",d"]) /\
  parse_items cf (map ILine [s2l "a,""b"; s2l "c"",d"]) = ([[CStr (s2l "a"); CStr (s2l "bc"); CStr (s2l "d")]], Done) /\
  parse_items cf (map ILine [s2l "e"; []; s2l "f"]) = ([[CStr (s2l "e")]; []; [CStr (s2l "f")]], Done).
Proof. repeat split. intros (_ & H). vm_compute in H. discriminate H. Qed.

(** Lines without their line ends give the same rows, except that the line ends
    inside quoted cells are gone, unless a cell exceeded the field limit. *)
Theorem C103_without_ends cf (ls : list (str * str)) :
  let whole := parse_items cf (map ILine (map (fun x => fst x ++ snd x) ls)) in
  plain_conf cf ->
  Forall (fun x => ~ In CR (fst x) /\ ~ In LF (fst x) /\ line_end (snd x)) ls ->
  ~ leaves_open cf (List.concat (map fst ls)) ->
  snd whole <> Raised EFieldLimit ->
  parse_items cf (map ILine (map fst ls)) = (map (map unlined_cell) (fst whole), snd whole).
Proof. exact (fun HC => without_ends cf HC ls). Qed.
Print Assumptions C103_without_ends.
Example C103_without_ends_case :
  let cf := mk_pconf 44%N 34%N 0%N 100 false false in
  let ls := [(s2l "a,""b", [CR; LF]); (s2l "c"",d", [LF]); ([], [CR]); (s2l "e", [])] in
  Forall (fun x => ~ In CR (fst x) /\ ~ In LF (fst x) /\ line_end (snd x)) ls /\
  ~ leaves_open cf (List.concat (map fst ls)) /\
  parse_items cf (map ILine (map (fun x => fst x ++ snd x) ls)) =
    ([[CStr (s2l "a"); CStr (s2l "b" ++ [CR; LF] ++ s2l "c"); CStr (s2l "d")]; []; [CStr (s2l "e")]], Done) /\
  parse_items cf (map ILine (map fst ls)) = ([[CStr (s2l "a"); CStr (s2l "bc"); CStr (s2l "d")]; []; [CStr (s2l "e")]], Done).
Proof.
  repeat split; [|intros (_ & H); vm_compute in H; discriminate H].
  repeat (constructor; [split; [|split]; [vm_compute; intuition discriminate..|]|]); [right; now exists ECRLF|right; now exists ELF|right; now exists ECR|now left|constructor].
Qed.

(** In particular the rows are the same if no cell contains a line end. *)
Theorem C103_same_rows cf (ls : list (str * str)) :
  let whole := parse_items cf (map ILine (map (fun x => fst x ++ snd x) ls)) in
  plain_conf cf ->
  Forall (fun x => ~ In CR (fst x) /\ ~ In LF (fst x) /\ line_end (snd x)) ls ->
  ~ leaves_open cf (List.concat (map fst ls)) ->
  snd whole <> Raised EFieldLimit ->
  Forall (Forall (fun c => ~ In CR (cell_str c) /\ ~ In LF (cell_str c))) (fst whole) ->
  parse_items cf (map ILine (map fst ls)) = whole.
Proof. exact (fun HC => without_ends_same cf HC ls). Qed.
Print Assumptions C103_same_rows.
Example C103_same_rows_case :
  let cf := mk_pconf 44%N 34%N 0%N 100 false true in
  let ls := [(s2l "a,""b,c""", [CR; LF]); (s2l "d", [LF])] in
  let whole := parse_items cf (map ILine (map (fun x => fst x ++ snd x) ls)) in
  plain_conf cf /\ Forall (fun x => ~ In CR (fst x) /\ ~ In LF (fst x) /\ line_end (snd x)) ls /\
  ~ leaves_open cf (List.concat (map fst ls)) /\
  Forall (Forall (fun c => ~ In CR (cell_str c) /\ ~ In LF (cell_str c))) (fst whole) /\
  whole = ([[CTuple (s2l "a") false; CTuple (s2l "b,c") true]; [CTuple (s2l "d") false]], Done).
Proof.
  cbv zeta. split; [repeat split; try discriminate; right; discriminate|]. split.
  - repeat (constructor; [split; [|split]; [vm_compute; intuition discriminate..|]|]); [right; now exists ECRLF|right; now exists ELF|constructor].
  - split; [intros (_ & H); vm_compute in H; discriminate H|]. split; [|reflexivity].
    vm_compute. repeat (constructor; [repeat (constructor; [split; intuition discriminate|]); constructor|]). constructor.
Qed.

(** The same text divided in two ways can give different rows: a string that
    ends outside of quoted cells ends the row. *)
Theorem C103_any_division_refuted :
  exists cf ls1 ls2, plain_conf cf /\ List.concat ls1 = List.concat ls2 /\
    parse_items cf (map ILine ls1) <> parse_items cf (map ILine ls2).
Proof. exact any_division_fails. Qed.
Print Assumptions C103_any_division_refuted.

(** Lines without line ends inside an unclosed quoted cell: what is left at the
    end of the input can have other quotes removed. *)
Theorem C103_without_ends_open_refuted :
  exists cf l e, plain_conf cf /\ ~ In CR l /\ ~ In LF l /\ line_end e /\ snd (parse_items cf [ILine (l ++ e)]) = Done /\
    parse_items cf [ILine l] <> (map (map unlined_cell) (fst (parse_items cf [ILine (l ++ e)])), Done).
Proof. exact open_fails. Qed.
Print Assumptions C103_without_ends_open_refuted.

(** The line end can be the character that exceeds the field limit. *)
Theorem C103_without_ends_limit_refuted :
  exists cf l1 l2 e, plain_conf cf /\ line_end e /\ ~ leaves_open cf (l1 ++ l2) /\
    snd (parse_items cf [ILine (l1 ++ e); ILine l2]) = Raised EFieldLimit /\ snd (parse_items cf [ILine l1; ILine l2]) = Done.
Proof. exact limit_fails. Qed.
Print Assumptions C103_without_ends_limit_refuted.
