(** * Properties: rows that cannot be written (C95) *)
From Coq Require Import String.
From Verif Require Import Base Parser Dialect CsvLib Writer Dict SpecWriteErrors WriteErrors.

Theorem C95_writerow w row x : writerow w row = Err x <-> x = WriteError /\ unwritable w row.
Proof. exact (writerow_error w row x). Qed.
Print Assumptions C95_writerow.
Definition plain_none : wdialect := mk_wdialect COMMA (Some DQ) None true false [CR; LF] QUOTE_NONE.
Definition spaces : wdialect := mk_wdialect SPACE (Some DQ) None true true [LF] QUOTE_NONE.
Example C95_writerow_case :
  writerow plain_none [VStr (s2l "a"); VStr (s2l "b,c")] = Err WriteError /\ writerow plain_none [VNone] = Err WriteError /\
  writerow plain_none [VNone; VStr []] = Ok (s2l "," ++ [CR; LF]) /\ writerow plain_none [] = Ok [CR; LF] /\
  writerow spaces [VStr (s2l "a"); VStr []] = Err WriteError /\
  writerow (mk_wdialect COMMA (Some DQ) None false false [LF] QUOTE_ALL) [VStr [DQ]] = Err WriteError.
Proof. vm_compute. repeat split. Qed.

(** [writerows] succeeds when every row can be written, and otherwise has
    written the rows before the first one that cannot. *)
Theorem C95_writerows w rows : (exists text, writerows w rows = (text, None)) <-> Forall (fun r => ~ unwritable w r) rows.
Proof. exact (writerows_iff w rows). Qed.
Print Assumptions C95_writerows.
Theorem C95_first_failure w good row rest : Forall (fun r => ~ unwritable w r) good -> unwritable w row ->
  writerows w (good ++ row :: rest) = (fst (writerows w good), Some WriteError).
Proof. exact (rows_fail w good row rest). Qed.
Print Assumptions C95_first_failure.
Example C95_first_failure_case :
  unwritable plain_none [VStr []] /\ ~ unwritable plain_none [VStr (s2l "a")] /\
  writerows plain_none [[VStr (s2l "a")]; [VStr []]; [VStr (s2l "b")]] = (s2l "a" ++ [CR; LF], Some WriteError).
Proof.
  split; [|split].
  - right. left. split; [reflexivity|]. now exists (VStr []).
  - intros H. assert (E : writerow plain_none [VStr (s2l "a")] = Err WriteError) by now apply C95_writerow. discriminate E.
  - vm_compute. reflexivity.
Qed.

(** None is written like an empty string. *)
Theorem C95_none w rows : writerows w (map (map (fun v => match v with VNone => VStr [] | v => v end)) rows) = writerows w rows.
Proof. exact (writerows_none w rows). Qed.
Print Assumptions C95_none.
Example C95_none_case : writerows (mk_wdialect COMMA (Some DQ) None true false [LF] QUOTE_MINIMAL) [[VNone; VStr (s2l "x")]; [VNone]] =
  (s2l ",x" ++ [LF; DQ; DQ; LF], None).
Proof. vm_compute. reflexivity. Qed.

(** The header of a DictWriter holds its field names as they are, repeated
    ones and None included. *)
Theorem C95_header w : dw_writeheader w = writerow (dw_writer w) (map (fun k => VStr (match k with Some s => s | None => [] end)) (dw_names w)).
Proof. exact (header_written w). Qed.
Print Assumptions C95_header.
Example C95_header_case :
  dw_writeheader (mk_dict_writer [Some (s2l "a"); None; Some (s2l "a")] VNone (s2l "raise") (mk_wdialect COMMA (Some DQ) None true false [LF] QUOTE_MINIMAL)) =
  Ok (s2l "a,,a" ++ [LF]).
Proof. vm_compute. reflexivity. Qed.
