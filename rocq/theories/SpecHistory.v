(** * SpecHistory: sequences of calls on a reader *)
From Verif Require Import Base Parser Dialect CsvLib Reader.

(** One call on a reader, with the value of [field_size_limit()] and the state
    of all dialect objects at that moment. *)
Inductive rcall :=
| CallNext (limit : Z) (h : heap)
| CallIter (limit : Z) (h : heap).

Definition rcall_run (c : rcall) (r : reader) : next_result * reader :=
  match c with
  | CallNext limit h => reader_next limit h r
  | CallIter limit h =>
      match reader_iter limit h r with
      | Ok r' => (NStop, r')          (* returns the reader itself, no row *)
      | Err x => (NRaise x, r)
      end
  end.

Fixpoint run_calls (cs : list rcall) (r : reader) : list next_result * reader :=
  match cs with
  | [] => ([], r)
  | c :: cs' =>
      let '(x, r1) := rcall_run c r in
      let '(xs, r2) := run_calls cs' r1 in (x :: xs, r2)
  end.

Definition is_row (x : next_result) : bool := match x with NRow _ => true | _ => false end.

(** What a parser outcome looks like to the caller of [next(reader)]. *)
Definition seen (o : outcome) : next_result :=
  match o with
  | Row r => NRow r
  | Stop => NStop
  | Raise EIter => NRaise InputExc
  | Raise e => NRaise (CleverError e)
  end.
