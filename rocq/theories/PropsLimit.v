(** * PropsLimit: the field size limit (C52) *)
From Coq Require Import String.
From Verif Require Import Base Parser Dialect Limit SpecLimit LimitFacts.

(** ** C52 *)
(** The answer to the call [c] in a history of calls. *)
Theorem C52_history initial before c after :
  exists limit r, in_force initial before limit /\
    nth_error (fst (field_size_limits (before ++ c :: after) initial)) (List.length before) = Some r /\
    ((bad c /\ r = Err TypeError) \/ (~ bad c /\ r = Ok limit)).
Proof. exact (limits_history initial before c after). Qed.
Print Assumptions C52_history.
Theorem C52_final_limit calls initial : in_force initial calls (snd (field_size_limits calls initial)).
Proof. exact (limits_in_force calls initial). Qed.
Print Assumptions C52_final_limit.
Theorem C52_one_limit_in_force initial calls l l' : in_force initial calls l -> in_force initial calls l' -> l = l'.
Proof. exact (in_force_fun initial calls l l'). Qed.
Print Assumptions C52_one_limit_in_force.
Example C52_case :
  field_size_limits [([], []); ([LInt 5], []); ([], [([120%N], LBool true)]); ([LOther], []); ([LInt 1; LInt 2], []); ([], [])] 131072 =
  ([Ok 131072%Z; Ok 131072%Z; Ok 5%Z; Err TypeError; Err TypeError; Ok 1%Z], 1%Z).
Proof. exact calls_case. Qed.

(** A limit that fits a C long of [w] bits is the one the parser uses; with any
    other limit parsing raises OverflowError. *)
Theorem C52_fitting_limit w limit data D rq : (- 2 ^ (w - 1) <= limit < 2 ^ (w - 1))%Z ->
  parse_string_long w limit data D rq = parse_string limit data D rq.
Proof. exact (long_fits w limit data D rq). Qed.
Print Assumptions C52_fitting_limit.
Theorem C52_other_limit w limit data D rq : validate D = true -> (limit < - 2 ^ (w - 1) \/ 2 ^ (w - 1) <= limit)%Z ->
  parse_string_long w limit data D rq = ([], Some OverflowError).
Proof. exact (long_overflow w limit data D rq). Qed.
Print Assumptions C52_other_limit.
(** field_size_limit accepts limits with which nothing can be parsed. *)
Theorem C52_accepted_limit_usable_refuted : exists n,
  field_size_limit [LInt n] [] 131072 = (Ok 131072%Z, n) /\
  (forall data D rq, validate D = true -> parse_string_long 64 n data D rq = ([], Some OverflowError)).
Proof. exact accepted_unusable. Qed.
Print Assumptions C52_accepted_limit_usable_refuted.
