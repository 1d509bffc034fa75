(** * Floats: Python floats

    IEEE 754 binary64 with round-to-nearest-even, as specified in the Coq
    standard library ([Coq.Floats.SpecFloat]).  Only the operations the code
    uses. *)
From Coq Require Import SpecFloat.
From Verif Require Import Base.

Definition float := spec_float.
Definition fprec : Z := 53.
Definition femax : Z := 1024.

(** [float(n)], also the implicit conversion of an int operand; rounds to
    nearest even (exact up to 2^53).  Integers too large for a float do not
    occur. *)
Definition float_of_Z (n : Z) : float := binary_normalize fprec femax n 0 false.
Definition fadd : float -> float -> float := SFadd fprec femax.
Definition fmul : float -> float -> float := SFmul fprec femax.
(** [x / y] for a non-zero [y] (no zero divisor occurs in the code).  For
    integers up to 2^53 Python's int/int is the same operation on the
    converted operands. *)
Definition fdiv : float -> float -> float := SFdiv fprec femax.
Definition fltb : float -> float -> bool := SFltb.
Definition fleb : float -> float -> bool := SFleb.
Definition feqb : float -> float -> bool := SFeqb.
(** [max(a, b)]: the first argument unless the second is greater. *)
Definition fmax (a b : float) : float := if fltb a b then b else a.

Definition fzero : float := S754_zero false.
Definition fone : float := float_of_Z 1.
Definition minus_inf : float := S754_infinity true.   (* -float("inf") *)

(** clevercsv/detect_pattern.py:20 [DEFAULT_EPS_PAT = 1e-3] and
    clevercsv/detect_type.py:21 [DEFAULT_EPS_TYPE = 1e-10], as binary64. *)
Definition eps_pat : float := S754_finite false 0x10624dd2f1a9fc (-62).
Definition eps_type : float := S754_finite false 0x1b7cdfd9d7bdbb (-86).

(** The decimal constants really are rounded to these. *)
Example eps_pat_ok : fdiv (float_of_Z 1) (float_of_Z 1000) = eps_pat.
Proof. reflexivity. Qed.
Example eps_type_ok : fdiv (float_of_Z 1) (float_of_Z (10 ^ 10)) = eps_type.
Proof. reflexivity. Qed.
