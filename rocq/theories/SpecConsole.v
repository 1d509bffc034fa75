(** * SpecConsole: reading what the commands print *)
From Coq Require Import String.
From Verif Require Import Base Dialect Reader Potential SpecPotential Consistency Detect SpecCodegen Console.

(** A detector: the one of clevercsv/detect.py, for some Unicode categories,
    URL pattern, type detector, iteration orders of sets and field size limit. *)
Definition is_detector (det : detector) : Prop :=
  exists cat url known O o_set s, any_orders O /\ (forall l, incl (o_set l) l) /\
    forall m skip sample, det m skip sample = fst (detector_detect cat url known O o_set sample None m skip s).

(** The default output: words and Python string literals. *)
Definition detected_fields (line : str) : option (str * str * str) :=
  match fields [s2l "Detected: SimpleDialect("; s2l ", "; s2l ", "] line with
  | Some ([d; q; e], [41%N]) => Some (d, q, e)
  | _ => None
  end.

(** The plain output: what stands behind the equals sign and one space. *)
Definition plain_value (key line : str) : option str :=
  match after (key ++ s2l " =") line with
  | Some [] => Some []
  | Some (c :: v) => if (c =? SPACE)%N then Some v else None
  | None => None
  end.
Definition plain_fields (lines : list str) : option (str * str * str) :=
  match lines with
  | a :: b :: c :: _ =>
      match plain_value (s2l "delimiter") a, plain_value (s2l "quotechar") b, plain_value (s2l "escapechar") c with
      | Some d, Some q, Some e => Some (d, q, e)
      | _, _, _ => None
      end
  | _ => None
  end.
(** White space is not visible. *)
Definition visible (space : N -> bool) (s : str) : str := if forallb space s then [] else s.
(** [str.isspace] for ASCII characters. *)
Definition python_space (space : N -> bool) : Prop :=
  forall c, (c < 128)%N -> space c = ((9 <=? c) && (c <=? 13) || (28 <=? c) && (c <=? 32))%N.

(** The text of a finite float. *)
Definition numeral (s : str) : Prop := s <> [] /\ Forall (fun c => 48 <= c <= 57)%N s.
Definition float_text (t : str) : Prop :=
  exists sign int frac exp, t = sign ++ int ++ frac ++ exp /\
    (sign = [] \/ sign = s2l "-") /\
    numeral int /\ (forall r, int = 48%N :: r -> r = []) /\
    (frac = [] \/ exists ds, frac = 46%N :: ds /\ numeral ds) /\
    (exp = [] \/ exists x ds, exp = 101%N :: x :: ds /\ (x = 45%N \/ x = 43%N) /\ numeral ds) /\
    frac ++ exp <> [].
