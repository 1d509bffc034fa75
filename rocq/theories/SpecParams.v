(** * SpecParams: what keyword arguments mean

    A keyword that is given several times (in the model: in a list) counts with
    its last value; a keyword that is not given leaves the dialect's value. *)
From Verif Require Import Base Parser Dialect CsvLib Reader Writer.

(** The last value some element of a list provides, or a default. *)
Fixpoint chosen {P A} (get : P -> option A) (ps : list P) (dflt : A) : A :=
  match ps with
  | [] => dflt
  | p :: ps' => chosen get ps' (match get p with Some a => a | None => dflt end)
  end.

Definition wp_delimiter (p : wparam) := match p with WDelimiter s => Some s | _ => None end.
Definition wp_quotechar (p : wparam) := match p with WQuotechar s => Some s | _ => None end.
Definition wp_escapechar (p : wparam) := match p with WEscapechar s => Some s | _ => None end.
Definition wp_doublequote (p : wparam) := match p with WDoublequote b => Some b | _ => None end.
Definition wp_skip (p : wparam) := match p with WSkipinitialspace b => Some b | _ => None end.
Definition wp_lineterminator (p : wparam) := match p with WLineterminator s => Some s | _ => None end.
Definition wp_quoting (p : wparam) := match p with WQuoting q => Some q | _ => None end.

Definition rp_delimiter (p : fmtparam) := match p with KDelimiter s => Some s | _ => None end.
Definition rp_quotechar (p : fmtparam) := match p with KQuotechar s => Some s | _ => None end.
Definition rp_escapechar (p : fmtparam) := match p with KEscapechar s => Some s | _ => None end.
Definition rp_strict (p : fmtparam) := match p with KStrict b => Some b | _ => None end.

(** The csv dialect a writer argument stands for. *)
Definition writer_base (reg : registry) (h : heap) (dialect : dialect_arg) (c : csvdialect) : Prop :=
  match dialect with
  | DName s => reg s = Some c
  | DCompiled d | DClass d => c = d
  | DSimple a => to_csv_dialect (deref h a) = Ok c
  | DInstance _ | DOther => False
  end.

(** A string of one character, or None. *)
Definition one_or_none (o : option N) : option str := option_map (fun c => [c]) o.
