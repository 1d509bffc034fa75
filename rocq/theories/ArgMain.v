(** * ArgMain: a command from the words of its command line to its end

    wilderness parses the words with the parser of the command and calls its
    [handle]; the result is the exit code of the process.  [argparse] shows the
    help with exit code 0, and the usage with exit code 2 after an error. *)
From Coq Require Import String.
From Verif Require Import Base Dialect Files Wrappers Standardize Codegen Console ArgParse.

Inductive process (R : Type) :=
| Finished (r : R)
| HelpShown          (* exit code 0 *)
| UsageShown         (* exit code 2 *)
| Crashed (x : pyexc).
Arguments Finished {R}. Arguments HelpShown {R}. Arguments UsageShown {R}. Arguments Crashed {R}.

(** clevercsv/console/application.py:90-97 [build_application], for the words
    after the name of a command: [args_of] reads the attributes the command uses
    and [command] is its [handle]. *)
Definition run_command {A R} (P : parser) (args_of : namespace -> res pyexc A) (command : A -> R)
    (digit : N -> bool) (int_of : str -> option Z) (ws : list str) : process R :=
  match parse_args digit int_of P ws with
  | Parsed ns => match args_of ns with Ok a => Finished (command a) | Err x => Crashed x end
  | Helped => HelpShown
  | Usage => UsageShown
  | Stuck => Crashed Diverged
  end.

(** clevercsv/console/commands/detect.py:103-139 *)
Definition detect_main (locate : str -> path) (E : env) (det : detector) (printable space : N -> bool) (runtime runtime6 : str) (f : fs) :=
  run_command detect_parser detect_args_of (fun pa => detect_command E det printable space runtime runtime6 f (locate (fst pa)) (snd pa)).
(** clevercsv/console/commands/standardize.py:115-174 *)
Definition standardize_main (locate : str -> path) (S : senv) (f : fs) :=
  run_command standardize_parser (sargs_of locate) (fun a => handle S a f).
