(** * ArgMainMore: view, code and explore from the words of the command line to the end *)
From Coq Require Import String.
From Verif Require Import Base Dialect Reader Files Wrappers Codegen Console ArgParse ArgMain.

(** clevercsv/console/commands/view.py:69-95 *)
Definition view_main (locate : str -> path) (E : env) (imp : importer) (vlt : version_order) (win32 : bool) (f : fs) (h : heap) :=
  run_command view_parser (small_args_of "transpose")
    (fun '(p, encoding, num_chars, transpose) => view_command E imp vlt win32 f h (locate p) encoding num_chars transpose).
(** clevercsv/console/commands/_utils.py:11-20: [parse_int] gives back the int that
    argparse has made of the word.  [code_command] and [explore_command] take a
    text; any text with this value will do. *)
Definition some_text (n : option Z) : option str := match n with Some _ => Some [] | None => None end.
(** clevercsv/console/commands/code.py:60-78 *)
Definition code_main (locate : str -> path) (E : env) (printable : N -> bool) (f : fs) :=
  run_command code_parser (small_args_of "pandas")
    (fun '(p, encoding, num_chars, pandas) => code_command E printable (fun _ => num_chars) locate f p encoding (some_text num_chars) pandas).
(** clevercsv/console/commands/explore.py:65-98 *)
Definition explore_main {C} (push : C -> str -> C * bool) (console : C) (locate : str -> path) (E : env) (printable : N -> bool) (f : fs) :=
  run_command explore_parser (small_args_of "pandas")
    (fun '(p, encoding, num_chars, pandas) => explore_command push console E printable (fun _ => num_chars) locate f p encoding (some_text num_chars) pandas).
