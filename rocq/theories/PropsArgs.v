(** * C105: the words of a command line become the arguments of the command *)
From Coq Require Import String Permutation.
From Verif Require Import Base Json Files Standardize Console ArgParse SpecArgs ArgCommands ArgCases ArgErrors.

(** Case: detect_written, detect_said and detect_parsed of ArgCases.v *)
Theorem C105_detect : forall digit int_of items ws p,
  line digit detect_sheet items ws -> files items = [[p]] -> numbers int_of items ->
  ~ (given items "plain" = true /\ given items "json" = true) ->
  exists ns, parse_args digit int_of detect_parser ws = Parsed ns /\
    detect_args_of ns =
      Ok (p, mk_detect_args (latest (values items "encoding")) (number int_of items) (given items "consistency")
                            (given items "plain") (given items "json") (given items "no-skip") (given items "add-runtime")).
Proof. exact detect_line. Qed.
Print Assumptions C105_detect.

(** Case: standardize_written and standardize_said of ArgCases.v *)
Theorem C105_standardize : forall digit int_of items ws locate ps,
  line digit standardize_sheet items ws -> files items = [ps] -> numbers int_of items ->
  exists ns, parse_args digit int_of standardize_parser ws = Parsed ns /\
    sargs_of locate ns =
      Ok (mk_sargs (map locate ps) (values items "encoding") (latest (values items "target-encoding")) (given items "in-place")
                   (number int_of items) (map locate (values items "output")) (given items "transpose")).
Proof. exact standardize_line. Qed.
Print Assumptions C105_standardize.

Theorem C105_view : forall digit int_of items ws p,
  line digit view_sheet items ws -> files items = [[p]] -> numbers int_of items ->
  exists ns, parse_args digit int_of view_parser ws = Parsed ns /\
    small_args_of "transpose" ns = Ok (p, latest (values items "encoding"), number int_of items, given items "transpose").
Proof. exact view_line. Qed.
Print Assumptions C105_view.

(** The commands code and explore have the same options. *)
Theorem C105_code : forall digit int_of items ws p,
  line digit code_sheet items ws -> files items = [[p]] -> numbers int_of items ->
  exists ns, parse_args digit int_of code_parser ws = Parsed ns /\ parse_args digit int_of explore_parser ws = Parsed ns /\
    small_args_of "pandas" ns = Ok (p, latest (values items "encoding"), number int_of items, given items "pandas").
Proof. exact code_explore_line. Qed.
Print Assumptions C105_code.

(** Case: refused_lines of ArgCases.v *)
Theorem C105_refused : forall digit int_of items ws,
  (line digit detect_sheet items ws ->
     ~ ((exists p, files items = [[p]]) /\ numbers int_of items /\ ~ (given items "plain" = true /\ given items "json" = true)) ->
     parse_args digit int_of detect_parser ws = Usage) /\
  (line digit standardize_sheet items ws -> ~ (List.length (files items) = 1%nat /\ numbers int_of items) ->
     parse_args digit int_of standardize_parser ws = Usage) /\
  (line digit view_sheet items ws -> ~ ((exists p, files items = [[p]]) /\ numbers int_of items) ->
     parse_args digit int_of view_parser ws = Usage) /\
  (line digit code_sheet items ws -> ~ ((exists p, files items = [[p]]) /\ numbers int_of items) ->
     parse_args digit int_of code_parser ws = Usage /\ parse_args digit int_of explore_parser ws = Usage).
Proof. exact lines_refused. Qed.
Print Assumptions C105_refused.

(** Case: dashes_case of ArgCases.v *)
Theorem C105_dashes : forall digit int_of items ws,
  files items = [] -> numbers int_of items ->
  (forall p, line digit detect_sheet items ws -> ~ (given items "plain" = true /\ given items "json" = true) ->
     exists ns, parse_args digit int_of detect_parser (ws ++ [s2l "--"; p]) = Parsed ns /\
       detect_args_of ns =
         Ok (p, mk_detect_args (latest (values items "encoding")) (number int_of items) (given items "consistency")
                               (given items "plain") (given items "json") (given items "no-skip") (given items "add-runtime"))) /\
  (forall locate ps, line digit standardize_sheet items ws -> ps <> [] ->
     exists ns, parse_args digit int_of standardize_parser (ws ++ s2l "--" :: ps) = Parsed ns /\
       sargs_of locate ns =
         Ok (mk_sargs (map locate ps) (values items "encoding") (latest (values items "target-encoding")) (given items "in-place")
                      (number int_of items) (map locate (values items "output")) (given items "transpose"))).
Proof. exact lines_dashes. Qed.
Print Assumptions C105_dashes.

(** For all words whatsoever: an accepted command line has all the attributes
    that the command reads, of the kinds that it expects.  Case: detect_parsed of
    ArgCases.v *)
Theorem C105_any_words : forall digit int_of locate ws,
  (forall P, parse_args digit int_of P ws <> Stuck) /\
  (forall ns, parse_args digit int_of detect_parser ws = Parsed ns ->
     exists p A, detect_args_of ns = Ok (p, A) /\ ~ (da_plain A = true /\ da_json A = true)) /\
  (forall ns, parse_args digit int_of standardize_parser ws = Parsed ns ->
     exists A, sargs_of locate ns = Ok A /\ a_paths A <> []) /\
  (forall ns, parse_args digit int_of view_parser ws = Parsed ns -> exists A, small_args_of "transpose" ns = Ok A) /\
  (forall ns, parse_args digit int_of code_parser ws = Parsed ns -> exists A, small_args_of "pandas" ns = Ok A) /\
  (forall ns, parse_args digit int_of explore_parser ws = Parsed ns -> exists A, small_args_of "pandas" ns = Ok A).
Proof. exact any_words. Qed.
Print Assumptions C105_any_words.

(** The order of the parts does not matter if no option is given twice.  Case:
    detect_written of ArgCases.v and its parts in any other order *)
Theorem C105_order_detect : forall digit int_of items ws items' ws' p,
  line digit detect_sheet items ws -> line digit detect_sheet items' ws' ->
  Permutation items items' -> (forall l, (List.length (values items l) <= 1)%nat) ->
  files items = [[p]] -> numbers int_of items -> ~ (given items "plain" = true /\ given items "json" = true) ->
  exists ns ns' A, parse_args digit int_of detect_parser ws = Parsed ns /\ parse_args digit int_of detect_parser ws' = Parsed ns' /\
    detect_args_of ns = Ok A /\ detect_args_of ns' = Ok A.
Proof. exact detect_order. Qed.
Print Assumptions C105_order_detect.

Theorem C105_order_standardize : forall digit int_of locate items ws items' ws' ps,
  line digit standardize_sheet items ws -> line digit standardize_sheet items' ws' ->
  Permutation items items' -> (forall l, (List.length (values items l) <= 1)%nat) ->
  files items = [ps] -> numbers int_of items ->
  exists ns ns' A, parse_args digit int_of standardize_parser ws = Parsed ns /\ parse_args digit int_of standardize_parser ws' = Parsed ns' /\
    sargs_of locate ns = Ok A /\ sargs_of locate ns' = Ok A.
Proof. exact standardize_order. Qed.
Print Assumptions C105_order_standardize.

(** File names that are separated by an option are refused, although the same
    words in another order are accepted. *)
Theorem C105_apart_refuted : exists ws ws' ns, Permutation ws ws' /\
  parse_args digits decimal standardize_parser ws = Parsed ns /\ parse_args digits decimal standardize_parser ws' = Usage /\
  line digits standardize_sheet [Flags [s2l "transpose"]; Paths (words ["a"; "b"]%string)] ws /\
  line digits standardize_sheet [Paths [s2l "a"]; Flags [s2l "transpose"]; Paths [s2l "b"]] ws'.
Proof. exact apart_refused. Qed.
Print Assumptions C105_apart_refuted.

(** Options that do not exist.  Case: unknown_cases of ArgErrorCases.v *)
Theorem C105_unknown : forall digit int_of P S ws1 w ws2 ns,
  In (P, S) [(detect_parser, detect_sheet); (view_parser, view_sheet); (standardize_parser, standardize_sheet);
             (code_parser, code_sheet); (explore_parser, code_sheet)] ->
  sensible digit -> ~ In (s2l "--") ws1 -> unknown digit S w -> parse_args digit int_of P (ws1 ++ w :: ws2) <> Parsed ns.
Proof. exact five_unknown. Qed.
Print Assumptions C105_unknown.

(** Case: ambiguous_case of ArgErrorCases.v *)
Theorem C105_ambiguous : forall digit int_of P S ws1 w ws2,
  In (P, S) [(detect_parser, detect_sheet); (view_parser, view_sheet); (standardize_parser, standardize_sheet);
             (code_parser, code_sheet); (explore_parser, code_sheet)] ->
  ~ In (s2l "--") ws1 -> ambiguous S w -> parse_args digit int_of P (ws1 ++ w :: ws2) = Usage.
Proof. exact five_ambiguous. Qed.
Print Assumptions C105_ambiguous.

(** A file whose name begins with a dash.  Case: dashed_cases of ArgErrorCases.v *)
Theorem C105_dashed_name : forall digit int_of P S w,
  In (P, S) [(detect_parser, detect_sheet); (view_parser, view_sheet); (standardize_parser, standardize_sheet);
             (code_parser, code_sheet); (explore_parser, code_sheet)] ->
  sensible digit -> dashed_name digit S w ->
  exists ns, parse_args digit int_of P [w] = Parsed ns /\ dict_get (s2l "path") ns = Some (if p_many P then AList [w] else AStr w).
Proof. exact five_dashed. Qed.
Print Assumptions C105_dashed_name.

(** Case: detect_written of ArgCases.v *)
Theorem C105_help : forall digit int_of P S items ws,
  In (P, S) [(detect_parser, detect_sheet); (view_parser, view_sheet); (standardize_parser, standardize_sheet);
             (code_parser, code_sheet); (explore_parser, code_sheet)] ->
  line digit S items ws ->
  parse_args digit int_of P (s2l "-h" :: ws) = Helped /\
  forall q, abbreviates S q (s2l "help") -> parse_args digit int_of P ((s2l "--" ++ q) :: ws) = Helped.
Proof. exact five_help. Qed.
Print Assumptions C105_help.
