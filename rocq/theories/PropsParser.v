(** * PropsParser: property theorems about the parser (C01-C12, C26)

    Each theorem is closed by a lemma proved elsewhere.  The examples show
    concrete cases that satisfy the hypotheses. *)
From Coq Require Import String.
From Verif Require Import Base Parser Dialect SpecLayout SpecParse ParserFacts LayoutFacts
  LayoutTotal ParserProps ParserLift
  SpecText ParserLimit LayoutLimit LayoutMore StrictFacts ParserLift2.

(** ** C01 *)
Theorem C01_parse_returns_layout_table D d limit rq :
  wf_chars D = true -> wf_doc D d = true ->
  Forall (fun s => Z.of_nat (length s) <= limit)%Z (raw_cells D d) ->
  parse_string limit (render D d) (simple D false) rq = (mk_rows rq (denote D d), None).
Proof. exact (parse_string_layout D d limit rq). Qed.
Print Assumptions C01_parse_returns_layout_table.

(** Every NUL-free text is the rendering of a layout, so C01 determines the
    parse of every text. *)
Theorem C01_every_text_has_a_layout D t :
  no_nul t -> exists d, wf_doc D d = true /\ render D d = t.
Proof. exact (layout_total D t). Qed.
Print Assumptions C01_every_text_has_a_layout.

(** The value of the two common kinds of cell, spelled out. *)
Theorem C01_plain_cell_value D s :
  Forall (fun c => special D c = false) s -> cell_value D (map PChar s) = (s, false).
Proof. exact (cell_value_plain D s). Qed.
Print Assumptions C01_plain_cell_value.
Theorem C01_quoted_cell_value D l :
  is_set (cq D) = true -> cell_value D [PQuoted l] = (qitems_value D l, true).
Proof. exact (cell_value_quoted D l). Qed.
Print Assumptions C01_quoted_cell_value.

Definition ex_D := mk_chars (Some COMMA) (Some DQ) (Some BACKSLASH).
Definition ex_doc := mk_doc
  [ ([[PChar 97%N]; [PQuoted [QChar 98%N; QQuote; QChar LF; QChar COMMA]]; []], ECRLF);
    ([], ELF);
    ([[PEsc COMMA; PChar 99%N]], ECR) ]
  (TRow [[PChar 100%N]; [PChar 101%N]]).
Example C01_case :
  wf_chars ex_D = true /\ wf_doc ex_D ex_doc = true /\
  Forall (fun s => Z.of_nat (List.length s) <= 6)%Z (raw_cells ex_D ex_doc) /\
  denote ex_D ex_doc =
    [ [([97%N], false); ([98%N; DQ; LF; COMMA], true); ([], false)]; [];
      [([COMMA; 99%N], false)]; [([100%N], false); ([101%N], false)] ].
Proof. repeat split; try reflexivity. repeat constructor; vm_compute; discriminate. Qed.

(** ** C02 *)
Theorem C02_only_nul_fails limit t dl rq :
  validate dl = true -> sd_strict dl = false -> (Z.of_nat (length t) <= limit)%Z ->
  (In NUL t -> snd (parse_string limit t dl rq) = Some (CleverError ENull)) /\
  (~ In NUL t -> snd (parse_string limit t dl rq) = None).
Proof. exact (parse_string_total limit t dl rq). Qed.
Print Assumptions C02_only_nul_fails.
Example C02_case :
  validate (dialect3 [COMMA] [COMMA] [LF]) = true /\
  snd (parse_string 100 (s2l "a,,""b") (dialect3 [COMMA] [COMMA] [LF]) true) = None /\
  snd (parse_string 100 [97%N; NUL] (dialect3 [COMMA] [COMMA] [LF]) true)
    = Some (CleverError ENull).
Proof. vm_compute. auto. Qed.

(** ** C03 *)
Theorem C03_plain_dialect_splits d t limit rq :
  char_ok d = true -> no_nul t ->
  Forall (fun s => Z.of_nat (length s) <= limit)%Z (concat (split_table d t)) ->
  parse_string limit t (simple (mk_chars d None None) false) rq =
    (mk_rows rq (map (map (fun s => (s, false))) (split_table d t)), None).
Proof. exact (parse_plain d t limit rq). Qed.
Print Assumptions C03_plain_dialect_splits.
Example C03_case :
  char_ok (Some SEMI) = true /\
  split_table (Some SEMI) (s2l "a;;""b" ++ [CR; LF; LF] ++ s2l ";" ++ [CR] ++ s2l "x")
  = [[s2l "a"; []; s2l """b"]; []; [[]; []]; [s2l "x"]].
Proof. split; reflexivity. Qed.

(** ** C04 *)
Theorem C04_terminators_irrelevant D d1 d2 limit rq :
  wf_chars D = true -> wf_doc D d1 = true -> wf_doc D d2 = true ->
  map fst (records d1) = map fst (records d2) -> last d1 = last d2 -> (0 <= limit)%Z ->
  parse_string limit (render D d1) (simple D false) rq =
  parse_string limit (render D d2) (simple D false) rq.
Proof. exact (terminators_irrelevant D d1 d2 limit rq). Qed.
Print Assumptions C04_terminators_irrelevant.
Example C04_case :
  let rows := [ [[PChar 97%N]; [PQuoted [QChar LF]]]; [[PChar 98%N]]; [] ] in
  let d1 := mk_doc (zip rows [ELF; ECR; ECRLF]) TEnd in
  let d2 := mk_doc (zip rows [ECRLF; ELF; ELF]) TEnd in
  wf_doc ex_D d1 = true /\ wf_doc ex_D d2 = true /\ render ex_D d1 <> render ex_D d2.
Proof. repeat split; discriminate. Qed.

(** ** C05 *)
Theorem C05_cells_within_limit cf input row c :
  In row (fst (parse_items cf input)) -> In c row ->
  (Z.of_nat (length (cell_str c)) <= Z.max 0 (field_limit cf))%Z.
Proof. exact (cells_within_limit cf input row c). Qed.
Print Assumptions C05_cells_within_limit.
Example C05_case :
  parse_items (mk_pconf COMMA DQ 0 2 false false) [ILine (s2l "ab,cd"); INotStr]
  = ([[CStr (s2l "ab"); CStr (s2l "cd")]], Raised ENotStr).
Proof. reflexivity. Qed.

Theorem C05_nonpositive_limit cf input row c : (field_limit cf <= 0)%Z ->
  In row (fst (parse_items cf input)) -> In c row -> cell_str c = [].
Proof. exact (nonpositive_limit cf input row c). Qed.
Print Assumptions C05_nonpositive_limit.
(** A cell longer than the limit raises; the records before it are delivered. *)
Theorem C05_oversize_cell_raises D before bad after t limit rq :
  wf_chars D = true -> wf_doc D (mk_doc (before ++ bad :: after) t) = true -> (0 <= limit)%Z ->
  Forall (fun r => Forall (fun s => Z.of_nat (length s) <= limit)%Z (map (raw_cell D) (fst r))) before ->
  Exists (fun s => limit < Z.of_nat (length s))%Z (map (raw_cell D) (fst bad)) ->
  parse_string limit (render D (mk_doc (before ++ bad :: after) t)) (simple D false) rq =
    (mk_rows rq (map (fun r => row_value D (fst r)) before), Some (CleverError EFieldLimit)).
Proof. exact (oversize_cell_raises D before bad after t limit rq). Qed.
Print Assumptions C05_oversize_cell_raises.
(** The same for the last, unterminated record. *)
Theorem C05_oversize_last_raises D rs t limit rq :
  wf_chars D = true -> wf_doc D (mk_doc rs t) = true -> (0 <= limit)%Z ->
  Forall (fun r => Forall (fun s => Z.of_nat (length s) <= limit)%Z (map (raw_cell D) (fst r))) rs ->
  Exists (fun s => limit < Z.of_nat (length s))%Z (raw_cells D (mk_doc [] t)) ->
  parse_string limit (render D (mk_doc rs t)) (simple D false) rq =
    (mk_rows rq (map (fun r => row_value D (fst r)) rs), Some (CleverError EFieldLimit)).
Proof. exact (oversize_last_raises D rs t limit rq). Qed.
Print Assumptions C05_oversize_last_raises.
(** For any input, a lower limit can only cut the result short. *)
Theorem C05_lower_limit_cuts d q e s rq L L' input : (L <= L')%Z ->
  let small := parse_items (mk_pconf d q e L s rq) input in
  let big := parse_items (mk_pconf d q e L' s rq) input in
  small = big \/ exists k, small = (firstn k (fst big), Raised EFieldLimit).
Proof. exact (lower_limit d q e s rq L L' input). Qed.
Print Assumptions C05_lower_limit_cuts.
Example C05_oversize_case :
  let before := [([[PChar 97%N]; []], ELF)] in
  let bad := ([[PChar 97%N]; [PQuoted [QChar 98%N]]], ECRLF) in
  wf_doc ex_D (mk_doc (before ++ [bad]) (TRow [[PChar 99%N]])) = true /\
  Exists (fun s => 2 < Z.of_nat (List.length s))%Z (map (raw_cell ex_D) (fst bad)) /\
  parse_string 2 (render ex_D (mk_doc (before ++ [bad]) (TRow [[PChar 99%N]]))) (simple ex_D false) false
    = ([[CStr [97%N]; CStr []]], Some (CleverError EFieldLimit)).
Proof.
  split; [reflexivity|]. split; [|reflexivity]. apply Exists_cons_tl, Exists_cons_hd. reflexivity.
Qed.

(** ** C06 *)
Theorem C06_quoting_info_irrelevant d q e limit strict input :
  let with_info := parse_items (mk_pconf d q e limit strict true) input in
  let plain := parse_items (mk_pconf d q e limit strict false) input in
  fst plain = map (map (fun c => CStr (cell_str c))) (fst with_info) /\
  snd plain = snd with_info /\
  Forall (Forall (fun c => is_tuple c = true)) (fst with_info).
Proof. exact (quoting_info_irrelevant d q e limit strict input). Qed.
Print Assumptions C06_quoting_info_irrelevant.
Example C06_case :
  parse_items (mk_pconf COMMA DQ 0 9 false true) [ILine (s2l """a"",b"); ILine [NUL]]
  = ([[CTuple (s2l "a") true; CTuple (s2l "b") false]], Raised ENull).
Proof. reflexivity. Qed.

(** ** C07 *)
Theorem C07_composition cf l1 l2 n rows mark :
  nexts_results mem_ops n cf new_parser (l1 ++ [mark]) = map Row rows ->
  nexts_rest mem_ops n cf new_parser (l1 ++ [mark]) = [mark] ->
  parse_items cf (l1 ++ l2) =
    (rows ++ fst (parse_items cf l2), snd (parse_items cf l2)).
Proof. exact (parse_items_compose cf l1 l2 n rows mark). Qed.
Print Assumptions C07_composition.
Example C07_case :
  let cf := mk_pconf COMMA DQ 0 9 false false in
  let l1 := [ILine (s2l "a,""b"); ILine (s2l "c"""); ILine (s2l "d")] in
  nexts_results mem_ops 2 cf new_parser (l1 ++ [IExc])
    = map Row [[CStr (s2l "a"); CStr (s2l "bc")]; [CStr (s2l "d")]] /\
  nexts_rest mem_ops 2 cf new_parser (l1 ++ [IExc]) = [IExc].
Proof. split; reflexivity. Qed.

(** ** C08 *)
Theorem C08_no_text_lost_refuted :
  exists D t, wf_chars D = true /\ no_nul t /\ t <> [] /\
    parse_string 100 t (simple D false) false = ([], None).
Proof. exact dangling_escape_loses_row. Qed.
Print Assumptions C08_no_text_lost_refuted.
(** Without an escape character every ordinary character reaches a cell. *)
Theorem C08_no_text_lost_without_escapechar D t limit rq :
  wf_chars D = true -> no_nul t -> (Z.of_nat (length t) < limit)%Z -> ce D = None ->
  let rows := fst (parse_string limit t (simple D false) rq) in
  filter (ordinary D) (concat (map cell_str (concat rows))) = filter (ordinary D) t /\
  (t <> [] -> rows <> []).
Proof. exact (no_text_lost D t limit rq). Qed.
Print Assumptions C08_no_text_lost_without_escapechar.
Example C08_case :
  parse_string 100 (s2l "a,""b" ++ [LF] ++ s2l "c")
    (simple (mk_chars (Some COMMA) (Some DQ) None) false) false
  = ([[CStr (s2l "a"); CStr (s2l "b" ++ [LF] ++ s2l "c")]], None).
Proof. reflexivity. Qed.

(** ** C09 *)
Theorem C09_escaped_quotes_literal_refuted :
  exists D ps, wf_chars D = true /\ wf_cell D ps = true /\ no_quoted ps = true /\
    literal D ps = s2l """a""" /\
    parse_string 100 (render_cell D ps ++ [LF]) (simple D false) true
      = ([[CTuple (s2l "a") true]], None).
Proof. exact escaped_quotes_stripped. Qed.
Print Assumptions C09_escaped_quotes_literal_refuted.
Theorem C09_escaped_cell_value D ps limit rq :
  wf_chars D = true -> wf_cell D ps = true -> no_quoted ps = true -> ps <> [] ->
  (Z.of_nat (length (literal D ps)) <= limit)%Z ->
  parse_string limit (render_cell D ps ++ [LF]) (simple D false) rq =
    (mk_rows rq [[ if enclosed D (literal D ps)
                   then (removelast (tl (literal D ps)), true)
                   else (literal D ps, false) ]], None).
Proof. exact (escaped_cell_literal D ps limit rq). Qed.
Print Assumptions C09_escaped_cell_value.
Example C09_case :
  let ps := [PEsc DQ; PChar 97%N; PEsc COMMA; PEsc 98%N] in
  wf_cell ex_D ps = true /\ no_quoted ps = true /\ enclosed ex_D (literal ex_D ps) = false /\
  literal ex_D ps = s2l """a,\b".
Proof. repeat split. Qed.

(** ** C10 *)
Theorem C10_strict_rejects_closing_quote D d limit rq :
  wf_chars D = true -> wf_doc D d = true -> has_quoted d = true ->
  Forall (fun s => Z.of_nat (length s) <= limit)%Z (raw_cells D d) ->
  snd (parse_string limit (render D d) (simple D true) rq) = Some (CleverError EQuoteExpected).
Proof. exact (strict_rejects_closing_quote D d limit rq). Qed.
Print Assumptions C10_strict_rejects_closing_quote.
Theorem C10_strict_agrees D t limit rq :
  (forall c, In c t -> is_opt (cq D) c = false /\ is_opt (ce D) c = false) ->
  parse_string limit t (simple D true) rq = parse_string limit t (simple D false) rq.
Proof. exact (strict_agrees D t limit rq). Qed.
Print Assumptions C10_strict_agrees.
Theorem C10_strict_only_cuts_short D t limit rq :
  let st := parse_string limit t (simple D true) rq in
  let lax := parse_string limit t (simple D false) rq in
  st = lax \/
  (exists k, fst st = firstn k (fst lax)) /\
  (snd st = Some (CleverError EQuoteExpected) \/ snd st = Some (CleverError EUnexpectedEnd)).
Proof. exact (strict_prefix D t limit rq). Qed.
Print Assumptions C10_strict_only_cuts_short.
(** The absence of quote characters alone is not enough for agreement. *)
Theorem C10_strict_agrees_without_quotes_refuted :
  exists D t, wf_chars D = true /\ (forall c, In c t -> is_opt (cq D) c = false) /\
    snd (parse_string 100 t (simple D true) false) = Some (CleverError EUnexpectedEnd) /\
    parse_string 100 t (simple D false) false = ([[CStr (s2l "a")]], None).
Proof. exact strict_differs_without_quotes. Qed.
Print Assumptions C10_strict_agrees_without_quotes_refuted.
Example C10_case :
  let d := mk_doc [([[PQuoted [QChar 97%N]]; [PChar 98%N]], ELF)] TEnd in
  wf_doc ex_D d = true /\ has_quoted d = true /\ render ex_D d = s2l """a"",b" ++ [LF].
Proof. repeat split. Qed.

(** ** C11 *)
Theorem C11_cells_come_from_the_text D t limit rq :
  wf_chars D = true -> no_nul t -> (Z.of_nat (length t) < limit)%Z ->
  let cells := concat (map cell_str (concat (fst (parse_string limit t (simple D false) rq)))) in
  subseq cells (t ++ [LF]) /\ (ce D = None -> subseq cells t).
Proof. exact (cells_from_text D t limit rq). Qed.
Print Assumptions C11_cells_come_from_the_text.
Example C11_case :   (* the line feed is really added *)
  parse_string 100 (s2l """a\") (simple ex_D false) false = ([[CStr (97%N :: [LF])]], None).
Proof. reflexivity. Qed.

(** ** C12 *)
Theorem C12_parser_resumes cf n m input :
  nexts_results mem_ops (n + m) cf new_parser input =
    nexts_results mem_ops n cf new_parser input ++
    nexts_results mem_ops m cf new_parser (nexts_rest mem_ops n cf new_parser input).
Proof. exact (parser_resumes cf n m input). Qed.
Print Assumptions C12_parser_resumes.

(** An error stems from one item of the input and leaves the items after it
    unread; it does not depend on them, and is not raised before that item. *)
Theorem C12_error_is_local cf input e :
  nexts_results mem_ops 1 cf new_parser input = [Raise e] -> e <> EUnexpectedEnd ->
  exists before i, input = before ++ i :: nexts_rest mem_ops 1 cf new_parser input /\
    (forall later,
       nexts_results mem_ops 1 cf new_parser (before ++ i :: later) = [Raise e] /\
       nexts_rest mem_ops 1 cf new_parser (before ++ i :: later) = later) /\
    (forall later,
       nexts_results mem_ops 1 cf new_parser (before ++ IExc :: later) = [Raise EIter] /\
       nexts_rest mem_ops 1 cf new_parser (before ++ IExc :: later) = later).
Proof. exact (error_is_local cf input e). Qed.
Print Assumptions C12_error_is_local.
Example C12_case :
  let cf := mk_pconf COMMA DQ 0 9 false false in
  nexts_results mem_ops 5 cf new_parser
    [ILine (s2l "a"); ILine (s2l """b"); ILine [NUL]; INotStr; ILine (s2l "c")]
  = [Row [CStr (s2l "a")]; Raise ENull; Raise ENotStr; Row [CStr (s2l "c")]; Stop].
Proof. reflexivity. Qed.

(** ** C26 *)
Theorem C26_buffer_never_overrun cf n input :
  ~ In (Raise EOverrun) (nexts_results mem_ops n cf new_parser input) /\
  snd (parse_items cf input) <> Raised EOverrun.
Proof. exact (conj (nexts_no_overrun cf n input) (parse_items_no_overrun cf input)). Qed.
Print Assumptions C26_buffer_never_overrun.
Example C26_case :   (* the buffer is really grown: 4096 characters and one more *)
  match mem_add 10000 (mk_membuf (repeat 97%N 4096) 4096%Z) 98%N with
  | Ok b => m_size b = 8192%Z /\ List.length (m_data b) = 4097%nat
  | Err _ => False
  end.
Proof. vm_compute. auto. Qed.
