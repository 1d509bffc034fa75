(** * ParamFacts *)
From Verif Require Import Base Parser Dialect CsvLib Reader Writer SpecLayout SpecParse SpecWriter
  SpecParams ParserFacts LayoutFacts ParserLift RoundTrip ReaderFacts.

Lemma fold_params ps : forall c, fold_left set_wparam ps c =
  mk_csvdialect (chosen wp_delimiter ps (cv_delimiter c)) (chosen wp_quotechar ps (cv_quotechar c))
    (chosen wp_escapechar ps (cv_escapechar c)) (chosen wp_doublequote ps (cv_doublequote c))
    (chosen wp_skip ps (cv_skipinitialspace c)) (chosen wp_lineterminator ps (cv_lineterminator c))
    (chosen wp_quoting ps (cv_quoting c))
    (cv_strict (fold_left set_wparam ps c)).
Proof.
  induction ps as [|p ps IH]; intros c; [now destruct c|]. cbn [fold_left chosen].
  rewrite IH at 1. destruct c, p; reflexivity.
Qed.

Lemma dialect_new_ok c w : dialect_new c = Ok w ->
  cv_delimiter c = Some [wd_delim w] /\ cv_quotechar c = one_or_none (wd_quote w) /\
  cv_escapechar c = one_or_none (wd_escape w) /\ cv_doublequote c = wd_doublequote w /\
  cv_skipinitialspace c = wd_skipspace w /\ cv_lineterminator c = Some (wd_term w) /\
  cv_quoting c = wd_quoting w /\ (wd_quoting w <> QUOTE_NONE -> wd_quote w <> None).
Proof.
  destruct c as [dl q e dq sk lt qt st]. unfold dialect_new. cbn.
  destruct dl as [[|d [|]]|]; try discriminate.
  destruct q as [[|q [|]]|]; cbn; try discriminate;
  destruct e as [[|e [|]]|]; cbn; try discriminate;
  destruct qt; try discriminate; destruct lt; try discriminate;
  intros [= <-]; cbn; repeat split; congruence.
Qed.

(** The dialect used by a writer. *)
Theorem writer_params reg h dialect ps w : new_writer reg h dialect ps = Ok w ->
  exists c, writer_base reg h dialect c /\
    Some [wd_delim w] = chosen wp_delimiter ps (cv_delimiter c) /\
    one_or_none (wd_quote w) = chosen wp_quotechar ps (cv_quotechar c) /\
    one_or_none (wd_escape w) = chosen wp_escapechar ps (cv_escapechar c) /\
    wd_doublequote w = chosen wp_doublequote ps (cv_doublequote c) /\
    wd_skipspace w = chosen wp_skip ps (cv_skipinitialspace c) /\
    wd_term w = or_else (chosen wp_lineterminator ps (cv_lineterminator c)) [LF] /\
    wd_quoting w = chosen wp_quoting ps (cv_quoting c).
Proof.
  unfold new_writer, make_python_dialect. intros H.
  assert (HB : exists c, writer_base reg h dialect c /\
    bind (bind (Ok c) (fun d => let props := fold_left set_wparam ps d in
       Ok (match cv_lineterminator props with
           | None => set_wparam props (WLineterminator (Some [LF]))
           | Some _ => props end))) dialect_new = Ok w).
  { destruct dialect; cbn [writer_base]; try discriminate; eauto.
    - destruct (reg name) eqn:E; [eauto|discriminate].
    - destruct (to_csv_dialect (deref h a)) eqn:E; [eauto|discriminate]. }
  destruct HB as (c & HB & HW). exists c. split; [exact HB|]. cbn [bind] in HW.
  rewrite fold_params in HW. cbn [cv_lineterminator] in HW.
  destruct (chosen wp_lineterminator ps (cv_lineterminator c)) eqn:EL; cbn [or_else set_wparam] in *;
    apply dialect_new_ok in HW as (A1 & A2 & A3 & A4 & A5 & A6 & A7 & _); cbn in *;
    repeat split; congruence.
Qed.

(** The object a reader ends up with. *)
Theorem reader_params ps : forall sd,
  fold_left set_param ps sd =
  mk_dialect (chosen rp_delimiter ps (sd_delimiter sd)) (chosen rp_quotechar ps (sd_quotechar sd))
    (chosen rp_escapechar ps (sd_escapechar sd)) (chosen rp_strict ps (sd_strict sd)).
Proof.
  induction ps as [|p ps IH]; intros sd; [now destruct sd|]. cbn [fold_left chosen].
  rewrite IH. destruct sd, p; reflexivity.
Qed.

Theorem parse_data_params limit input dialect d q e st rq :
  parse_data limit input dialect d q e st rq =
  (let base := match dialect with Some x => x | None => dialect3 [] [] [] end in
   parse_data limit input
     (Some (mk_dialect (match d with Some _ => d | None => sd_delimiter base end)
                       (match q with Some _ => q | None => sd_quotechar base end)
                       (match e with Some _ => e | None => sd_escapechar base end)
                       (match st with Some b => b | None => sd_strict base end)))
     None None None None rq).
Proof. destruct dialect, d, q, e, st; reflexivity. Qed.

(** Round trip for any writer that quotes, however its dialect was put together. *)
Theorem any_writer_roundtrip reg h dialect ps w q rows limit :
  new_writer reg h dialect ps = Ok w ->
  let D := mk_chars (Some (wd_delim w)) (Some q) (wd_escape w) in
  wd_quote w = Some q -> wd_doublequote w = true -> wd_quoting w <> QUOTE_NONE ->
  In (wd_term w) [[LF]; [CR]; [CR; LF]] -> wf_chars D = true -> readable limit rows ->
  exists text, writerows w rows = (text, None) /\
    parse_string limit text (simple D false) false = (as_read rows, None).
Proof.
  intros _ D Hq Hdq Hqt Ht HD Hr.
  assert (He : exists e, term_eol (wd_term w) = Some e).
  { cbn in Ht. destruct Ht as [<-|[<-|[<-|[]]]]; eexists; reflexivity. }
  destruct He as [e He].
  destruct (written_reads_back w q e HD Hq Hdq Hqt He rows limit Hr) as (text & H1 & H2).
  exists text. split; [unfold writerows; now rewrite H1|exact H2].
Qed.
