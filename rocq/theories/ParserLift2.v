(** * ParserLift2: the limit and strictness theorems at the level of parse_string *)
From Coq Require Import String.
From Verif Require Import Base Parser Dialect SpecLayout SpecParse SpecText ParserFacts LayoutFacts
  LayoutLimit ParserLimit LayoutMore StrictFacts ParserProps.

Lemma fits_spec L s : fits L s = true <-> (Z.of_nat (length s) <= L)%Z.
Proof. apply Z.leb_le. Qed.

Lemma fitting_split D L before bad after :
  Forall (fun r => Forall (fun s => Z.of_nat (length s) <= L)%Z (map (raw_cell D) (fst r))) before ->
  Exists (fun s => L < Z.of_nat (length s))%Z (map (raw_cell D) (fst bad)) ->
  fitting D L (before ++ bad :: after) = before.
Proof.
  induction 1 as [|r before H _ IH]; intros Hb; cbn [app fitting].
  - destruct (forallb _ _) eqn:E; [|reflexivity]. exfalso.
    rewrite forallb_forall in E. apply Exists_exists in Hb as (x & Hx & Hl).
    apply E, fits_spec in Hx. lia.
  - replace (forallb _ _) with true; [now rewrite IH|]. symmetry. apply forallb_forall.
    intros x Hx. rewrite Forall_forall in H. now apply fits_spec, H.
Qed.

Theorem oversize_cell_raises D before bad after t limit rq :
  wf_chars D = true -> wf_doc D (mk_doc (before ++ bad :: after) t) = true -> (0 <= limit)%Z ->
  Forall (fun r => Forall (fun s => Z.of_nat (length s) <= limit)%Z (map (raw_cell D) (fst r))) before ->
  Exists (fun s => limit < Z.of_nat (length s))%Z (map (raw_cell D) (fst bad)) ->
  parse_string limit (render D (mk_doc (before ++ bad :: after) t)) (simple D false) rq =
    (mk_rows rq (map (fun r => row_value D (fst r)) before), Some (CleverError EFieldLimit)).
Proof.
  intros HD Hw H0 Hb Hx. rewrite parse_string_conf, parse_layout_fail; auto.
  - cbn [records]. now rewrite fitting_split.
  - now apply fits_spec.
  - destruct (forallb _ _) eqn:E; [|reflexivity]. exfalso. rewrite forallb_forall in E.
    apply Exists_exists in Hx as (x & Hx & Hl).
    assert (In x (raw_cells D (mk_doc (before ++ bad :: after) t))).
    { unfold raw_cells. apply in_or_app. left. cbn [records]. rewrite map_app, concat_app.
      apply in_or_app. right. cbn [map concat]. apply in_or_app. now left. }
    apply E, fits_spec in H. lia.
Qed.

Lemma fitting_all D L rs :
  Forall (fun r => Forall (fun s => Z.of_nat (length s) <= L)%Z (map (raw_cell D) (fst r))) rs ->
  fitting D L rs = rs.
Proof.
  induction 1 as [|r rs H _ IH]; [reflexivity|]. cbn [fitting].
  replace (forallb _ _) with true; [now rewrite IH|]. symmetry. apply forallb_forall.
  intros x Hx. rewrite Forall_forall in H. now apply fits_spec, H.
Qed.

Theorem oversize_last_raises D rs t limit rq :
  wf_chars D = true -> wf_doc D (mk_doc rs t) = true -> (0 <= limit)%Z ->
  Forall (fun r => Forall (fun s => Z.of_nat (length s) <= limit)%Z (map (raw_cell D) (fst r))) rs ->
  Exists (fun s => limit < Z.of_nat (length s))%Z (raw_cells D (mk_doc [] t)) ->
  parse_string limit (render D (mk_doc rs t)) (simple D false) rq =
    (mk_rows rq (map (fun r => row_value D (fst r)) rs), Some (CleverError EFieldLimit)).
Proof.
  intros HD Hw H0 Hb Hx. rewrite parse_string_conf, parse_layout_fail; auto.
  - cbn [records]. now rewrite fitting_all.
  - now apply fits_spec.
  - destruct (forallb _ _) eqn:E; [|reflexivity]. exfalso. rewrite forallb_forall in E.
    apply Exists_exists in Hx as (x & Hx & Hl).
    assert (In x (raw_cells D (mk_doc rs t))).
    { unfold raw_cells in *. apply in_or_app. right. exact Hx. }
    apply E, fits_spec in H. lia.
Qed.

(** Strict mode only ever cuts the result short. *)
Theorem strict_prefix D t limit rq :
  let st := parse_string limit t (simple D true) rq in
  let lax := parse_string limit t (simple D false) rq in
  st = lax \/
  (exists k, fst st = firstn k (fst lax)) /\
  (snd st = Some (CleverError EQuoteExpected) \/ snd st = Some (CleverError EUnexpectedEnd)).
Proof.
  cbn zeta. rewrite !parse_string_conf. unfold parse_text, conf.
  destruct (strict_cuts (opt_n (cd D)) (opt_n (cq D)) (opt_n (ce D)) rq limit
    (map ILine (univ_lines t))) as [E|(k & x & E & Hx)]; rewrite E; [now left|right].
  cbn [py_result fst snd]. split; [now exists k|]. destruct Hx as [-> | ->]; auto.
Qed.

Theorem nonpositive_limit cf input row c : (field_limit cf <= 0)%Z ->
  In row (fst (parse_items cf input)) -> In c row -> cell_str c = [].
Proof.
  intros H0 Hr Hc. pose proof (cells_within_limit cf input row c Hr Hc) as H.
  destruct (cell_str c); [reflexivity|]. cbn [length] in H. lia.
Qed.

(** Witnesses. *)
Theorem dangling_escape_loses_row :
  exists D t, wf_chars D = true /\ no_nul t /\ t <> [] /\
    parse_string 100 t (simple D false) false = ([], None).
Proof.
  exists (mk_chars (Some COMMA) (Some DQ) (Some PIPE)), (s2l "a,b,|").
  split; [reflexivity|]. split; [|split; [discriminate|reflexivity]].
  unfold no_nul. rewrite <- mem_char_false. reflexivity.
Qed.

Theorem escaped_quotes_stripped :
  exists D ps, wf_chars D = true /\ wf_cell D ps = true /\ no_quoted ps = true /\
    literal D ps = s2l """a""" /\
    parse_string 100 (render_cell D ps ++ [LF]) (simple D false) true
      = ([[CTuple (s2l "a") true]], None).
Proof.
  exists (mk_chars (Some COMMA) (Some DQ) (Some BACKSLASH)), [PEsc DQ; PChar 97%N; PEsc DQ].
  repeat split.
Qed.

Theorem strict_differs_without_quotes :
  exists D t, wf_chars D = true /\ (forall c, In c t -> is_opt (cq D) c = false) /\
    snd (parse_string 100 t (simple D true) false) = Some (CleverError EUnexpectedEnd) /\
    parse_string 100 t (simple D false) false = ([[CStr (s2l "a")]], None).
Proof.
  exists (mk_chars (Some COMMA) (Some DQ) (Some BACKSLASH)), (s2l "a\").
  repeat split. cbn. intuition (subst; reflexivity).
Qed.
