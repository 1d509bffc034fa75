(** * SimpleFiles: files in simple form are read without a given dialect *)
From Coq Require Import String Permutation.
From Verif Require Import Base Parser Dialect CsvLib Reader Writer Files Wrappers Standardize SpecLayout SpecParse SpecWriter SpecFiles ParserLift
  StandardizeFacts TableFacts Potential SpecPotential SpecNormal NormalForm Consistency DetectFacts Detect Types SpecTypes SpecTables TablesFacts TablesNormal TablesFiles
  SpecQuoted QuotedLayout QuotedDetect QuotedNormal QuotedFiles Simple.
Open Scope N_scope.
Local Notation len := List.length.

(** ** Parsing *)
Section Parse.
Variables (c q : N) (k : nat) (rows : list (list qcell * eol)) (final : option (list qcell)).
Local Notation T := (table_of rows final).
Local Notation D := (mk_chars (Some c) (Some q) None).
Hypothesis Hq : a_quote q.
Hypothesis delim : In c common_delimiters.
Hypothesis table : simple_grid k q T.
Hypothesis no_nul : forall r x, In r T -> In x r -> ~ In NUL (snd x).
Lemma simple_cut r : In r T -> cut_at (Some c) (row_pieces c r) = map cell_pieces r.
Proof.
  intros Hr. apply cut_cells.
  - destruct table as (_ & Hk & HF). rewrite Forall_forall in HF. destruct (HF r Hr) as (Hn & _). intros ->. cbn in Hn. lia.
  - apply Forall_forall. intros x Hx Hi. pose proof (simple_char q k rows final table r x c Hr Hx) as HC. destruct (fst x); [destruct Hi|]. apply HC, elementary_nl in Hi. tauto.
Qed.
Lemma simple_row_ok r : In r T -> prow_ok D (map cell_pieces r).
Proof.
  intros Hr. pose proof (simple_len q k rows final table r Hr) as Hl. assert (Hk : (2 <= k)%nat) by apply table.
  assert (HP : forall cell p, In cell (map cell_pieces r) -> In p cell -> wf_piece D p = true /\ no_esc p).
  { intros cell p Hc Hp. apply in_map_iff in Hc as (x & <- & Hx). pose proof (fun y => simple_char q k rows final table r x y Hr Hx) as HC. pose proof (no_nul r x Hr Hx) as H0.
    unfold cell_pieces in Hp. destruct x as [[|] s]; cbn [fst snd] in *.
    - destruct Hp as [<-|[]]. split.
      + cbn [wf_piece cq is_set andb]. rewrite forallb_forall. intros i Hi. apply in_map_iff in Hi as (y & <- & Hy). cbn [wf_qitem cq ce is_opt negb].
        destruct (HC y Hy) as (H1 & _). assert (H2 : y <> NUL) by (intros ->; contradiction). apply N.eqb_neq in H1, H2. now rewrite H1, H2.
      + cbn [no_esc]. apply Forall_map, Forall_forall. intros y _. now exists y.
    - apply in_map_iff in Hp as (y & <- & Hy). split; [|exact I]. destruct (elementary_nl y (HC y Hy)) as (H1 & H2 & H3 & H4).
      assert (H5 : y <> NUL) by (intros ->; contradiction). assert (H6 : y <> c) by (intros ->; contradiction). assert (H7 : y <> q) by (intros ->; contradiction).
      cbn [wf_piece]. unfold is_nl, special. cbn [cd cq ce is_opt]. apply N.eqb_neq in H1, H2, H5, H6, H7. now rewrite H1, H2, H5, H6, H7. }
  split; [destruct r; [cbn in Hl; lia|discriminate]|]. split.
  - unfold wf_row. apply andb_true_iff. split.
    + rewrite forallb_forall. intros cell Hc. unfold wf_cell. apply andb_true_iff. split.
      * rewrite forallb_forall. intros p Hp. now apply (HP cell p).
      * rewrite <- (simple_cut r Hr) in Hc. now apply (cut_adjacent (Some c) (row_pieces c r)); [apply row_adjacent|].
    + destruct r as [|x [|y r]]; cbn in Hl; try lia. cbn [map]. destruct (cell_pieces x); reflexivity.
  - apply Forall_forall. intros cell Hc. apply Forall_forall. intros p Hp. now apply (HP cell p).
Qed.
Lemma simple_parsed limit : (forall r x, In r T -> In x r -> (Z.of_nat (len (cell_text q x)) <= limit)%Z) ->
  parse_string limit (quoted_text c q rows final) (dialect3 [c] [q] []) false = (map (map (fun x : qcell => CStr (snd x))) T, None).
Proof.
  intros Hl. destruct (common_nl c delim) as (H1 & H2 & H3 & H0).
  assert (Hcq : c <> q) by (intros ->; contradiction).
  assert (HD : wf_chars D = true).
  { apply N.eqb_neq in H0, H1, H2, Hcq. unfold wf_chars, char_ok, is_nl, distinct_opt. cbn [cd cq ce]. rewrite H0, H1, H2, Hcq. destruct Hq as [->| ->]; reflexivity. }
  assert (HR : Forall (prow_ok D) (table_of (map (fun r => (cut_at (Some c) (row_pieces c (fst r)), snd r)) rows) (option_map (fun r => cut_at (Some c) (row_pieces c r)) final))).
  { rewrite qdoc_table. apply Forall_map, Forall_forall. intros r Hr. rewrite (simple_cut r Hr). now apply simple_row_ok. }
  rewrite <- (qdoc_render D q c rows final eq_refl). change (dialect3 [c] [q] []) with (simple D false). change (cd D) with (Some c).
  rewrite parse_string_layout; [|exact HD|unfold qdoc; now apply pieces_doc_wf|].
  - unfold qdoc. rewrite (pieces_doc_denote D) by exact HR. rewrite qdoc_table, map_map. f_equal. unfold mk_rows. rewrite map_map. apply map_ext_in. intros r Hr.
    rewrite (simple_cut r Hr), !map_map. apply map_ext_in. intros x Hx. rewrite (cell_pieces_value D q x eq_refl); [reflexivity|]. now apply (simple_no_q q k rows final Hq table r).
  - apply Forall_forall. intros x Hx. apply (raw_qdoc c q rows final x simple_cut) in Hx as (r & y & Hr & Hy & ->). now apply (Hl r).
Qed.
End Parse.

Lemma bare_parsed c k rows final limit : In c common_delimiters ->
  table_of rows final <> [] /\ (2 <= k)%nat /\ Forall (fun r => len r = k /\ Forall (over elementary) r) (table_of rows final) ->
  (forall r s, In r (table_of rows final) -> In s r -> (Z.of_nat (len s) <= limit)%Z) ->
  parse_string limit (table_text c rows final) (dialect3 [c] [] []) false = (map (map CStr) (table_of rows final), None).
Proof.
  intros Hd (Hn & Hk & HF) Hl. apply (table_parsed (fun _ => []) c k); [| |exact Hl].
  - assert (HD : default_delimiter (fun _ => []) c).
    { right. split; [|intros H; cbn in H; intuition discriminate]. intros H. destruct (common_nl c Hd) as (H1 & H2 & H3 & _). unfold a_quote in H3. unfold CR in H1. unfold LF in H2.
      cbn in Hd, H. unfold COMMA, SEMI, TAB in Hd. intuition (subst; try discriminate; try congruence). }
    split; [exact HD|]. unfold quote_like. repeat (destruct Hd as [<-|Hd]; [repeat split; try discriminate; intros H; cbn in H; intuition discriminate|]). destruct Hd.
  - split; [exact Hn|]. split; [exact Hk|]. eapply Forall_impl; [|exact HF]. cbn beta. intros r (Hr & HC). split; [exact Hr|]. eapply Forall_impl; [|exact HC].
    intros x Hx. unfold over in Hx. eapply Forall_impl; [|exact Hx]. intros y Hy. destruct (elementary_nl y Hy) as (H1 & H2 & H3 & H4).
    split; [intros ->; contradiction|]. pose proof (elementary_not y [NUL; CR; LF; 123] Hy eq_refl) as K1. pose proof (elementary_not y [39; 34; 126; 96] Hy eq_refl) as K2.
    split; [exact K1|]. split; [exact K2|]. clear - Hy. assert (HA : forallb (fun y => negb (surrogate y)) elementary = true) by (vm_compute; reflexivity).
    rewrite forallb_forall in HA. specialize (HA y Hy). now apply negb_true_iff.
Qed.

(** ** Files *)
Section Files.
Variables (cat : N -> str) (url : str -> str -> option nat) (known : str -> bool -> res pyexc bool) (O : orders) (o_set : list SimpleDialect -> list SimpleDialect).
Variables (E : env) (method : method_arg) (skip : bool) (s : dstate).
Hypothesis HM : In method [MStr (s2l "normal"); MEnum NORMAL; MStr (s2l "auto"); MEnum AUTO].
Hypothesis HE : forall sample, e_detect E sample = fst (detector_detect cat url known O o_set sample None method skip s).

Theorem bare_file f h p encoding cod b c k rows final e nc :
  open_text E f p encoding = Ok (cod, b) -> cd_decode cod b = (table_text c rows final, true) ->
  In c common_delimiters -> table_of rows final <> [] -> (2 <= k)%nat -> Forall (fun r => len r = k /\ Forall (over elementary) r) (table_of rows final) ->
  (forall r, In r rows -> snd r = e) -> ~ escape_suspect cat common_delimiters (table_text c rows final) ->
  head_chars nc (table_text c rows final) = table_text c rows final ->
  (forall r s, In r (table_of rows final) -> In s r -> (Z.of_nat (len s) <= e_limit E)%Z) ->
  read_table E f h p None encoding nc = Ok (map (map CStr) (table_of rows final)).
Proof.
  intros Hop Hb Hd Hn Hk HF Hs Hx Hc Hl. assert (HT := conj Hn (conj Hk HF)).
  pose proof (bare_simple cat c k rows final e Hd HT Hs Hx) as HB.
  assert (He : e_detect E (head_chars nc (table_text c rows final)) = Ok (Some (dialect3 [c] [] []))).
  { rewrite Hc, HE. now rewrite (normal_method cat url known O o_set _ _ method skip s HB HM). }
  unfold read_table. rewrite (num_chars_detection E f h p encoding cod b _ nc _ Hop Hb He eq_refl).
  unfold file_rows, text_items. rewrite Hb.
  change (parse_data (e_limit E) (map ILine (univ_lines (table_text c rows final))) (Some (dialect3 [c] [] [])) None None None None false)
    with (parse_string (e_limit E) (table_text c rows final) (dialect3 [c] [] []) false).
  now rewrite (bare_parsed c k rows final (e_limit E) Hd HT Hl).
Qed.
Theorem simple_file f h p encoding cod b c q k rows final e nc :
  open_text E f p encoding = Ok (cod, b) -> cd_decode cod b = (quoted_text c q rows final, true) ->
  a_quote q -> In c common_delimiters -> simple_grid k q (table_of rows final) -> simple_quotes (table_of rows final) ->
  (forall r, In r rows -> snd r = e) -> ~ escape_suspect cat common_delimiters (quoted_text c q rows final) ->
  (forall r x, In r (table_of rows final) -> In x r -> ~ In NUL (snd x)) ->
  head_chars nc (quoted_text c q rows final) = quoted_text c q rows final ->
  (forall r x, In r (table_of rows final) -> In x r -> (Z.of_nat (len (cell_text q x)) <= e_limit E)%Z) ->
  read_table E f h p None encoding nc = Ok (map (map (fun x : qcell => CStr (snd x))) (table_of rows final)).
Proof.
  intros Hop Hb Hq Hd HG HQ Hs Hx H0 Hc Hl. pose proof (quoted_simple cat c q k rows final e Hq Hd HG Hs HQ Hx) as HB.
  assert (He : e_detect E (head_chars nc (quoted_text c q rows final)) = Ok (Some (dialect3 [c] [q] []))).
  { rewrite Hc, HE. now rewrite (normal_method cat url known O o_set _ _ method skip s HB HM). }
  unfold read_table. rewrite (num_chars_detection E f h p encoding cod b _ nc _ Hop Hb He eq_refl).
  unfold file_rows, text_items. rewrite Hb.
  change (parse_data (e_limit E) (map ILine (univ_lines (quoted_text c q rows final))) (Some (dialect3 [c] [q] [])) None None None None false)
    with (parse_string (e_limit E) (quoted_text c q rows final) (dialect3 [c] [q] []) false).
  now rewrite (simple_parsed c q k rows final Hq Hd HG H0 (e_limit E) Hl).
Qed.
Theorem simple_round_trip f h h' (table : list (list value)) p dialect encoding cod w e c q k :
  new_writer (e_registry E) h dialect [] = Ok w -> wd_delim w = c -> wd_skipspace w = false -> wd_term w = render_eol e ->
  wd_quoting w <> QUOTE_NONE -> wd_quote w = Some q -> a_quote q -> In c common_delimiters ->
  simple_grid k q (map (map (as_written (wd_quoting w) c)) table) ->
  all_cells (fun x => fst x = false) (map (map (as_written (wd_quoting w) c)) table) \/ simple_quotes (map (map (as_written (wd_quoting w) c)) table) ->
  (forall r v, In r table -> In v r -> ~ In NUL (value_str v) /\ (forall x, wd_escape w = Some x -> ~ In x (value_str v)) /\
     (Z.of_nat (len (value_str v)) + 2 <= e_limit E)%Z) ->
  wd_escape w <> Some c ->
  ~ escape_suspect cat common_delimiters (written_text (wd_quoting w) c q e table) ->
  e_codec E (Some encoding) = Ok cod -> lawful cod ->
  (exists b, cd_encode cod (written_text (wd_quoting w) c q e table) = Some b) ->
  exists f', write_table E f h table p dialect false (Some encoding) = (f', None) /\ same_fs_but [p] f' f /\
    (exists b, f' p = Some b /\ cd_encode cod (written_text (wd_quoting w) c q e table) = Some b) /\
    read_table E f' h' p None (Some encoding) None = Ok (as_read table).
Proof.
  intros Hw <- Hsk Ht Hqt Hqq Hq Hd HG HQ HV Hec Hx Hc Hl Henc. set (c := wd_delim w) in *.
  set (rows := map (fun r => (map (as_written (wd_quoting w) c) r, e)) table) in *.
  assert (ET : table_of rows None = map (map (as_written (wd_quoting w) c)) table).
  { unfold table_of, rows. rewrite app_nil_r, map_map. apply map_ext. reflexivity. }
  rewrite <- ET in HG, HQ.
  assert (Hcell : forall r x, In r (table_of rows None) -> In x r -> exists r0 v, In r0 table /\ In v r0 /\ x = as_written (wd_quoting w) c v).
  { intros r x Hr Hxr. rewrite ET in Hr. apply in_map_iff in Hr as (r0 & <- & Hr0). apply in_map_iff in Hxr as (v & <- & Hv). now exists r0, v. }
  assert (Hin : forall r v, In r table -> In v r -> exists r', In r' (table_of rows None) /\ In (as_written (wd_quoting w) c v) r').
  { intros r v Hr Hv. exists (map (as_written (wd_quoting w) c) r). rewrite ET. split; now apply in_map. }
  destruct (common_nl c Hd) as (Hc1 & Hc2 & Hc3 & Hc0). assert (Hcq : c <> q) by (intros E0; apply Hc3; now rewrite E0).
  assert (HR : forall r, In r table -> len r = k).
  { intros r Hr. rewrite <- (map_length (as_written (wd_quoting w) c)). apply (simple_len q k rows None HG). rewrite ET. now apply in_map. }
  assert (Hne : table <> []).
  { intros E0. apply (proj1 HG). rewrite ET, E0. reflexivity. }
  assert (EW : writerows w table = (written_text (wd_quoting w) c q e table, None)).
  { apply rows_careful; [exact Hqt|exact Hqq|exact Hec|exact Hcq|exact Hsk|exact Ht|].
    apply Forall_forall. intros r Hr. split; [rewrite (HR r Hr); apply HG|]. apply Forall_forall. intros v Hv. destruct (HV r v Hr Hv) as (_ & Hes & _).
    destruct (Hin r v Hr Hv) as (r' & Hr' & Hv'). pose proof (fun y => simple_char q k rows None HG r' _ y Hr' Hv') as HC. unfold as_written in HC. cbn [fst snd] in HC.
    unfold careful. apply Forall_forall. intros y Hy. destruct (N.eq_dec y c) as [Ey|Ey]; [left; exact Ey|right].
    assert (Hyy : y <> q /\ y <> CR /\ y <> LF).
    { specialize (HC y Hy). destruct (_ || _)%bool; [exact HC|]. destruct (elementary_nl y HC) as (K1 & K2 & K3 & _). split; [|split; assumption]. intros E0. apply K3. now rewrite E0. }
    destruct Hyy as (H2 & H3 & H4). unfold w_special. fold c. apply N.eqb_neq in Ey. rewrite Ey, Ht, Hqq.
    assert (H1 : opt_is (wd_escape w) y = false).
    { unfold opt_is. destruct (wd_escape w) as [z|] eqn:Ez; [|reflexivity]. apply N.eqb_neq. intros ->. now apply (Hes z eq_refl). }
    assert (H2' : opt_is (Some q) y = false) by (cbn; apply N.eqb_neq; congruence). apply N.eqb_neq in H3, H4.
    rewrite H1, H2', H3, H4. cbn [orb]. destruct e; cbn; rewrite ?H3, ?H4; reflexivity. }
  destruct Henc as [b Hb].
  destruct (write_table_rect E f h table p dialect false (Some encoding) cod w k _ b Hne HR Hc Hl Hw EW Hb) as (f' & H5 & H6).
  exists f'. split; [exact H5|]. split.
  { intros x Hnx. rewrite H6. unfold upd. destruct (N.eqb_spec x p) as [->|]; [elim Hnx; now left|reflexivity]. }
  assert (Hfp : f' p = Some b) by (rewrite (H6 p); unfold upd; now rewrite N.eqb_refl).
  split; [exists b; split; [exact Hfp|exact Hb]|].
  assert (HOt : open_text E f' p (Some encoding) = Ok (cod, b)) by (unfold open_text; rewrite Hfp; now rewrite Hc).
  destruct Hl as (Hl & _).
  assert (Hsame : forall r, In r rows -> snd r = e) by (intros r Hr; unfold rows in Hr; apply in_map_iff in Hr as (r0 & <- & _); reflexivity).
  destruct HQ as [HQ|HQ].
  - unfold all_cells in HQ. rewrite Forall_forall in HQ.
    assert (Hno : forall r v, In r table -> In v r -> fst (as_written (wd_quoting w) c v) = false).
    { intros r v Hr Hv. destruct (Hin r v Hr Hv) as (r' & Hr' & Hv'). specialize (HQ r' Hr'). rewrite Forall_forall in HQ. now apply HQ. }
    set (rows' := map (fun r => (map value_str r, e)) table).
    assert (EP : written_text (wd_quoting w) c q e table = table_text c rows' None).
    { unfold written_text, quoted_text, rows'. cbn [option_map]. rewrite map_map. cbn [fst snd]. f_equal. apply map_ext_in. intros r Hr. f_equal. rewrite map_map. apply map_ext_in.
      intros v Hv. unfold cell_text. now rewrite (Hno r v Hr Hv). }
    assert (ET' : table_of rows' None = map (map value_str) table).
    { unfold table_of, rows'. rewrite app_nil_r, map_map. apply map_ext. reflexivity. }
    rewrite EP in Hb, Hx.
    rewrite (bare_file f' h' p (Some encoding) cod b c k rows' None e None HOt (Hl _ _ Hb) Hd); try reflexivity.
    + rewrite ET'. unfold as_read. rewrite map_map. f_equal. apply map_ext. intros r. now rewrite map_map.
    + rewrite ET'. intros E0. apply map_eq_nil in E0. contradiction.
    + apply HG.
    + rewrite ET'. apply Forall_map, Forall_forall. intros r Hr. split; [rewrite map_length; now apply HR|]. apply Forall_map, Forall_forall. intros v Hv.
      destruct (Hin r v Hr Hv) as (r' & Hr' & Hv'). unfold over. apply Forall_forall. intros y Hy. pose proof (simple_char q k rows None HG r' _ y Hr' Hv' Hy) as HC.
      rewrite (Hno r v Hr Hv) in HC. exact HC.
    + intros r Hr. unfold rows' in Hr. apply in_map_iff in Hr as (r0 & <- & _). reflexivity.
    + exact Hx.
    + rewrite ET'. intros r x Hr Hi. apply in_map_iff in Hr as (r0 & <- & Hr0). apply in_map_iff in Hi as (v & <- & Hv). destruct (HV r0 v Hr0 Hv) as (_ & _ & HLv). lia.
  - rewrite (simple_file f' h' p (Some encoding) cod b c q k rows None e None HOt (Hl _ _ Hb) Hq Hd HG HQ Hsame Hx); [|  |reflexivity|].
    + rewrite ET. unfold as_read. rewrite map_map. f_equal. apply map_ext. intros r1. now rewrite map_map.
    + intros r1 x1 Hr1 Hx1. destruct (Hcell r1 x1 Hr1 Hx1) as (r0 & v & Hr0 & Hv & ->). exact (proj1 (HV r0 v Hr0 Hv)).
    + intros r1 x1 Hr1 Hx1. destruct (Hcell r1 x1 Hr1 Hx1) as (r0 & v & Hr0 & Hv & ->). destruct (HV r0 v Hr0 Hv) as (_ & _ & HLv). unfold cell_text, as_written. cbn [fst snd].
      destruct (_ || _)%bool; cbn [List.length]; rewrite ?app_length; cbn [List.length]; lia.
Qed.
End Files.

(** ** Two common styles *)
Lemma all_written style c (table : list (list value)) k q : style = QUOTE_ALL -> table <> [] -> (2 <= k)%nat ->
  (forall r, In r table -> len r = k) -> (forall r v, In r table -> In v r -> Forall (fun y => y <> q /\ y <> CR /\ y <> LF) (value_str v)) ->
  simple_grid k q (map (map (as_written style c)) table) /\ simple_quotes (map (map (as_written style c)) table).
Proof.
  intros -> Hn Hk HR HV. split.
  - split; [intros E0; apply map_eq_nil in E0; contradiction|]. split; [exact Hk|]. apply Forall_map, Forall_forall. intros r Hr. split; [rewrite map_length; now apply HR|].
    apply Forall_map, Forall_forall. intros v Hv. exact (HV r v Hr Hv).
  - left. apply Forall_map, Forall_forall. intros r Hr. apply Forall_map, Forall_forall. intros v Hv. reflexivity.
Qed.
Lemma minimal_written style c (table : list (list value)) k q : style = QUOTE_MINIMAL -> (2 <= len table)%nat -> (2 <= k)%nat -> In c common_delimiters ->
  (forall r, In r table -> len r = k) ->
  (forall r v, In r table -> In v r -> value_str v <> [] /\ (over elementary (value_str v) \/ In c (value_str v) /\ Forall (fun y => y <> q /\ y <> CR /\ y <> LF) (value_str v))) ->
  simple_grid k q (map (map (as_written style c)) table) /\
  (all_cells (fun x => fst x = false) (map (map (as_written style c)) table) \/ simple_quotes (map (map (as_written style c)) table)).
Proof.
  intros -> Hn Hk Hc HR HV. set (T := map (map (as_written QUOTE_MINIMAL c)) table). split.
  - split; [intros E0; apply map_eq_nil in E0; rewrite E0 in Hn; cbn in Hn; lia|]. split; [exact Hk|]. apply Forall_map, Forall_forall. intros r Hr. split; [rewrite map_length; now apply HR|].
    apply Forall_map, Forall_forall. intros v Hv. destruct (HV r v Hr Hv) as (_ & [H|(Hi & H)]); unfold simple_cell, as_written; cbn [asks_quotes orb fst snd].
    + assert (E0 : has_char c (value_str v) = false).
      { unfold has_char. destruct (existsb _ _) eqn:E0; [|reflexivity]. apply existsb_exists in E0 as (y & Hy & E0). apply N.eqb_eq in E0. subst y. unfold over in H. rewrite Forall_forall in H.
        destruct (elementary_nl c (H c Hy)) as (_ & _ & _ & K). contradiction. }
      rewrite E0. exact H.
    + assert (E0 : has_char c (value_str v) = true) by (apply existsb_exists; exists c; split; [exact Hi|apply N.eqb_refl]). rewrite E0. exact H.
  - destruct (existsb (existsb (fun x : qcell => fst x)) T) eqn:E0.
    + right. right. split; [unfold T; now rewrite map_length|]. split.
      * apply Forall_map, Forall_forall. intros r Hr. apply Forall_map, Forall_forall. intros v Hv. exact (proj1 (HV r v Hr Hv)).
      * apply existsb_exists in E0 as (r & Hr & E0). apply existsb_exists in E0 as ([b x] & Hx & E0). cbn in E0. subst b. now exists r, x.
    + left. apply Forall_forall. intros r Hr. apply Forall_forall. intros x Hx. destruct (fst x) eqn:Ex; [|reflexivity]. rewrite <- E0. symmetry.
      apply existsb_exists. exists r. split; [exact Hr|]. apply existsb_exists. now exists x.
Qed.
Section Styles.
Variables (cat : N -> str) (url : str -> str -> option nat) (known : str -> bool -> res pyexc bool) (O : orders) (o_set : list SimpleDialect -> list SimpleDialect).
Variables (E : env) (method : method_arg) (skip : bool) (s : dstate).
Hypothesis HM : In method [MStr (s2l "normal"); MEnum NORMAL; MStr (s2l "auto"); MEnum AUTO].
Hypothesis HE : forall sample, e_detect E sample = fst (detector_detect cat url known O o_set sample None method skip s).
Theorem simple_styles f h h' (table : list (list value)) p dialect encoding cod w e c q k :
  new_writer (e_registry E) h dialect [] = Ok w -> wd_delim w = c -> wd_skipspace w = false -> wd_term w = render_eol e ->
  wd_quote w = Some q -> a_quote q -> In c common_delimiters -> table <> [] -> (2 <= k)%nat -> (forall r, In r table -> len r = k) ->
  (wd_quoting w = QUOTE_ALL /\ (forall r v, In r table -> In v r -> Forall (fun y => y <> q /\ y <> CR /\ y <> LF) (value_str v))) \/
  (wd_quoting w = QUOTE_MINIMAL /\ (2 <= len table)%nat /\ (forall r v, In r table -> In v r ->
     value_str v <> [] /\ (over elementary (value_str v) \/ In c (value_str v) /\ Forall (fun y => y <> q /\ y <> CR /\ y <> LF) (value_str v)))) ->
  (forall r v, In r table -> In v r -> ~ In NUL (value_str v) /\ (forall x, wd_escape w = Some x -> ~ In x (value_str v)) /\
     (Z.of_nat (len (value_str v)) + 2 <= e_limit E)%Z) ->
  wd_escape w <> Some c ->
  ~ escape_suspect cat common_delimiters (written_text (wd_quoting w) c q e table) ->
  e_codec E (Some encoding) = Ok cod -> lawful cod ->
  (exists b, cd_encode cod (written_text (wd_quoting w) c q e table) = Some b) ->
  exists f', write_table E f h table p dialect false (Some encoding) = (f', None) /\ same_fs_but [p] f' f /\
    (exists b, f' p = Some b /\ cd_encode cod (written_text (wd_quoting w) c q e table) = Some b) /\
    read_table E f' h' p None (Some encoding) None = Ok (as_read table).
Proof.
  intros Hw Hwc Hsk Ht Hqq Hq Hd Hn Hk HR HS. 
  assert (K : wd_quoting w <> QUOTE_NONE /\ simple_grid k q (map (map (as_written (wd_quoting w) c)) table) /\
    (all_cells (fun x => fst x = false) (map (map (as_written (wd_quoting w) c)) table) \/ simple_quotes (map (map (as_written (wd_quoting w) c)) table))).
  { destruct HS as [(HA & HV)|(HA & H2 & HV)]; (split; [rewrite HA; discriminate|]).
    - destruct (all_written (wd_quoting w) c table k q HA Hn Hk HR HV) as (K1 & K2). split; [exact K1|now right].
    - exact (minimal_written (wd_quoting w) c table k q HA H2 Hk Hd HR HV). }
  destruct K as (K1 & K2 & K3).
  exact (simple_round_trip cat url known O o_set E method skip s HM HE f h h' table p dialect encoding cod w e c q k Hw Hwc Hsk Ht K1 Hqq Hq Hd K2 K3).
Qed.
End Styles.
