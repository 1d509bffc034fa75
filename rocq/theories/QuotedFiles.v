(** * QuotedFiles: files with quoted cells are read without a given dialect *)
From Coq Require Import String Permutation.
From Verif Require Import Base Parser Dialect CsvLib Reader Writer Files Wrappers Standardize SpecLayout SpecParse SpecWriter SpecFiles ParserLift
  StandardizeFacts TableFacts Potential SpecPotential Consistency DetectFacts Detect Types SpecTypes TypesAll TypesUrl SpecTables TablesFacts TablesNormal TablesFiles
  SpecQuoted QuotedLayout QuotedDetect QuotedWords QuotedNormal.
Open Scope N_scope.
Local Notation len := List.length.
Local Notation valid_method m := (forall v, m = MStr v -> In v [s2l "auto"; s2l "normal"; s2l "consistency"]).

(** ** All methods *)
Section Auto.
Variable U : unidata.
Local Notation cat := (u_cat U).
Hypothesis uni : unicode_like cat.
Hypothesis isd : forall x, digit cat x -> u_isdigit U x = true.
Variables (c q : N) (k : nat) (rows : list (list qcell * eol)) (final : option (list qcell)) (O : orders) (o_set : list SimpleDialect -> list SimpleDialect).
Local Notation T := (table_of rows final).
Local Notation text := (quoted_text c q rows final).
Lemma auto_quoted method skip s : a_quote q -> quote_kept U q -> plain_delimiter cat c -> quoted_grid k (qcell_ok c) T ->
  (forall r x, In r T -> In x r -> exists name P, In (name, P) (types U (fst x)) /\ P (strip U (snd x))) -> no_quoted_escapes cat q text ->
  (forall d, d <> c -> In d text -> default_delimiter cat d -> outdone k (per_row_bare d T) /\ outdone k (per_row_all d T)) ->
  unquoted_delimiter c T \/ uneven k (per_row_all c T) ->
  (Z.of_nat (len text) < 2 ^ 50)%Z -> any_orders O -> (forall l, Permutation (o_set l) l) -> valid_method method ->
  exists s', detector_detect cat (shipped_url U) (is_known_type U) O o_set text None method skip s = (Ok (Some (dialect3 [c] [q] [])), s') /\ st_limit s' = st_limit s.
Proof.
  intros Hq Hk Hd Hg Hn He Ho Hi Hl HO Hp HM. apply method_detected; [|intros capacity old; now apply (quoted_detected U uni isd c q k)|exact HM].
  exact (quoted_answer U c q k rows final Hq Hd Hg).
Qed.
Lemma auto_words method skip s : a_quote q -> quote_kept U q -> plain_delimiter cat c -> ~ escape_like cat c ->
  quoted_grid k (qword cat c) T -> unquoted_delimiter c T \/ uneven k (per_row_all c T) ->
  (Z.of_nat (len text) < 2 ^ 50)%Z -> any_orders O -> (forall l, Permutation (o_set l) l) -> valid_method method ->
  exists s', detector_detect cat (shipped_url U) (is_known_type U) O o_set text None method skip s = (Ok (Some (dialect3 [c] [q] [])), s') /\ st_limit s' = st_limit s.
Proof.
  intros Hq Hk Hd He Hg Hi Hl HO Hp HM. apply method_detected; [|intros capacity old; now apply (words_detected U uni isd c q k)|exact HM].
  exact (quoted_answer U c q k rows final Hq Hd (words_grid U uni c k rows final Hd Hg)).
Qed.
End Auto.

(** ** Parsing *)
Section Parse.
Variable cat : N -> str.
Variables (c q : N) (k : nat) (rows : list (list qcell * eol)) (final : option (list qcell)).
Local Notation T := (table_of rows final).
Local Notation D := (mk_chars (Some c) (Some q) None).
Lemma raw_pieces (x : qcell) : raw_cell D (cell_pieces x) = cell_text q x.
Proof.
  unfold raw_cell, cell_pieces, cell_text. destruct x as [[|] s]; cbn [fst snd].
  - cbn [map List.concat]. rewrite app_nil_r. cbn [piece_value]. now rewrite qitems_value_plain.
  - induction s as [|y s IH]; [reflexivity|]. cbn in *. now rewrite IH.
Qed.
Lemma raw_qdoc x : (forall r, In r T -> cut_at (Some c) (row_pieces c r) = map cell_pieces r) ->
  In x (raw_cells D (qdoc (Some c) c rows final)) -> exists r y, In r T /\ In y r /\ x = cell_text q y.
Proof.
  intros HC. unfold raw_cells, qdoc, pieces_doc. cbn [records SpecLayout.last]. rewrite in_app_iff.
  assert (K : forall r, In r T -> In x (map (raw_cell D) (cut_at (Some c) (row_pieces c r))) -> exists r y, In r T /\ In y r /\ x = cell_text q y).
  { intros r Hr H. rewrite HC, map_map in H by exact Hr. apply in_map_iff in H as (y & <- & Hy). exists r, y. rewrite raw_pieces. now split. }
  intros [H|H].
  - apply in_concat in H as (l & Hl & Hx). rewrite map_map in Hl. apply in_map_iff in Hl as ([r e] & <- & Hr). cbn [fst] in Hx.
    apply (K r); [|exact Hx]. unfold table_of. apply in_or_app. left. apply in_map_iff. now exists (r, e).
  - revert K H. clear. unfold table_of. destruct final as [r|]; intros K H; [|destruct H]. cbn [option_map] in H. apply (K r); [|exact H]. apply in_or_app. right. now left.
Qed.
Lemma quoted_parsed U limit : u_cat U = cat -> a_quote q -> plain_delimiter cat c -> quoted_grid k (qcell_ok c) T ->
  (forall r x, In r T -> In x r -> (Z.of_nat (len (cell_text q x)) <= limit)%Z) ->
  parse_string limit (quoted_text c q rows final) (dialect3 [c] [q] []) false = (map (map (fun x : qcell => CStr (snd x))) T, None).
Proof.
  intros EU Hq Hd Hg Hl. rewrite <- EU in Hd.
  assert (HC : forall r, In r T -> cut_at (Some c) (row_pieces c r) = map cell_pieces r).
  { intros r Hr. apply cut_cells.
    - destruct Hg as (Hk & HF & _). rewrite Forall_forall in HF. destruct (HF r Hr) as (Hn & _). intros ->. cbn in Hn. lia.
    - apply Forall_forall. intros x Hx Hi. destruct (fst x) eqn:E; [destruct Hi|]. exact (proj2 (cell_inner c k rows final Hg r x c Hr Hx Hi) E eq_refl). }
  pose proof Hd as (Hdd & Hcq & _ & H0 & _). destruct (default_not_nl U c Hdd) as (H1 & H2).
  assert (Hcq' : c <> q) by (intros E; apply Hcq; rewrite E; unfold quote_like; destruct Hq as [->| ->]; cbn; tauto).
  assert (HD : wf_chars D = true).
  { apply N.eqb_neq in H0, H1, H2, Hcq'. unfold wf_chars, char_ok, is_nl, distinct_opt. cbn [cd cq ce]. rewrite H0, H1, H2, Hcq'. destruct Hq as [->| ->]; reflexivity. }
  assert (HR : Forall (prow_ok D) (table_of (map (fun r => (cut_at (Some c) (row_pieces c (fst r)), snd r)) rows) (option_map (fun r => cut_at (Some c) (row_pieces c r)) final))).
  { rewrite qdoc_table. apply Forall_map, Forall_forall. intros r Hr. apply (quoted_row_ok U c q k rows final Hq Hd Hg (Some c) r Hr). congruence. }
  rewrite <- (qdoc_render D q c rows final eq_refl). change (dialect3 [c] [q] []) with (simple D false). change (cd D) with (Some c).
  rewrite parse_string_layout; [|exact HD|unfold qdoc; now apply pieces_doc_wf|].
  - unfold qdoc. rewrite (pieces_doc_denote D) by exact HR. rewrite qdoc_table, map_map. f_equal. unfold mk_rows. rewrite map_map. apply map_ext_in. intros r Hr.
    rewrite HC, !map_map by exact Hr. apply map_ext_in. intros x Hx. now rewrite (value_of U c q k rows final Hq Hg r x Hr Hx).
  - apply Forall_forall. intros x Hx. apply (raw_qdoc x HC) in Hx as (r & y & Hr & Hy & ->). now apply (Hl r).
Qed.
End Parse.

(** ** Writing *)
Section Write.
Variables (w : wdialect) (e : eol) (q : N).
Local Notation c := (wd_delim w).
Hypothesis quoting : wd_quoting w <> QUOTE_NONE.
Hypothesis quote : wd_quote w = Some q.
Hypothesis escape : wd_escape w <> Some c.
Hypothesis differ : c <> q.
Hypothesis skip : wd_skipspace w = false.
Hypothesis term : wd_term w = render_eol e.
Definition careful (s : str) : Prop := Forall (fun x => x = c \/ w_special w x = false) s.
Lemma char_delim b : w_char w b c = Ok ([c], true).
Proof.
  unfold w_char. assert (E : w_special w c = true) by (unfold w_special; now rewrite N.eqb_refl). rewrite E.
  assert (E1 : opt_is (wd_quote w) c = false) by (rewrite quote; cbn; now apply N.eqb_neq).
  assert (E2 : opt_is (wd_escape w) c = false).
  { unfold opt_is. destruct (wd_escape w) as [x|] eqn:Ex; [|reflexivity]. apply N.eqb_neq. intros E0. apply escape. congruence. }
  rewrite E1, E2. destruct (wd_quoting w); try reflexivity. now destruct quoting.
Qed.
Lemma field_careful b s : careful s -> w_field w b s = Ok (s, b || has_char c s)%bool.
Proof.
  revert b. induction s as [|x s IH]; intros b H; [cbn; now rewrite orb_false_r|]. pose proof (Forall_inv H) as Hx. pose proof (Forall_inv_tail H) as Hs.
  cbn [w_field]. destruct (N.eq_dec x c) as [->|Hn].
  - rewrite char_delim. cbn [bind]. rewrite IH by exact Hs. cbn [bind has_char existsb app]. rewrite N.eqb_refl, !orb_true_r. reflexivity.
  - destruct Hx as [Hx|Hx]; [congruence|]. unfold w_char. rewrite Hx. cbn [bind]. rewrite IH by exact Hs. cbn [bind has_char existsb app].
    assert (E : (c =? x) = false) by (apply N.eqb_neq; congruence). now rewrite E.
Qed.
Lemma append_careful first v : careful (value_str v) ->
  w_append w first (w_quoted w v) (value_str v) = Ok ((if first then [] else [c]) ++ cell_text q (as_written (wd_quoting w) c v)).
Proof.
  intros H. unfold w_append. assert (E : w_empty w (w_quoted w v) (value_str v) = Ok (w_quoted w v)).
  { unfold w_empty. rewrite skip, andb_false_r. now destruct (value_str v). }
  rewrite E. cbn [bind]. rewrite field_careful by exact H. cbn [bind]. unfold as_written, cell_text, w_quote_str. rewrite quote. cbn [fst snd].
  change (w_quoted w v) with (asks_quotes (wd_quoting w) v). destruct (asks_quotes (wd_quoting w) v || has_char c (value_str v))%bool; reflexivity.
Qed.
Lemma fields_careful row : Forall (fun v => careful (value_str v)) row ->
  w_fields w false row = Ok (List.concat (map (fun v => c :: cell_text q (as_written (wd_quoting w) c v)) row)).
Proof.
  induction row as [|v row IH]; intros H; [reflexivity|]. cbn [w_fields]. rewrite append_careful by exact (Forall_inv H). cbn [bind].
  rewrite IH by exact (Forall_inv_tail H). reflexivity.
Qed.
Lemma join_careful (f : value -> str) v row : join [c] (map f (v :: row)) = f v ++ List.concat (map (fun v => c :: f v) row).
Proof.
  revert v. induction row as [|v' row IH]; intros v; [cbn; now rewrite app_nil_r|].
  change (join [c] (map f (v :: v' :: row))) with (f v ++ [c] ++ join [c] (map f (v' :: row))). now rewrite IH.
Qed.
Lemma row_careful row : (2 <= len row)%nat -> Forall (fun v => careful (value_str v)) row ->
  csv_writerow w row = Ok (join [c] (map (cell_text q) (map (as_written (wd_quoting w) c) row)) ++ render_eol e).
Proof.
  intros Hl H. destruct row as [|v [|v' row]]; cbn in Hl; try lia. unfold csv_writerow.
  change (w_fields w true (v :: v' :: row)) with (bind (w_append w true (w_quoted w v) (value_str v)) (fun t => bind (w_fields w false (v' :: row)) (fun t' => Ok (t ++ t')))).
  rewrite append_careful by exact (Forall_inv H). rewrite fields_careful by exact (Forall_inv_tail H). cbn [bind app].
  rewrite map_map, (join_careful (fun v => cell_text q (as_written (wd_quoting w) c v))), <- term.
  destruct (cell_text q (as_written (wd_quoting w) c v)); reflexivity.
Qed.
Lemma rows_careful rows : Forall (fun r => (2 <= len r)%nat /\ Forall (fun v => careful (value_str v)) r) rows ->
  writerows w rows = (written_text (wd_quoting w) c q e rows, None).
Proof.
  intros H. unfold writerows. assert (E : csv_writerows w rows = (written_text (wd_quoting w) c q e rows, None)).
  { unfold written_text, quoted_text, table_text. cbn [option_map]. rewrite app_nil_r, !map_map. cbn [fst snd]. induction H as [|r rows (Hl & Hr) _ IH]; [reflexivity|].
    cbn [csv_writerows]. rewrite row_careful by assumption. rewrite IH. reflexivity. }
  now rewrite E.
Qed.
End Write.

(** ** Files *)
Section Files.
Variable U : unidata.
Local Notation cat := (u_cat U).
Hypothesis uni : unicode_like cat.
Hypothesis ascii : ascii_like cat.
Hypothesis isd : forall x, digit cat x -> u_isdigit U x = true.
Variables (O : orders) (o_set : list SimpleDialect -> list SimpleDialect).
Hypothesis HO : any_orders O.
Hypothesis Ho : forall l, Permutation (o_set l) l.
Variables (E : env) (method : method_arg) (skip : bool) (s : dstate).
Hypothesis HM : valid_method method.
Hypothesis HE : forall sample, e_detect E sample = fst (detector_detect cat (shipped_url U) (is_known_type U) O o_set sample None method skip s).

Lemma quoted_file f h p encoding cod b c q k rows final nc :
  open_text E f p encoding = Ok (cod, b) -> cd_decode cod b = (quoted_text c q rows final, true) ->
  a_quote q -> plain_delimiter cat c -> quoted_grid k (qcell_ok c) (table_of rows final) ->
  (forall r x, In r (table_of rows final) -> In x r -> (Z.of_nat (len (cell_text q x)) <= e_limit E)%Z) ->
  e_detect E (head_chars nc (quoted_text c q rows final)) = Ok (Some (dialect3 [c] [q] [])) ->
  read_table E f h p None encoding nc = Ok (map (map (fun x : qcell => CStr (snd x))) (table_of rows final)).
Proof.
  intros Hop Hb Hq Hd Hg Hl He. unfold read_table. rewrite (num_chars_detection E f h p encoding cod b _ nc _ Hop Hb He eq_refl).
  unfold file_rows, text_items. rewrite Hb.
  change (parse_data (e_limit E) (map ILine (univ_lines (quoted_text c q rows final))) (Some (dialect3 [c] [q] [])) None None None None false)
    with (parse_string (e_limit E) (quoted_text c q rows final) (dialect3 [c] [q] []) false).
  now rewrite (quoted_parsed cat c q k rows final U (e_limit E) eq_refl Hq Hd Hg Hl).
Qed.
Theorem quoted_read f h p encoding cod b c q k rows final nc :
  open_text E f p encoding = Ok (cod, b) -> cd_decode cod b = (quoted_text c q rows final, true) ->
  a_quote q -> quote_kept U q -> plain_delimiter cat c -> quoted_grid k (qcell_ok c) (table_of rows final) ->
  (forall r x, In r (table_of rows final) -> In x r -> exists name P, In (name, P) (types U (fst x)) /\ P (strip U (snd x))) ->
  no_quoted_escapes cat q (quoted_text c q rows final) ->
  (forall d, d <> c -> In d (quoted_text c q rows final) -> default_delimiter cat d ->
     outdone k (per_row_bare d (table_of rows final)) /\ outdone k (per_row_all d (table_of rows final))) ->
  unquoted_delimiter c (table_of rows final) \/ uneven k (per_row_all c (table_of rows final)) ->
  (Z.of_nat (len (quoted_text c q rows final)) < 2 ^ 50)%Z -> head_chars nc (quoted_text c q rows final) = quoted_text c q rows final ->
  (forall r x, In r (table_of rows final) -> In x r -> (Z.of_nat (len (cell_text q x)) <= e_limit E)%Z) ->
  read_table E f h p None encoding nc = Ok (map (map (fun x : qcell => CStr (snd x))) (table_of rows final)).
Proof.
  intros Hf Hb Hq Hk Hd Hg Hn He Hx Hi Hl Hc Hs. apply (quoted_file f h p encoding cod b c q k rows final nc Hf Hb Hq Hd Hg Hs).
  rewrite Hc, HE. destruct (auto_quoted U uni isd c q k rows final O o_set method skip s Hq Hk Hd Hg Hn He Hx Hi Hl HO Ho HM) as (s' & ED & _). now rewrite ED.
Qed.
Lemma words_file f h p encoding cod b c q k rows final :
  open_text E f p encoding = Ok (cod, b) -> cd_decode cod b = (quoted_text c q rows final, true) ->
  a_quote q -> quote_kept U q -> plain_delimiter cat c -> ~ escape_like cat c -> quoted_grid k (qword cat c) (table_of rows final) ->
  unquoted_delimiter c (table_of rows final) \/ uneven k (per_row_all c (table_of rows final)) ->
  (Z.of_nat (len (quoted_text c q rows final)) < 2 ^ 50)%Z ->
  (forall r x, In r (table_of rows final) -> In x r -> (Z.of_nat (len (cell_text q x)) <= e_limit E)%Z) ->
  read_table E f h p None encoding None = Ok (map (map (fun x : qcell => CStr (snd x))) (table_of rows final)).
Proof.
  intros Hf Hb Hq Hk Hd He Hg Hi Hl Hs. apply (quoted_file f h p encoding cod b c q k rows final None Hf Hb Hq Hd (words_grid U uni c k rows final Hd Hg) Hs).
  change (head_chars None (quoted_text c q rows final)) with (quoted_text c q rows final).
  rewrite HE. destruct (auto_words U uni isd c q k rows final O o_set method skip s Hq Hk Hd He Hg Hi Hl HO Ho HM) as (s' & ED & _). now rewrite ED.
Qed.
Theorem quoted_round_trip f h h' (table : list (list value)) p dialect encoding cod w e c q k :
  table <> [] -> (2 <= k)%nat -> (forall r, In r table -> len r = k) ->
  (forall r v, In r table -> In v r -> words_in cat c (value_str v) /\ (Z.of_nat (len (value_str v)) + 2 <= e_limit E)%Z) ->
  (forall r v, In r table -> In v r -> ~ In c (value_str v)) \/ uneven k (per_row c (map (map value_str) table)) ->
  new_writer (e_registry E) h dialect [] = Ok w -> wd_delim w = c -> wd_skipspace w = false -> wd_term w = render_eol e ->
  wd_quoting w <> QUOTE_NONE -> wd_quote w = Some q -> a_quote q -> quote_kept U q ->
  (forall x, wd_escape w = Some x -> x <> c /\ ~ plain_char cat x) ->
  plain_delimiter cat c -> ~ escape_like cat c ->
  e_codec E (Some encoding) = Ok cod -> lawful cod ->
  (exists b, cd_encode cod (written_text (wd_quoting w) c q e table) = Some b) ->
  (Z.of_nat (len (written_text (wd_quoting w) c q e table)) < 2 ^ 50)%Z ->
  exists f', write_table E f h table p dialect false (Some encoding) = (f', None) /\ same_fs_but [p] f' f /\
    (exists b, f' p = Some b /\ cd_encode cod (written_text (wd_quoting w) c q e table) = Some b) /\
    read_table E f' h' p None (Some encoding) None = Ok (as_read table).
Proof.
  intros Hne Hk HR HW Hin Hw <- Hsk Ht Hqt Hqq Hq Hkp Hx Hd He Hc Hl Henc Hlen. set (c := wd_delim w) in *.
  set (rows := map (fun r => (map (as_written (wd_quoting w) c) r, e)) table) in *.
  assert (ET : table_of rows None = map (map (as_written (wd_quoting w) c)) table).
  { unfold table_of, rows. rewrite app_nil_r, map_map. apply map_ext. reflexivity. }
  assert (Hql : quote_like q) by (unfold quote_like; destruct Hq as [->| ->]; cbn; tauto).
  assert (Hcq : c <> q) by (pose proof Hd as (_ & H & _); intros E0; apply H; now rewrite E0).
  assert (Hpq : ~ plain_char cat q).
  { intros H. destruct (plain_cell_char U uni c q (proj1 Hd) H) as (_ & _ & H' & _). contradiction. }
  assert (HR' : rectangular k table) by exact HR.
  assert (EW : writerows w table = (written_text (wd_quoting w) c q e table, None)).
  { apply rows_careful; [exact Hqt|exact Hqq| |exact Hcq|exact Hsk|exact Ht|].
    - intros Ee. destruct (Hx _ Ee) as (H & _). now apply H.
    - apply Forall_forall. intros r Hr. split; [rewrite (HR r Hr); exact Hk|]. apply Forall_forall. intros v Hv. destruct (HW r v Hr Hv) as (Hwv & _).
      unfold careful. eapply Forall_impl; [|exact Hwv]. intros x [Hp|(-> & _)]; [right|now left].
      destruct (plain_cell_char U uni c x (proj1 Hd) Hp) as (Hxc & Hb & _).
      unfold w_special. fold c. apply N.eqb_neq in Hxc. rewrite Hxc, Ht, Hqq.
      assert (H1 : opt_is (wd_escape w) x = false).
      { unfold opt_is. destruct (wd_escape w) as [y|] eqn:Ey; [|reflexivity]. apply N.eqb_neq. intros ->. now apply (proj2 (Hx y eq_refl)). }
      assert (H2 : opt_is (Some q) x = false) by (cbn; apply N.eqb_neq; intros ->; contradiction).
      assert (x <> CR /\ x <> LF) as (H3 & H4) by (split; intros ->; apply Hb; cbn; tauto). apply N.eqb_neq in H3, H4.
      rewrite H1, H2, H3, H4. cbn [orb]. destruct e; cbn; rewrite ?H3, ?H4; reflexivity. }
  destruct Henc as [b Hb].
  destruct (write_table_rect E f h table p dialect false (Some encoding) cod w k _ b Hne HR' Hc Hl Hw EW Hb) as (f' & H5 & H6).
  exists f'. split; [exact H5|]. split.
  { intros x Hnx. rewrite H6. unfold upd. destruct (N.eqb_spec x p) as [->|]; [elim Hnx; now left|reflexivity]. }
  assert (Hfp : f' p = Some b) by (rewrite (H6 p); unfold upd; now rewrite N.eqb_refl).
  split; [exists b; split; [exact Hfp|exact Hb]|].
  assert (HOt : open_text E f' p (Some encoding) = Ok (cod, b)) by (unfold open_text; rewrite Hfp; now rewrite Hc).
  destruct Hl as (Hl & _).
  assert (Hcell : forall r x, In r (table_of rows None) -> In x r -> exists r0 v, In r0 table /\ In v r0 /\ x = as_written (wd_quoting w) c v).
  { intros r x Hr Hxr. rewrite ET in Hr. apply in_map_iff in Hr as (r0 & <- & Hr0). apply in_map_iff in Hxr as (v & <- & Hv). now exists r0, v. }
  destruct (existsb (existsb (fun x : qcell => fst x)) (table_of rows None)) eqn:Eq.
  - apply existsb_exists in Eq as (r & Hr & Eq). apply existsb_exists in Eq as (x & Hxr & Eq).
    assert (HG : quoted_grid k (qword cat c) (table_of rows None)).
    { split; [exact Hk|]. split.
      - apply Forall_forall. intros r1 Hr1. split.
        + rewrite ET in Hr1. apply in_map_iff in Hr1 as (r0 & <- & Hr0). rewrite map_length. now apply HR.
        + apply Forall_forall. intros x1 Hx1. destruct (Hcell r1 x1 Hr1 Hx1) as (r0 & v & Hr0 & Hv & ->). destruct (HW r0 v Hr0 Hv) as (Hwv & _).
          unfold qword, as_written. cbn [fst snd]. apply Forall_forall. intros y Hy. unfold words_in in Hwv. rewrite Forall_forall in Hwv. destruct (Hwv y Hy) as [H|(-> & H)]; [now left|right].
          split; [|now split]. assert (E0 : has_char c (value_str v) = true) by (apply existsb_exists; exists c; split; [exact Hy|apply N.eqb_refl]). rewrite E0. apply orb_true_r.
      - exists r, (snd x). split; [exact Hr|]. rewrite <- Eq, <- surjective_pairing. exact Hxr. }
    rewrite (words_file f' h' p (Some encoding) cod b c q k rows None HOt (Hl _ _ Hb) Hq Hkp Hd He HG); [| |exact Hlen|].
    + rewrite ET. unfold as_read. rewrite map_map. f_equal. apply map_ext. intros r1. now rewrite map_map.
    + destruct Hin as [Hin|Hin]; [left|right].
      * intros r1 s1 Hr1 Hs1. destruct (Hcell r1 _ Hr1 Hs1) as (r0 & v & Hr0 & Hv & E1). injection E1 as _ ->. now apply (Hin r0).
      * unfold per_row_all. rewrite ET, map_map. erewrite map_ext; [exact Hin|]. intros r1. rewrite map_map. apply map_ext. reflexivity.
    + intros r1 x1 Hr1 Hx1. destruct (Hcell r1 x1 Hr1 Hx1) as (r0 & v & Hr0 & Hv & ->). destruct (HW r0 v Hr0 Hv) as (_ & HLv). unfold cell_text, as_written. cbn [fst snd].
      destruct (_ || _)%bool; cbn [List.length]; rewrite ?app_length; cbn [List.length]; lia.
  - assert (Hno : forall r v, In r table -> In v r -> fst (as_written (wd_quoting w) c v) = false).
    { intros r v Hr Hv. destruct (fst (as_written (wd_quoting w) c v)) eqn:E0; [|reflexivity]. rewrite <- Eq. symmetry. apply existsb_exists.
      exists (map (as_written (wd_quoting w) c) r). split; [rewrite ET; now apply in_map|]. apply existsb_exists. exists (as_written (wd_quoting w) c v). split; [now apply in_map|exact E0]. }
    assert (EP : written_text (wd_quoting w) c q e table = table_text c (map (fun r => (map value_str r, e)) table) None).
    { unfold written_text, quoted_text. cbn [option_map]. rewrite map_map. cbn [fst snd]. f_equal. apply map_ext_in. intros r Hr. f_equal. rewrite map_map. apply map_ext_in.
      intros v Hv. unfold cell_text. now rewrite (Hno r v Hr Hv). }
    assert (ET' : table_of (map (fun r => (map value_str r, e)) table) None = map (map value_str) table).
    { unfold table_of. rewrite app_nil_r, map_map. apply map_ext. reflexivity. }
    assert (HG : grid k (plain_char cat) (table_of (map (fun r => (map value_str r, e)) table) None)).
    { rewrite ET'. split; [intros E0; apply map_eq_nil in E0; now apply Hne|]. split; [exact Hk|]. apply Forall_map, Forall_forall. intros r Hr. split; [rewrite map_length; now apply HR|].
      apply Forall_map, Forall_forall. intros v Hv. destruct (HW r v Hr Hv) as (Hwv & _). apply Forall_forall. intros y Hy. unfold words_in in Hwv. rewrite Forall_forall in Hwv.
      destruct (Hwv y Hy) as [H|(-> & H)]; [exact H|]. exfalso. specialize (Hno r v Hr Hv). unfold as_written in Hno. cbn [fst] in Hno. apply orb_false_iff in Hno as (_ & Hno).
      assert (E0 : has_char c (value_str v) = true) by (apply existsb_exists; exists c; split; [exact Hy|apply N.eqb_refl]). congruence. }
    rewrite EP in Hb, Hlen.
    rewrite (plain_read U uni ascii isd O o_set HO Ho E method skip s HM HE f' h' p (Some encoding) cod b c k _ None None HOt (Hl _ _ Hb) Hd He HG Hlen eq_refl).
    + rewrite ET'. unfold as_read. rewrite map_map. f_equal. apply map_ext. intros r. now rewrite map_map.
    + rewrite ET'. intros r x Hr Hi. apply in_map_iff in Hr as (r0 & <- & Hr0). apply in_map_iff in Hi as (v & <- & Hv). destruct (HW r0 v Hr0 Hv) as (_ & HLv). lia.
Qed.
End Files.
