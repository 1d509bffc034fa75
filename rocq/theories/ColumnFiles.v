(** * ColumnFiles: files of one column are read without a given dialect *)
From Coq Require Import String Permutation.
From Verif Require Import Base Parser Dialect CsvLib Reader Writer Files Wrappers SpecLayout SpecParse SpecWriter SpecFiles StandardizeFacts TableFacts Potential SpecPotential SpecNormal NormalForm
  Consistency DetectFacts Detect Console ConsoleFacts SpecTables TablesFiles SpecQuoted Simple SimpleFiles SpecColumn Columns.
Open Scope N_scope.
Local Notation len := List.length.

(** ** Writing *)
Section Write.
Variables (w : wdialect) (e : eol).
Hypothesis term : wd_term w = render_eol e.
Definition untouched (s : str) : Prop := forall x, In x s -> x <> CR /\ x <> LF /\ wd_delim w <> x /\ wd_quote w <> Some x /\ wd_escape w <> Some x.
Lemma untouched_field b s : untouched s -> w_field w b s = Ok (s, b).
Proof.
  revert b. induction s as [|x s IH]; intros b H; [reflexivity|]. cbn [w_field]. destruct (H x (or_introl eq_refl)) as (H1 & H2 & H3 & H4 & H5).
  assert (E : w_special w x = false).
  { unfold w_special. assert (E1 : (x =? wd_delim w) = false) by (apply N.eqb_neq; congruence).
    assert (E2 : opt_is (wd_escape w) x = false) by (unfold opt_is; destruct (wd_escape w); [apply N.eqb_neq; congruence|reflexivity]).
    assert (E3 : opt_is (wd_quote w) x = false) by (unfold opt_is; destruct (wd_quote w); [apply N.eqb_neq; congruence|reflexivity]).
    apply N.eqb_neq in H1, H2. rewrite E1, E2, E3, term, H1, H2. destruct e; cbn; rewrite ?H1, ?H2; reflexivity. }
  unfold w_char. rewrite E. cbn [bind]. rewrite IH; [reflexivity|]. intros y Hy. apply H. now right.
Qed.
Definition cell_of (v : value) : str := if asks_quotes (wd_quoting w) v then w_quote_str w ++ value_str v ++ w_quote_str w else value_str v.
Lemma column_row v : untouched (value_str v) -> wd_skipspace w = false -> cell_of v <> [] -> csv_writerow w [v] = Ok (cell_of v ++ render_eol e).
Proof.
  intros H Hs Hn. unfold csv_writerow. cbn [w_fields]. unfold w_append.
  assert (E : w_empty w (w_quoted w v) (value_str v) = Ok (w_quoted w v)) by (unfold w_empty; rewrite Hs, andb_false_r; now destruct (value_str v)).
  rewrite E. cbn [bind]. rewrite untouched_field by exact H. cbn [bind app]. rewrite app_nil_r.
  change (w_quoted w v) with (asks_quotes (wd_quoting w) v). rewrite term.
  assert (G : forall (z : str) (X : res pyexc str), z <> [] -> match z with [] => X | _ :: _ => Ok (z ++ render_eol e) end = Ok (z ++ render_eol e)) by (intros [|x z] X Hz; [congruence|reflexivity]).
  apply G. exact Hn.
Qed.
Lemma column_written column : wd_skipspace w = false -> (forall v, In v column -> untouched (value_str v) /\ cell_of v <> []) ->
  writerows w (map (fun v => [v]) column) = (column_text (map (fun v => (cell_of v, e)) column) None, None).
Proof.
  intros Hs H. unfold writerows. assert (E : csv_writerows w (map (fun v => [v]) column) = (column_text (map (fun v => (cell_of v, e)) column) None, None)).
  { unfold column_text. rewrite app_nil_r, map_map. cbn [fst snd]. induction column as [|v column IH]; [reflexivity|]. destruct (H v (or_introl eq_refl)) as (H1 & H2).
    cbn [map csv_writerows List.concat]. rewrite column_row by assumption. rewrite IH; [reflexivity|]. intros x Hx. apply H. now right. }
  now rewrite E.
Qed.
End Write.

Section Files.
Variables (cat : N -> str) (url : str -> str -> option nat) (known : str -> bool -> res pyexc bool) (O : orders) (o_set : list SimpleDialect -> list SimpleDialect).
Variables (E : env) (method : method_arg) (skip : bool) (s : dstate).
Hypothesis HM : In method [MStr (s2l "normal"); MEnum NORMAL; MStr (s2l "auto"); MEnum AUTO].
Hypothesis HE : forall sample, e_detect E sample = fst (detector_detect cat url known O o_set sample None method skip s).

Lemma sampled_file f h p encoding cod b text D nc rows : open_text E f p encoding = Ok (cod, b) -> cd_decode cod b = (text, true) ->
  detect_dialect_normal cat (head_chars nc text) utf8 None = Ok (Some D) -> validate D = true ->
  parse_string (e_limit E) text D false = (rows, None) -> read_table E f h p None encoding nc = Ok rows.
Proof.
  intros Hop Hb HN HV HP. assert (He : e_detect E (head_chars nc text) = Ok (Some D)).
  { rewrite HE. now rewrite (normal_method cat url known O o_set _ _ method skip s HN HM). }
  unfold read_table. rewrite (num_chars_detection E f h p encoding cod b _ nc _ Hop Hb He HV). unfold file_rows, text_items. rewrite Hb.
  change (parse_data (e_limit E) (map ILine (univ_lines text)) (Some D) None None None None false) with (parse_string (e_limit E) text D false). now rewrite HP.
Qed.
Lemma normal_file f h p encoding cod b text D nc rows : open_text E f p encoding = Ok (cod, b) -> cd_decode cod b = (text, true) ->
  head_chars nc text = text -> detect_dialect_normal cat text utf8 None = Ok (Some D) -> validate D = true ->
  parse_string (e_limit E) text D false = (rows, None) -> read_table E f h p None encoding nc = Ok rows.
Proof.
  intros Hop Hb Hc HN. rewrite <- Hc in HN at 1. exact (sampled_file f h p encoding cod b text D nc rows Hop Hb HN).
Qed.
Theorem column_file f h p encoding cod b rows final e nc :
  open_text E f p encoding = Ok (cod, b) -> cd_decode cod b = (column_text rows final, true) ->
  (2 <= len (column_of rows final))%nat -> (forall r, In r rows -> snd r = e) ->
  (forall s, In s (column_of rows final) -> s <> [] /\ over word s /\ (Z.of_nat (len s) <= e_limit E)%Z) ->
  head_chars nc (column_text rows final) = column_text rows final ->
  read_table E f h p None encoding nc = Ok (map (fun s => [CStr s]) (column_of rows final)).
Proof.
  intros Hop Hb H2 He HW Hc. apply (normal_file f h p encoding cod b _ (dialect3 [] [] []) nc _ Hop Hb Hc); [|reflexivity|].
  - apply (plain_column cat rows final e H2 He). intros x Hx. destruct (HW x Hx) as (K1 & K2 & _). now split.
  - now apply plain_parsed.
Qed.
Theorem quoted_column_file f h p encoding cod b q rows final e nc : a_quote q ->
  open_text E f p encoding = Ok (cod, b) -> cd_decode cod b = (quoted_column q rows final, true) ->
  (2 <= len (column_of rows final))%nat -> (forall r, In r rows -> snd r = e) ->
  (forall s, In s (column_of rows final) -> over (SPACE :: word) s /\ (Z.of_nat (len s) + 2 <= e_limit E)%Z) ->
  ~ escape_suspect cat common_delimiters (quoted_column q rows final) ->
  head_chars nc (quoted_column q rows final) = quoted_column q rows final ->
  read_table E f h p None encoding nc = Ok (map (fun s => [CStr s]) (column_of rows final)).
Proof.
  intros Hq Hop Hb H2 He HW Hx Hc. apply (normal_file f h p encoding cod b _ (dialect3 [] [q] []) nc _ Hop Hb Hc).
  - apply (quoted_column_normal cat q rows final e Hq H2 He); [|exact Hx]. intros x Hx'. now apply HW.
  - destruct Hq as [->| ->]; reflexivity.
  - now apply quoted_column_parsed.
Qed.
Lemma one_column (column : list value) r : In r (map (fun v => [v]) column) -> len r = 1%nat.
Proof. intros H. apply in_map_iff in H as (v & <- & _). reflexivity. Qed.
Theorem column_round_trip f h h' (column : list value) p dialect encoding cod w e :
  new_writer (e_registry E) h dialect [] = Ok w -> wd_skipspace w = false -> wd_term w = render_eol e ->
  (2 <= len column)%nat ->
  (forall v, In v column -> (Z.of_nat (len (value_str v)) + 2 <= e_limit E)%Z /\
     (forall x, In x (value_str v) -> wd_delim w <> x /\ wd_quote w <> Some x /\ wd_escape w <> Some x)) ->
  (forall v, In v column -> asks_quotes (wd_quoting w) v = false /\ value_str v <> [] /\ over word (value_str v)) \/
  (exists q, wd_quote w = Some q /\ a_quote q /\
    (forall v, In v column -> asks_quotes (wd_quoting w) v = true /\ over (SPACE :: word) (value_str v)) /\
    ~ escape_suspect cat common_delimiters (quoted_column q (map (fun v => (value_str v, e)) column) None)) ->
  e_codec E (Some encoding) = Ok cod -> lawful cod ->
  (forall s, Forall (fun x => In x (CR :: LF :: 39 :: 34 :: SPACE :: word)) s -> exists b, cd_encode cod s = Some b) ->
  let table := map (fun v => [v]) column in
  exists f', write_table E f h table p dialect false (Some encoding) = (f', None) /\ same_fs_but [p] f' f /\
    read_table E f' h' p None (Some encoding) None = Ok (as_read table).
Proof.
  intros Hw Hsk Ht H2 HV HS Hc Hl Henc table.
  assert (HA : forall v, In v column -> over (SPACE :: word) (value_str v)).
  { intros v Hv. destruct HS as [HS|(q & _ & _ & HS & _)]; [|now apply HS]. destruct (HS v Hv) as (_ & _ & K). eapply Forall_impl; [|exact K]. intros x Hx. now right. }
  assert (HU : forall v, In v column -> untouched w (value_str v)).
  { intros v Hv x Hx. pose proof (HA v Hv) as K. unfold over in K. rewrite Forall_forall in K. pose proof (word_commons x (K x Hx)) as HC.
    destruct (HV v Hv) as (_ & K'). destruct (K' x Hx) as (K1 & K2 & K3). repeat split; try assumption; intros ->; apply HC; cbn; tauto. }
  assert (HQ : forall v, In v column -> cell_of w v <> []).
  { intros v Hv. unfold cell_of. destruct HS as [HS|(q & Eq & _ & HS & _)]; destruct (HS v Hv) as (-> & K); [exact (proj1 K)|]. unfold w_quote_str. rewrite Eq. discriminate. }
  pose proof (column_written w e Ht column Hsk (fun v Hv => conj (HU v Hv) (HQ v Hv))) as EW. fold table in EW.
  set (text := column_text (map (fun v => (cell_of w v, e)) column) None) in *.
  assert (HT : exists b, cd_encode cod text = Some b).
  { apply Henc. unfold text, column_text. rewrite app_nil_r. apply Forall_concat. rewrite map_map. apply Forall_map, Forall_forall. intros v Hv. cbn [fst snd]. apply Forall_app. split.
    - assert (KW : Forall (fun x => In x (CR :: LF :: 39 :: 34 :: SPACE :: word)) (value_str v)).
      { eapply Forall_impl; [|exact (HA v Hv)]. intros x Hx. do 4 right. exact Hx. }
      unfold cell_of. destruct (asks_quotes (wd_quoting w) v) eqn:Eq; [|exact KW].
      destruct HS as [HS|(q & Eq' & Hq & _)]; [destruct (HS v Hv) as (K & _); congruence|]. unfold w_quote_str. rewrite Eq'.
      assert (Kq : Forall (fun x => In x (CR :: LF :: 39 :: 34 :: SPACE :: word)) [q]) by (apply Forall_cons; [|apply Forall_nil]; destruct Hq as [->| ->]; cbn; tauto).
      apply Forall_app. split; [exact Kq|]. apply Forall_app. split; [exact KW|exact Kq].
    - destruct e; repeat (apply Forall_cons; [cbn; tauto|]); apply Forall_nil. }
  destruct HT as (b & Hb).
  assert (Hne : table <> []) by (unfold table; destruct column; [cbn in H2; lia|discriminate]).
  destruct (write_table_rect E f h table p dialect false (Some encoding) cod w 1 _ b Hne (one_column column) Hc Hl Hw EW Hb) as (f' & H5 & H6).
  exists f'. split; [exact H5|]. split.
  { intros x Hnx. rewrite H6. unfold upd. destruct (N.eqb_spec x p) as [->|]; [elim Hnx; now left|reflexivity]. }
  assert (Hfp : f' p = Some b) by (rewrite (H6 p); unfold upd; now rewrite N.eqb_refl).
  assert (HOt : open_text E f' p (Some encoding) = Ok (cod, b)) by (unfold open_text; rewrite Hfp; now rewrite Hc).
  destruct Hl as (Hl & _). set (rows := map (fun v => (value_str v, e)) column).
  assert (EC : column_of rows None = map value_str column) by (unfold column_of, rows; rewrite app_nil_r, map_map; reflexivity).
  assert (ER : map (fun s => [CStr s]) (column_of rows None) = as_read table) by (rewrite EC; unfold as_read, table; rewrite !map_map; reflexivity).
  assert (H2' : (2 <= len (column_of rows None))%nat) by (rewrite EC, map_length; exact H2).
  assert (Hsame : forall r, In r rows -> snd r = e) by (intros r Hr; unfold rows in Hr; apply in_map_iff in Hr as (r0 & <- & _); reflexivity).
  assert (HIn : forall x, In x (column_of rows None) -> exists v, In v column /\ x = value_str v).
  { intros x Hx. rewrite EC in Hx. apply in_map_iff in Hx as (v & <- & Hv). now exists v. }
  rewrite <- ER. destruct HS as [HS|(q & Eq & Hq & HS & Hx)].
  - assert (EP : text = column_text rows None).
    { unfold text, rows. f_equal. apply map_ext_in. intros v Hv. unfold cell_of. now rewrite (proj1 (HS v Hv)). }
    rewrite EP in Hb. apply (column_file f' h' p (Some encoding) cod b rows None e None HOt (Hl _ _ Hb) H2' Hsame); [|reflexivity].
    intros x Hx. destruct (HIn x Hx) as (v & Hv & ->). destruct (HS v Hv) as (_ & K1 & K2). destruct (HV v Hv) as (K3 & _). split; [exact K1|]. split; [exact K2|lia].
  - assert (EP : text = quoted_column q rows None).
    { unfold text, rows, quoted_column. rewrite map_map. f_equal. apply map_ext_in. intros v Hv. unfold cell_of. rewrite (proj1 (HS v Hv)). unfold w_quote_str. rewrite Eq. reflexivity. }
    rewrite EP in Hb. apply (quoted_column_file f' h' p (Some encoding) cod b q rows None e None Hq HOt (Hl _ _ Hb) H2' Hsame); [|exact Hx|reflexivity].
    intros x Hx'. destruct (HIn x Hx') as (v & Hv & ->). split; [now apply HS|now apply HV].
Qed.
(** pandas is not called: the csv module refuses the empty delimiter. *)
Lemma no_dataframe {V} imp vlt f p (args : list V) nc encoding kwargs cod b m text q :
  import_optional_dependency imp vlt (s2l "pandas") true = Ok m ->
  open_text E f p (or_encoding encoding) = Ok (cod, b) -> cd_decode cod b = (text, true) -> head_chars nc text = text ->
  detect_dialect_normal cat text utf8 None = Ok (Some (dialect3 [] q [])) -> (q = [] \/ exists c, a_quote c /\ q = [c]) ->
  read_dataframe E imp vlt f p args nc encoding kwargs = Err CsvError.
Proof.
  intros HI HO HD Hc HN Hq. assert (Hb : f p = Some b).
  { unfold open_text in HO. destruct (f p) as [b'|]; [|discriminate]. cbv zeta in HO. destruct (e_codec E _); [|discriminate]. now injection HO as _ ->. }
  rewrite (dataframe_call E imp vlt f p b args nc encoding kwargs m Hb HI).
  assert (ED : detect_dialect E f p encoding nc = Ok (Some (dialect3 [] q []))).
  { unfold detect_dialect. rewrite HO. cbn [bind]. rewrite (read_chars_head cod b text nc HD). cbn [bind].
    rewrite Hc, HE. now rewrite (normal_method cat url known O o_set _ _ method skip s HN HM). }
  rewrite ED. destruct Hq as [->|(c & [->| ->] & ->)]; reflexivity.
Qed.
Theorem column_dataframe {V} imp vlt f p (args : list V) nc encoding kwargs cod b m rows final e :
  import_optional_dependency imp vlt (s2l "pandas") true = Ok m ->
  open_text E f p (or_encoding encoding) = Ok (cod, b) -> cd_decode cod b = (column_text rows final, true) ->
  (2 <= len (column_of rows final))%nat -> (forall r, In r rows -> snd r = e) ->
  (forall s, In s (column_of rows final) -> s <> [] /\ over word s) -> head_chars nc (column_text rows final) = column_text rows final ->
  read_dataframe E imp vlt f p args nc encoding kwargs = Err CsvError.
Proof.
  intros HI HO HD H2 He HW Hc. apply (no_dataframe imp vlt f p args nc encoding kwargs cod b m _ [] HI HO HD Hc); [|now left].
  exact (plain_column cat rows final e H2 He HW).
Qed.
Theorem quoted_column_dataframe {V} imp vlt f p (args : list V) nc encoding kwargs cod b m q rows final e : a_quote q ->
  import_optional_dependency imp vlt (s2l "pandas") true = Ok m ->
  open_text E f p (or_encoding encoding) = Ok (cod, b) -> cd_decode cod b = (quoted_column q rows final, true) ->
  (2 <= len (column_of rows final))%nat -> (forall r, In r rows -> snd r = e) ->
  (forall s, In s (column_of rows final) -> over (SPACE :: word) s) -> ~ escape_suspect cat common_delimiters (quoted_column q rows final) ->
  head_chars nc (quoted_column q rows final) = quoted_column q rows final ->
  read_dataframe E imp vlt f p args nc encoding kwargs = Err CsvError.
Proof.
  intros Hq HI HO HD H2 He HW Hx Hc. apply (no_dataframe imp vlt f p args nc encoding kwargs cod b m _ [q] HI HO HD Hc); [|right; now exists q].
  exact (quoted_column_normal cat q rows final e Hq H2 He HW Hx).
Qed.
End Files.
(** The answer of the detector. *)
Theorem column_detected cat url known O o_set rows final e method skip s :
  (2 <= len (column_of rows final))%nat -> (forall r, In r rows -> snd r = e) -> (forall s, In s (column_of rows final) -> s <> [] /\ over word s) ->
  In method [MStr (s2l "normal"); MEnum NORMAL; MStr (s2l "auto"); MEnum AUTO] ->
  detector_detect cat url known O o_set (column_text rows final) None method skip s = (Ok (Some (dialect3 [] [] [])), mk_state (Some NORMAL) (st_limit s)).
Proof. intros H2 He HW. exact (normal_method cat url known O o_set _ _ method skip s (plain_column cat rows final e H2 He HW)). Qed.
Theorem quoted_column_detected cat url known O o_set q rows final e method skip s : a_quote q ->
  (2 <= len (column_of rows final))%nat -> (forall r, In r rows -> snd r = e) -> (forall s, In s (column_of rows final) -> over (SPACE :: word) s) ->
  ~ escape_suspect cat common_delimiters (quoted_column q rows final) ->
  In method [MStr (s2l "normal"); MEnum NORMAL; MStr (s2l "auto"); MEnum AUTO] ->
  detector_detect cat url known O o_set (quoted_column q rows final) None method skip s = (Ok (Some (dialect3 [] [q] [])), mk_state (Some NORMAL) (st_limit s)).
Proof. intros Hq H2 He HW Hx. exact (normal_method cat url known O o_set _ _ method skip s (quoted_column_normal cat q rows final e Hq H2 He HW Hx)). Qed.
