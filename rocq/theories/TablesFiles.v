(** * TablesFiles: files with plain tables are read without a given dialect *)
From Coq Require Import String Permutation.
From Verif Require Import Base Parser Dialect CsvLib Reader Writer Files Wrappers Standardize SpecLayout SpecParse SpecWriter SpecFiles ParserLift
  StandardizeFacts TableFacts Potential SpecPotential Consistency DetectFacts Detect Types SpecTypes TypesUrl SpecTables TablesFacts TablesNormal.
Open Scope N_scope.
Local Notation len := List.length.

(** ** Parsing with the right delimiter *)
Lemma raw_plain D s : raw_cell D (map PChar s) = s.
Proof. unfold raw_cell. induction s as [|c s IH]; [reflexivity|]. cbn in *. now rewrite IH. Qed.
Lemma grid_raw D rows final x : In x (raw_cells D (grid_doc rows final)) -> exists r, In r (table_of rows final) /\ In x r.
Proof.
  unfold raw_cells, grid_doc, table_of. cbn [records SpecLayout.last]. rewrite in_app_iff. intros [H|H].
  - apply in_concat in H as (l & Hl & Hx). rewrite map_map in Hl. apply in_map_iff in Hl as ([r e] & <- & Hr). cbn [fst] in Hx.
    rewrite map_map in Hx. apply in_map_iff in Hx as (s & <- & Hs). rewrite raw_plain. exists r. split; [|exact Hs].
    apply in_or_app. left. apply in_map_iff. now exists (r, e).
  - destruct final as [r|]; [|destruct H]. rewrite map_map in H. apply in_map_iff in H as (s & <- & Hs). rewrite raw_plain. exists r. split; [|exact Hs].
    apply in_or_app. right. now left.
Qed.
Lemma table_parsed (cat : N -> str) c k rows final limit : plain_delimiter cat c -> grid k (cell_char c) (table_of rows final) ->
  (forall r s, In r (table_of rows final) -> In s r -> (Z.of_nat (len s) <= limit)%Z) ->
  parse_string limit (table_text c rows final) (dialect3 [c] [] []) false = (map (map CStr) (table_of rows final), None).
Proof.
  intros (Hd & Hq & _ & H0 & _) (_ & Hk & HF) Hl. set (D := mk_chars (Some c) None None).
  assert (HN : c <> LF /\ c <> CR).
  { unfold LF, CR. destruct Hd as [->|(H & _)]; [split; discriminate|]. split; intros ->; apply H; cbn; tauto. }
  assert (HD : wf_chars D = true).
  { destruct HN as (H1 & H2). apply N.eqb_neq in H0, H1, H2. unfold wf_chars, char_ok, is_nl. cbn [cd cq ce D]. now rewrite H0, H1, H2. }
  assert (HR : Forall (row_ok D) (table_of rows final)).
  { eapply Forall_impl; [|exact HF]. intros r (Hr & HC). split; [intros ->; cbn in Hr; lia|]. split; [intros ->; cbn in Hr; lia|]. split; [reflexivity|].
    eapply Forall_impl; [|exact HC]. intros s Hs. eapply Forall_impl; [|exact Hs]. intros x (Hx & Hb & _).
    assert (x <> NUL /\ x <> CR /\ x <> LF) as (H1 & H2 & H3) by (repeat split; intros ->; apply Hb; cbn; tauto).
    apply N.eqb_neq in H1, H2, H3. unfold is_nl. rewrite H1, H2, H3. split; [reflexivity|]. split; [reflexivity|].
    unfold special. cbn. destruct (N.eqb_spec x c); [contradiction|]. destruct (N.eqb_spec c x); [congruence|]. reflexivity. }
  change (table_text c rows final) with (List.concat (map (fun r => join (opt_str (cd D)) (fst r) ++ render_eol (snd r)) rows) ++
    match final with Some r => join (opt_str (cd D)) r | None => [] end).
  rewrite <- grid_render. change (dialect3 [c] [] []) with (simple D false). rewrite parse_string_layout; [|exact HD|now apply grid_wf|].
  - rewrite grid_denote; [|reflexivity|].
    + f_equal. unfold mk_rows. rewrite map_map. apply map_ext. intros r. rewrite map_map. apply map_ext. reflexivity.
    + eapply Forall_impl; [|exact HR]. now intros r (H & _).
  - apply Forall_forall. intros x Hx. apply grid_raw in Hx as (r & Hr & Hs). now apply (Hl r).
Qed.

(** ** Reading a file *)
Lemma table_read E f h p encoding cod b (cat : N -> str) c k rows final nc :
  open_text E f p encoding = Ok (cod, b) -> cd_decode cod b = (table_text c rows final, true) ->
  plain_delimiter cat c -> grid k (cell_char c) (table_of rows final) ->
  (forall r s, In r (table_of rows final) -> In s r -> (Z.of_nat (len s) <= e_limit E)%Z) ->
  e_detect E (head_chars nc (table_text c rows final)) = Ok (Some (dialect3 [c] [] [])) ->
  read_table E f h p None encoding nc = Ok (map (map CStr) (table_of rows final)).
Proof.
  intros Ho Hb Hd Hg Hl He. unfold read_table. rewrite (num_chars_detection E f h p encoding cod b _ nc _ Ho Hb He eq_refl).
  unfold file_rows, text_items. rewrite Hb.
  change (parse_data (e_limit E) (map ILine (univ_lines (table_text c rows final))) (Some (dialect3 [c] [] [])) None None None None false)
    with (parse_string (e_limit E) (table_text c rows final) (dialect3 [c] [] []) false).
  now rewrite (table_parsed cat c k rows final (e_limit E) Hd Hg Hl).
Qed.

(** ** Writing without quotes *)
Section Write.
Variables (w : wdialect) (e : eol).
Hypothesis quoting : wd_quoting w = QUOTE_MINIMAL \/ wd_quoting w = QUOTE_NONE.
Hypothesis skip : wd_skipspace w = false.
Hypothesis term : wd_term w = render_eol e.
Definition harmless (s : str) : Prop := Forall (fun x => w_special w x = false) s.
Lemma field_plain s : harmless s -> w_field w false s = Ok (s, false).
Proof.
  induction s as [|c s IH]; intros H; [reflexivity|]. inversion H as [|? ? Hc Hs]; subst. cbn [w_field]. unfold w_char. rewrite Hc. cbn [bind].
  rewrite IH by exact Hs. reflexivity.
Qed.
Lemma append_plain first v : harmless (value_str v) -> w_append w first (w_quoted w v) (value_str v) = Ok ((if first then [] else [wd_delim w]) ++ value_str v).
Proof.
  intros H. assert (E : w_quoted w v = false) by (unfold w_quoted; destruct quoting as [-> | ->]; reflexivity).
  unfold w_append, w_empty. rewrite E, skip, andb_false_r. destruct (value_str v) as [|c s] eqn:Es; [reflexivity|].
  cbn [bind]. now rewrite field_plain.
Qed.
Lemma fields_rest row : Forall (fun v => harmless (value_str v)) row ->
  w_fields w false row = Ok (List.concat (map (fun v => wd_delim w :: value_str v) row)).
Proof.
  induction row as [|v row IH]; intros H; [reflexivity|]. inversion H as [|? ? Hv Hr]; subst. cbn [w_fields]. rewrite append_plain by exact Hv. cbn [bind].
  rewrite IH by exact Hr. reflexivity.
Qed.
Lemma join_concat d (v : value) row : join [d] (map value_str (v :: row)) = value_str v ++ List.concat (map (fun v => d :: value_str v) row).
Proof.
  revert v. induction row as [|v' row IH]; intros v; [cbn; now rewrite app_nil_r|].
  change (join [d] (map value_str (v :: v' :: row))) with (value_str v ++ [d] ++ join [d] (map value_str (v' :: row))). now rewrite IH.
Qed.
Lemma row_plain row : (2 <= len row)%nat -> Forall (fun v => harmless (value_str v)) row ->
  csv_writerow w row = Ok (join [wd_delim w] (map value_str row) ++ render_eol e).
Proof.
  intros Hl H. destruct row as [|v [|v' row]]; cbn in Hl; try lia. unfold csv_writerow. inversion H as [|? ? Hv Hr]; subst.
  change (w_fields w true (v :: v' :: row)) with (bind (w_append w true (w_quoted w v) (value_str v)) (fun t => bind (w_fields w false (v' :: row)) (fun t' => Ok (t ++ t')))).
  rewrite append_plain by exact Hv. rewrite fields_rest by exact Hr. cbn [bind app]. rewrite join_concat, <- term. destruct (value_str v); reflexivity.
Qed.
Lemma rows_plain rows : Forall (fun r => (2 <= len r)%nat /\ Forall (fun v => harmless (value_str v)) r) rows ->
  writerows w rows = (table_text (wd_delim w) (map (fun r => (map value_str r, e)) rows) None, None).
Proof.
  intros H. unfold writerows. assert (E : csv_writerows w rows = (table_text (wd_delim w) (map (fun r => (map value_str r, e)) rows) None, None)).
  { unfold table_text. rewrite app_nil_r, map_map. cbn [fst snd]. induction H as [|r rows (Hl & Hr) _ IH]; [reflexivity|].
    cbn [csv_writerows]. rewrite row_plain by assumption. rewrite IH. reflexivity. }
  now rewrite E.
Qed.
End Write.

Section Files.
Variable U : unidata.
Local Notation cat := (u_cat U).
Hypothesis uni : unicode_like cat.
Hypothesis ascii : ascii_like cat.
Hypothesis isd : forall x, digit cat x -> u_isdigit U x = true.
Variables (O : orders) (o_set : list SimpleDialect -> list SimpleDialect).
Hypothesis HO : any_orders O.
Hypothesis Ho : forall l, Permutation (o_set l) l.
Variables (E : env) (method : method_arg) (skip : bool) (s : dstate).
Hypothesis HM : forall v, method = MStr v -> In v [s2l "auto"; s2l "normal"; s2l "consistency"].
Hypothesis HE : forall sample, e_detect E sample = fst (detector_detect cat (shipped_url U) (is_known_type U) O o_set sample None method skip s).

Lemma grid_plain c k T : plain_delimiter cat c -> grid k (plain_char cat) T -> grid k (cell_char c) T.
Proof.
  intros Hd (Hn & Hk & HF). split; [exact Hn|]. split; [exact Hk|]. eapply Forall_impl; [|exact HF]. intros r (Hr & HC). split; [exact Hr|].
  eapply Forall_impl; [|exact HC]. intros x Hx. eapply Forall_impl; [|exact Hx]. intros y Hy. apply (plain_cell_char U uni c y); [exact (proj1 Hd)|exact Hy].
Qed.
Theorem plain_read f h p encoding cod b c k rows final nc :
  open_text E f p encoding = Ok (cod, b) -> cd_decode cod b = (table_text c rows final, true) ->
  plain_delimiter cat c -> ~ escape_like cat c -> grid k (plain_char cat) (table_of rows final) ->
  (Z.of_nat (len (table_text c rows final)) < 2 ^ 50)%Z -> head_chars nc (table_text c rows final) = table_text c rows final ->
  (forall r s, In r (table_of rows final) -> In s r -> (Z.of_nat (len s) <= e_limit E)%Z) ->
  read_table E f h p None encoding nc = Ok (map (map CStr) (table_of rows final)).
Proof.
  intros Hf Hb Hd He Hg Hl Hc Hs. apply (table_read E f h p encoding cod b cat c k rows final nc Hf Hb Hd (grid_plain c k _ Hd Hg) Hs).
  rewrite Hc, HE. destruct (auto_plain U uni ascii isd c k rows final O o_set method skip s Hd He Hg Hl HO Ho HM) as (s' & ED & _). now rewrite ED.
Qed.
Theorem regular_read f h p encoding cod b c k rows final nc :
  open_text E f p encoding = Ok (cod, b) -> cd_decode cod b = (table_text c rows final, true) ->
  plain_delimiter cat c -> grid k (cell_char c) (table_of rows final) ->
  (forall r s, In r (table_of rows final) -> In s r -> exists name P, In (name, P) (TypesAll.types U false) /\ P (strip U s)) ->
  no_escapes cat (table_text c rows final) ->
  (forall d, d <> c -> In d (table_text c rows final) -> default_delimiter cat d -> outdone k (per_row d (table_of rows final))) ->
  (forall d m, In d common_delimiters -> d <> c -> (1 <= m)%nat -> ~ Forall (eq m) (per_row d (table_of rows final))) ->
  (Z.of_nat (len (table_text c rows final)) < 2 ^ 50)%Z -> head_chars nc (table_text c rows final) = table_text c rows final ->
  (forall r s, In r (table_of rows final) -> In s r -> (Z.of_nat (len s) <= e_limit E)%Z) ->
  read_table E f h p None encoding nc = Ok (map (map CStr) (table_of rows final)).
Proof.
  intros Hf Hb Hd Hg Hk He Hx Hm Hl Hc Hs. apply (table_read E f h p encoding cod b cat c k rows final nc Hf Hb Hd Hg Hs).
  rewrite Hc, HE. destruct (auto_regular U uni ascii isd c k rows final O o_set method skip s Hd Hg Hk He Hx Hm Hl HO Ho HM) as (s' & ED & _). now rewrite ED.
Qed.
Theorem plain_round_trip f h h' (table : list (list value)) p dialect encoding cod w e c k :
  grid k (plain_char cat) (map (map value_str) table) ->
  (forall r v, In r table -> In v r -> (Z.of_nat (len (value_str v)) <= e_limit E)%Z) ->
  new_writer (e_registry E) h dialect [] = Ok w -> wd_delim w = c -> wd_skipspace w = false -> wd_term w = render_eol e ->
  (wd_quoting w = QUOTE_MINIMAL \/ wd_quoting w = QUOTE_NONE) ->
  (forall x, wd_quote w = Some x \/ wd_escape w = Some x -> ~ plain_char cat x) ->
  plain_delimiter cat c -> ~ escape_like cat c ->
  e_codec E (Some encoding) = Ok cod -> lawful cod ->
  (exists b, cd_encode cod (table_text c (map (fun r => (map value_str r, e)) table) None) = Some b) ->
  (Z.of_nat (len (table_text c (map (fun r => (map value_str r, e)) table) None)) < 2 ^ 50)%Z ->
  exists f', write_table E f h table p dialect false (Some encoding) = (f', None) /\ same_fs_but [p] f' f /\
    read_table E f' h' p None (Some encoding) None = Ok (as_read table).
Proof.
  intros Hg Hs Hw <- Hsk Ht Hq Hx Hd He Hc Hl Henc Hlen. set (c := wd_delim w) in *.
  assert (ET : table_of (map (fun r => (map value_str r, e)) table) None = map (map value_str) table).
  { unfold table_of. rewrite app_nil_r, map_map. apply map_ext. reflexivity. }
  pose proof Hg as (Hne & Hk & HF). rewrite Forall_map in HF.
  assert (HR : rectangular k table).
  { intros r Hr. rewrite Forall_forall in HF. destruct (HF r Hr) as (E1 & _). rewrite map_length in E1. exact E1. }
  assert (EW : writerows w table = (table_text c (map (fun r => (map value_str r, e)) table) None, None)).
  { apply rows_plain; [exact Hq|exact Hsk|exact Ht|]. apply Forall_forall. intros r Hr. split; [rewrite (HR r Hr); exact Hk|].
    rewrite Forall_forall in HF. destruct (HF r Hr) as (_ & HC). rewrite Forall_map in HC. eapply Forall_impl; [|exact HC].
    intros v Hv. eapply Forall_impl; [|exact Hv]. intros x Hp.
    destruct (plain_cell_char U uni c x (proj1 Hd) Hp) as (Hxc & Hb & _).
    unfold w_special. fold c. apply N.eqb_neq in Hxc. rewrite Hxc, Ht.
    assert (H1 : opt_is (wd_escape w) x = false).
    { unfold opt_is. destruct (wd_escape w) as [y|] eqn:Ey; [|reflexivity]. apply N.eqb_neq. intros ->. apply (Hx y); [now right|exact Hp]. }
    assert (H2 : opt_is (wd_quote w) x = false).
    { unfold opt_is. destruct (wd_quote w) as [y|] eqn:Ey; [|reflexivity]. apply N.eqb_neq. intros ->. apply (Hx y); [now left|exact Hp]. }
    assert (x <> CR /\ x <> LF) as (H3 & H4) by (split; intros ->; apply Hb; cbn; tauto). apply N.eqb_neq in H3, H4.
    rewrite H1, H2, H3, H4. cbn [orb]. destruct e; cbn; rewrite ?H3, ?H4; reflexivity. }
  destruct Henc as [b Hb].
  assert (Hnt : table <> []) by (intros ->; now apply Hne).
  destruct (write_table_rect E f h table p dialect false (Some encoding) cod w k _ b Hnt HR Hc Hl Hw EW Hb) as (f' & H5 & H6).
  exists f'. split; [exact H5|]. split.
  { intros x Hnx. rewrite H6. unfold upd. destruct (N.eqb_spec x p) as [->|]; [elim Hnx; now left|reflexivity]. }
  assert (HOt : open_text E f' p (Some encoding) = Ok (cod, b)).
  { unfold open_text. rewrite (H6 p). unfold upd. rewrite N.eqb_refl. now rewrite Hc. }
  destruct Hl as (Hl & _).
  assert (HG : grid k (plain_char cat) (table_of (map (fun r => (map value_str r, e)) table) None)) by now rewrite ET.
  rewrite (plain_read f' h' p (Some encoding) cod b c k _ None None HOt (Hl _ _ Hb) Hd He HG Hlen eq_refl).
  - rewrite ET. unfold as_read. rewrite map_map. f_equal. apply map_ext. intros r. now rewrite map_map.
  - rewrite ET. intros r x Hr Hin. apply in_map_iff in Hr as (r0 & <- & Hr0). apply in_map_iff in Hin as (v & <- & Hv). now apply (Hs r0).
Qed.
End Files.
