(** * DictTables: the dictionary wrappers and the table wrappers *)
From Coq Require Import String FinFun.
From Verif Require Import Base Parser Dialect CsvLib Reader Writer Files Wrappers Dict
  SpecLayout SpecParse SpecWriter SpecFiles SpecDict SpecDictTables ParserFacts ParserProps
  ReaderFacts WriterFacts FilesFacts StandardizeFacts TableFacts DictFacts DictWriteFacts.
Local Notation length := List.length.

(** ** Reading *)
Lemma drain_short fuel limit h : forall r rows e, reader_drain fuel limit h r = (rows, e) -> (length rows <= fuel)%nat.
Proof.
  induction fuel as [|f IH]; intros r rows e; cbn; [intros [= <- <-]; cbn; lia|].
  destruct (reader_next limit h r) as [[row| |x] r'].
  - destruct (reader_drain f limit h r') as [rs e'] eqn:ED. intros [= <- <-]. cbn. specialize (IH _ _ _ ED). lia.
  - intros [= <- <-]. cbn. lia.
  - intros [= <- <-]. cbn. lia.
Qed.
Lemma fresh_short reg h0 seq file dialect params r h1 limit h rows e :
  new_reader reg h0 seq file dialect params = (Ok r, h1) -> reader_rows limit h r = (rows, e) ->
  (length rows <= S (length (r_rest r)))%nat.
Proof.
  intros Hr. unfold reader_rows. destruct (reader_iter limit h r) as [r1|x] eqn:EI; [|intros [= <- <-]; cbn; lia].
  intros HD. apply drain_short in HD. enough (ER : r_rest r1 = r_rest r) by now rewrite ER in HD.
  unfold new_reader in Hr. destruct (make_simple_dialect _ _ _ _) as [[a|y] h2]; [|discriminate]. injection Hr as <- <-.
  unfold reader_iter in EI. destruct (make_conf _ _ _ _ _ _) as [cf|]; cbn in EI; [|discriminate]. injection EI as <-. now destruct seq.
Qed.
Lemma drain_of_run limit h e : forall fuel o ds, (length ds < fuel)%nat ->
  run_dict limit h (repeat CNext (S (length ds))) o = map (fun d => ANext (DRow d)) ds ++ [ANext (final e)] ->
  dr_drain fuel limit h o = (ds, e).
Proof.
  induction fuel as [|f IH]; intros o ds HL; [lia|]. cbn [dr_drain repeat run_dict].
  destruct (dr_next limit h o) as [[d| |x] o'] eqn:E; intros H.
  - destruct ds as [|d0 ds]; [cbn in H; destruct e; discriminate|]. cbn [length map app repeat] in *.
    injection H as -> H. rewrite (IH o' ds); [reflexivity|lia|exact H].
  - destruct ds as [|d0 ds]; [|discriminate]. cbn in H. destruct e; [discriminate|reflexivity].
  - destruct ds as [|d0 ds]; [|discriminate]. cbn in H. destruct e as [y|]; [|discriminate]. now injection H as ->.
Qed.
Lemma answers_end ns dict recs fin :
  answers ns dict recs fin (repeat CNext (S (length recs))) = map (fun d => ANext (DRow d)) (map dict recs) ++ [ANext fin].
Proof. induction recs as [|r recs IH]; [reflexivity|]. cbn [length repeat answers map app]. now rewrite <- IH. Qed.

Lemma open_reader_new E f h p dialect encoding nc r h1 : open_reader E f h p dialect encoding nc = (Ok r, h1) ->
  exists h0 file d, new_reader (e_registry E) h0 false file d [] = (Ok r, h1).
Proof.
  unfold open_reader. destruct (open_text E f p encoding) as [[c b]|x]; [|discriminate]. destruct dialect as [d|].
  - intros H. now exists h, (text_items c b), d.
  - destruct (bind (read_chars c b nc) (e_detect E)) as [[sd|]|x]; try discriminate. intros H. now exists (h ++ [sd]), (text_items c b), (DSimple (length h)).
Qed.

Theorem dicts_of_table E f h p dialect encoding nc rows e :
  stream_table E f h p dialect encoding nc = (rows, e) ->
  (forall header records, rows = header :: records -> NoDup (map cell_str header)) ->
  stream_dicts E f h p dialect encoding nc = (dicts_of rows, e).
Proof.
  unfold stream_table, stream_dicts. destruct (open_reader E f h p dialect encoding nc) as [[r|x] h1] eqn:EO; [|intros [= <- <-] _; reflexivity].
  destruct (open_reader_new _ _ _ _ _ _ _ _ _ EO) as (h0 & file & d & Hr). intros HR HN.
  pose proof (fresh_short _ _ _ _ _ _ _ _ _ _ _ _ Hr HR) as HL.
  destruct rows as [|hdr rows].
  - pose proof (fresh_gives _ _ _ _ _ _ _ _ _ _ _ _ Hr HR) as HG. unfold dicts_of. cbn [dr_drain].
    inversion HG as [? r' G|? r' x G|]; subst; unfold dr_next, new_dict_reader; cbn [dr_line_num Nat.eqb]; unfold dr_fieldnames; cbn [dr_names dr_reader]; rewrite G.
    + cbn [dr_names dr_restkey dr_restval dr_reader dr_line_num]. pose proof (gives_stop_after _ _ _ _ G) as HG'. inversion HG' as [? r2 E2| |]; subst. now rewrite E2.
    + reflexivity.
  - cbn [dicts_of]. set (ns := map (fun x => Some (cell_str x)) hdr). specialize (HN hdr rows eq_refl).
    assert (HN' : NoDup ns) by (unfold ns; rewrite <- (map_map cell_str Some); now apply NoDup_map_Some).
    assert (HI : ~ In None ns) by (unfold ns; intros H; apply in_map_iff in H as (x & H & _); discriminate).
    apply drain_of_run.
    + rewrite map_length. cbn [length] in HL. assert (HF : (length (filter not_blank rows) <= length rows)%nat) by (clear; induction rows as [|r0 rows IH]; cbn; [lia|destruct (not_blank r0); cbn; lia]). lia.
    + rewrite (dict_header _ _ _ _ _ _ _ _ _ _ Hr None None hdr rows e); [|exact HN'|exact HI|exact HR|].
      * rewrite map_length. apply answers_end.
      * right. rewrite map_length. unfold count_next. clear. induction (length (filter not_blank rows)) as [|n IH]; [cbn; lia|]. cbn [repeat filter length] in *. lia.
Qed.

(** ** Writing *)
Theorem dicts_as_table E lower f h (items : list (odict value)) names p dialect encoding :
  lower (s2l "raise") = s2l "raise" -> writable_dicts names items ->
  write_dicts E lower f h items p dialect encoding = write_table E f h (dict_table names items) p dialect false encoding.
Proof.
  intros Hlow (Hne & Hnd & (first & rest & Hit & Hfst) & Hkeys). unfold write_dicts, write_table. rewrite Hit. cbn [dict_table]. fold (dict_table names items). rewrite <- Hit.
  assert (HL : forall r, In r (dict_table names items) -> length r = length names).
  { intros r [<-|Hr]; [apply map_length|]. apply in_map_iff in Hr as (it & <- & _). apply map_length. }
  destruct (dict_table names items) as [|r0 table] eqn:ET; [discriminate|]. rewrite <- ET in *.
  assert (HR : Nat.ltb 1 (length (nodup Nat.eq_dec (map (@List.length value) (dict_table names items)))) = false).
  { apply Nat.ltb_ge. assert (HI : incl (nodup Nat.eq_dec (map (@List.length value) (dict_table names items))) [length names]).
    { intros n Hn. apply nodup_In, in_map_iff in Hn as (r & <- & Hr). left. symmetry. now apply HL. }
    pose proof (NoDup_incl_length (NoDup_nodup Nat.eq_dec _) HI) as HC. exact HC. }
  rewrite HR. unfold open_write. destruct (e_codec E encoding) as [c|x]; [|reflexivity].
  unfold new_dict_writer. rewrite Hlow. change (str_eqb (s2l "raise") (s2l "raise")) with true. cbn [orb].
  destruct (new_writer (e_registry E) h dialect []) as [w|x]; cbn [bind]; [|reflexivity]. rewrite Hfst.
  set (dw := mk_dict_writer (map Some names) (VStr []) (s2l "raise") w).
  assert (HH : dw_writeheader dw = writerow w (map VStr names)).
  { unfold dw_writeheader, dw_writerow, dict_to_list. cbn [dw_names dw_extras dw_restval dw_writer dw].
    assert (HZ : map fst (zip (map Some names) (map key_value (map Some names))) = map Some names)
      by (apply map_fst_zip; now rewrite !map_length).
    rewrite od_update_new by (exact (eq_ind_r (@NoDup key) (NoDup_map_Some names Hnd) HZ)). cbn [app].
    replace (existsb _ _) with false.
    2: { symmetry. destruct (existsb _ _) eqn:Ex; [|reflexivity]. apply unknown_spec in Ex as (k & K1 & K2).
         elim K2. exact (eq_ind _ (fun l => In k l) K1 _ HZ). }
    rewrite andb_false_r. cbn [bind]. f_equal. rewrite map_map. apply map_ext_in. intros k Hk.
    rewrite od_get_zip by now apply in_map. reflexivity. }
  rewrite HH, (dw_rows dw names) ; [|reflexivity|reflexivity|intros x Hx; now apply Hkeys].
  cbn [dw_writer dw]. unfold put_rows, dict_table. cbn [row_texts].
  destruct (writerow w (map VStr names)) as [t|x]; [|now destruct (put c [] [])].
  destruct (row_texts w _) as [ts x]. now destruct (put c [] (t :: ts)).
Qed.

Lemma dicts_read_as names items : NoDup names -> names <> [] ->
  Forall2 (reads_as names) items (dicts_of (as_read (dict_table names items))).
Proof.
  intros Hnd Hne. unfold as_read, dict_table. cbn [map dicts_of].
  assert (HC : map (fun x : cell => Some (cell_str x)) (map (fun v => CStr (value_str v)) (map VStr names)) = map Some names) by (rewrite !map_map; reflexivity).
  rewrite HC, filter_all.
  2:{ intros row Hrow. apply in_map_iff in Hrow as (r0 & <- & Hr0). apply in_map_iff in Hr0 as (it & <- & _). destruct names; [congruence|reflexivity]. }
  rewrite !map_map. induction items as [|it items IH]; [constructor|]. cbn [map]. constructor; [|exact IH].
  unfold reads_as, expected_dict. rewrite !map_map, !map_length, Nat.sub_diag. cbn [repeat]. rewrite app_nil_r.
  rewrite skipn_all2 by now rewrite !map_length. rewrite app_nil_r. split.
  - apply map_fst_zip. now rewrite !map_length.
  - intros k Hk.
    replace (map (fun x => DStr (cell_str (CStr (value_str match od_get it (Some x) with Some v => v | None => VStr [] end)))) names)
      with (map (fun o => match o with Some x => DStr (value_str match od_get it (Some x) with Some v => v | None => VStr [] end) | None => DNone end) (map Some names))
      by (rewrite map_map; reflexivity).
    rewrite od_get_zip by now apply in_map. now destruct (od_get it (Some k)).
Qed.

(** A table that is read back brings its dictionaries back. *)
Theorem dicts_survive E lower f h h' (items : list (odict value)) names p dialect encoding dialect' nc f' :
  lower (s2l "raise") = s2l "raise" -> writable_dicts names items ->
  write_table E f h (dict_table names items) p dialect false encoding = (f', None) ->
  read_table E f' h' p dialect' encoding nc = Ok (as_read (dict_table names items)) ->
  write_dicts E lower f h items p dialect encoding = (f', None) /\
  exists ds, stream_dicts E f' h' p dialect' encoding nc = (ds, None) /\ Forall2 (reads_as names) items ds.
Proof.
  intros Hlow HW Hw Hr. split; [now rewrite (dicts_as_table E lower f h items names p dialect encoding Hlow HW)|].
  destruct HW as (Hne & Hnd & _). exists (dicts_of (as_read (dict_table names items))). split; [|now apply dicts_read_as].
  unfold read_table in Hr. destruct (stream_table E f' h' p dialect' encoding nc) as [rows [x|]] eqn:ES; [discriminate|]. injection Hr as ->.
  apply dicts_of_table; [exact ES|]. intros header records HE. unfold as_read, dict_table in HE. cbn [map] in HE. injection HE as <- _.
  rewrite !map_map. cbn [value_str cell_str]. now rewrite map_id.
Qed.
