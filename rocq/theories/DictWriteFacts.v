(** * DictWriteFacts *)
From Coq Require Import String FinFun.
From Verif Require Import Base Parser Dialect CsvLib Reader Writer Files Wrappers Dict
  SpecLayout SpecParse SpecWriter SpecFiles SpecDict ParserFacts ParserProps
  ReaderFacts WriterFacts FilesFacts StandardizeFacts TableFacts DictFacts.
Local Notation length := List.length.

(** ** C24 *)
Lemma mem_key_In k ks : mem_key k ks = true <-> In k ks.
Proof.
  unfold mem_key. rewrite existsb_exists. split.
  - intros (x & Hx & E). apply key_eqb_eq in E. now subst.
  - intros H. exists k. split; [exact H|apply key_eqb_refl].
Qed.
Lemma unknown_spec ks {V} (d : odict V) : existsb (fun p => negb (mem_key (fst p) ks)) d = true <->
  exists k, In k (map fst d) /\ ~ In k ks.
Proof.
  rewrite existsb_exists. split.
  - intros ([k v] & Hx & E). exists k. split; [apply in_map_iff; now exists (k, v)|].
    intros H. apply mem_key_In in H. cbn in E. now rewrite H in E.
  - intros (k & Hk & Hn). apply in_map_iff in Hk as ([k' v] & E & H). cbn in E. subst k'.
    exists (k, v). split; [exact H|]. cbn. destruct (mem_key k ks) eqn:E; [|reflexivity].
    apply mem_key_In in E. contradiction.
Qed.
Lemma od_get_In {V} (d : odict V) k v : NoDup (map fst d) -> (od_get d k = Some v <-> In (k, v) d).
Proof.
  induction d as [|[k' v'] d IH]; cbn; intros H; [split; [discriminate|tauto]|].
  inversion H as [|? ? Hk Hd]; subst. destruct (key_eqb k' k) eqn:E.
  - apply key_eqb_eq in E. subst k'. split; [intros [= ->]; now left|].
    intros [[= ->]|Hi]; [reflexivity|]. elim Hk. apply in_map_iff. now exists (k, v).
  - apply key_eqb_neq in E. rewrite (IH Hd). split; [now right|]. intros [[= -> ->]|Hi]; [congruence|exact Hi].
Qed.
Lemma od_get_None {V} (d : odict V) k : od_get d k = None <-> ~ In k (map fst d).
Proof.
  induction d as [|[k' v'] d IH]; cbn; [tauto|].
  destruct (key_eqb k' k) eqn:E.
  - apply key_eqb_eq in E. subst. split; [discriminate|tauto].
  - apply key_eqb_neq in E. rewrite IH. tauto.
Qed.

Theorem extras_raise w d : dw_extras w = s2l "raise" ->
  (exists k, In k (map fst d) /\ ~ In k (dw_names w)) -> dw_writerow w d = Err ValueError.
Proof.
  intros He Hk. unfold dw_writerow, dict_to_list. rewrite He.
  apply unknown_spec in Hk. rewrite Hk. reflexivity.
Qed.
Theorem dict_row_written w d : NoDup (map fst d) ->
  dw_extras w <> s2l "raise" \/ incl (map fst d) (dw_names w) ->
  exists row, dw_writerow w d = writerow (dw_writer w) row /\ length row = length (dw_names w) /\
    forall i k, nth_error (dw_names w) i = Some k -> exists v, nth_error row i = Some v /\
      (In (k, v) d \/ ~ In k (map fst d) /\ v = dw_restval w).
Proof.
  intros Hd Hx. unfold dw_writerow, dict_to_list.
  replace (_ && _) with false.
  2: { symmetry. apply andb_false_iff. destruct Hx as [Hx|Hx]; [left; now apply str_eqb_neq|right].
       destruct (existsb _ d) eqn:E; [|reflexivity]. apply unknown_spec in E as (k & H1 & H2). elim H2. auto. }
  cbn [bind]. eexists. split; [reflexivity|]. split; [apply map_length|].
  intros i k Hk. rewrite nth_error_map, Hk. cbn. eexists. split; [reflexivity|].
  destruct (od_get d k) as [v|] eqn:E.
  - left. now apply od_get_In.
  - right. split; [now apply od_get_None|reflexivity].
Qed.
Theorem extras_action lower reg h names restval action dialect params w :
  new_dict_writer lower reg h names restval action dialect params = Ok w ->
  (lower action = s2l "raise" \/ lower action = s2l "ignore") /\ dw_extras w = action /\
  dw_names w = names /\ dw_restval w = restval /\ new_writer reg h dialect params = Ok (dw_writer w).
Proof.
  unfold new_dict_writer. destruct (_ || _) eqn:E; [|discriminate].
  apply orb_true_iff in E. rewrite !str_eqb_eq in E.
  destruct (new_writer reg h dialect params) as [w0|]; cbn; [|discriminate]. intros [= <-]. auto.
Qed.
Theorem extras_invalid lower reg h names restval action dialect params :
  lower action <> s2l "raise" -> lower action <> s2l "ignore" ->
  new_dict_writer lower reg h names restval action dialect params = Err ValueError.
Proof.
  intros H1 H2. unfold new_dict_writer. apply str_eqb_neq in H1, H2. now rewrite H1, H2.
Qed.
Theorem extras_uppercase lower : lower (s2l "RAISE") = s2l "raise" ->
  exists w, new_dict_writer lower std_registry [] [Some (s2l "a")] (VStr []) (s2l "RAISE")
      (DName (s2l "excel")) [] = Ok w /\
    dw_writerow w [(Some (s2l "a"), VStr (s2l "1")); (Some (s2l "b"), VStr (s2l "2"))]
    = Ok (s2l "1" ++ [CR; LF]).
Proof.
  intros H. unfold new_dict_writer. rewrite H. eexists. split; reflexivity.
Qed.

(** ** C23 *)
Lemma dw_rows w names ds : dw_names w = map Some names -> dw_restval w = VStr [] ->
  (forall d, In d ds -> incl (map fst d) (map Some names)) ->
  dw_writerows w ds = row_texts (dw_writer w)
    (map (fun d => map (fun k => match od_get d (Some k) with Some v => v | None => VStr [] end) names) ds).
Proof.
  intros Hn Hr. induction ds as [|d ds IH]; intros Hi; [reflexivity|]. cbn [dw_writerows map row_texts].
  rewrite IH by (intros; apply Hi; now right).
  unfold dw_writerow, dict_to_list.
  replace (existsb _ d) with false.
  2: { symmetry. destruct (existsb _ d) eqn:E; [|reflexivity]. apply unknown_spec in E as (k & H1 & H2).
       elim H2. rewrite Hn. apply (Hi d); [now left|exact H1]. }
  rewrite andb_false_r. cbn [bind]. rewrite Hn, Hr, map_map. reflexivity.
Qed.

Lemma od_get_zip {V} (ks : list key) (f : key -> V) k : In k ks -> od_get (zip ks (map f ks)) k = Some (f k).
Proof.
  induction ks as [|x ks IH]; cbn; [tauto|]. destruct (key_eqb x k) eqn:E.
  - apply key_eqb_eq in E. now subst.
  - apply key_eqb_neq in E. intros [->|H]; [congruence|auto].
Qed.
Lemma map_fst_zip {A B} (ks : list A) (vs : list B) : length vs = length ks -> map fst (zip ks vs) = ks.
Proof.
  revert vs. induction ks as [|k ks IH]; intros [|v vs]; cbn; intros H; try discriminate; auto.
  f_equal. apply IH. lia.
Qed.
Lemma NoDup_map_Some (ks : list str) : NoDup ks -> NoDup (map Some ks).
Proof.
  intros H. apply Injective_map_NoDup; [|exact H]. intros x y. congruence.
Qed.

Lemma reader_drain_length limit h fuel : forall r rows e, reader_drain fuel limit h r = (rows, e) ->
  e <> Some Diverged -> (length rows < fuel)%nat.
Proof.
  induction fuel as [|f IH]; intros r rows e; cbn; [intros [= <- <-]; congruence|].
  destruct (reader_next limit h r) as [[row| |x] r'].
  - destruct (reader_drain f limit h r') as [rs e'] eqn:ED. intros [= <- <-] Hd. cbn.
    specialize (IH _ _ _ ED Hd). lia.
  - intros [= <- <-] _. cbn. lia.
  - intros [= <- <-] _. cbn. lia.
Qed.
Lemma answers_all ns dict recs :
  answers ns dict recs DStop (repeat CNext (S (length recs))) = map (fun d => ANext (DRow d)) (map dict recs) ++ [ANext DStop].
Proof. induction recs as [|r recs IH]; [reflexivity|]. cbn [length repeat answers map app]. now rewrite <- IH. Qed.

Lemma filter_all {A} (f : A -> bool) l : (forall x, In x l -> f x = true) -> filter f l = l.
Proof.
  induction l as [|x l IH]; cbn; intros H; [reflexivity|]. rewrite H by now left. f_equal. apply IH. auto.
Qed.

Theorem dicts_roundtrip E lower f h items names p name cv D d q encoding c nc :
  lower (s2l "raise") = s2l "raise" ->
  writable_dicts names items ->
  (forall k, In k names -> fits_str (e_limit E) k) ->
  (forall it k v, In it items -> In (k, v) it -> fits_str (e_limit E) (value_str v)) ->
  e_registry E name = Some cv -> quoting_csv cv D d q -> wf_chars D = true ->
  e_codec E (Some encoding) = Ok c -> lawful c ->
  encodes c (added_chars D ++ List.concat names ++ List.concat (map (fun kv => value_str (snd kv)) (List.concat items))) ->
  (2 <= e_limit E)%Z ->
  exists f' ds, write_dicts E lower f h items p (DName name) (Some encoding) = (f', None) /\
    same_fs_but [p] f' f /\
    stream_dicts E f' h p (Some (DName name)) (Some encoding) nc = (ds, None) /\
    Forall2 (reads_as names) items ds.
Proof.
  intros Hlow (Hne & Hnd & (first & rest & Hit & Hfst) & Hkeys) Hfk Hfv Hreg Hq HD Hc Hl Henc Hlim.
  set (get := fun (it : odict value) (k : str) => match od_get it (Some k) with Some v => v | None => VStr [] end).
  set (rows := map (fun it => map (get it) names) items).
  set (table := map VStr names :: rows).
  assert (HRo : readable (e_limit E) table).
  { intros r v Hr Hv. subst table. destruct Hr as [<-|Hr].
    - apply in_map_iff in Hv as (k & <- & Hk). exact (Hfk k Hk).
    - apply in_map_iff in Hr as (it & <- & Hi). apply in_map_iff in Hv as (k & <- & Hk). unfold get.
      destruct (od_get it (Some k)) as [v|] eqn:Eg.
      + apply od_get_In in Eg; [|now apply Hkeys]. exact (Hfv it _ v Hi Eg).
      + cbn. split; [intros []|exact Hlim]. }
  destruct (named_roundtrip (e_registry E) h name cv D d q table (e_limit E) Hreg Hq HD HRo)
    as (w & text & r & h' & H1 & H2 & H3 & H4).
  destruct (Henc text) as [b Hb].
  { apply (incl_tran (named_chars _ h name cv D d q w table text Hreg Hq H1 H2)). apply incl_app_app; [apply incl_refl|].
    subst table. cbn [List.concat]. rewrite map_app, concat_app, map_map. cbn [value_str]. rewrite map_id. apply incl_app_app; [apply incl_refl|].
    intros x Hx. apply in_concat in Hx as (s & Hs & Hx). apply in_map_iff in Hs as (v & <- & Hv). apply in_concat in Hv as (row & Hr & Hv).
    apply in_map_iff in Hr as (it & <- & Hi). apply in_map_iff in Hv as (k & <- & Hk). unfold get in Hx.
    destruct (od_get it (Some k)) as [v|] eqn:Eg; [|destruct Hx]. apply od_get_In in Eg; [|now apply Hkeys].
    apply in_concat. exists (value_str v). split; [|exact Hx]. apply in_map_iff. exists (Some k, v). split; [reflexivity|]. apply in_concat. now exists it. }
  assert (HW : exists f', write_dicts E lower f h items p (DName name) (Some encoding) = (f', None) /\
            same_fs f' (upd f p (Some b))).
  { unfold write_dicts. rewrite Hit. cbn [open_write]. unfold open_write. rewrite Hc.
    unfold new_dict_writer. rewrite Hlow, H1. cbn [str_eqb orb bind].
    change (str_eqb (s2l "raise") (s2l "raise")) with true. cbn [orb]. rewrite Hfst.
    set (dw := mk_dict_writer (map Some names) (VStr []) (s2l "raise") w).
    assert (HH : dw_writeheader dw = writerow w (map VStr names)).
    { unfold dw_writeheader, dw_writerow, dict_to_list. cbn [dw_names dw_extras dw_restval dw_writer dw].
      assert (HZ : map fst (zip (map Some names) (map key_value (map Some names))) = map Some names)
        by (apply map_fst_zip; now rewrite !map_length).
      rewrite od_update_new by (exact (eq_ind_r (@NoDup key) (NoDup_map_Some names Hnd) HZ)). cbn [app].
      replace (existsb _ _) with false.
      2: { symmetry. destruct (existsb _ _) eqn:Ex; [|reflexivity]. apply unknown_spec in Ex as (k & K1 & K2).
           elim K2. exact (eq_ind _ (fun l => In k l) K1 _ HZ). }
      rewrite andb_false_r. cbn [bind]. f_equal. rewrite map_map. apply map_ext_in. intros k Hk.
      rewrite od_get_zip by now apply in_map. reflexivity. }
    rewrite HH. rewrite (dw_rows dw names) ; [|reflexivity|reflexivity|].
    2: { intros x Hx. apply Hkeys. rewrite Hit. exact Hx. }
    cbn [dw_writer dw]. fold get. rewrite <- Hit. change (map _ items) with rows.
    destruct (row_texts w table) as [ts x] eqn:ET. pose proof (row_texts_writerows w table ts x ET) as EW.
    rewrite H2 in EW. injection EW as Ets <-. subst table. cbn [row_texts] in ET.
    destruct (writerow w (map VStr names)) as [t0|x0]; [|discriminate ET].
    destruct (row_texts w rows) as [ts0 x0]. injection ET as <- ->.
    rewrite (put_all c Hl (t0 :: ts0) [] b) by (cbn [app]; rewrite <- Ets; exact Hb).
    cbn [app]. rewrite <- Ets. eexists. split; [reflexivity|]. unfold content. rewrite Hb.
    intros z. unfold upd. now destruct (z =? p)%N. }
  destruct HW as (f' & HW & Hfs).
  exists f'.
  assert (HDrain := H4).
  set (ds := map (expected_dict (map Some names) None None) (as_read rows)).
  exists ds. split; [exact HW|]. split.
  { intros x Hx. rewrite Hfs. apply upd_other. intros ->. apply Hx. now left. }
  assert (Hnb : filter not_blank (as_read rows) = as_read rows).
  { apply filter_all. intros row Hrow. unfold as_read in Hrow. apply in_map_iff in Hrow as (r0 & <- & Hr0).
    subst rows. apply in_map_iff in Hr0 as (it & <- & _). destruct names; [congruence|reflexivity]. }
  assert (HC : map (fun x : cell => Some (cell_str x)) (map (fun v => CStr (value_str v)) (map VStr names)) = map Some names).
  { rewrite !map_map. reflexivity. }
  split.
  - unfold stream_dicts, open_reader, open_text. rewrite (Hfs p), upd_same, Hc. cbn [bind].
    unfold text_items. destruct Hl as (Hl & _). rewrite (Hl _ _ Hb). rewrite H3.
    apply dr_drain_run. split.
    + assert (HX : exists r1, reader_iter (e_limit E) h' r = Ok r1 /\ r_rest r1 = r_rest r).
      { unfold reader_rows in H4. destruct (reader_iter (e_limit E) h' r) as [r1|] eqn:EI; [|discriminate].
        exists r1. split; [reflexivity|]. unfold reader_iter in EI.
        destruct (make_conf _ _ _ _ _ _); cbn in EI; [|discriminate]. injection EI as <-. cbn.
        unfold new_reader in H3. destruct (make_simple_dialect _ _ _ _) as [[ad|] hd2]; [|discriminate].
        injection H3 as <- <-. reflexivity. }
      destruct HX as (r1 & HI & HR). unfold reader_rows in H4. rewrite HI, HR in H4.
      apply reader_drain_length in H4; [|discriminate].
      subst ds table. unfold as_read in *. cbn [map List.length] in H4. rewrite map_length. lia.
    + subst table. unfold as_read in H4. cbn [map] in H4. fold (as_read rows) in H4.
      rewrite (dict_header (e_registry E) h false _ (DName name) [] r h' (e_limit E) h' H3 None None
        (map (fun v => CStr (value_str v)) (map VStr names)) (as_read rows) None); cbn [final].
      * rewrite HC, Hnb. subst ds. rewrite map_length. apply answers_all.
      * rewrite HC. now apply NoDup_map_Some.
      * rewrite HC. intros Hi. apply in_map_iff in Hi as (k & K & _). discriminate.
      * exact H4.
      * now left.
  - subst ds rows. unfold as_read. rewrite !map_map. clear - Hnd.
    induction items as [|it items IH]; [constructor|]. cbn [map]. constructor; [|exact IH].
    unfold reads_as, expected_dict. rewrite !map_map, !map_length, Nat.sub_diag. cbn [repeat]. rewrite app_nil_r.
    rewrite skipn_all2 by now rewrite !map_length. rewrite app_nil_r. split.
    + apply map_fst_zip. now rewrite !map_length.
    + intros k Hk.
      replace (map (fun x => DStr (cell_str (CStr (value_str (get it x))))) names)
        with (map (fun o => match o with Some x => DStr (value_str (get it x)) | None => DNone end) (map Some names))
        by (rewrite map_map; reflexivity).
      rewrite od_get_zip by now apply in_map. unfold get. now destruct (od_get it (Some k)).
Qed.
