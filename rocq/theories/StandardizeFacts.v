(** * StandardizeFacts *)
From Coq Require Import String.
From Verif Require Import Base Parser Dialect CsvLib Reader Writer Files Wrappers Standardize
  SpecLayout SpecParse SpecWriter SpecFiles ParserFacts ParserProps LayoutFacts ParserLift RoundTrip
  ReaderFacts WriterFacts CellFacts FilesFacts.

Local Notation length := List.length.

Lemma upd_same f p b : upd f p b p = b.
Proof. unfold upd. now rewrite N.eqb_refl. Qed.
Lemma upd_other f p b q : q <> p -> upd f p b q = f q.
Proof. intros H. unfold upd. apply N.eqb_neq in H. now rewrite H. Qed.

(** ** Row texts *)
Lemma row_texts_writerows w rows ts x : row_texts w rows = (ts, x) -> writerows w rows = (concat ts, x).
Proof.
  revert ts x. induction rows as [|r rows IH]; intros ts x; cbn.
  { intros [= <- <-]. reflexivity. }
  unfold writerows, writerow. cbn. destruct (csv_writerow w r) as [t|e]; cbn.
  - destruct (row_texts w rows) as [ts' x']. specialize (IH ts' x' eq_refl). unfold writerows in IH.
    destruct (csv_writerows w rows) as [t2 x2]. injection IH as -> <-.
    intros [= <- <-]. reflexivity.
  - intros [= <- <-]. reflexivity.
Qed.

Lemma put_all c : lawful c -> forall ts sofar b, cd_encode c (sofar ++ concat ts) = Some b ->
  put c sofar ts = (sofar ++ concat ts, None).
Proof.
  intros (_ & H2 & _). induction ts as [|t ts IH]; intros sofar b; cbn; [now rewrite app_nil_r|].
  rewrite app_assoc. intros H. destruct (H2 _ _ _ H) as [b' ->]. now apply IH with b.
Qed.

(** What was accepted is an initial part of what was offered. *)
Lemma put_prefix c ts : forall sofar t x, put c sofar ts = (t, x) ->
  exists rest, sofar ++ concat ts = t ++ rest /\ (x = None -> rest = []).
Proof.
  induction ts as [|u ts IH]; intros sofar t x; cbn.
  - intros [= <- <-]. exists []. auto.
  - destruct (cd_encode c (sofar ++ u)).
    + intros H. apply IH in H as (rest & H1 & H2). exists rest. now rewrite app_assoc.
    + intros [= <- <-]. exists (u ++ concat ts). split; [reflexivity|discriminate].
Qed.

(** ** The excel writer *)
Definition excel_w : wdialect := mk_wdialect COMMA (Some DQ) None true false [CR; LF] QUOTE_MINIMAL.
Lemma excel_writer reg h : reg (s2l "excel") = Some excel_csv -> new_writer reg h excel [] = Ok excel_w.
Proof. intros H. unfold new_writer, make_python_dialect, excel. rewrite H. reflexivity. Qed.

Definition plain_cells (rows : list (list cell)) : Prop :=
  forall r x, In r rows -> In x r -> exists s, x = CStr s.

Lemma excel_written rows limit : (forall r x, In r rows -> In x r -> no_nul (cell_str x)) ->
  plain_cells rows -> fits limit rows ->
  exists ts, row_texts excel_w (map (map cell_value_of) rows) = (ts, None) /\
    parse_string limit (concat ts) excel_simple false = (rows, None).
Proof.
  intros Hz Hp Hf.
  destruct (row_texts excel_w (map (map cell_value_of) rows)) as [ts x] eqn:E.
  apply row_texts_writerows in E.
  destruct (written_reads_back excel_w DQ ECRLF) with (rows := map (map cell_value_of) rows) (limit := limit)
    as (text & H1 & H2); try reflexivity; [discriminate| |].
  { intros r v Hr Hv. apply in_map_iff in Hr as (r0 & <- & Hr). apply in_map_iff in Hv as (y & <- & Hy).
    destruct (Hp _ _ Hr Hy) as [s Es]. subst y. cbn. split; [exact (Hz _ _ Hr Hy)|exact (Hf _ _ Hr Hy)]. }
  unfold writerows in E. rewrite H1 in E. injection E as -> <-.
  exists ts. split; [reflexivity|]. refine (eq_trans H2 _). f_equal.
  rewrite map_map. rewrite <- map_id. apply map_ext_in. intros r Hr.
  rewrite map_map. rewrite <- map_id. apply map_ext_in. intros y Hy.
  destruct (Hp _ _ Hr Hy) as [s ->]. reflexivity.
Qed.
(** Writing never fails and does not depend on limits. *)
Lemma excel_writes rows : exists ts, row_texts excel_w rows = (ts, None).
Proof.
  induction rows as [|r rows [ts IH]]; [now exists []|]. cbn [row_texts]. rewrite IH.
  unfold writerow.
  assert (HF : forall s q, exists t q', w_field excel_w q s = Ok (t, q')).
  { induction s as [|c s IHs]; intros q; [now exists [], q|]. cbn.
    assert (HC : exists t q', w_char excel_w q c = Ok (t, q')).
    { unfold w_char. destruct (w_special excel_w c); [|eauto]. cbn.
      destruct (c =? DQ)%N; cbn; eauto. }
    destruct HC as (t & q' & ->). cbn. destruct (IHs q') as (t' & q'' & ->). cbn. eauto. }
  assert (HR : forall r b, exists t, w_fields excel_w b r = Ok t).
  { induction r0 as [|v r0 IHr]; intros b; [now exists []|]. cbn. unfold w_append.
    assert (HE : w_empty excel_w false (value_str v) = Ok false) by (unfold w_empty; destruct (value_str v); reflexivity).
    rewrite HE. cbn. destruct (HF (value_str v) false) as (t & q & ->). cbn.
    destruct (IHr false) as (t' & ->). cbn. eauto. }
  unfold csv_writerow. destruct (HR r true) as (t & ->). cbn.
  destruct r as [|v r]; [eauto|]. destruct t; eauto.
Qed.

(** ** Rows read from a file *)
Lemma parse_data_rows limit items dl rows x :
  parse_data limit items (Some dl) None None None None false = (rows, x) ->
  (forall r c, In r rows -> In c r -> no_nul (cell_str c)) /\ plain_cells rows.
Proof.
  unfold parse_data, parse_data_. cbn [or_else].
  destruct (make_conf limit (sd_delimiter dl) (sd_quotechar dl) (sd_escapechar dl) (sd_strict dl) false)
    as [cf|e] eqn:E.
  2: { intros [= <- <-]. split; intros r c []. }
  destruct (parse_items cf items) as [rs en] eqn:EP. intros [= <- <-].
  assert (HR : rs = fst (parse_items cf items)) by now rewrite EP.
  split.
  - intros r c Hr Hc Hn. rewrite HR in Hr.
    destruct (cell_chars_from_input cf items r c NUL Hr Hc Hn) as [H _]. now apply H.
  - assert (Hrq : return_quoted cf = false).
    { revert E. unfold make_conf, bind. destruct (set_char _); [|discriminate].
      destruct (set_char _); [|discriminate]. destruct (set_char _); [|discriminate].
      now intros [= <-]. }
    intros r c Hr Hc. rewrite HR in Hr. destruct cf as [d q e l s rq]. cbn in Hrq. subst rq.
    destruct (quoting_info_irrelevant d q e l s items) as (H1 & _ & _). rewrite H1 in Hr.
    apply in_map_iff in Hr as (r0 & <- & Hr). apply in_map_iff in Hc as (c0 & <- & Hc). unfold untag. eauto.
Qed.

Section Run.
  Variables (S : senv) (f : fs) (p : path) (dl : SimpleDialect).
  Let E := s_env S.
  Hypothesis Hreg : e_registry E (s2l "excel") = Some excel_csv.
  Hypothesis Hval : validate dl = true.

  Lemma source_direct enc cin b rows x : f p = Some b -> e_codec E enc = Ok cin ->
    file_rows (e_limit E) cin b dl = (rows, x) ->
    source_rows S f p dl enc false = (rows, x).
  Proof.
    intros Hf Hc Hr. unfold source_rows. fold E. rewrite Hf, Hc.
    destruct (new_reader (e_registry E) [dl] false (text_items cin b) (DSimple 0) []) as [r h] eqn:EN.
    pose proof EN as EN'. unfold new_reader, make_simple_dialect in EN'. cbn [fold_left deref nth store] in EN'.
    rewrite Hval in EN'. injection EN' as <- <-.
    rewrite (reader_rows_parse_data _ _ _ _ _ _ _ _ _ _ EN). cbn [r_dialect deref nth].
    unfold file_rows in Hr. now rewrite Hr.
  Qed.
  Lemma source_transposed enc cin b rows x : f p = Some b -> e_codec E enc = Ok cin ->
    file_rows (e_limit E) cin b dl = (rows, x) ->
    source_rows S f p dl enc true = (match x with None => zip_star rows | Some _ => [] end, x).
  Proof.
    intros Hf Hc Hr. unfold source_rows. fold E. rewrite Hf, Hc.
    destruct (new_reader (e_registry E) [dl] false (text_items cin b) (DSimple 0) []) as [r h] eqn:EN.
    pose proof EN as EN'. unfold new_reader, make_simple_dialect in EN'. cbn [fold_left deref nth store] in EN'.
    rewrite Hval in EN'. injection EN' as <- <-.
    rewrite (reader_rows_parse_data _ _ _ _ _ _ _ _ _ _ EN). cbn [r_dialect deref nth].
    unfold file_rows in Hr. rewrite Hr. now destruct x.
  Qed.

  Definition excel_text (rows : list (list cell)) : str :=
    concat (fst (row_texts excel_w (map (map cell_value_of) rows))).

  Lemma stream_ok enc cin b rows c b' : f p = Some b -> e_codec E enc = Ok cin ->
    file_rows (e_limit E) cin b dl = (rows, None) -> lawful c ->
    cd_encode c (excel_text rows) = Some b' ->
    write_to_stream S f p c dl enc false = (excel_text rows, None).
  Proof.
    intros Hf Hc Hr Hl He. unfold write_to_stream. fold E. rewrite (excel_writer _ [] Hreg).
    rewrite (source_direct enc cin b rows None Hf Hc Hr). unfold put_rows.
    unfold excel_text in *. destruct (excel_writes (map (map cell_value_of) rows)) as [ts Hts].
    rewrite Hts in *. cbn [fst] in *. rewrite (put_all c Hl ts [] b' He). reflexivity.
  Qed.
End Run.

Lemma stringio_put ts : forall sofar, put stringio sofar ts = (sofar ++ concat ts, None).
Proof. induction ts as [|t ts IH]; intros s; cbn; [now rewrite app_nil_r|]. rewrite IH. now rewrite app_assoc. Qed.

Lemma stdout_ok S f p dl enc cin b rows : e_registry (s_env S) (s2l "excel") = Some excel_csv ->
  validate dl = true -> f p = Some b -> e_codec (s_env S) enc = Ok cin ->
  file_rows (e_limit (s_env S)) cin b dl = (rows, None) ->
  to_stdout S f p dl enc false = (Code 0, excel_text rows).
Proof.
  intros Hreg Hv Hf Hc Hr. unfold to_stdout, write_to_stream. rewrite (excel_writer _ [] Hreg).
  rewrite (source_direct S f p dl Hv enc cin b rows None Hf Hc Hr). unfold put_rows, excel_text.
  destruct (excel_writes (map (map cell_value_of) rows)) as [ts Hts]. rewrite Hts. cbn [fst].
  rewrite stringio_put. reflexivity.
Qed.

(** C17 *)
Theorem standardize_preserves S f p dl enc cin b rows :
  e_registry (s_env S) (s2l "excel") = Some excel_csv ->
  validate dl = true -> f p = Some b -> e_codec (s_env S) enc = Ok cin ->
  file_rows (e_limit (s_env S)) cin b dl = (rows, None) ->
  exists t,
    to_stdout S f p dl enc false = (Code 0, t) /\
    (forall limit, fits limit rows -> parse_string limit t excel_simple false = (rows, None)) /\
    (forall o target cout b', o <> p -> e_codec (s_env S) target = Ok cout -> lawful cout ->
       cd_encode cout t = Some b' ->
       exists f', to_file S f p o dl enc target false = (Code 0, f') /\
         same_fs f' (upd f o (Some b')) /\
         (forall limit, fits limit rows -> file_rows limit cout b' excel_simple = (rows, None))).
Proof.
  intros Hreg Hv Hf Hc Hr. exists (excel_text rows).
  split; [now apply (stdout_ok S f p dl enc cin b)|].
  assert (HP : forall limit, fits limit rows -> parse_string limit (excel_text rows) excel_simple false = (rows, None)).
  { intros limit Hfit. destruct (parse_data_rows _ _ _ _ _ Hr) as [Hz Hp].
    destruct (excel_written rows limit Hz Hp Hfit) as (ts & H1 & H2). unfold excel_text. now rewrite H1. }
  split; [exact HP|].
  intros o target cout b' Ho Hct Hl He. unfold to_file, open_write. rewrite Hct.
  rewrite (stream_ok S (upd f o (Some [])) p dl Hreg Hv enc cin b rows cout b'); auto.
  2: { rewrite upd_other by congruence. exact Hf. }
  eexists. split; [reflexivity|]. unfold content. rewrite He. split.
  - intros q. unfold upd. now destruct (q =? o)%N.
  - intros limit Hfit. unfold file_rows, text_items. destruct Hl as (Hl & _). rewrite (Hl _ _ He).
    exact (HP limit Hfit).
Qed.

(** C18 *)
Lemma excel_reread limit rows : (forall r x, In r rows -> In x r -> no_nul (cell_str x)) ->
  plain_cells rows -> fits limit rows ->
  parse_string limit (excel_text rows) excel_simple false = (rows, None).
Proof.
  intros Hz Hp Hf. destruct (excel_written rows limit Hz Hp Hf) as (ts & H1 & H2). unfold excel_text. now rewrite H1.
Qed.

Theorem standardize_idempotent S f p dl enc cin b rows f2 p2 enc2 c2 b2 :
  e_registry (s_env S) (s2l "excel") = Some excel_csv ->
  validate dl = true -> f p = Some b -> e_codec (s_env S) enc = Ok cin ->
  file_rows (e_limit (s_env S)) cin b dl = (rows, None) -> fits (e_limit (s_env S)) rows ->
  forall t, to_stdout S f p dl enc false = (Code 0, t) ->
  f2 p2 = Some b2 -> e_codec (s_env S) enc2 = Ok c2 -> lawful c2 -> cd_encode c2 t = Some b2 ->
  f2 (s_mkstemp S f2) = None ->
  to_stdout S f2 p2 excel_simple enc2 false = (Code 0, t) /\
  exists f3, in_place S f2 p2 excel_simple enc2 enc2 false = (Code 0, f3) /\ same_fs f3 f2.
Proof.
  intros Hreg Hv Hf Hc Hr Hfit t Ht Hf2 Hc2 Hl He Htmp.
  rewrite (stdout_ok S f p dl enc cin b rows Hreg Hv Hf Hc Hr) in Ht. injection Ht as <-.
  destruct (parse_data_rows _ _ _ _ _ Hr) as [Hz Hp].
  assert (HR : file_rows (e_limit (s_env S)) c2 b2 excel_simple = (rows, None)).
  { unfold file_rows, text_items. destruct Hl as (Hl & _). rewrite (Hl _ _ He).
    exact (excel_reread _ rows Hz Hp Hfit). }
  split; [now apply (stdout_ok S f2 p2 excel_simple enc2 c2 b2)|].
  unfold in_place. rewrite Hc2. set (tmp := s_mkstemp S f2) in *.
  assert (Hne : p2 <> tmp) by congruence.
  rewrite (stream_ok S (upd f2 tmp (Some [])) p2 excel_simple Hreg eq_refl enc2 c2 b2 rows c2 b2); auto.
  2: { now rewrite upd_other. }
  rewrite upd_other, upd_other, Hf2 by exact Hne. unfold content. rewrite He.
  rewrite str_eqb_refl. eexists. split; [reflexivity|].
  intros q. unfold upd. destruct (q =? tmp)%N eqn:Eq; [|reflexivity].
  apply N.eqb_eq in Eq. subst q. now rewrite Htmp.
Qed.

(** C19: one file. *)
Theorem in_place_effect S f p dl enc target tr ex f' : f (s_mkstemp S f) = None -> f p <> None ->
  in_place S f p dl enc target tr = (ex, f') ->
  match ex with
  | Code n =>
      (n = 0%nat /\ same_fs f' f \/
       n = 2%nat /\ f' p <> f p /\ same_fs_but [p] f' f) /\
      exists c t old, e_codec (s_env S) target = Ok c /\ f p = Some old /\
        write_to_stream S (upd f (s_mkstemp S f) (Some [])) p c dl enc tr = (t, None) /\
        (n = 2%nat -> f' p = Some (content c t)) /\
        (n = 0%nat <-> s_sha1 S old = s_sha1 S (content c t))
  | Uncaught _ => same_fs_but [s_mkstemp S f] f' f
  end.
Proof.
  intros Htmp Hp. unfold in_place. set (tmp := s_mkstemp S f) in *.
  assert (Hne : p <> tmp) by congruence.
  destruct (e_codec (s_env S) target) as [c|x].
  2: { intros [= <- <-]. intros q Hq. apply upd_other. intros ->. apply Hq. now left. }
  destruct (write_to_stream S (upd f tmp (Some [])) p c dl enc tr) as [t x] eqn:EW.
  destruct x as [x|].
  { intros [= <- <-]. intros q Hq. assert (q <> tmp) by (intros ->; apply Hq; now left).
    now rewrite !upd_other. }
  rewrite !upd_other by exact Hne. destruct (f p) as [old|] eqn:Eo; [|congruence].
  destruct (str_eqb (s_sha1 S old) (s_sha1 S (content c t))) eqn:Es; intros [= <- <-].
  - apply str_eqb_eq in Es. split.
    + left. split; [reflexivity|]. intros q. unfold upd. destruct (q =? tmp)%N eqn:Eq; [|reflexivity].
      apply N.eqb_eq in Eq. subst q. now rewrite Htmp.
    + exists c, t, old. repeat split; auto; discriminate.
  - apply str_eqb_neq in Es. split.
    + right. split; [reflexivity|]. rewrite upd_other, upd_same by exact Hne. split.
      * rewrite ?Eo. intros [= H]. congruence.
      * intros q Hq. assert (q <> p) by (intros ->; apply Hq; now left).
        unfold upd. destruct (q =? tmp)%N eqn:Eq.
        { apply N.eqb_eq in Eq. subst q. now rewrite Htmp. }
        destruct (q =? p)%N eqn:Ep; [apply N.eqb_eq in Ep; congruence|reflexivity].
    + exists c, t, old. repeat split; auto; [|discriminate|contradiction]. intros _. now rewrite upd_other, upd_same by exact Hne.
Qed.

(** C19: the loop. *)
Theorem handle_loop_runs S A jobs : forall f g r f' t,
  handle_loop S A f g jobs = (Code r, f', t) ->
  exists before after ns, jobs = before ++ after /\ runs S A f before ns f' /\
    ( (after = [] /\ ~ In 1%nat ns /\ r = (if Nat.eqb g 0 then first_nonzero ns else g))
    \/ (exists ns0, ns = ns0 ++ [1%nat] /\ ~ In 1%nat ns0 /\ r = 1%nat) ).
Proof.
  induction jobs as [|[p [o e]] jobs IH]; intros f g r f' t; cbn [handle_loop].
  - intros [= <- <- <-]. exists [], [], []. split; [reflexivity|]. split; [constructor|].
    left. repeat split; auto. now destruct (Nat.eqb_spec g 0).
  - destruct (handle_path S A f p o e) as [[[n|x] f1] t1] eqn:EP; [|discriminate].
    destruct (Nat.eqb_spec n 1) as [->|Hn].
    + intros [= <- <- <-]. exists [(p, (o, e))], jobs, [1%nat]. split; [reflexivity|].
      split; [econstructor; [exact EP|constructor]|]. right. exists []. auto.
    + destruct (handle_loop S A f1 (if Nat.ltb 0 n && Nat.eqb g 0 then n else g) jobs) as [[c f2] t2] eqn:EL.
      intros [= -> <- <-]. apply IH in EL as (before & after & ns & -> & HR & H).
      exists ((p, (o, e)) :: before), after, (n :: ns). split; [reflexivity|].
      split; [econstructor; eassumption|].
      destruct H as [(-> & H1 & H2)|(ns0 & -> & H1 & H2)].
      * left. split; [reflexivity|]. split; [intros [H|H]; auto|]. rewrite H2.
        destruct (Nat.eqb_spec g 0) as [->|Hg]; cbn.
        -- destruct n as [|n]; cbn; [reflexivity|]. reflexivity.
        -- rewrite andb_false_r. apply Nat.eqb_neq in Hg. now rewrite Hg.
      * right. exists (n :: ns0). split; [reflexivity|]. split; [intros [H|H]; auto|exact H2].
Qed.

(** What one file contributes in in-place mode. *)
Lemma handle_path_in_place S A f p o e n f' t : a_in_place A = true ->
  f (s_mkstemp S f) = None ->
  handle_path S A f p o e = (Code n, f', t) ->
  (n = 0%nat \/ n = 1%nat) /\ same_fs f' f \/ n = 2%nat /\ f' p <> f p /\ same_fs_but [p] f' f.
Proof.
  intros Hi Htmp. unfold handle_path. destruct (f p) as [b|] eqn:Ep; [|discriminate].
  destruct (detect_dialect _ _ _ _ _) as [[dl|]|x]; [| |discriminate].
  - rewrite Hi. set (enc := match or_encoding e with None => _ | _ => _ end).
    set (target := match or_encoding (a_target A) with None => _ | _ => _ end).
    destruct (in_place S f p dl enc target (a_transpose A)) as [ex f1] eqn:EI.
    intros [= -> <- <-].
    pose proof (in_place_effect S f p dl enc target (a_transpose A) (Code n) f1 Htmp) as K.
    rewrite Ep in K. specialize (K ltac:(discriminate) EI). cbn in K.
    destruct K as [[[-> K]|K] _]; [left; auto|right; exact K].
  - intros [= <- <- <-]. left. split; [now right|]. intros q. reflexivity.
Qed.

(** Files that are not handled stay as they are. *)
Theorem runs_in_place S A : a_in_place A = true ->
  forall jobs f ns f', (forall g, same_fs_but (map fst jobs) g f -> g (s_mkstemp S g) = None) -> runs S A f jobs ns f' -> same_fs_but (map fst jobs) f' f.
Proof.
  intros Hi jobs f ns f' Htmp H. revert Htmp. induction H as [f|f p o e n f1 t jobs ns f2 H1 H2 IH]; intros Htmp.
  - intros q _. reflexivity.
  - assert (K1 : same_fs_but [p] f1 f).
    { apply handle_path_in_place in H1; [|exact Hi|apply Htmp; intros q _; reflexivity]. destruct H1 as [[_ K]|(_ & _ & K)]; [intros q _; apply K|exact K]. }
    assert (K2 : forall q, q <> p -> f1 q = f q) by (intros q Hq; apply K1; intros [->|[]]; congruence).
    intros q Hq. cbn in Hq. rewrite IH; [apply K2; intros ->; tauto| |tauto].
    intros g Hg. apply Htmp. intros x Hx. cbn in Hx. rewrite Hg by tauto. apply K2. intros ->. tauto.
Qed.

(** C54 *)
Lemma univ_lines_nil : univ_lines [] = [].
Proof. reflexivity. Qed.
Theorem output_onto_input S f p dl enc cin target cout tr :
  e_registry (s_env S) (s2l "excel") = Some excel_csv -> validate dl = true ->
  e_codec (s_env S) enc = Ok cin -> cd_decode cin [] = ([], true) ->
  e_codec (s_env S) target = Ok cout -> cd_encode cout [] = Some [] ->
  exists f', to_file S f p p dl enc target tr = (Code 0, f') /\ f' p = Some [] /\ same_fs_but [p] f' f.
Proof.
  intros Hreg Hv Hc Hd Ht He. unfold to_file, open_write. rewrite Ht. unfold write_to_stream.
  rewrite (excel_writer _ [] Hreg).
  assert (HR : file_rows (e_limit (s_env S)) cin [] dl = ([], None)).
  { unfold file_rows, text_items. rewrite Hd, univ_lines_nil. cbn [map].
    destruct dl as [[[|d [|]]|] [[|q [|]]|] [[|e [|]]|] s]; try discriminate Hv; reflexivity. }
  assert (HS : source_rows S (upd f p (Some [])) p dl enc tr = ([], None)).
  { destruct tr.
    - rewrite (source_transposed S _ p dl Hv enc cin [] [] None); auto. apply upd_same.
    - rewrite (source_direct S _ p dl Hv enc cin [] [] None); auto. apply upd_same. }
  rewrite HS. cbn. eexists. split; [reflexivity|]. unfold content. rewrite He. split; [apply upd_same|].
  intros q Hq. assert (q <> p) by (intros ->; apply Hq; now left). now rewrite !upd_other.
Qed.

Theorem other_output S f p o dl enc target tr ex f' : o <> p ->
  to_file S f p o dl enc target tr = (ex, f') -> f' p = f p.
Proof.
  intros Hn. unfold to_file, open_write. destruct (e_codec (s_env S) target) as [c|x].
  - destruct (write_to_stream _ _ _ _ _ _ _) as [t x]. intros [= <- <-]. now rewrite !upd_other by congruence.
  - intros [= <- <-]. now rewrite upd_other by congruence.
Qed.

(** The limit can make a standardised file unreadable. *)
Theorem standardize_limit :
  exists limit dl t rows, validate dl = true /\
    parse_string limit t dl false = (rows, None) /\
    snd (parse_string limit (excel_text rows) excel_simple false) = Some (CleverError EFieldLimit).
Proof.
  exists 3%Z, (simple (mk_chars (Some SEMI) None None) false), (s2l "a,b;c"), [[CStr (s2l "a,b"); CStr (s2l "c")]].
  repeat split.
Qed.

(** ** C21 *)
Lemma nodup_lengths (ls : list nat) : (1 < length (nodup Nat.eq_dec ls))%nat <->
  exists a b, In a ls /\ In b ls /\ a <> b.
Proof.
  split.
  - intros H. destruct (nodup Nat.eq_dec ls) as [|a [|b l]] eqn:E; cbn in H; try lia.
    exists a, b. pose proof (NoDup_nodup Nat.eq_dec ls) as HN. rewrite E in HN.
    inversion HN as [|? ? Ha HN']; subst. split.
    + apply (nodup_In Nat.eq_dec). rewrite E. now left.
    + split; [apply (nodup_In Nat.eq_dec); rewrite E; right; now left|]. intros ->. apply Ha. now left.
  - intros (a & b & Ha & Hb & Hne).
    apply (nodup_In Nat.eq_dec) in Ha, Hb. destruct (nodup Nat.eq_dec ls) as [|x [|y l]]; cbn in *; try lia; try tauto.
Qed.

Theorem write_table_ragged E f h table p dialect encoding :
  (exists r s, In r table /\ In s table /\ length r <> length s) ->
  write_table E f h table p dialect false encoding = (f, Some ValueError).
Proof.
  intros (r & s & Hr & Hs & Hne). unfold write_table. destruct table as [|r0 table]; [destruct Hr|].
  assert (H : (1 < length (nodup Nat.eq_dec (map (@length value) (r0 :: table))))%nat).
  { apply nodup_lengths. exists (length r), (length s). repeat split; auto using in_map. }
  apply Nat.ltb_lt in H. now rewrite H.
Qed.
Theorem write_table_empty E f h p dialect tr encoding :
  write_table E f h [] p dialect tr encoding = (f, None).
Proof. reflexivity. Qed.

