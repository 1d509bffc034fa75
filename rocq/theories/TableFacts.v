(** * TableFacts: reading and writing whole files *)
From Coq Require Import String.
From Verif Require Import Base Parser Dialect CsvLib Reader Writer Files Wrappers Standardize
  SpecLayout SpecParse SpecWriter SpecFiles ParserFacts ParserProps LayoutFacts ParserLift RoundTrip
  ReaderFacts WriterFacts CellFacts FilesFacts StandardizeFacts.

Local Notation length := List.length.

Lemma rect_check {A} n (t : list (list A)) : rectangular n t ->
  Nat.ltb 1 (length (nodup Nat.eq_dec (map (@length A) t))) = false.
Proof.
  intros HR. apply Nat.ltb_ge.
  destruct (Nat.le_gt_cases (length (nodup Nat.eq_dec (map (@length A) t))) 1) as [H|H]; [exact H|].
  apply nodup_lengths in H as (a & b & Ha & Hb & Hab).
  apply in_map_iff in Ha as (x & <- & Hx). apply in_map_iff in Hb as (y & <- & Hy).
  rewrite (HR x Hx), (HR y Hy) in Hab. congruence.
Qed.

Theorem write_table_rect E f h (table : list (list value)) p dialect (tr : bool) encoding c w n t b :
  table <> [] -> rectangular n table ->
  e_codec E encoding = Ok c -> lawful c -> new_writer (e_registry E) h dialect [] = Ok w ->
  writerows w (if tr then zip_star table else table) = (t, None) -> cd_encode c t = Some b ->
  exists f', write_table E f h table p dialect tr encoding = (f', None) /\
    same_fs f' (upd f p (Some b)).
Proof.
  intros Hne Hr Hc Hl Hw HW He. unfold write_table. destruct table as [|r0 table]; [congruence|].
  set (out := if tr then zip_star (r0 :: table) else r0 :: table) in *.
  assert (HR : exists m, rectangular m out).
  { subst out. destruct tr; [eexists; apply zip_star_rect|eauto]. }
  destruct HR as [m HR]. rewrite (rect_check m out HR).
  unfold open_write. rewrite Hc, Hw. unfold put_rows.
  destruct (row_texts w out) as [ts x] eqn:ET. apply row_texts_writerows in ET as EW.
  rewrite HW in EW. injection EW as -> <-.
  rewrite (put_all c Hl ts [] b He). eexists. split; [reflexivity|].
  intros q. unfold upd. destruct (q =? p)%N; [|reflexivity]. unfold content. cbn. now rewrite He.
Qed.

(** Otherwise the file is opened. *)
Theorem write_table_opens E f h (table : list (list value)) p dialect (tr : bool) encoding n f' x :
  table <> [] -> tr = true \/ rectangular n table ->
  write_table E f h table p dialect tr encoding = (f', x) -> f' p <> None /\ same_fs_but [p] f' f.
Proof.
  intros Hne Hr. unfold write_table. destruct table as [|r0 table]; [congruence|].
  set (out := if tr then zip_star (r0 :: table) else r0 :: table) in *.
  assert (HR : exists m, rectangular m out).
  { subst out. destruct tr; [eexists; apply zip_star_rect|]. destruct Hr; [discriminate|eauto]. }
  destruct HR as [m HR]. rewrite (rect_check m out HR).
  assert (HU : forall b, upd f p (Some b) p <> None /\ same_fs_but [p] (upd f p (Some b)) f).
  { intros b. rewrite upd_same. split; [discriminate|]. intros q Hq. apply upd_other. intros ->. apply Hq. now left. }
  unfold open_write. destruct (e_codec E encoding) as [c|e]; [|intros [= <- <-]; apply HU].
  destruct (new_writer (e_registry E) h dialect []) as [w|e]; [|intros [= <- <-]; apply HU].
  destruct (put_rows c w out) as [t y]. intros [= <- <-]. rewrite upd_same. split; [discriminate|].
  intros q Hq. assert (q <> p) by (intros ->; apply Hq; now left). now rewrite !upd_other.
Qed.

(** What write_table wrote, read_table reads. *)
Lemma rectangular_out {A} (n : nat) (table : list (list A)) (tr : bool) : rectangular n table ->
  exists m, rectangular m (if tr then zip_star table else table).
Proof. intros H. destruct tr; [eexists; apply zip_star_rect|eauto]. Qed.
Lemma readable_zip limit (t : list (list value)) : readable limit t -> readable limit (zip_star t).
Proof.
  intros H r v Hr Hv. destruct t as [|r0 t]; [destruct Hr|].
  apply In_nth_error in Hr as [j Hj]. apply zip_star_col in Hj; [|discriminate].
  apply (in_map Some) in Hv. rewrite <- Hj in Hv. apply in_map_iff in Hv as (r' & E & Hr').
  apply nth_error_In in E. eauto.
Qed.

Lemma zip_values (t : list (list value)) : incl (List.concat (map value_str (List.concat (zip_star t)))) (List.concat (map value_str (List.concat t))).
Proof.
  intros x Hx. apply in_concat in Hx as (s & Hs & Hx). apply in_map_iff in Hs as (v & <- & Hv). apply in_concat in Hv as (r & Hr & Hv).
  destruct t as [|r0 t]; [destruct Hr|].
  apply In_nth_error in Hr as [j Hj]. apply zip_star_col in Hj; [|discriminate].
  apply (in_map Some) in Hv. rewrite <- Hj in Hv. apply in_map_iff in Hv as (r' & E & Hr').
  apply nth_error_In in E. apply in_concat. exists (value_str v). split; [|exact Hx]. apply in_map, in_concat. now exists r'.
Qed.
Theorem write_then_read E f h (table : list (list value)) p name cv D d q (tr : bool) encoding c n nc :
  table <> [] -> rectangular n table -> readable (e_limit E) table ->
  e_registry E name = Some cv -> quoting_csv cv D d q -> wf_chars D = true ->
  e_codec E (Some encoding) = Ok c -> lawful c -> encodes c (added_chars D ++ List.concat (map value_str (List.concat table))) ->
  exists f', write_table E f h table p (DName name) tr (Some encoding) = (f', None) /\
    same_fs_but [p] f' f /\
    read_table E f' h p (Some (DName name)) (Some encoding) nc
      = Ok (as_read (if tr then zip_star table else table)).
Proof.
  intros Hne Hr Hread Hreg Hq HD Hc Hl Henc.
  set (out := if tr then zip_star table else table).
  assert (HRo : readable (e_limit E) out) by (subst out; destruct tr; auto using readable_zip).
  destruct (named_roundtrip (e_registry E) h name cv D d q out (e_limit E) Hreg Hq HD HRo)
    as (w & text & r & h' & H1 & H2 & H3 & H4).
  destruct (Henc text) as [b Hb].
  { apply (incl_tran (named_chars _ h name cv D d q w out text Hreg Hq H1 H2)). apply incl_app_app; [apply incl_refl|].
    subst out. destruct tr; [apply zip_values|apply incl_refl]. }
  destruct (write_table_rect E f h table p (DName name) tr (Some encoding) c w n text b Hne Hr Hc Hl H1 H2 Hb)
    as (f' & H5 & H6).
  exists f'. split; [exact H5|]. split.
  { intros x Hx. rewrite H6. apply upd_other. intros ->. apply Hx. now left. }
  unfold read_table, stream_table, open_reader, open_text. rewrite (H6 p), upd_same, Hc. cbn [bind].
  unfold text_items. destruct Hl as (Hl & _). rewrite (Hl _ _ Hb). rewrite H3, H4. reflexivity.
Qed.

(** Transposing a ragged table: no exception, and the last column is gone. *)
Lemma ragged_transposed : forall E f h p c w encoding dialect,
  e_codec E encoding = Ok c -> cd_encode c [] = Some [] ->
  new_writer (e_registry E) h dialect [] = Ok w ->
  exists f', write_table E f h [[VStr (s2l "a"); VStr (s2l "b")]; []] p dialect true encoding = (f', None) /\
    f' p = Some [].
Proof.
  intros E f h p c w encoding dialect Hc He Hw. cbn. rewrite Hc, Hw. cbn.
  eexists. split; [reflexivity|]. rewrite upd_same. unfold content. now rewrite He.
Qed.

(** ** num_chars *)
Lemma read_chars_head c b t n : cd_decode c b = (t, true) -> read_chars c b n = Ok (head_chars n t).
Proof.
  intros H. unfold read_chars, head_chars. rewrite H. cbn [orb].
  destruct n as [z|]; [|reflexivity]. now destruct (0 <? z)%Z.
Qed.

Lemma new_reader_fresh reg h items sd : validate sd = true ->
  exists r, new_reader reg (h ++ [sd]) false items (DSimple (length h)) [] = (Ok r, h ++ [sd]) /\
    r_dialect r = length h.
Proof.
  intros Hv. unfold new_reader, make_simple_dialect. cbn [fold_left].
  unfold deref. rewrite app_nth2, Nat.sub_diag by lia. cbn [nth]. rewrite store_app, Hv. eauto.
Qed.

Theorem num_chars_detection E f h p encoding c b t n sd :
  open_text E f p encoding = Ok (c, b) -> cd_decode c b = (t, true) ->
  e_detect E (head_chars n t) = Ok (Some sd) -> validate sd = true ->
  stream_table E f h p None encoding n = file_rows (e_limit E) c b sd.
Proof.
  intros Ho Hd He Hv. unfold stream_table, open_reader. rewrite Ho, (read_chars_head c b t n Hd).
  cbn [bind]. rewrite He.
  destruct (new_reader_fresh (e_registry E) h (text_items c b) sd Hv) as (r & EN & Hr). rewrite EN.
  rewrite (reader_rows_parse_data _ _ _ _ _ _ _ _ _ _ EN), Hr.
  unfold deref. rewrite app_nth2, Nat.sub_diag by lia. reflexivity.
Qed.
Theorem no_result E f h p encoding c b t n :
  open_text E f p encoding = Ok (c, b) -> cd_decode c b = (t, true) ->
  e_detect E (head_chars n t) = Ok None ->
  stream_table E f h p None encoding n = ([], Some NoDetectionResult).
Proof.
  intros Ho Hd He. unfold stream_table, open_reader. rewrite Ho, (read_chars_head c b t n Hd).
  cbn [bind]. now rewrite He.
Qed.
Theorem num_chars_unused E detect f h p d encoding n m :
  let E' := mk_env (e_registry E) (e_codec E) (e_get_encoding E) detect (e_limit E) in
  stream_table E f h p (Some d) encoding n = stream_table E' f h p (Some d) encoding m.
Proof. reflexivity. Qed.

(** ** A concrete environment for the examples *)
Definition demo_env (detect : str -> res pyexc (option SimpleDialect)) : env :=
  mk_env std_registry (fun _ => Ok latin1) (fun _ => None) detect 131072.
Definition demo_senv (detect : str -> res pyexc (option SimpleDialect)) : senv :=
  mk_senv (demo_env detect) (fun b => b) (fun _ => 99%N).
Lemma latin1_lawful : lawful latin1.
Proof.
  split; [|split].
  - intros t b. cbn. destruct (forallb _ t); [|discriminate]. now intros [= <-].
  - intros t u b. cbn. rewrite forallb_app. destruct (forallb _ t); [eauto|discriminate].
  - reflexivity.
Qed.
Lemma latin1_encodes alphabet : forallb (fun c => (c <? 256)%N) alphabet = true -> encodes latin1 alphabet.
Proof.
  intros H t Ht. exists t. cbn. assert (E : forallb (fun c => (c <? 256)%N) t = true) by (apply forallb_forall; intros x Hx; rewrite forallb_forall in H; now apply H, Ht).
  now rewrite E.
Qed.
Definition one_file (text : str) : fs := fun p => if (p =? 1)%N then Some text else None.

Lemma same_limit_witness : exists S f dl t,
    validate dl = true /\
    file_rows (e_limit (s_env S)) latin1 (s2l "a,b;c") dl = ([[CStr (s2l "a,b"); CStr (s2l "c")]], None) /\
    f 1%N = Some (s2l "a,b;c") /\ to_stdout S f 1%N dl None false = (Code 0, t) /\
    parse_string (e_limit (s_env S)) t excel_simple false = ([], Some (CleverError EFieldLimit)).
Proof.
  exists (mk_senv (mk_env std_registry (fun _ => Ok latin1) (fun _ => None) (fun _ => Ok None) 3) (fun b => b) (fun _ => 9%N)).
  exists (one_file (s2l "a,b;c")), (simple (mk_chars (Some SEMI) None None) false), (s2l """a,b"",c" ++ [CR; LF]).
  repeat split.
Qed.

(** ** Success means that everything was written *)
Lemma put_none c ts : forall sofar t, put c sofar ts = (t, None) -> t = sofar ++ concat ts.
Proof.
  induction ts as [|x ts IH]; intros sofar t; cbn [put concat].
  - intros [= <-]. now rewrite app_nil_r.
  - destruct (cd_encode c (sofar ++ x)); [|discriminate]. intros H. apply IH in H. now rewrite app_assoc.
Qed.
Theorem write_table_success E f h (table : list (list value)) p dialect (tr : bool) encoding f' :
  table <> [] -> write_table E f h table p dialect tr encoding = (f', None) ->
  exists c w t, e_codec E encoding = Ok c /\ new_writer (e_registry E) h dialect [] = Ok w /\
    writerows w (if tr then zip_star table else table) = (t, None) /\ f' p = Some (content c t).
Proof.
  intros Hne. unfold write_table. destruct table as [|r0 table]; [congruence|].
  set (out := if tr then zip_star (r0 :: table) else r0 :: table).
  destruct (Nat.ltb 1 _); [discriminate|]. unfold open_write.
  destruct (e_codec E encoding) as [c|]; [|discriminate].
  destruct (new_writer (e_registry E) h dialect []) as [w|]; [|discriminate].
  unfold put_rows. destruct (row_texts w out) as [ts x] eqn:ET. apply row_texts_writerows in ET.
  destruct (put c [] ts) as [t y] eqn:EP. intros [= <- H]. destruct y; [discriminate|]. subst x.
  apply put_none in EP. cbn in EP. subst t. exists c, w, (concat ts). rewrite upd_same. auto.
Qed.

(** ** A decoding error *)
Lemma univ_lines_concat n : forall t cur, (length t <= n)%nat -> concat (univ_lines_aux cur t) = cur ++ t.
Proof.
  induction n as [|n IH]; intros t cur Hn.
  - destruct t; [|cbn in Hn; lia]. cbn. destruct cur; cbn; now rewrite ?app_nil_r.
  - destruct t as [|c t]; [cbn; destruct cur; cbn; now rewrite ?app_nil_r|]. cbn in Hn. cbn [univ_lines_aux].
    destruct (c =? LF)%N; [cbn [concat]; rewrite IH by lia; now rewrite <- app_assoc|].
    destruct (c =? CR)%N.
    + destruct t as [|d t]; [cbn; now rewrite app_nil_r|]. cbn in Hn.
      destruct (d =? LF)%N; cbn [concat]; rewrite IH by (cbn; lia); now rewrite <- app_assoc.
    + rewrite IH by lia. now rewrite <- app_assoc.
Qed.
(** Every line ends with a terminator, except a last one without any. *)
Definition ended (l : str) : bool := str_endswith l LF || str_endswith l CR.
Lemma ended_snoc l c : is_nl c = true -> ended (l ++ [c]) = true.
Proof.
  intros H. unfold ended, str_endswith. rewrite rev_app_distr. cbn. unfold is_nl in H. now rewrite orb_comm in H.
Qed.
Definition no_newline (l : str) : bool := forallb (fun c => negb (is_nl c)) l.
Lemma univ_lines_form n : forall t cur, (length t <= n)%nat -> no_newline cur = true ->
  exists ls r, univ_lines_aux cur t = ls ++ match r with [] => [] | _ => [r] end /\
    forallb ended ls = true /\ no_newline r = true.
Proof.
  assert (K : forall l ls', ended l = true ->
     (exists ls r, ls' = ls ++ match r with [] => [] | _ => [r] end /\ forallb ended ls = true /\ no_newline r = true) ->
     exists ls r, l :: ls' = ls ++ match r with [] => [] | _ => [r] end /\ forallb ended ls = true /\ no_newline r = true).
  { intros l ls' H1 (ls & r & -> & H2 & H3). exists (l :: ls), r. cbn. now rewrite H1. }
  assert (K0 : forall cur, no_newline cur = true -> exists ls r,
     univ_lines_aux cur [] = ls ++ match r with [] => [] | _ => [r] end /\ forallb ended ls = true /\ no_newline r = true).
  { intros cur H. exists [], cur. cbn. destruct cur; auto. }
  induction n as [|n IH]; intros t cur Hn Hc.
  - destruct t; [|cbn in Hn; lia]. now apply K0.
  - destruct t as [|c t]; [now apply K0|]. cbn in Hn. cbn [univ_lines_aux].
    destruct (c =? LF)%N eqn:E1.
    { apply K; [apply ended_snoc; unfold is_nl; now rewrite E1, orb_true_r|]. apply IH; [lia|reflexivity]. }
    destruct (c =? CR)%N eqn:E2.
    + destruct t as [|d t].
      { apply (K _ []); [apply ended_snoc; unfold is_nl; now rewrite E2|]. now exists [], []. }
      cbn in Hn. destruct (d =? LF)%N eqn:E3.
      * apply K; [|apply IH; [lia|reflexivity]].
        change (ended (cur ++ [c; d])) with (ended (cur ++ [c] ++ [d])). rewrite app_assoc. apply ended_snoc.
        unfold is_nl. now rewrite E3, orb_true_r.
      * apply K; [apply ended_snoc; unfold is_nl; now rewrite E2|]. apply IH; [cbn; lia|reflexivity].
    + apply IH; [lia|]. unfold no_newline. rewrite forallb_app. unfold no_newline in Hc. rewrite Hc. cbn. unfold is_nl. now rewrite E1, E2.
Qed.
Theorem decode_error_items c b t : cd_decode c b = (t, false) -> exists ls r,
  text_items c b = map ILine ls ++ [IExc] /\ t = concat ls ++ r /\
  forallb ended ls = true /\ no_newline r = true.
Proof.
  intros H. unfold text_items. rewrite H. unfold complete_lines.
  pose proof (univ_lines_concat _ t [] (le_n _)) as Hc.
  destruct (univ_lines_form _ t [] (le_n _) eq_refl) as (ls & r & E & H1 & H2).
  fold (univ_lines t) in *. cbn [app] in Hc. rewrite E in Hc |- *. exists ls, r.
  destruct r as [|x r].
  - rewrite app_nil_r in *. split; [|rewrite app_nil_r; auto]. destruct (@rev str ls) as [|l ls'] eqn:Er.
    + apply (f_equal (@rev str)) in Er. rewrite rev_involutive in Er. rewrite Er. reflexivity.
    + assert (He : ended l = true).
      { rewrite forallb_forall in H1. apply H1. apply in_rev. rewrite Er. now left. }
      unfold ended in He. rewrite He. reflexivity.
  - rewrite rev_app_distr. cbn [rev app].
    assert (He : str_endswith (x :: r) LF || str_endswith (x :: r) CR = false).
    { destruct (rev (x :: r)) as [|y r'] eqn:Er; [unfold str_endswith; now rewrite Er|].
      unfold str_endswith. rewrite Er. unfold no_newline in H2. rewrite forallb_forall in H2.
      assert (Hy : In y (x :: r)) by (apply in_rev; rewrite Er; now left).
      specialize (H2 y Hy). apply negb_true_iff in H2. unfold is_nl in H2. now rewrite orb_comm. }
    rewrite He, removelast_last. split; [reflexivity|]. split; [|auto].
    rewrite <- Hc, concat_app. cbn. now rewrite app_nil_r.
Qed.

(** ** Arguments of the standardize command *)
Lemma handle_in_place_output S A f : a_in_place A = true -> a_outputs A <> [] -> handle S A f = (Code 1, f, []).
Proof. intros H1 H2. unfold handle. rewrite H1. destruct (a_outputs A); [contradiction|reflexivity]. Qed.
Lemma handle_output_count S A f : a_in_place A = false -> a_outputs A <> [] ->
  length (a_outputs A) <> length (a_paths A) -> handle S A f = (Code 1, f, []).
Proof.
  intros H1 H2 H3. unfold handle. rewrite H1. cbn [andb negb]. destruct (a_outputs A) as [|o os]; [contradiction|].
  rewrite map_length. destruct (Nat.eqb_spec (length (o :: os)) (length (a_paths A))); [contradiction|reflexivity].
Qed.
Definition with_encodings (A : sargs) (es : list str) : sargs :=
  mk_sargs (a_paths A) es (a_target A) (a_in_place A) (a_num_chars A) (a_outputs A) (a_transpose A).
Lemma handle_loop_encodings S A es jobs : forall f g,
  handle_loop S (with_encodings A es) f g jobs = handle_loop S A f g jobs.
Proof.
  induction jobs as [|[p [o e]] jobs IH]; intros f g; [reflexivity|]. cbn [handle_loop].
  change (handle_path S (with_encodings A es) f p o e) with (handle_path S A f p o e).
  destruct (handle_path S A f p o e) as [[[n|x] f'] t]; [|reflexivity].
  destruct (Nat.eqb n 1); [reflexivity|]. now rewrite IH.
Qed.
Lemma handle_one_encoding S A f e : a_paths A <> [] ->
  handle S (with_encodings A [e]) f = handle S (with_encodings A (repeat e (length (a_paths A)))) f.
Proof.
  intros H. unfold handle, with_encodings. cbn [a_in_place a_outputs a_paths a_encodings].
  destruct (_ && _); [reflexivity|]. destruct (_ && _); [reflexivity|].
  destruct (a_paths A) as [|p [|p' ps]]; [contradiction|reflexivity|]. cbn [length repeat map].
  rewrite map_map || idtac. set (n := length ps).
  assert (E : map Some (repeat e n) = repeat (Some e) n) by (clear; induction n; cbn; congruence).
  rewrite E. cbn [length]. rewrite repeat_length, Nat.eqb_refl.
  rewrite <- (handle_loop_encodings S _ (e :: e :: repeat e n)). reflexivity.
Qed.
Lemma handle_encoding_count S A f e1 e2 es : a_encodings A = e1 :: e2 :: es ->
  length (a_encodings A) <> length (a_paths A) -> handle S A f = (Code 1, f, []).
Proof.
  intros H1 H2. unfold handle. destruct (_ && _); [reflexivity|]. destruct (_ && _); [reflexivity|].
  rewrite H1 in *. cbn [map]. cbn [length] in *. rewrite map_length.
  destruct (Nat.eqb_spec (Datatypes.S (Datatypes.S (length es))) (length (a_paths A))); [contradiction|reflexivity].
Qed.
