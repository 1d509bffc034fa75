(** * WriterFacts: round trips at the level of the Python API *)
From Coq Require Import String.
From Verif Require Import Base Parser Dialect CsvLib Reader Writer SpecLayout SpecParse SpecWriter
  ParserFacts LayoutFacts ParserLift RoundTrip RoundTripPlain ReaderFacts.



Lemma new_writer_simple reg h a D st d q : deref h a = simple D st ->
  cd D = Some d -> cq D = Some q ->
  new_writer reg h (DSimple a) [] = Ok (mk_wdialect d (Some q) (ce D) true false [LF] QUOTE_MINIMAL).
Proof.
  intros Ha Hd Hq. unfold new_writer, make_python_dialect. rewrite Ha.
  destruct D as [cd0 cq0 ce0]. cbn in *. subst. destruct ce0; reflexivity.
Qed.

Theorem simple_roundtrip reg h a D st d q rows limit :
  deref h a = simple D st -> cd D = Some d -> cq D = Some q -> wf_chars D = true ->
  readable limit rows ->
  exists w text, new_writer reg h (DSimple a) [] = Ok w /\ writerows w rows = (text, None) /\
    parse_string limit text (simple D false) false = (as_read rows, None).
Proof.
  intros Ha Hd Hq HD Hr. destruct D as [cd0 cq0 ce0]. cbn in Hd, Hq. subst.
  rewrite (new_writer_simple reg h a _ st d q Ha eq_refl eq_refl). cbn [ce].
  eexists. 
  edestruct (written_reads_back (mk_wdialect d (Some q) ce0 true false [LF] QUOTE_MINIMAL) q ELF
    HD eq_refl eq_refl) as (text & H1 & H2); try reflexivity; [discriminate|exact Hr|].
  exists text. split; [reflexivity|]. split; [|exact H2]. unfold writerows. now rewrite H1.
Qed.


(** The characters of a written text. *)
Definition w_chars (w : wdialect) : list N := wd_delim w :: opt_str (wd_quote w) ++ opt_str (wd_escape w) ++ wd_term w.
Lemma chars_quote w : incl (w_quote_str w) (w_chars w).
Proof. unfold w_quote_str, w_chars. intros x Hx. right. apply in_or_app. left. destruct (wd_quote w); exact Hx. Qed.
Lemma chars_char w quoted c t q : w_char w quoted c = Ok (t, q) -> incl t (c :: w_chars w).
Proof.
  unfold w_char, w_chars. intros H x Hx. assert (G : x = c \/ wd_escape w = Some x).
  { destruct (w_special w c); [|injection H as <- <-; destruct Hx as [<-|[]]; now left].
    destruct (wd_quoting w), (opt_is (wd_quote w) c), (wd_doublequote w), (opt_is (wd_escape w) c), (wd_escape w) as [e|]; try discriminate H;
      injection H as <- <-; cbn in Hx; intuition subst; auto. }
  destruct G as [->|G]; [now left|]. right. right. apply in_or_app. right. apply in_or_app. left. rewrite G. now left.
Qed.
Lemma chars_field w s : forall quoted t q, w_field w quoted s = Ok (t, q) -> incl t (w_chars w ++ s).
Proof.
  induction s as [|c s IH]; cbn [w_field]; intros quoted t q H; [injection H as <- <-; intros x []|].
  destruct (w_char w quoted c) as [[t1 q1]|] eqn:E1; [|discriminate]. cbn [bind] in H. destruct (w_field w q1 s) as [[t2 q2]|] eqn:E2; [|discriminate]. injection H as <- <-.
  intros x Hx. apply in_app_or in Hx as [Hx|Hx].
  - apply (chars_char _ _ _ _ _ E1) in Hx as [<-|Hx]; apply in_or_app; [right; now left|left; exact Hx].
  - apply (IH _ _ _ E2) in Hx. apply in_app_or in Hx as [Hx|Hx]; apply in_or_app; [left; exact Hx|right; now right].
Qed.
Lemma chars_append w first quoted s t : w_append w first quoted s = Ok t -> incl t (w_chars w ++ s).
Proof.
  unfold w_append. destruct (w_empty w quoted s) as [qd|]; [|discriminate]. cbn [bind]. destruct (w_field w qd s) as [[t' q']|] eqn:E; [|discriminate]. cbn [bind]. intros [= <-].
  apply incl_app; [destruct first; [intros x []|]; intros x [<-|[]]; apply in_or_app; left; now left|].
  pose proof (chars_field _ _ _ _ _ E) as K. destruct q'; [|exact K].
  apply incl_app; [apply incl_appl, chars_quote|]. apply incl_app; [exact K|apply incl_appl, chars_quote].
Qed.
Lemma chars_fields w row : forall first t, w_fields w first row = Ok t -> incl t (w_chars w ++ List.concat (map value_str row)).
Proof.
  induction row as [|v row IH]; cbn [w_fields]; intros first t H; [injection H as <-; intros x []|].
  destruct (w_append w first (w_quoted w v) (value_str v)) as [t1|] eqn:E1; [|discriminate]. cbn [bind] in H. destruct (w_fields w false row) as [t2|] eqn:E2; [|discriminate]. injection H as <-.
  cbn [map List.concat]. intros x Hx. apply in_app_or in Hx as [Hx|Hx]; [apply (chars_append _ _ _ _ _ E1) in Hx|apply (IH _ _ E2) in Hx];
    apply in_app_or in Hx as [Hx|Hx]; apply in_or_app; [left; exact Hx| |left; exact Hx|]; right; apply in_or_app; [left; exact Hx|right; exact Hx].
Qed.
Lemma chars_row w row t : csv_writerow w row = Ok t -> incl t (w_chars w ++ List.concat (map value_str row)).
Proof.
  unfold csv_writerow. destruct (w_fields w true row) as [t1|] eqn:E; [|discriminate]. cbn [bind]. intros H.
  assert (HT : incl (wd_term w) (w_chars w ++ List.concat (map value_str row))) by (intros x Hx; apply in_or_app; left; right; apply in_or_app; right; apply in_or_app; now right).
  assert (HQ : incl (w_quote_str w) (w_chars w ++ List.concat (map value_str row))) by apply incl_appl, chars_quote.
  pose proof (chars_fields _ _ _ _ E) as HF. destruct row as [|v row]; [injection H as <-; now apply incl_app|].
  destruct t1 as [|y t1]; [destruct (wd_quoting w); try discriminate H; injection H as <-; apply incl_app; [exact HQ|apply incl_app; assumption|exact HQ|apply incl_app; assumption|exact HQ|apply incl_app; assumption]|].
  injection H as <-. exact (incl_app HF HT).
Qed.
Lemma chars_rows w rows : forall t x, csv_writerows w rows = (t, x) -> incl t (w_chars w ++ List.concat (map value_str (List.concat rows))).
Proof.
  induction rows as [|r rows IH]; cbn [csv_writerows]; intros t x H; [injection H as <- <-; intros y []|].
  destruct (csv_writerow w r) as [t1|] eqn:E; [|injection H as <- <-; intros y []]. destruct (csv_writerows w rows) as [t2 x2] eqn:E2. injection H as <- <-.
  cbn [List.concat]. rewrite map_app, concat_app. intros y Hy. apply in_app_or in Hy as [Hy|Hy]; [apply (chars_row _ _ _ E) in Hy|apply (IH _ _ eq_refl) in Hy];
    apply in_app_or in Hy as [Hy|Hy]; apply in_or_app; [left; exact Hy| |left; exact Hy|]; right; apply in_or_app; [left; exact Hy|right; exact Hy].
Qed.
Lemma named_chars reg h name c D d q w rows text : reg name = Some c -> quoting_csv c D d q -> new_writer reg h (DName name) [] = Ok w -> writerows w rows = (text, None) ->
  incl text ((opt_str (cd D) ++ opt_str (cq D) ++ opt_str (ce D) ++ [CR; LF]) ++ List.concat (map value_str (List.concat rows))).
Proof.
  intros Hn (Hd & Hq & C1 & C2 & C3 & C4 & C5 & (t & C6 & C7) & C8) HW HR. destruct D as [cd0 cq0 ce0]. cbn in *. subst cd0 cq0.
  assert (EW : w = mk_wdialect d (Some q) ce0 true (cv_skipinitialspace c) t (cv_quoting c)).
  { unfold new_writer, make_python_dialect in HW. rewrite Hn in HW. cbn [bind fold_left] in HW. rewrite C6 in HW. unfold dialect_new in HW. rewrite C1, C2, C3, C4, C6 in HW.
    destruct ce0; cbn in HW; destruct (cv_quoting c); congruence. }
  unfold writerows in HR. destruct (csv_writerows w rows) as [t' x] eqn:E. injection HR as -> _. apply (incl_tran (chars_rows _ _ _ _ E)). apply incl_app_app; [|apply incl_refl].
  subst w. unfold w_chars. cbn [wd_delim wd_quote wd_escape wd_term opt_str app]. apply incl_cons; [now left|]. apply incl_cons; [right; now left|].
  intros x0 Hx. right. right. apply in_app_or in Hx as [Hx|Hx]; apply in_or_app; [left; exact Hx|right]. destruct C7 as [<-|[<-|[<-|[]]]]; cbn in *; tauto.
Qed.

Theorem named_roundtrip reg h name c D d q rows limit :
  reg name = Some c -> quoting_csv c D d q -> wf_chars D = true -> readable limit rows ->
  exists w text r h', new_writer reg h (DName name) [] = Ok w /\ writerows w rows = (text, None) /\
    new_reader reg h false (map ILine (univ_lines text)) (DName name) [] = (Ok r, h') /\
    reader_rows limit h' r = (as_read rows, None).
Proof.
  intros Hn (Hd & Hq & C1 & C2 & C3 & C4 & C5 & (t & C6 & C7) & C8) HD Hr.
  destruct D as [cd0 cq0 ce0]. cbn in *. subst cd0 cq0.
  set (w := mk_wdialect d (Some q) ce0 true (cv_skipinitialspace c) t (cv_quoting c)).
  assert (HW : new_writer reg h (DName name) [] = Ok w).
  { unfold new_writer, make_python_dialect. rewrite Hn. cbn [bind fold_left]. rewrite C6.
    unfold dialect_new. rewrite C1, C2, C3, C4, C6. subst w.
    destruct ce0; cbn; destruct (cv_quoting c); congruence. }
  assert (Ht : exists e, term_eol t = Some e).
  { destruct C7 as [<-|[<-|[<-|[]]]]; eexists; reflexivity. }
  destruct Ht as [e Ht].
  destruct (written_reads_back w q e HD eq_refl eq_refl C5 Ht rows limit Hr) as (text & H1 & H2).
  assert (HS : from_csv_dialect c = Ok (simple (mk_chars (Some d) (Some q) ce0) false)).
  { unfold from_csv_dialect. rewrite C1, C2, C3, C8. destruct ce0; cbn; destruct (cv_quoting c); (congruence || reflexivity). }
  destruct (new_reader reg h false (map ILine (univ_lines text)) (DName name) []) as [x h'] eqn:E.
  pose proof E as E'. unfold new_reader, make_simple_dialect in E'. rewrite Hn, HS in E'.
  cbn [fold_left] in E'. unfold deref in E'. rewrite app_nth2, Nat.sub_diag in E' by lia. cbn [nth] in E'.
  rewrite store_app in E'.
  replace (validate (simple (mk_chars (Some d) (Some q) ce0) false)) with true in E'
    by (destruct ce0; reflexivity).
  injection E' as <- <-.
  exists w, text. do 2 eexists. split; [exact HW|]. split; [unfold writerows; now rewrite H1|].
  split; [exact E|]. rewrite (reader_rows_parse_data _ _ _ _ _ _ _ _ _ _ E). cbn [r_dialect].
  unfold deref. rewrite app_nth2, Nat.sub_diag by lia. cbn [nth]. exact H2.
Qed.

(** ** Without a quote character *)
Lemma new_writer_plain reg h a D st d : deref h a = simple D st ->
  cd D = Some d -> cq D = None ->
  new_writer reg h (DSimple a) [] = Ok (mk_wdialect d (Some DQ) (ce D) true false [LF] QUOTE_NONE).
Proof.
  intros Ha Hd Hq. unfold new_writer, make_python_dialect. rewrite Ha.
  destruct D as [cd0 cq0 ce0]. cbn in *. subst. destruct ce0; reflexivity.
Qed.


Lemma comes_back_same D s : (forall c, In c s -> (c =? DQ)%N && negb (special D c) = false) ->
  comes_back D s = s.
Proof.
  unfold comes_back. induction s as [|c s IH]; intros H; [reflexivity|]. cbn [map concat].
  rewrite H by now left. rewrite IH by (intros; apply H; now right). reflexivity.
Qed.
Lemma comes_back_noesc D s : ce D = None -> comes_back D s = s.
Proof.
  intros He. unfold comes_back. induction s as [|c s IH]; [reflexivity|]. cbn [map concat].
  rewrite IH, He. now destruct (_ && _).
Qed.
Lemma comes_back_length D s : (length s <= length (comes_back D s))%nat.
Proof.
  unfold comes_back. induction s as [|c s IH]; [cbn; lia|]. cbn [map concat length]. rewrite app_length.
  destruct (_ && _); [rewrite app_length|]; cbn [length]; lia.
Qed.

Theorem plain_roundtrip reg h a D st d rows limit w text :
  deref h a = simple D st -> cd D = Some d -> cq D = None -> wf_chars D = true ->
  new_writer reg h (DSimple a) [] = Ok w -> writerows w rows = (text, None) ->
  (forall r v, In r rows -> In v r ->
     no_nul (value_str v) /\ (Z.of_nat (length (comes_back D (value_str v))) <= limit)%Z) ->
  parse_string limit text (simple D false) false =
    (map (map (fun v => CStr (comes_back D (value_str v)))) rows, None).
Proof.
  intros Ha Hd Hq HD. rewrite (new_writer_plain reg h a D st d Ha Hd Hq).
  destruct D as [cd0 cq0 ce0]. cbn in Hd, Hq. subst. intros [= <-]. cbn [ce]. unfold writerows.
  destruct (csv_writerows _ rows) as [t x] eqn:E. intros [= -> Hx] Hr. destruct x; [discriminate|].
  exact (written_reads_back_n (mk_wdialect d (Some DQ) ce0 true false [LF] QUOTE_NONE) DQ ELF HD
    eq_refl eq_refl eq_refl eq_refl eq_refl rows text limit E Hr).
Qed.

(** Which tables can be written at all. *)
Theorem plain_writable_escape reg h a D st d ec rows :
  deref h a = simple D st -> cd D = Some d -> cq D = None -> ce D = Some ec -> wf_chars D = true ->
  exists w, new_writer reg h (DSimple a) [] = Ok w /\
    ((forall r v, In r rows -> r = [v] -> value_str v <> []) -> exists text, writerows w rows = (text, None)).
Proof.
  intros Ha Hd Hq He HD. rewrite (new_writer_plain reg h a D st d Ha Hd Hq). eexists. split; [reflexivity|].
  destruct D as [cd0 cq0 ce0]. cbn in Hd, Hq, He. subst. cbn [ce]. intros H.
  destruct (writes_some (mk_wdialect d (Some DQ) (Some ec) true false [LF] QUOTE_NONE)
    HD eq_refl eq_refl ec rows eq_refl H) as [text E].
  exists text. unfold writerows. now rewrite E.
Qed.

Theorem plain_writable reg h a D st d rows :
  deref h a = simple D st -> cd D = Some d -> cq D = None -> ce D = None -> wf_chars D = true ->
  exists w, new_writer reg h (DSimple a) [] = Ok w /\
    ((exists text, writerows w rows = (text, None)) <->
     (forall r v c, In r rows -> In v r -> In c (value_str v) -> c <> d /\ c <> DQ /\ c <> LF /\ c <> CR) /\
     (forall r v, In r rows -> r = [v] -> value_str v <> [])).
Proof.
  intros Ha Hd Hq He HD. rewrite (new_writer_plain reg h a D st d Ha Hd Hq). eexists. split; [reflexivity|].
  destruct D as [cd0 cq0 ce0]. cbn in Hd, Hq, He. subst. cbn [ce].
  set (w := mk_wdialect d (Some DQ) None true false [LF] QUOTE_NONE).
  pose proof (writes_none w ELF HD eq_refl eq_refl eq_refl rows eq_refl) as H.
  assert (HS : forall c, w_special w c = false <-> c <> d /\ c <> DQ /\ c <> LF /\ c <> CR).
  { intros c. unfold w_special. cbn. rewrite !orb_false_iff, !N.eqb_neq. tauto. }
  assert (HE : (exists text, writerows w rows = (text, None)) <-> (exists text, csv_writerows w rows = (text, None))).
  { unfold writerows. destruct (csv_writerows w rows) as [t [x|]]; split; intros [u Hu]; try discriminate; eauto. }
  rewrite HE, H. split; intros [H1 H2]; split; auto.
  - intros r v c Hr Hv Hc. apply HS. specialize (H1 r v Hr Hv). rewrite Forall_forall in H1. now apply H1.
  - intros r v Hr Hv. apply Forall_forall. intros c Hc. apply HS. eauto.
Qed.

(** No delimiter: no writer. *)
Theorem no_delimiter_no_writer reg h a sd params :
  deref h a = sd -> sd_delimiter sd = Some [] -> new_writer reg h (DSimple a) params = Err CsvError.
Proof.
  intros <- H. unfold new_writer, make_python_dialect, to_csv_dialect. rewrite H.
  unfold csv_Dialect_init, dialect_new, csv_attrs. cbn. rewrite H. reflexivity.
Qed.


Theorem conversion_roundtrip sd : validate sd = true -> sd_delimiter sd <> Some [] ->
  exists c, to_csv_dialect sd = Ok c /\ from_csv_dialect c = Err AttributeError /\
    forall b, from_csv_dialect (with_strict c b) =
      Ok (mk_dialect (sd_delimiter sd) (sd_quotechar sd) (sd_escapechar sd) b).
Proof.
  destruct sd as [d q e s]. unfold validate. cbn [sd_delimiter sd_quotechar sd_escapechar].
  destruct d as [[|d [|]]|]; cbn; try discriminate; intros H Hd; try (now elim Hd);
  destruct q as [[|q [|]]|]; cbn in *; try discriminate;
  destruct e as [[|e [|]]|]; cbn in *; try discriminate;
  (eexists; split; [reflexivity|split; reflexivity]).
Qed.

Theorem conversion_without_delimiter sd :
  sd_delimiter sd = Some [] -> to_csv_dialect sd = Err CsvError.
Proof.
  intros H. unfold to_csv_dialect. rewrite H. unfold csv_Dialect_init, dialect_new, csv_attrs. cbn.
  now rewrite H.
Qed.

Lemma named_cases :
  quoting_csv excel_csv (mk_chars (Some COMMA) (Some DQ) None) COMMA DQ /\
  quoting_csv excel_tab_csv (mk_chars (Some TAB) (Some DQ) None) TAB DQ /\
  quoting_csv unix_csv (mk_chars (Some COMMA) (Some DQ) None) COMMA DQ /\
  readable 9 [[VStr (s2l "a""b"); VNum (s2l "1.5")]; []; [VNone]].
Proof.
  repeat split; try reflexivity; try discriminate; try (eexists; split; [reflexivity|cbn; tauto]).
  - destruct H as [<-|[<-|[<-|[]]]]; cbn in H0; decompose [or] H0; subst; try contradiction;
      apply mem_char_false; reflexivity.
  - destruct H as [<-|[<-|[<-|[]]]]; cbn in H0; decompose [or] H0; subst; try contradiction; cbn; lia.
Qed.

Theorem double_quote_gains_escape :
  exists D w text cellv, wf_chars D = true /\ cq D = None /\
    new_writer std_registry [simple D false] (DSimple 0) [] = Ok w /\
    writerows w [[VStr cellv]] = (text, None) /\
    parse_string 100 text (simple D false) false = ([[CStr (s2l "say \""hi\""")]], None) /\
    cellv = s2l "say ""hi""".
Proof.
  exists (mk_chars (Some COMMA) None (Some BACKSLASH)). do 2 eexists. exists (s2l "say ""hi""").
  repeat split.
Qed.
