(** * CodegenRun: detected dialects and running the generated program (C48) *)
From Coq Require Import String Permutation.
From Verif Require Import Base Parser Dialect CsvLib Reader Files Wrappers SpecLayout SpecParse SpecFiles ReaderFacts TableFacts
  Potential SpecPotential PotentialFacts MaskedFacts NormalForm NormalCases Ties Consistency SpecConsistency DetectFacts DetectCases TieMember Detect DetectorCases
  Codegen SpecCodegen CodegenFacts.

(** ** Detected dialects *)
Section Detected.
Variable cat : N -> str.
Variable url : str -> str -> option nat.
Variable known : str -> bool -> res pyexc bool.
Variable O : orders.
Variable o_set : list SimpleDialect -> list SimpleDialect.

Lemma inline_one c : ~ In c [LF; CR; NUL] -> inline [c].
Proof. intros H x [<-|[]]. exact H. Qed.
Lemma inline_nil : inline [].
Proof. intros x []. Qed.
Lemma scalar_nil : scalar [].
Proof. intros x []. Qed.

Lemma candidate_good sample d q e :
  candidate cat None (filter_urls url sample) sample d q e -> ~ In NUL sample -> scalar sample ->
  good_quotechar q /\ good_escapechar e /\ inline d /\ inline q /\ scalar e /\ (d = [BACKSLASH] \/ good_delimiter d) /\
  (List.length d <= 1)%nat /\ (List.length q <= 1)%nat /\ (List.length e <= 1)%nat.
Proof.
  intros (Hd & Hq & He) H0 Hs.
  assert (D : inline d /\ (d = [BACKSLASH] \/ good_delimiter d) /\ (List.length d <= 1)%nat).
  { destruct Hd as [->|(c & -> & Hi & Hw)]; [split; [apply inline_nil|]; split; [right; now left|cbn; lia]|].
    assert (HX : ~ In c [34; 10; 13]%N).
    { cbn [wanted_delimiter] in Hw. destruct Hw as [->|[Hw _]]; [cbn; intuition discriminate|].
      intros H. apply Hw. cbn in *. intuition. }
    assert (HN : c <> NUL).
    { destruct (url_sub_In _ _ (filter_urls_sub url sample) c Hi) as [H| ->]; [|discriminate]. intros ->. now apply H0. }
    split; [|split; [|cbn; lia]].
    - apply inline_one. cbn in *. unfold LF, CR. intuition congruence.
    - destruct (N.eq_dec c BACKSLASH) as [->|Hb]; [now left|]. right. right. exists c. split; [reflexivity|].
      cbn in *. unfold DQ. intuition congruence. }
  assert (Q : inline q /\ good_quotechar q /\ (List.length q <= 1)%nat).
  { destruct Hq as [->|(c & -> & _ & Hl)]; [split; [apply inline_nil|]; split; [now left|cbn; lia]|].
    unfold quote_like in Hl. split; [|split; [|cbn; lia]].
    - apply inline_one. cbn in *. unfold LF, CR, NUL. intuition (subst; discriminate).
    - right. exists c. split; [reflexivity|]. unfold BACKSLASH. cbn in Hl. intuition (subst; discriminate). }
  assert (E : scalar e /\ good_escapechar e /\ (List.length e <= 1)%nat).
  { destruct He as [->|(u & v & -> & (a & b & HB) & (_ & Hl) & _)]; [split; [apply scalar_nil|]; split; [now left|cbn; lia]|].
    split; [|split; [|cbn; lia]].
    - intros x [<-|[]]. apply Hs. rewrite HB. apply in_or_app. right. now left.
    - right. exists u. split; [reflexivity|]. intros H. apply Hl. cbn in *. unfold SQ, DQ in H. intuition. }
  intuition.
Qed.

Lemma detected_good sample m skip s D s' : any_orders O -> (forall l, incl (o_set l) l) ->
  detector_detect cat url known O o_set sample None m skip s = (Ok (Some D), s') -> ~ In NUL sample -> scalar sample ->
  exists d q e, D = dialect3 d q e /\
  good_quotechar q /\ good_escapechar e /\ inline d /\ inline q /\ scalar e /\ (d = [BACKSLASH] \/ good_delimiter d) /\
  (List.length d <= 1)%nat /\ (List.length q <= 1)%nat /\ (List.length e <= 1)%nat.
Proof.
  intros HO Ho HD H0 Hs. unfold detector_detect in HD.
  match type of HD with match ?x with _ => _ end = _ => destruct x as [mm|] end; [|discriminate].
  cbn zeta in HD.
  match type of HD with match (if ?b then _ else _) with _ => _ end = _ => destruct b end.
  - destruct (detect_dialect_normal cat sample utf8 None) as [[d|]|] eqn:EN; [| |discriminate].
    + injection HD as -> _. apply detect_shape in EN as (d' & q & -> & Hq & Hd).
      exists d', q, []. split; [reflexivity|].
      assert (Q : good_quotechar q /\ inline q /\ (List.length q <= 1)%nat).
      { cbn in Hq. destruct Hq as [<-|[<-|[<-|[]]]]; (split; [|split; [|cbn; lia]]); try (now left); try apply inline_nil;
          try (right; eexists; split; [reflexivity|discriminate]); apply inline_one; cbn; intuition discriminate. }
      assert (X : good_delimiter d' /\ inline d' /\ (List.length d' <= 1)%nat).
      { cbn in Hd. destruct Hd as [->|[<-|[<-|[<-|[<-|[]]]]]]; (split; [|split; [|cbn; lia]]); try (now left); try apply inline_nil;
          try (right; eexists; split; [reflexivity|cbn; intuition discriminate]); apply inline_one; cbn; intuition discriminate. }
      pose proof scalar_nil. assert (good_escapechar []) by now left. assert (List.length (@nil N) <= 1)%nat by (cbn; lia). intuition.
    + destruct (detect cat url known O o_set 100000 skip sample None (st_limit s)) as [r limit] eqn:E. injection HD as -> _.
      destruct (detect_candidate _ _ _ _ _ _ _ _ _ _ _ _ Ho E) as (L & EL & HL).
      destruct (clean_dec url sample) as [Hc|Hc]; [|now rewrite get_dialects_surrogate in EL].
      destruct (get_dialects_utf8 cat url O sample None false HO Hc) as (L' & E' & _ & HC).
      rewrite EL in E'. injection E' as <-. apply HC in HL as (d & q & e & -> & HL & _).
      exists d, q, e. split; [reflexivity|]. now apply (candidate_good sample).
  - destruct (detect cat url known O o_set 100000 skip sample None (st_limit s)) as [r limit] eqn:E. injection HD as -> _.
    destruct (detect_candidate _ _ _ _ _ _ _ _ _ _ _ _ Ho E) as (L & EL & HL).
    destruct (clean_dec url sample) as [Hc|Hc]; [|now rewrite get_dialects_surrogate in EL].
    destruct (get_dialects_utf8 cat url O sample None false HO Hc) as (L' & E' & _ & HC).
    rewrite EL in E'. injection E' as <-. apply HC in HL as (d & q & e & -> & HL & _).
    exists d, q, e. split; [reflexivity|]. now apply (candidate_good sample).
Qed.

Theorem code_of_detected printable name enc sample m skip s D s' : any_orders O -> (forall l, incl (o_set l) l) ->
  detector_detect cat url known O o_set sample None m skip s = (Ok (Some D), s') -> ~ In NUL sample -> scalar sample ->
  plain name -> plain_opt enc ->
  exists d q e rows frame, D = dialect3 d q e /\
    generate_code printable name D enc false = Ok rows /\ generate_code printable name D enc true = Ok frame /\
    (d <> [BACKSLASH] -> program_of rows = Some (ReadRows name enc d q e) /\ program_of frame = Some (ReadFrame name d q e)) /\
    (d = [BACKSLASH] -> program_of rows <> Some (ReadRows name enc d q e) /\ program_of frame <> Some (ReadFrame name d q e)).
Proof.
  intros HO Ho HD H0 Hs Hn He.
  destruct (detected_good _ _ _ _ _ _ HO Ho HD H0 Hs) as (d & q & e & -> & Hq & Hee & Id & Iq & Se & Hd & Ld & Lq & Le).
  exists d, q, e. change (dialect3 d q e) with (fields3 d q e false).
  destruct (generate_code printable name (fields3 d q e false) enc false) as [rows|] eqn:E1; [|now rewrite generate_text in E1].
  destruct (generate_code printable name (fields3 d q e false) enc true) as [frame|] eqn:E2; [|now rewrite generate_text in E2].
  exists rows, frame. split; [reflexivity|]. split; [reflexivity|]. split; [reflexivity|].
  rewrite (rows_program _ _ _ _ _ _ _ _ Hn He E1), (frame_program _ _ _ _ _ _ _ _ Hn E2).
  split.
  - intros Hb. destruct Hd as [Hd|Hd]; [now contradict Hb|]. now rewrite !arguments_good.
  - intros ->. split; intros H.
    + destruct (arguments _ _) as [[[d' q'] e']|] eqn:E; [|discriminate]. injection H as -> -> ->.
      apply arguments_exact in E as ([E|(c & E & Hc)] & _); try assumption; [discriminate|]. injection E as <-. apply Hc. cbn. auto.
    + destruct (arguments _ _) as [[[d' q'] e']|] eqn:E; [|discriminate]. injection H as -> -> ->.
      apply arguments_exact in E as ([E|(c & E & Hc)] & _); try assumption; [discriminate|]. injection E as <-. apply Hc. cbn. auto.
Qed.
End Detected.

(** ** Any dialect *)
Theorem code_exact printable name enc d q e strict rows frame :
  plain name -> plain_opt enc -> inline d -> inline q -> scalar e ->
  validate (mk_dialect (Some d) (Some q) (Some e) strict) = true ->
  generate_code printable name (mk_dialect (Some d) (Some q) (Some e) strict) enc false = Ok rows ->
  generate_code printable name (mk_dialect (Some d) (Some q) (Some e) strict) enc true = Ok frame ->
  (program_of rows = Some (ReadRows name enc d q e) <-> good_delimiter d /\ good_quotechar q /\ good_escapechar e) /\
  (program_of frame = Some (ReadFrame name d q e) <-> good_delimiter d /\ good_quotechar q /\ good_escapechar e).
Proof.
  intros Hn He Id Iq Se HV E1 E2.
  unfold validate in HV. cbn [sd_delimiter sd_quotechar sd_escapechar field_valid] in HV.
  apply andb_true_iff in HV as [HV Le]. apply andb_true_iff in HV as [Ld Lq]. apply Nat.leb_le in Ld, Lq, Le.
  rewrite (rows_program _ _ _ _ _ _ _ _ Hn He E1), (frame_program _ _ _ _ _ _ _ _ Hn E2).
  split; split.
  - intros H. destruct (arguments _ _) as [[[d' q'] e']|] eqn:E; [|discriminate]. injection H as -> -> ->.
    now apply arguments_exact in E.
  - intros (A & B & C). now rewrite arguments_good.
  - intros H. destruct (arguments _ _) as [[[d' q'] e']|] eqn:E; [|discriminate]. injection H as -> -> ->.
    now apply arguments_exact in E.
  - intros (A & B & C). now rewrite arguments_good.
Qed.

(** ** Running *)
Lemma run_is_file_rows E locate f h name enc d q e b c : e_registry E (s2l "excel") = Some excel_csv ->
  f (locate name) = Some b -> e_codec E enc = Ok c -> validate (dialect3 d q e) = true ->
  run_rows E locate f h name enc d q e = file_rows (e_limit E) c b (dialect3 d q e).
Proof.
  intros HR Hb Hc HV. unfold run_rows. rewrite Hb, Hc.
  destruct (new_reader (e_registry E) h false (text_items c b) (DName (s2l "excel"))
                  [KDelimiter (Some d); KQuotechar (Some q); KEscapechar (Some e)]) as [r h'] eqn:EN.
  pose proof EN as EN'. unfold new_reader, make_simple_dialect in EN. rewrite HR in EN.
  change (from_csv_dialect excel_csv) with (@Ok pyexc _ (mk_dialect (Some [COMMA]) (Some [DQ]) (Some []) false)) in EN.
  cbv beta iota zeta in EN. unfold deref in EN. rewrite app_nth2, Nat.sub_diag in EN by lia.
  cbn [nth fold_left set_param sd_delimiter sd_quotechar sd_escapechar sd_strict] in EN.
  fold (dialect3 d q e) in EN. rewrite HV in EN. injection EN as <- <-.
  rewrite (reader_rows_parse_data _ _ _ _ _ _ _ _ _ _ EN').
  rewrite store_app. cbn [r_dialect]. unfold deref. rewrite app_nth2, Nat.sub_diag by lia. reflexivity.
Qed.

Lemma firstn_In {X} (x : X) : forall n l, In x (firstn n l) -> In x l.
Proof. induction n as [|n IH]; intros [|a l] H; try contradiction. destruct H as [->|H]; [now left|right; now apply IH]. Qed.
Lemma head_chars_In c n t : In c (head_chars n t) -> In c t.
Proof. unfold head_chars. destruct n as [z|]; [|auto]. destruct (0 <? z)%Z; [|auto]. apply firstn_In. Qed.

Theorem code_command_runs cat url known O o_set skip m s E printable int_of locate f h name encoding num_chars n enc b c t lines :
  any_orders O -> (forall l, incl (o_set l) l) ->
  (forall sample, e_detect E sample = fst (detector_detect cat url known O o_set sample None m skip s)) ->
  e_registry E (s2l "excel") = Some excel_csv ->
  parse_int int_of num_chars = Ok n ->
  f (locate name) = Some b ->
  enc = match or_encoding encoding with Some e => Some e | None => e_get_encoding E b end ->
  e_codec E enc = Ok c -> cd_decode c b = (t, true) -> ~ In NUL t -> scalar t -> plain name -> plain_opt enc ->
  code_command E printable int_of locate f name encoding num_chars false = Printed lines 0 ->
  exists d q e, e_detect E (head_chars n t) = Ok (Some (dialect3 d q e)) /\
    (d <> [BACKSLASH] ->
     program_of lines = Some (ReadRows name enc d q e) /\
     run_rows E locate f h name enc d q e = stream_table E f h (locate name) None (or_encoding encoding) n) /\
    (d = [BACKSLASH] -> program_of lines <> Some (ReadRows name enc d q e)).
Proof.
  intros HO Ho HE HR Hn Hb Henc Hc Ht H0 Hs Hname Hpe HC.
  assert (HO1 : open_text E f (locate name) (or_encoding encoding) = Ok (c, b)).
  { unfold open_text. rewrite Hb. destruct (or_encoding encoding); rewrite <- Henc, Hc; reflexivity. }
  assert (HO2 : open_text E f (locate name) (or_encoding enc) = Ok (c, b)).
  { destruct (or_encoding encoding) as [x|] eqn:EX.
    - rewrite Henc. destruct encoding as [[|a x']|]; cbn [or_encoding] in EX; try discriminate.
      injection EX as <-. cbn [or_encoding]. rewrite <- HO1. reflexivity.
    - unfold open_text. rewrite Hb. destruct enc as [[|a x']|]; cbn [or_encoding]; rewrite <- ?Henc, Hc; reflexivity. }
  unfold code_command in HC. rewrite Hb in HC.
  assert (HX : match or_encoding encoding with Some e => Ok (Some e) | None => Ok (e_get_encoding E b) end = @Ok pyexc _ enc)
    by (rewrite Henc; now destruct (or_encoding encoding)).
  rewrite HX, Hn in HC.
  unfold detect_dialect in HC. rewrite HO2 in HC. cbn [bind] in HC. rewrite (read_chars_head c b t n Ht) in HC. cbn [bind] in HC.
  destruct (e_detect E (head_chars n t)) as [[D|]|] eqn:ED; try discriminate.
  rewrite HE in ED. destruct (detector_detect cat url known O o_set (head_chars n t) None m skip s) as [r s'] eqn:EDD. cbn [fst] in ED. subst r.
  assert (H0' : ~ In NUL (head_chars n t)) by (intros H; apply H0; now apply head_chars_In in H).
  assert (Hs' : scalar (head_chars n t)) by (intros x H; apply Hs; now apply head_chars_In in H).
  destruct (code_of_detected cat url known O o_set printable name enc _ _ _ _ _ _ HO Ho EDD H0' Hs' Hname Hpe)
    as (d & q & e & rows & frame & ED & E1 & _ & HG & HB).
  destruct (detected_good cat url known O o_set _ _ _ _ _ _ HO Ho EDD H0' Hs') as (d' & q' & e' & ED' & _ & _ & _ & _ & _ & _ & Ld & Lq & Le).
  rewrite ED in ED'. injection ED' as <- <- <-.
  rewrite E1 in HC. injection HC as <-. exists d, q, e. split; [now rewrite ED|].
  assert (HV : validate (dialect3 d q e) = true).
  { unfold validate. cbn [dialect3 sd_delimiter sd_quotechar sd_escapechar field_valid].
    apply Nat.leb_le in Ld, Lq, Le. now rewrite Ld, Lq, Le. }
  split.
  - intros Hd. split; [now apply HG|].
    rewrite (run_is_file_rows E locate f h name enc d q e b c HR Hb Hc HV).
    symmetry. apply (num_chars_detection E f h (locate name) (or_encoding encoding) c b t n); try assumption.
    rewrite HE, EDD. cbn [fst]. now rewrite ED.
  - intros Hd. now apply HB.
Qed.

Theorem code_command_fails E printable int_of locate f name encoding num_chars pandas :
  (f (locate name) = None -> or_encoding encoding = None ->
   code_command E printable int_of locate f name encoding num_chars pandas = Raised OSError) /\
  (forall b x, f (locate name) = Some b -> num_chars = Some x -> int_of x = None ->
   code_command E printable int_of locate f name encoding num_chars pandas = Raised ValueError) /\
  (forall b n, f (locate name) = Some b -> parse_int int_of num_chars = Ok n ->
   detect_dialect E f (locate name) (match or_encoding encoding with Some e => Some e | None => e_get_encoding E b end) n = Ok None ->
   code_command E printable int_of locate f name encoding num_chars pandas = Printed [] 1).
Proof.
  unfold code_command. split; [|split].
  - intros -> ->. reflexivity.
  - intros b x -> -> Hx. cbn [parse_int]. rewrite Hx. now destruct (or_encoding encoding).
  - intros b n -> Hn HD. rewrite Hn. destruct (or_encoding encoding); now rewrite HD.
Qed.

(** ** Cases *)
Lemma esc_detected : ascii_detector esc_text None (MStr (s2l "auto")) true state0 = (Ok (Some (dialect3 [BACKSLASH] [] [])), by_consistency).
Proof. apply ascii_consistency; [cbn -[s2l]; auto|reflexivity|vm_compute; reflexivity]. Qed.
Lemma esc_program : match generate_code ascii_only (s2l "a.csv") (dialect3 [BACKSLASH] [] []) (Some (s2l "utf-8")) false with
  | Ok lines => nth 6 lines [] = s2l "    reader = clevercsv.reader(fp, delimiter=""\"", quotechar="""", escapechar="""")" /\ program_of lines = None
  | Err _ => False end.
Proof. split; reflexivity. Qed.
Lemma code_case : generate_code ascii_only (s2l "a.csv") (dialect3 [TAB] [DQ] [233%N]) None false =
  Ok (heading ++ [s2l "with open(""a.csv"", ""r"", newline="""", encoding=None) as fp:";
    s2l "    reader = clevercsv.reader(fp, delimiter=""\t"", quotechar=""\"""", escapechar=""\xe9"")"; s2l "    rows = list(reader)"; []]) /\
  program_of (heading ++ [s2l "with open(""a.csv"", ""r"", newline="""", encoding=None) as fp:";
    s2l "    reader = clevercsv.reader(fp, delimiter=""\t"", quotechar=""\"""", escapechar=""\xe9"")"; s2l "    rows = list(reader)"; []]) =
  Some (ReadRows (s2l "a.csv") None [TAB] [DQ] [233%N]).
Proof. split; reflexivity. Qed.
Lemma name_backslash : exists name lines name', inline name /\
  generate_code ascii_only name (dialect3 [COMMA] [] []) None false = Ok lines /\
  program_of lines = Some (ReadRows name' None [COMMA] [] []) /\ name' <> name.
Proof.
  exists (s2l "data\new.csv"). eexists. exists (s2l "data" ++ LF :: s2l "ew.csv"). split; [|split; [reflexivity|split; [reflexivity|discriminate]]].
  intros c H. cbn in H. cbn. unfold LF, CR, NUL. intuition (subst; discriminate).
Qed.
Lemma name_quote : exists name lines, inline name /\
  generate_code ascii_only name (dialect3 [COMMA] [] []) None false = Ok lines /\ program_of lines = None.
Proof.
  exists (s2l "a""b.csv"). eexists. split; [|split; reflexivity].
  intros c H. cbn in H. cbn. unfold LF, CR, NUL. intuition (subst; discriminate).
Qed.
Lemma esc_refuted : exists cat url known O o_set sample s D s' name lines d q e,
  any_orders O /\ (forall l, incl (o_set l) l) /\ ~ In NUL sample /\ scalar sample /\ plain name /\
  detector_detect cat url known O o_set sample None (MStr (s2l "auto")) true s = (Ok (Some D), s') /\
  D = dialect3 d q e /\ generate_code ascii_only name D None false = Ok lines /\ program_of lines <> Some (ReadRows name None d q e).
Proof.
  exists ascii_cat, no_urls, (total_known digits), plain_orders, (fun l => l), esc_text, state0, (dialect3 [BACKSLASH] [] []), by_consistency,
    (s2l "a.csv"), (heading ++ [s2l "with open(""a.csv"", ""r"", newline="""", encoding=None) as fp:";
    s2l "    reader = clevercsv.reader(fp, delimiter=""\"", quotechar="""", escapechar="""")"; s2l "    rows = list(reader)"; []]), [BACKSLASH], [], [].
  split; [repeat split; intros; apply Permutation_refl|]. split; [intros l x H; exact H|].
  split; [cbn; intuition discriminate|]. split; [intros c [<-|[]]; discriminate|].
  split; [intros c H; cbn in H; cbn; unfold DQ, BACKSLASH, LF, CR, NUL; intuition (subst; discriminate)|].
  split; [exact esc_detected|]. split; [reflexivity|]. split; [reflexivity|]. discriminate.
Qed.

(** The command on a small file. *)
Definition code_env : env :=
  mk_env std_registry (fun _ => Ok latin1) (fun _ => Some (s2l "latin-1"))
    (fun t => fst (ascii_detector t None (MEnum AUTO) true state0)) 131072.
Definition code_fs : fs := fun p => if (p =? 1)%N then Some (s2l "a;b" ++ [LF] ++ s2l "c;d" ++ [LF]) else None.
Lemma command_case :
  match code_command code_env ascii_only (fun _ => None) (fun _ => 1%N) code_fs (s2l "a.csv") None None false with
  | Printed lines 0 => program_of lines = Some (ReadRows (s2l "a.csv") (Some (s2l "latin-1")) [SEMI] [] [])
  | _ => False
  end /\
  run_rows code_env (fun _ => 1%N) code_fs [] (s2l "a.csv") (Some (s2l "latin-1")) [SEMI] [] [] =
    ([[CStr (s2l "a"); CStr (s2l "b")]; [CStr (s2l "c"); CStr (s2l "d")]], None).
Proof. split; vm_compute; reflexivity. Qed.
