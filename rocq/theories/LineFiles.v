(** * LineFiles: what is read and printed does not depend on the line ends *)
From Coq Require Import String Permutation.
From Verif Require Import Base Parser Dialect CsvLib Reader ReaderFacts Files Wrappers Standardize Writer SpecLayout SpecParse SpecFiles ParserLift StandardizeFacts TableFacts Dict SpecDictTables DictTables
  Potential SpecPotential PotentialFacts Consistency NormalForm TieMember Detect SpecDetect DetectFacts HeaderFacts Json Codegen Console SpecColumn SpecLines LineLayout LineEnds LineDetect LineNormal.
Open Scope N_scope.
Local Notation len := List.length.

(** ** The dialects detected in texts of balanced lines *)
Definition usual_chars (cat : N -> str) (D : chars) : Prop :=
  wf_chars D = true /\ (forall x, cq D = Some x -> In x [34; 39]) /\ (forall x, ce D = Some x -> escape_like cat x).
Lemma normal_chars cat data E sd : detect_dialect_normal cat data E None = Ok (Some sd) -> exists D, sd = simple D false /\ usual_chars cat D.
Proof.
  unfold detect_dialect_normal. destruct (any_escapechar _ _ _ _) as [[|]|x]; cbn [bind]; try discriminate.
  destruct (find _ _) as [[[k d] q]|] eqn:EF; [|discriminate]. intros [= <-]. apply find_some in EF as (EF & _).
  assert (G : forall d q, In d ([] :: DELIMS) -> In q ([] :: QUOTECHARS) -> exists D, dialect3 d q [] = simple D false /\ usual_chars cat D).
  { assert (Hq : forall q, In q ([] :: QUOTECHARS) -> exists o, q = opt_str o /\ In o [None; Some 34; Some 39]).
    { intros x [<-|[<-|[<-|[]]]]; [exists None|exists (Some 39)|exists (Some 34)]; cbn; auto. }
    assert (Hd : forall q, In q ([] :: DELIMS) -> exists o, q = opt_str o /\ In o [None; Some COMMA; Some SEMI; Some 124; Some TAB]).
    { intros x [<-|[<-|[<-|[<-|[<-|[]]]]]]; [exists None|exists (Some COMMA)|exists (Some SEMI)|exists (Some 124)|exists (Some TAB)]; cbn; auto 8. }
    intros d0 q0 H1 H2. apply Hd in H1 as (o1 & -> & H1). apply Hq in H2 as (o2 & -> & H2). exists (mk_chars o1 o2 None). split; [reflexivity|]. split; [|split].
    - repeat (destruct H1 as [<-|H1]; [repeat (destruct H2 as [<-|H2]; [reflexivity|]); destruct H2|]). destruct H1.
    - cbn [cq]. intros x ->. cbn in *. intuition congruence.
    - intros x Hx. discriminate Hx. }
  clear - EF G. unfold forms in EF. rewrite !in_app_iff in EF. destruct EF as [EF|[EF|[EF|EF]]].
  - apply in_map_iff in EF as (d' & [= <- <- <-] & H). apply G; [now right|now left].
  - apply in_flat_map in EF as ([d' q'] & H & EF). apply in_prod_iff in H as (H1 & H2).
    assert ((d, q) = (d', q')) as [= -> ->] by (destruct EF as [[= <- <- <-]|[[= <- <- <-]|[[= <- <- <-]|[]]]]; reflexivity). apply G; now right.
  - apply in_map_iff in EF as (q' & [= <- <- <-] & H). apply G; [now left|now right].
  - destruct EF as [[= <- <- <-]|[]]. apply G; now left.
Qed.

Section Detector.
Variable cat : N -> str.
Variable url : str -> str -> option nat.
Variable known : str -> bool -> res pyexc bool.
Hypothesis HU : line_matcher url.
Hypothesis HK : control_ends cat.
Variable o_set : list SimpleDialect -> list SimpleDialect.
Hypothesis o_perm : forall l, Permutation (o_set l) l.
Variables (method : method_arg) (skip : bool) (s : dstate).
Local Notation det O t := (fst (detector_detect cat url known O o_set t None method skip s)).

Lemma no_user : usual_delimiters None.
Proof. intros l E. discriminate E. Qed.
Lemma detected_chars O rows final sd : any_orders O -> (forall l, In l (column_of rows final) -> balanced_line cat None l) ->
  det O (column_text rows final) = Ok (Some sd) -> exists D, sd = simple D false /\ usual_chars cat D.
Proof.
  intros HO HB. unfold detector_detect.
  match goal with |- fst (match ?X with Ok _ => _ | Err _ => _ end) = _ -> _ => destruct X as [m|x]; [|discriminate] end.
  match goal with |- fst (match (if ?b then _ else _) with Ok _ => _ | Err _ => _ end) = _ -> _ => destruct b end.
  1: destruct (detect_dialect_normal cat (column_text rows final) utf8 None) as [[d|]|x] eqn:EN; [|clear EN|discriminate].
  1: { intros [= <-]. exact (normal_chars _ _ _ _ EN). }
  all: destruct (detect cat url known O o_set 100000 skip (column_text rows final) None (st_limit s)) as [r n] eqn:ED; cbn [fst]; intros ->;
    apply detect_candidate in ED as (L & EL & HL); [|intros l x Hx; now apply (Permutation_in _ (o_perm l))];
    destruct (candidates_same cat url None HU HK no_user O O rows final rows final false HO HO eq_refl eq_refl)
      as [(L1 & L2 & E1 & _ & _ & _ & HC)|[E1 _]]; rewrite EL in E1; [|discriminate]; injection E1 as <-;
    destruct (HC sd HL) as (d & q & e & -> & Hd);
    destruct (candidate_chars cat url None HK no_user rows final d q e HB Hd) as (D & ED & HD); exists D; (split; [exact ED|exact HD]).
Qed.

(** Same dialect, same rows. *)
Definition fits_limit (limit : Z) (t : str) : Prop := (Z.of_nat (len t) < limit)%Z.
Lemma variants_clear ls l e rows final : column_of rows final = ls ++ [l] -> l <> [] -> (forall r, In r rows -> snd r = e) -> clear_ends rows final.
Proof.
  intros E Hl U. split.
  - intros a x b ->. pose proof (U (x, ECR)) as K1. pose proof (U ([], ELF)) as K2. cbn [snd] in K1, K2.
    rewrite <- K1 in K2 by (apply in_or_app; right; now left). discriminate K2. apply in_or_app. right. right. now left.
  - intros ->. unfold column_of in E. apply app_inj_tail in E as (_ & E). now apply Hl.
Qed.
Theorem variants_detect O1 O2 t1 t2 : any_orders O1 -> any_orders O2 -> line_variants cat t1 t2 -> det O1 t1 = det O2 t2.
Proof.
  intros H1 H2 (ls & l & e1 & e2 & rows1 & final1 & rows2 & final2 & -> & -> & E1 & E2 & Hl & U1 & U2 & HB).
  exact (detector_lines cat url known None HU HK no_user o_set o_perm O1 O2 method skip s e1 e2 rows1 final1 rows2 final2 ls l H1 H2 E1 E2 Hl U1 U2 HB).
Qed.
Theorem variants_rows O1 t1 t2 sd limit1 limit2 rq : any_orders O1 -> line_variants cat t1 t2 -> det O1 t1 = Ok (Some sd) ->
  fits_limit limit1 t1 -> fits_limit limit2 t2 ->
  validate sd = true /\ exists rows, parse_string limit1 t1 sd rq = (rows, None) /\ parse_string limit2 t2 sd rq = (rows, None).
Proof.
  intros H1 (ls & l & e1 & e2 & rows1 & final1 & rows2 & final2 & -> & -> & E1 & E2 & Hl & U1 & U2 & HB) HD L1 L2.
  apply detected_chars in HD as (D & -> & HD & Hq & He); [|exact H1|now rewrite E1].
  destruct (balanced_rows D cat None HD Hq He _ HB) as (cs & HF). split; [now destruct D as [[d|] [q|] [e|]]|].
  exists (mk_rows rq (map (row_value D) cs)). unfold fits_limit in *. split.
  - apply (lines_read D HD rows1 final1 cs); [now apply (variants_clear ls l e1)|now rewrite E1|lia].
  - apply (lines_read D HD rows2 final2 cs); [now apply (variants_clear ls l e2)|now rewrite E2|lia].
Qed.

(** ** The wrappers *)
Section Two.
Variables (O1 O2 : orders) (E1 E2 : env) (t1 t2 : str).
Hypothesis H1 : any_orders O1.
Hypothesis H2 : any_orders O2.
Hypothesis D1 : forall sample, e_detect E1 sample = det O1 sample.
Hypothesis D2 : forall sample, e_detect E2 sample = det O2 sample.
Hypothesis HV : line_variants cat t1 t2.

Lemma both_detect nc1 nc2 : head_chars nc1 t1 = t1 -> head_chars nc2 t2 = t2 -> e_detect E1 (head_chars nc1 t1) = e_detect E2 (head_chars nc2 t2).
Proof. intros -> ->. rewrite D1, D2. now apply variants_detect. Qed.
Theorem variants_stream f1 f2 h1 h2 p1 p2 enc1 enc2 cod1 cod2 b1 b2 nc1 nc2 :
  open_text E1 f1 p1 enc1 = Ok (cod1, b1) -> cd_decode cod1 b1 = (t1, true) -> head_chars nc1 t1 = t1 -> fits_limit (e_limit E1) t1 ->
  open_text E2 f2 p2 enc2 = Ok (cod2, b2) -> cd_decode cod2 b2 = (t2, true) -> head_chars nc2 t2 = t2 -> fits_limit (e_limit E2) t2 ->
  stream_table E1 f1 h1 p1 None enc1 nc1 = stream_table E2 f2 h2 p2 None enc2 nc2.
Proof.
  intros T1 B1 N1 L1 T2 B2 N2 L2. pose proof (both_detect nc1 nc2 N1 N2) as ED.
  destruct (e_detect E1 (head_chars nc1 t1)) as [[sd|]|x] eqn:E.
  - pose proof E as E'. rewrite N1, D1 in E'. destruct (variants_rows O1 t1 t2 sd _ _ false H1 HV E' L1 L2) as (Hs & rows & R1 & R2).
    rewrite (num_chars_detection E1 f1 h1 p1 enc1 cod1 b1 t1 nc1 sd T1 B1 E Hs).
    rewrite (num_chars_detection E2 f2 h2 p2 enc2 cod2 b2 t2 nc2 sd T2 B2 (eq_sym ED) Hs).
    unfold file_rows, text_items. rewrite B1, B2. unfold parse_string in R1, R2. now rewrite R1, R2.
  - rewrite (no_result E1 f1 h1 p1 enc1 cod1 b1 t1 nc1 T1 B1 E). now rewrite (no_result E2 f2 h2 p2 enc2 cod2 b2 t2 nc2 T2 B2 (eq_sym ED)).
  - unfold stream_table, open_reader. rewrite T1, T2, (read_chars_head cod1 b1 t1 nc1 B1), (read_chars_head cod2 b2 t2 nc2 B2). cbn [bind]. now rewrite E, <- ED.
Qed.
End Two.
End Detector.

(** ** Dictionaries, data frames and commands *)
Section Commands.
Variable cat : N -> str.
Variable url : str -> str -> option nat.
Variable known : str -> bool -> res pyexc bool.
Hypothesis HU : line_matcher url.
Hypothesis HK : control_ends cat.
Variable o_set : list SimpleDialect -> list SimpleDialect.
Hypothesis o_perm : forall l, Permutation (o_set l) l.
Variables (O1 O2 : orders) (t1 t2 : str).
Hypothesis H1 : any_orders O1.
Hypothesis H2 : any_orders O2.
Hypothesis HV : line_variants cat t1 t2.
Local Notation det O := (fun m skip s sample => fst (detector_detect cat url known O o_set sample None m skip s)).

Lemma opened_detect E1 E2 (f1 f2 : fs) (p1 p2 : path) enc1 enc2 cod1 cod2 b1 b2 nc1 nc2 m skip s :
  (forall sample, e_detect E1 sample = det O1 m skip s sample) -> (forall sample, e_detect E2 sample = det O2 m skip s sample) ->
  open_text E1 f1 p1 (or_encoding enc1) = Ok (cod1, b1) -> cd_decode cod1 b1 = (t1, true) -> head_chars nc1 t1 = t1 ->
  open_text E2 f2 p2 (or_encoding enc2) = Ok (cod2, b2) -> cd_decode cod2 b2 = (t2, true) -> head_chars nc2 t2 = t2 ->
  detect_dialect E1 f1 p1 enc1 nc1 = det O1 m skip s t1 /\ detect_dialect E2 f2 p2 enc2 nc2 = det O1 m skip s t1.
Proof.
  intros D1 D2 T1 B1 N1 T2 B2 N2. unfold detect_dialect. rewrite T1, T2. cbn [bind].
  rewrite (read_chars_head cod1 b1 t1 nc1 B1), (read_chars_head cod2 b2 t2 nc2 B2), N1, N2. cbn [bind]. rewrite D1, D2. split; [reflexivity|].
  symmetry. exact (variants_detect cat url known HU HK o_set o_perm m skip s O1 O2 t1 t2 H1 H2 HV).
Qed.

Theorem variants_command E1 E2 printable space rt rt6 (f1 f2 : fs) (p1 p2 : path) A1 A2 cod1 cod2 b1 b2 s :
  open_text E1 f1 p1 (or_encoding (da_encoding A1)) = Ok (cod1, b1) -> cd_decode cod1 b1 = (t1, true) -> head_chars (da_num_chars A1) t1 = t1 ->
  open_text E2 f2 p2 (or_encoding (da_encoding A2)) = Ok (cod2, b2) -> cd_decode cod2 b2 = (t2, true) -> head_chars (da_num_chars A2) t2 = t2 ->
  da_consistency A1 = da_consistency A2 -> da_plain A1 = da_plain A2 -> da_json A1 = da_json A2 -> da_no_skip A1 = da_no_skip A2 -> da_add_runtime A1 = da_add_runtime A2 ->
  detect_command E1 (fun m skip => det O1 m skip s) printable space rt rt6 f1 p1 A1 = detect_command E2 (fun m skip => det O2 m skip s) printable space rt rt6 f2 p2 A2.
Proof.
  intros T1 B1 N1 T2 B2 N2 K1 K2 K3 K4 K5. unfold detect_command, detect_dialect_by. rewrite K1, K2, K3, K4, K5.
  set (m := MStr _). set (skip := negb _).
  destruct (opened_detect (with_detect E1 (det O1 m skip s)) (with_detect E2 (det O2 m skip s)) f1 f2 p1 p2 (da_encoding A1) (da_encoding A2) cod1 cod2 b1 b2 (da_num_chars A1) (da_num_chars A2) m skip s) as (-> & ->);
    [reflexivity|reflexivity|exact T1|exact B1|exact N1|exact T2|exact B2|exact N2|reflexivity].
Qed.

Section Env.
Variables (E1 E2 : env) (m : method_arg) (skip : bool) (s : dstate).
Hypothesis D1 : forall sample, e_detect E1 sample = det O1 m skip s sample.
Hypothesis D2 : forall sample, e_detect E2 sample = det O2 m skip s sample.
Variables (f1 f2 : fs) (p1 p2 : path) (enc1 enc2 : option str) (cod1 cod2 : codec) (b1 b2 : bytes) (nc1 nc2 : option Z).
Hypothesis B1 : cd_decode cod1 b1 = (t1, true).
Hypothesis B2 : cd_decode cod2 b2 = (t2, true).
Hypothesis N1 : head_chars nc1 t1 = t1.
Hypothesis N2 : head_chars nc2 t2 = t2.

Theorem variants_dicts h1 h2 : open_text E1 f1 p1 enc1 = Ok (cod1, b1) -> open_text E2 f2 p2 enc2 = Ok (cod2, b2) ->
  fits_limit (e_limit E1) t1 -> fits_limit (e_limit E2) t2 ->
  (forall header records e, stream_table E1 f1 h1 p1 None enc1 nc1 = (header :: records, e) -> NoDup (map cell_str header)) ->
  stream_dicts E1 f1 h1 p1 None enc1 nc1 = stream_dicts E2 f2 h2 p2 None enc2 nc2.
Proof.
  intros T1 T2 L1 L2 HN. destruct (stream_table E1 f1 h1 p1 None enc1 nc1) as [rows e] eqn:ER.
  pose proof (variants_stream cat url known HU HK o_set o_perm m skip s O1 O2 E1 E2 t1 t2 H1 H2 D1 D2 HV f1 f2 h1 h2 p1 p2 enc1 enc2 cod1 cod2 b1 b2 nc1 nc2 T1 B1 N1 L1 T2 B2 N2 L2) as ES.
  rewrite ER in ES. symmetry in ES.
  rewrite (dicts_of_table E1 f1 h1 p1 None enc1 nc1 rows e ER), (dicts_of_table E2 f2 h2 p2 None enc2 nc2 rows e ES); [reflexivity| |]; intros hd rc ->; exact (HN hd rc e eq_refl).
Qed.
Theorem variants_view imp vlt win32 tr h1 h2 : open_text E1 f1 p1 enc1 = Ok (cod1, b1) -> open_text E2 f2 p2 enc2 = Ok (cod2, b2) ->
  fits_limit (e_limit E1) t1 -> fits_limit (e_limit E2) t2 ->
  view_command E1 imp vlt win32 f1 h1 p1 enc1 nc1 tr = view_command E2 imp vlt win32 f2 h2 p2 enc2 nc2 tr.
Proof.
  intros T1 T2 L1 L2. unfold view_command, read_table.
  now rewrite (variants_stream cat url known HU HK o_set o_perm m skip s O1 O2 E1 E2 t1 t2 H1 H2 D1 D2 HV f1 f2 h1 h2 p1 p2 enc1 enc2 cod1 cod2 b1 b2 nc1 nc2 T1 B1 N1 L1 T2 B2 N2 L2).
Qed.
Lemma opened E f p enc c b : open_text E f p enc = Ok (c, b) -> f p = Some b /\ e_codec E (match enc with Some e => Some e | None => e_get_encoding E b end) = Ok c.
Proof.
  unfold open_text. destruct (f p) as [b'|]; [|discriminate]. destruct (e_codec E _) as [c'|x] eqn:EC; [|discriminate]. cbn [bind]. intros [= <- <-]. split; [reflexivity|]. now destruct enc.
Qed.
Theorem variants_frame {V} imp vlt (args : list V) kwargs : open_text E1 f1 p1 (or_encoding enc1) = Ok (cod1, b1) -> open_text E2 f2 p2 (or_encoding enc2) = Ok (cod2, b2) ->
  match read_dataframe E1 imp vlt f1 p1 args nc1 enc1 kwargs, read_dataframe E2 imp vlt f2 p2 args nc2 enc2 kwargs with
  | Ok c1, Ok c2 => call_dialect c1 = call_dialect c2 /\ call_args c1 = call_args c2 /\ call_kwargs c1 = call_kwargs c2
  | Err x, Err y => x = y
  | _, _ => False
  end.
Proof.
  intros T1 T2. destruct (opened _ _ _ _ _ _ T1) as (F1 & G1). destruct (opened _ _ _ _ _ _ T2) as (F2 & G2). unfold read_dataframe. rewrite F1, F2.
  destruct (import_optional_dependency imp vlt (s2l "pandas") true) as [md|x]; cbn [bind]; [|reflexivity].
  rewrite G1, G2. cbn [bind]. rewrite (read_chars_head cod1 b1 t1 nc1 B1), (read_chars_head cod2 b2 t2 nc2 B2), N1, N2. cbn [bind]. rewrite D1, D2.
  rewrite (variants_detect cat url known HU HK o_set o_perm m skip s O1 O2 t1 t2 H1 H2 HV).
  destruct (fst _) as [[sd|]|x]; cbn [bind]; [|reflexivity|reflexivity]. destruct (to_csv_dialect sd) as [cd|x]; cbn [bind]; [|reflexivity].
  destruct (existsb _ kwargs); [reflexivity|]. repeat split.
Qed.
End Env.
End Commands.

(** ** The standardize command *)
Section Standard.
Variable cat : N -> str.
Variable url : str -> str -> option nat.
Variable known : str -> bool -> res pyexc bool.
Hypothesis HU : line_matcher url.
Hypothesis HK : control_ends cat.
Variable o_set : list SimpleDialect -> list SimpleDialect.
Hypothesis o_perm : forall l, Permutation (o_set l) l.
Variables (O1 O2 : orders) (t1 t2 : str).
Hypothesis H1 : any_orders O1.
Hypothesis H2 : any_orders O2.
Hypothesis HV : line_variants cat t1 t2.
Variables (S1 S2 : senv) (m : method_arg) (skip : bool) (s : dstate).
Local Notation det O := (fun sample => fst (detector_detect cat url known O o_set sample None m skip s)).
Hypothesis D1 : forall sample, e_detect (s_env S1) sample = det O1 sample.
Hypothesis D2 : forall sample, e_detect (s_env S2) sample = det O2 sample.
Hypothesis HR : e_registry (s_env S1) (s2l "excel") = e_registry (s_env S2) (s2l "excel").

Lemma fresh_rows E (f : fs) p b c enc sd tr rows : f p = Some b -> e_codec (s_env E) enc = Ok c -> validate sd = true ->
  parse_data (e_limit (s_env E)) (text_items c b) (Some sd) None None None None false = (rows, None) ->
  source_rows E f p sd enc tr = (if tr then zip_star rows else rows, None).
Proof.
  intros F G Hs HP. unfold source_rows. rewrite F, G.
  destruct (new_reader_fresh (e_registry (s_env E)) [] (text_items c b) sd Hs) as (r & EN & Hr). cbn [app length] in EN. rewrite EN.
  rewrite (reader_rows_parse_data _ _ _ _ _ _ _ _ _ _ EN), Hr. unfold deref. cbn [nth length]. rewrite HP. now destruct tr.
Qed.
Lemma writer_same : new_writer (e_registry (s_env S1)) [] excel [] = new_writer (e_registry (s_env S2)) [] excel [].
Proof. unfold new_writer, make_python_dialect, excel. now rewrite HR. Qed.
Theorem variants_stdout A1 A2 (f1 f2 : fs) (p1 p2 : path) enc1 enc2 cod1 cod2 b1 b2 :
  open_text (s_env S1) f1 p1 (or_encoding enc1) = Ok (cod1, b1) -> cd_decode cod1 b1 = (t1, true) -> head_chars (a_num_chars A1) t1 = t1 -> fits_limit (e_limit (s_env S1)) t1 ->
  open_text (s_env S2) f2 p2 (or_encoding enc2) = Ok (cod2, b2) -> cd_decode cod2 b2 = (t2, true) -> head_chars (a_num_chars A2) t2 = t2 -> fits_limit (e_limit (s_env S2)) t2 ->
  a_in_place A1 = false -> a_in_place A2 = false -> a_transpose A1 = a_transpose A2 ->
  exists code text, handle_path S1 A1 f1 p1 None enc1 = (code, f1, text) /\ handle_path S2 A2 f2 p2 None enc2 = (code, f2, text).
Proof.
  intros T1 B1 N1 L1 T2 B2 N2 L2 I1 I2 HT. destruct (opened _ _ _ _ _ _ T1) as (F1 & G1). destruct (opened _ _ _ _ _ _ T2) as (F2 & G2).
  assert (ED : forall S A (f : fs) p enc cod b t O, open_text (s_env S) f p (or_encoding enc) = Ok (cod, b) -> cd_decode cod b = (t, true) -> head_chars (a_num_chars A) t = t -> a_in_place A = false ->
    (forall sample, e_detect (s_env S) sample = det O sample) ->
    let used := match or_encoding enc with Some e => Some e | None => e_get_encoding (s_env S) b end in
    handle_path S A f p None enc = match det O t with
      | Err x => (Uncaught x, f, [])
      | Ok None => (Code 1, f, [])
      | Ok (Some dl) => let '(c, x) := to_stdout S f p dl used (a_transpose A) in (c, f, x) end).
  { intros S A f p enc cod b t O T B N I D used. destruct (opened _ _ _ _ _ _ T) as (F & G). unfold handle_path. rewrite F, I.
    assert (EU : (match or_encoding enc with None => e_get_encoding (s_env S) b | e => e end) = used) by (unfold used; now destruct (or_encoding enc)). rewrite EU.
    assert (EX : detect_dialect (s_env S) f p used (a_num_chars A) = det O t).
    { assert (EV : match or_encoding used with Some e => Some e | None => e_get_encoding (s_env S) b end = used).
      { unfold used. destruct (or_encoding enc) as [y|] eqn:EO.
        - clear - EO. unfold or_encoding in EO. destruct enc as [[|? ?]|]; try discriminate EO. now injection EO as <-.
        - destruct (e_get_encoding (s_env S) b) as [[|x u]|] eqn:EG; cbn [or_encoding]; try rewrite EG; reflexivity. }
      assert (EO : open_text (s_env S) f p (or_encoding used) = Ok (cod, b)).
      { unfold open_text. rewrite F. fold used in G. rewrite <- EV in G. destruct (or_encoding used) as [y|]; now rewrite G. }
      unfold detect_dialect. rewrite EO. cbn [bind]. now rewrite (read_chars_head cod b t _ B), N, <- D. }
    rewrite EX. reflexivity. }
  rewrite (ED S1 A1 f1 p1 enc1 cod1 b1 t1 O1 T1 B1 N1 I1 D1), (ED S2 A2 f2 p2 enc2 cod2 b2 t2 O2 T2 B2 N2 I2 D2). clear ED.
  pose proof (variants_detect cat url known HU HK o_set o_perm m skip s O1 O2 t1 t2 H1 H2 HV) as EQ. cbn beta in EQ |- *. rewrite <- EQ.
  destruct (fst (detector_detect cat url known O1 o_set t1 None m skip s)) as [[sd|]|x] eqn:EX; [|now exists (Code 1), []|now exists (Uncaught x), []].
  destruct (variants_rows cat url known HU HK o_set o_perm m skip s O1 t1 t2 sd _ _ false H1 HV EX L1 L2) as (Hs & rows & R1 & R2).
  assert (ES : forall S f p enc cod b t tr, f p = Some b -> e_codec (s_env S) enc = Ok cod -> cd_decode cod b = (t, true) -> parse_string (e_limit (s_env S)) t sd false = (rows, None) ->
    source_rows S f p sd enc tr = (if (tr : bool) then zip_star rows else rows, None)).
  { intros S f p enc cod b t tr F G B R. apply (fresh_rows S f p b cod enc sd tr rows F G Hs). unfold text_items. rewrite B. exact R. }
  unfold to_stdout, write_to_stream. rewrite (ES S1 f1 p1 _ cod1 b1 t1 _ F1 G1 B1 R1), (ES S2 f2 p2 _ cod2 b2 t2 _ F2 G2 B2 R2), writer_same, HT.
  destruct (new_writer (e_registry (s_env S2)) [] excel []) as [w|x]; [|now exists (Uncaught x), []].
  destruct (put_rows stringio w (map (map cell_value_of) (if a_transpose A2 then zip_star rows else rows))) as [t y].
  destruct y as [x|]; [now exists (Uncaught x), []|now exists (Code 0), t].
Qed.
End Standard.

(** ** has_header *)
Lemma vote_unique accepts header rows i v v' : vote accepts header rows i v -> vote accepts header rows i v' -> v = v'.
Proof.
  assert (HN : forall k, rows <> [] -> (forall r, In r rows -> kind accepts (nth i r []) = k) -> forall k', (forall r, In r rows -> kind accepts (nth i r []) = k') -> k = k').
  { intros k Hn Hk k' Hk'. destruct rows as [|r rows]; [congruence|]. now rewrite <- (Hk r (or_introl eq_refl)), <- (Hk' r (or_introl eq_refl)). }
  assert (HD : forall k, (forall r, In r rows -> kind accepts (nth i r []) = k) -> forall r1 r2, In r1 rows -> In r2 rows -> kind accepts (nth i r1 []) <> kind accepts (nth i r2 []) -> False).
  { intros k Hk r1 r2 I1 I2 K. apply K. now rewrite (Hk r1 I1), (Hk r2 I2). }
  intros [(E & ->)|[(k & Hn & Hk & HC)|(r1 & r2 & I1 & I2 & K & ->)]] [(E' & ->)|[(k' & Hn' & Hk' & HC')|(r1' & r2' & I1' & I2' & K' & ->)]]; try reflexivity; try congruence.
  - subst rows. destruct I1'.
  - rewrite <- (HN k Hn Hk k' Hk') in HC'. intuition congruence.
  - now destruct (HD k Hk r1' r2' I1' I2' K').
  - subst rows. destruct I1.
  - now destruct (HD k' Hk' r1 r2 I1 I2 K).
Qed.
Lemma header_vote_unique accepts header rows b b' : header_vote accepts header rows b -> header_vote accepts header rows b' -> b = b'.
Proof.
  intros (vs & F & B) (vs' & F' & B'). assert (EV : vs = vs').
  { clear B B'. revert vs' F'. induction F as [|i v is vs Hv F IH]; intros vs' F'; inversion F' as [|? y ? l' Hy Hl]; subst; [reflexivity|]. f_equal; [exact (vote_unique accepts header _ i v y Hv Hy)|exact (IH l' Hl)]. }
  subst vs'. destruct b, b'; try reflexivity; [symmetry|]; intuition.
Qed.
Theorem variants_header cat url known o_set O1 O2 accepts reg max s t1 t2 : line_matcher url -> control_ends cat -> (forall l, Permutation (o_set l) l) ->
  any_orders O1 -> any_orders O2 -> line_variants cat t1 t2 -> no_bare_cr t1 -> no_bare_cr t2 -> fits_limit (st_limit s) t1 -> fits_limit (st_limit s) t2 ->
  fst (has_header cat url known O1 o_set (cast_of accepts) reg t1 max s) = fst (has_header cat url known O2 o_set (cast_of accepts) reg t2 max s).
Proof.
  intros HU HK Ho H1 H2 HV C1 C2 L1 L2. assert (HI : forall l, incl (o_set l) l) by (intros l x Hx; now apply (Permutation_in _ (Ho l))).
  pose proof (variants_detect cat url known HU HK o_set Ho (MEnum AUTO) true s O1 O2 t1 t2 H1 H2 HV) as ED.
  destruct (sniff cat url known O1 o_set t1 None s) as [r1 s1] eqn:S1. destruct (sniff cat url known O2 o_set t2 None s) as [r2 s2] eqn:S2.
  assert (E1 : fst (detector_detect cat url known O1 o_set t1 None (MEnum AUTO) true s) = r1) by (change (fst (sniff cat url known O1 o_set t1 None s) = r1); now rewrite S1).
  assert (E2 : fst (detector_detect cat url known O2 o_set t2 None (MEnum AUTO) true s) = r2) by (change (fst (sniff cat url known O2 o_set t2 None s) = r2); now rewrite S2).
  rewrite E1, E2 in ED. subst r2. destruct r1 as [[sd|]|x].
  - destruct (variants_rows cat url known HU HK o_set Ho (MEnum AUTO) true s O1 t1 t2 sd _ _ false H1 HV E1 L1 L2) as (_ & rows & R1 & R2).
    destruct (rows_plain _ _ _ _ _ R1) as [srows ->]. destruct srows as [|header srows].
    + rewrite (has_header_no_rows cat url known O1 o_set accepts reg t1 max s sd s1 H1 HI C1 S1 R1).
      now rewrite (has_header_no_rows cat url known O2 o_set accepts reg t2 max s sd s2 H2 HI C2 S2 R2).
    + destruct (has_header_rows cat url known O1 o_set accepts reg t1 max s sd s1 header srows None H1 HI C1 S1 R1 (or_introl eq_refl)) as (x1 & -> & V1).
      destruct (has_header_rows cat url known O2 o_set accepts reg t2 max s sd s2 header srows None H2 HI C2 S2 R2 (or_introl eq_refl)) as (x2 & -> & V2).
      cbn [fst]. f_equal. exact (header_vote_unique _ _ _ _ _ V1 V2).
  - unfold has_header. now rewrite S1, S2.
  - unfold has_header. now rewrite S1, S2.
Qed.
