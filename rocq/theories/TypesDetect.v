(** * TypesDetect: type score and detection with the shipped type detector *)
From Coq Require Import String Permutation Sorted.
From Verif Require Import Base Parser Dialect SpecLayout SpecParse ParserProps ParserLift LayoutMore Potential SpecPotential PotentialFacts MaskedFacts
  Floats Ties Consistency SpecConsistency ScoreFacts TypeFacts TieFacts DetectFacts TieMember DetectCases CellChars
  Json JsonScan Regex RegexFacts Types SpecTypes TypesFacts TypesText TypesNumber TypesDate TypesUrl TypesAll TypesJson.
Open Scope N_scope.
Local Notation len := List.length.

(** ** A type test that agrees with another on the cells at hand *)
Definition agree_on (k k' : str -> bool -> res pyexc bool) (cells : list cell) : Prop :=
  forall s q, In (CTuple s q) cells -> k s q = k' s q.
Lemma type_cells_agree k k' capacity cells : agree_on k k' cells -> forall total kn c,
  type_cells k capacity cells total kn c = type_cells k' capacity cells total kn c.
Proof.
  induction cells as [|[s|s q] cells IH]; intros H total kn c; [reflexivity|reflexivity|]. cbn [type_cells].
  assert (E : cached_call k capacity s q c = cached_call k' capacity s q c).
  { unfold cached_call. rewrite (H s q) by now left. reflexivity. }
  rewrite E. destruct (cached_call k' capacity s q c) as [[b c']|]; cbn [bind]; [|reflexivity]. apply IH.
  intros s' q' Hi. apply H. now right.
Qed.
Lemma plain_cells_agree k k' cells : agree_on k k' cells -> forall total kn, plain_cells k cells total kn = plain_cells k' cells total kn.
Proof.
  induction cells as [|[s|s q] cells IH]; intros H total kn; [reflexivity|reflexivity|]. cbn [plain_cells].
  rewrite (H s q) by now left. destruct (k' s q) as [b|]; cbn [bind]; [|reflexivity]. apply IH. intros s' q' Hi. apply H. now right.
Qed.
Lemma scores_loop_agree k k' limit capacity skip data ds :
  (forall d, In d ds -> agree_on k k' (concat (fst (parse_string limit data d true)))) -> forall inc m c,
  scores_loop k limit capacity skip data ds inc m c = scores_loop k' limit capacity skip data ds inc m c.
Proof.
  induction ds as [|d ds IH]; intros H inc m c; [reflexivity|]. cbn [scores_loop].
  destruct (pattern_score data d) as [P|]; cbn [bind]; [|reflexivity].
  assert (IH' : forall inc m c, scores_loop k limit capacity skip data ds inc m c = scores_loop k' limit capacity skip data ds inc m c).
  { apply IH. intros e He. apply H. now right. }
  destruct (_ && skip)%bool; [apply IH'|].
  assert (E : compute_type_score k limit capacity data d c = compute_type_score k' limit capacity data d c).
  { unfold compute_type_score. specialize (H d (or_introl eq_refl)). destruct (parse_string limit data d true) as [rows en]. cbn [fst] in H.
    now rewrite (type_cells_agree k k'). }
  rewrite E. destruct (compute_type_score k' limit capacity data d c) as [[T c']|]; cbn [bind]; [|reflexivity]. apply IH'.
Qed.
Lemma detect_agree cat url k k' O o_set capacity skip data user old :
  (forall L d, get_dialects cat url O utf8 data user false = Ok L -> In d L ->
     agree_on k k' (concat (fst (parse_string (Z.of_nat (len data) + 1) data d true)))) ->
  detect cat url k O o_set capacity skip data user old = detect cat url k' O o_set capacity skip data user old.
Proof.
  intros H. unfold detect. destruct (get_dialects cat url O utf8 data user false) as [L|]; [|reflexivity]. specialize (H L).
  assert (E : compute_consistency_scores k (Z.of_nat (len data) + 1) capacity skip data L [] =
              compute_consistency_scores k' (Z.of_nat (len data) + 1) capacity skip data L []).
  { unfold compute_consistency_scores. destruct (py_sorted L) as [r|] eqn:Er; cbn [bind]; [|reflexivity].
    apply scores_loop_agree. intros d Hd. apply (H d eq_refl). apply sorted_permutation in Er. now apply (Permutation_in _ Er). }
  now rewrite E.
Qed.

(** ** Without skipping, an exception in the type score of any candidate is fatal *)
Lemma loop_raises k limit capacity data ds d x : In d ds -> type_score k limit data d = Err x -> forall inc m c, sound k c ->
  exists y, scores_loop k limit capacity false data ds inc m c = Err y.
Proof.
  intros Hi Hx. induction ds as [|e ds IH]; [destruct Hi|]. intros inc m c Hc. cbn [scores_loop].
  destruct (pattern_score data e) as [P|y]; cbn [bind]; [|now exists y]. rewrite andb_false_r.
  pose proof (compute_sound k capacity limit data e c Hc) as H.
  destruct (compute_type_score k limit capacity data e c) as [[T c']|y]; cbn [bind]; [|now exists y]. destruct H as [HT Hc'].
  destruct Hi as [->|Hi]; [congruence|]. now apply IH.
Qed.
Lemma detect_raises cat url k O o_set capacity data user old d q e x :
  any_orders O -> clean url data -> candidate cat user (filter_urls url data) data d q e ->
  type_score k (Z.of_nat (len data) + 1) data (dialect3 d q e) = Err x ->
  exists y, detect cat url k O o_set capacity false data user old = (Err y, (Z.of_nat (len data) + 1)%Z).
Proof.
  intros HO Hc Hd Hx. destruct (get_dialects_utf8 cat url O data user false HO Hc) as (L & E & _ & HL).
  assert (Hi : In (dialect3 d q e) L). { apply HL. exists d, q, e. auto. }
  unfold detect. rewrite E. unfold compute_consistency_scores.
  destruct (get_dialects_good cat url O data user false HO Hc) as (L' & E' & _ & Hg). rewrite E in E'. injection E' as <-.
  destruct (candidates_fine L Hg) as [_ Hdef]. destruct (sorted_ok L Hdef) as (r & Er & Hp & _). rewrite Er. cbn [bind].
  assert (Hir : In (dialect3 d q e) r) by now apply (Permutation_in _ (Permutation_sym Hp)).
  destruct (loop_raises k _ capacity data r _ x Hir Hx minus_inf [] [] (sound_nil k)) as (y & ->). cbn [bind]. now exists y.
Qed.

(** ** The dialect without delimiter comes first unless comma or semicolon occur *)
Lemma detect_first cat url k O o_set capacity skip data user old x :
  any_orders O -> clean url data -> ~ In COMMA data -> ~ In SEMI data ->
  type_score k (Z.of_nat (len data) + 1) data (dialect3 [] [] []) = Err x ->
  detect cat url k O o_set capacity skip data user old = (Err x, (Z.of_nat (len data) + 1)%Z).
Proof.
  intros HO Hc Hcom Hsem Hx. destruct (get_dialects_utf8 cat url O data user false HO Hc) as (L & E & _ & HL).
  destruct (get_dialects_good cat url O data user false HO Hc) as (L' & E' & _ & Hg). rewrite E in E'. injection E' as <-.
  destruct (candidates_fine L Hg) as [Hf Hdef]. unfold detect. rewrite E. unfold compute_consistency_scores.
  destruct (sorted_ok L Hdef) as (r & Er & Hp & Hs). rewrite Er. cbn [bind].
  assert (Hie : In empty_dialect r).
  { apply (Permutation_in _ (Permutation_sym Hp)). now apply (empty_in cat url O data user). }
  destruct r as [|d r]; [destruct Hie|].
  assert (Hd : d = empty_dialect).
  { destruct Hie as [Hie|Hie]; [exact Hie|]. inversion Hs as [|? ? _ Hall]; subst. rewrite Forall_forall in Hall. specialize (Hall _ Hie).
    assert (HdL : In d L) by (apply (Permutation_in _ Hp); now left). apply HL in HdL as (a & b & e & -> & Hcand & _).
    destruct Hcand as (Ha & Hb & He).
    assert (NC : forall c, In c (filter_urls url data) -> c <> COMMA /\ c <> SEMI).
    { intros c Hi. apply (url_sub_In _ _ (filter_urls_sub url data)) in Hi as [Hi| ->]; [|now split].
      split; intros ->; contradiction. }
    unfold dlt, dialect_ltb, empty_dialect, delim_is in Hall. cbn [dialect3 sd_delimiter sd_quotechar sd_escapechar sd_strict opt_str_eqb] in Hall.
    destruct Ha as [->|(c & -> & Hi & _)].
    - cbn in Hall. unfold key_ltb in Hall. cbn in Hall. destruct Hb as [->|(cq & -> & _)]; [|now destruct Hall].
      cbn in Hall. destruct He as [->|(u & v & -> & _)]; [reflexivity|now destruct Hall].
    - exfalso. apply Hall. destruct (NC c Hi) as (N1 & N2).
      cbn. rewrite (proj2 (N.eqb_neq c COMMA) N1), (proj2 (N.eqb_neq c SEMI) N2). reflexivity. }
  subst d. cbn [scores_loop].
  assert (EP : exists p, pattern_score data empty_dialect = Ok p) by apply (pattern_score_ok data (mk_chars None None None) false).
  destruct EP as [p ->]. cbn [bind]. rewrite not_lt_minus_inf. cbn [andb].
  pose proof (compute_sound k capacity (Z.of_nat (len data) + 1) data empty_dialect [] (sound_nil k)) as H.
  destruct (compute_type_score k (Z.of_nat (len data) + 1) capacity data empty_dialect []) as [[T c']|y]; cbn [bind].
  - destruct H as [H _]. unfold empty_dialect in H. congruence.
  - unfold empty_dialect in H. congruence.
Qed.

(** Without special characters every line is a row of one cell. *)
Local Notation D0 := (mk_chars None None None).
Lemma plain_raw s : raw_cell D0 (map PChar s) = s.
Proof. unfold raw_cell. induction s as [|c s IH]; [reflexivity|]. cbn in *. now rewrite IH. Qed.
Lemma plain_render s : render_cell D0 (map PChar s) = s.
Proof. unfold render_cell. induction s as [|c s IH]; [reflexivity|]. cbn in *. now rewrite IH. Qed.
Lemma plain_value s : cell_value D0 (map PChar s) = (s, false).
Proof. unfold cell_value, unquote. rewrite plain_raw. destruct s as [|c [|d s]]; reflexivity. Qed.
Lemma plain_wf s : line_ok s -> wf_row D0 [map PChar s] = true.
Proof.
  intros (Hn & Hf). unfold wf_row, wf_cell. cbn [forallb]. rewrite andb_true_r.
  assert (H1 : forallb (wf_piece D0) (map PChar s) = true).
  { rewrite forallb_forall. intros p Hp. apply in_map_iff in Hp as (c & <- & Hc). rewrite Forall_forall in Hf. destruct (Hf c Hc) as (N1 & N2 & N3).
    unfold wf_piece, special, is_nl. cbn. now rewrite !(proj2 (N.eqb_neq c _)) by assumption. }
  assert (H2 : no_adjacent (map PChar s) = true) by (clear; induction s as [|c s IH]; [reflexivity|exact IH]).
  rewrite H1, H2. now destruct s.
Qed.
Lemma parse_lines limit lines last : Forall line_ok lines -> (last = [] \/ line_ok last) ->
  (Z.of_nat (len (text_of lines last)) < limit)%Z ->
  parse_string limit (text_of lines last) (dialect3 [] [] []) true = (map (fun l => [CTuple l false]) (lines_of lines last), None).
Proof.
  intros Hl Ht HL. set (d := mk_doc (map (fun l => ([map PChar l], ELF)) lines) (match last with [] => TEnd | _ => TRow [map PChar last] end)).
  assert (ER : render D0 d = text_of lines last).
  { unfold render, d, text_of. cbn [records SpecLayout.last]. f_equal.
    - rewrite map_map. f_equal. apply map_ext. intros l. unfold render_record, render_row. cbn. now rewrite plain_render.
    - destruct last as [|c r] eqn:E; [reflexivity|]. rewrite <- E. clear E. cbn. unfold render_row. cbn. apply plain_render. }
  assert (EV : mk_rows true (denote D0 d) = map (fun l => [CTuple l false]) (lines_of lines last)).
  { unfold denote, d, lines_of. cbn [records SpecLayout.last]. rewrite map_map. unfold mk_rows. rewrite !map_app, map_map. f_equal.
    - apply map_ext. intros l. cbn. now rewrite plain_value.
    - destruct last as [|c r] eqn:E; [reflexivity|]. rewrite <- E.
      assert (HA : after_esc_nl false (map PChar last) = false) by (clear; induction last as [|x r IH]; [reflexivity|exact IH]).
      cbn [tail_value List.last removelast map]. rewrite HA. rewrite plain_value. now rewrite E. }
  rewrite <- EV. rewrite <- ER. change (dialect3 [] [] []) with (simple D0 false). apply parse_string_layout; [reflexivity| |].
  - unfold wf_doc, d. cbn [records SpecLayout.last]. apply andb_true_iff. split.
    + clear -Hl. induction Hl as [|l ls Hl H IH]; [reflexivity|]. cbn [map wf_records]. rewrite plain_wf by exact Hl. cbn [andb]. exact IH.
    + destruct last as [|c r] eqn:E; [reflexivity|]. rewrite <- E in *. destruct Ht as [Ht|Ht]; [now rewrite Ht in E|]. cbn [wf_tail]. now rewrite plain_wf.
  - apply Forall_forall. intros x Hx. apply raw_cells_bound in Hx. rewrite ER in Hx. lia.
Qed.

Lemma plain_raises k cells s q x : In (CTuple s q) cells -> k s q = Err x -> Forall (fun c => is_tuple c = true) cells ->
  forall t n, exists y s' q', plain_cells k cells t n = Err y /\ In (CTuple s' q') cells /\ k s' q' = Err y.
Proof.
  induction cells as [|c cells IH]; intros Hi Hx Hc t n; [destruct Hi|]. inversion Hc as [|? ? H1 H2]; subst. destruct c as [s0|s0 q0]; [discriminate|].
  cbn [plain_cells]. destruct (k s0 q0) as [b|y] eqn:E; cbn [bind].
  - destruct Hi as [[= -> ->]|Hi]; [congruence|]. destruct (IH Hi Hx H2 (t + 1)%Z (if b then (n + 1)%Z else n)) as (y & s' & q' & H & Hi' & Hy).
    exists y, s', q'. repeat split; auto. now right.
  - exists y, s0, q0. repeat split; auto. now left.
Qed.
Lemma lines_raise k lines last l x : Forall line_ok lines -> (last = [] \/ line_ok last) ->
  In l (lines_of lines last) -> k l false = Err x ->
  exists y l', type_score k (Z.of_nat (len (text_of lines last)) + 1) (text_of lines last) (dialect3 [] [] []) = Err y /\
    In l' (lines_of lines last) /\ k l' false = Err y.
Proof.
  intros Hl Ht Hi Hx. unfold type_score. rewrite parse_lines by (auto; lia).
  set (ls := lines_of lines last) in *. clearbody ls.
  assert (EC : concat (map (fun l => [CTuple l false]) ls) = map (fun l => CTuple l false) ls) by (clear; induction ls as [|l ls IH]; [reflexivity|cbn; now rewrite IH]).
  rewrite EC. destruct (plain_raises k (map (fun l => CTuple l false) ls) l false x) with (t := 0%Z) (n := 0%Z) as (y & s' & q' & E & Hi' & Hy).
  - apply in_map_iff. eauto.
  - exact Hx.
  - apply Forall_forall. intros c Hc. apply in_map_iff in Hc as (? & <- & _). reflexivity.
  - rewrite E. cbn [bind]. apply in_map_iff in Hi' as (l' & [= -> <-] & Hi'). eauto.
Qed.

Lemma lstrip_sub f s c : In c (lstrip_by f s) -> In c s.
Proof. induction s as [|x s IH]; cbn; [auto|]. destruct (f x); [auto|]. now intros. Qed.
Lemma strip_sub f s c : In c (strip_by f s) -> In c s.
Proof.
  intros H. apply (lstrip_sub f). destruct (rstrip_prefix f (lstrip_by f s)) as (t & E). rewrite E. apply in_or_app. now left.
Qed.

Section Shipped.
Variable U : unidata.
Local Notation cat := (u_cat U).
Local Notation strip := (strip U).
Hypothesis sane : sane_categories cat.
Hypothesis isdigit_ok : forall c, digit cat c -> u_isdigit U c = true.

(** ** Lines that cannot be typed abort detection *)
Theorem lines_abort O o_set capacity skip lines last user old l x :
  any_orders O -> Forall line_ok lines -> (last = [] \/ line_ok last) ->
  ~ In COMMA (text_of lines last) -> ~ In SEMI (text_of lines last) -> (forall c, In c (text_of lines last) -> surrogate c = false) ->
  In l (lines_of lines last) -> detect_type U l false = Err x ->
  exists y, (y = ValueError \/ y = RecursionError) /\
    detect cat (shipped_url U) (is_known_type U) O o_set capacity skip (text_of lines last) user old =
    (Err y, (Z.of_nat (len (text_of lines last)) + 1)%Z).
Proof.
  intros HO Hl Ht Hc Hs Hsur Hi Hx. apply (proj2 (known_errors U l false x)) in Hx.
  destruct (lines_raise (is_known_type U) lines last l x Hl Ht Hi Hx) as (y & l' & E & _ & Hy).
  exists y. split; [apply known_errors in Hy; eapply detect_type_errors; eauto|].
  apply detect_first; auto. intros c Hi'. apply (url_sub_In _ _ (filter_urls_sub _ _)) in Hi' as [Hi'| ->]; [now apply Hsur|reflexivity].
Qed.

(** ** Without braces detection never fails *)
Definition known_bool (s : str) (q : bool) : bool := match is_known_type U s q with Ok b => b | Err _ => false end.
Lemma no_brace_known s q : ~ In 123 s -> is_known_type U s q = Ok (known_bool s q).
Proof.
  intros H. unfold known_bool. destruct (is_known_type U s q) as [b|x] eqn:E; [reflexivity|].
  apply known_errors, detect_type_err in E as (_ & ((t & Et) & _) & _); auto. destruct H.
  apply (strip_sub (u_space U)). unfold strip in Et. rewrite Et. now left.
Qed.
Lemma known_bool_iff s q : known_bool s q = true <-> exists name P, In (name, P) (types U q) /\ P (strip s).
Proof.
  rewrite <- is_known_iff by assumption. unfold known_bool. destruct (is_known_type U s q) as [[|]|]; split; congruence.
Qed.
Theorem detect_without_braces O o_set capacity skip data user old :
  any_orders O -> (forall c, In c data -> surrogate c = false) -> (forall l, Permutation (o_set l) l) ->
  ~ In NUL data -> ~ In 123 data -> (Z.of_nat (len data) < 2 ^ 50)%Z ->
  detect cat (shipped_url U) (is_known_type U) O o_set capacity skip data user old =
  detect cat (shipped_url U) (total_known known_bool) O o_set capacity skip data user old /\
  exists r, detect cat (shipped_url U) (is_known_type U) O o_set capacity skip data user old = (Ok r, old).
Proof.
  intros HO Hsur Hp Hn Hb H50.
  assert (Hc : clean (shipped_url U) data).
  { intros c Hi'. apply (url_sub_In _ _ (filter_urls_sub _ _)) in Hi' as [Hi'| ->]; [now apply Hsur|reflexivity]. }
  assert (E : detect cat (shipped_url U) (is_known_type U) O o_set capacity skip data user old =
    detect cat (shipped_url U) (total_known known_bool) O o_set capacity skip data user old).
  { apply detect_agree. intros L d EL Hd s q Hi. apply no_brace_known.
    destruct (get_dialects_utf8 cat (shipped_url U) O data user false HO Hc) as (L' & E' & _ & HL). rewrite EL in E'. injection E' as <-.
    destruct (get_dialects_good cat (shipped_url U) O data user false HO Hc) as (L' & E' & _ & Hg). rewrite EL in E'. injection E' as <-.
    unfold candidates_ok in Hg. rewrite Forall_forall in Hg. destruct (Hg d Hd) as (Hv & _).
    assert (HF := parse_chars (Z.of_nat (len data) + 1) data d true (fun c => c <> 123) Hv).
    intros H123. refine (_ (proj1 (Forall_forall _ _) (HF _ _ _ _) (CTuple s q) Hi)).
    - cbn. intros HF'. rewrite Forall_forall in HF'. now apply (HF' 123 H123).
    - apply Forall_forall. intros c Hc' ->. contradiction.
    - discriminate.
    - discriminate.
    - apply HL in Hd as (a & b & e & -> & (_ & _ & He) & _). intros e' [= ->]. destruct He as [[=]|(u & v & [= ->] & (x & y & ->) & _)].
      intros ->. apply Hb. apply in_elt. }
  split; [exact E|]. rewrite E. apply detect_returns; auto.
Qed.

(** ** The type score *)
Theorem shipped_type_score limit data d : validate d = true -> sd_strict d = false -> (Z.of_nat (len data) <= limit)%Z -> ~ In NUL data ->
  exists rows, parse_string limit data d true = (mk_rows true rows, None) /\
    ((forall s q, In (s, q) (concat rows) -> exists b, is_known_type U s q = Ok b) ->
     type_score (is_known_type U) limit data d = Ok (type_share known_bool (concat rows))) /\
    (forall s q x, In (s, q) (concat rows) -> is_known_type U s q = Err x ->
     exists y, type_score (is_known_type U) limit data d = Err y /\ (y = ValueError \/ y = RecursionError)).
Proof.
  intros Hv Hs HL Hn. destruct (type_score_share known_bool limit data d Hv Hs HL Hn) as (rows & E & ET).
  exists rows. split; [exact E|]. unfold type_score in *. rewrite E in *. rewrite concat_mk_rows in *. split.
  - intros H. rewrite <- ET. rewrite (plain_cells_agree (is_known_type U) (total_known known_bool)); [reflexivity|].
    intros s q Hi. apply in_map_iff in Hi as ([s' q'] & [= -> ->] & Hi). unfold total_known, known_bool. destruct (H s q Hi) as (b & ->). reflexivity.
  - intros s q x Hi Hx. destruct (plain_raises (is_known_type U) (map (mk_cell true) (concat rows)) s q x) with (t := 0%Z) (n := 0%Z) as (y & s' & q' & E' & _ & Hy).
    + apply in_map_iff. now exists (s, q).
    + exact Hx.
    + apply Forall_forall. intros c Hc. apply in_map_iff in Hc as ([? ?] & <- & _). reflexivity.
    + rewrite E'. exists y. split; [reflexivity|]. apply known_errors in Hy. eapply detect_type_errors; eauto.
Qed.
End Shipped.
