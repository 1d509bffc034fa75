(** * HeaderFacts: which rows has_header sees (C43, C49) *)
From Coq Require Import String Permutation.
From Verif Require Import Base Parser Dialect CsvLib Reader SpecLayout SpecParse SpecHistory ParserFacts ParserProps ParserLift ReaderFacts
  Potential SpecPotential PotentialFacts NormalForm NormalCases Floats Ties Consistency SpecConsistency DetectFacts TieMember Detect SpecDetect DetectorFacts.

Section Sniff.
Variable cat : N -> str.
Variable url : str -> str -> option nat.
Variable known : str -> bool -> res pyexc bool.
Variable O : orders.
Variable o_set : list SimpleDialect -> list SimpleDialect.
Local Notation sniff := (sniff cat url known O o_set).
Local Notation detector_detect := (detector_detect cat url known O o_set).

Lemma sniff_valid sample s D s' : any_orders O -> (forall l, incl (o_set l) l) ->
  sniff sample None s = (Ok (Some D), s') ->
  validate D = true /\ sd_strict D = false /\ st_limit s' = st_limit s.
Proof.
  intros HO Ho. unfold Detect.sniff, Detect.detector_detect. cbn -[detect_dialect_normal detect].
  destruct (detect_dialect_normal cat sample utf8 None) as [[d|]|] eqn:EN; [| |discriminate].
  - intros [= <- <-]. apply detect_shape in EN as (d' & q & -> & Hq & Hd). cbn [st_limit].
    split; [|now split].
    assert (V : forall x, In x [[]; [39%N]; [34%N]] \/ x = [] \/ In x [[COMMA]; [SEMI]; [124%N]; [TAB]] -> field_valid (Some x) = true).
    { intros x [H|[->|H]]; [|reflexivity|]; cbn in H; intuition subst; reflexivity. }
    unfold validate. cbn [dialect3 sd_delimiter sd_quotechar sd_escapechar]. rewrite !V by auto. reflexivity.
  - destruct (detect cat url known O o_set 100000 true sample None (st_limit s)) as [r limit] eqn:E.
    intros [= -> <-]. cbn [st_limit]. pose proof (detect_limit _ _ _ _ _ _ _ _ _ _ _ _ E) as HL. cbn in HL.
    destruct (detect_candidate _ _ _ _ _ _ _ _ _ _ _ _ Ho E) as (L & EL & HD).
    destruct (clean_dec url sample) as [Hc|Hc]; [|now rewrite get_dialects_surrogate in EL].
    destruct (get_dialects_good cat url O sample None false HO Hc) as (L' & E' & _ & HC).
    rewrite EL in E'. injection E' as <-. unfold candidates_ok in HC. rewrite Forall_forall in HC. destruct (HC D HD) as (H1 & H2 & _). auto.
Qed.

(** ** Methods *)
Lemma normal_is_auto sample delims skip s m m' :
  In m [MStr (s2l "normal"); MEnum NORMAL; MStr (s2l "auto"); MEnum AUTO] ->
  In m' [MStr (s2l "normal"); MEnum NORMAL; MStr (s2l "auto"); MEnum AUTO] ->
  detector_detect sample delims m skip s = detector_detect sample delims m' skip s.
Proof. cbn -[s2l]. intuition subst; reflexivity. Qed.

Lemma dispatch_normal sample delims skip s m :
  In m [MStr (s2l "normal"); MEnum NORMAL; MStr (s2l "auto"); MEnum AUTO] ->
  detector_detect sample delims m skip s =
  match detect_dialect_normal cat sample utf8 delims with
  | Err x => (Err x, s)
  | Ok (Some d) => (Ok (Some d), mk_state (Some NORMAL) (st_limit s))
  | Ok None => detector_detect sample delims (MStr (s2l "consistency")) skip s
  end.
Proof. cbn -[s2l detect_dialect_normal detect]. intuition subst; reflexivity. Qed.

Lemma dispatch_consistency sample delims skip s m :
  In m [MStr (s2l "consistency"); MEnum CONSISTENCY; MOther] ->
  detector_detect sample delims m skip s =
  (fst (detect_dialect_consistency cat url known O o_set sample delims skip (st_limit s)),
   mk_state (Some CONSISTENCY) (snd (detect_dialect_consistency cat url known O o_set sample delims skip (st_limit s)))).
Proof.
  unfold detect_dialect_consistency. cbn -[s2l detect_dialect_normal detect].
  destruct (detect cat url known O o_set 100000 skip sample delims (st_limit s)) eqn:E.
  intuition subst; unfold Detect.detector_detect; cbn -[detect]; now rewrite E.
Qed.
Lemma dispatch_unknown sample delims skip s v :
  ~ In v [s2l "auto"; s2l "normal"; s2l "consistency"] ->
  detector_detect sample delims (MStr v) skip s = (Err ValueError, s).
Proof.
  intros H. unfold Detect.detector_detect, dmethod_of_str. cbn [find].
  assert (K : forall m, str_eqb (dmethod_value m) v = false).
  { intros m. destruct (str_eqb (dmethod_value m) v) eqn:E; [|reflexivity]. elim H.
    apply str_eqb_eq in E. subst v. destruct m; cbn -[s2l]; auto. }
  now rewrite !K.
Qed.
End Sniff.

(** ** Lines *)
Lemma lf_univ_aux n : forall t cur, (List.length t <= n)%nat -> no_bare_cr t -> lf_lines_aux cur t = univ_lines_aux cur t.
Proof.
  induction n as [|n IH]; intros t cur Hn H; [destruct t; [reflexivity|cbn in Hn; lia]|].
  destruct t as [|c t]; [reflexivity|]. cbn [lf_lines_aux univ_lines_aux]. cbn in Hn.
  assert (T : forall x u, no_bare_cr (x :: u) -> no_bare_cr u).
  { intros x u Hx a y b E. apply (Hx (x :: a) y b). now rewrite E. }
  assert (H' := T _ _ H).
  destruct (c =? LF)%N eqn:EL; [rewrite IH by (assumption || lia); reflexivity|].
  destruct (c =? CR)%N eqn:EC; [|apply IH; [lia|assumption]].
  apply N.eqb_eq in EC. subst c. destruct t as [|d t]; [cbn; now destruct cur|].
  assert (d = LF) by (apply (H [] d t); reflexivity). subst d. rewrite N.eqb_refl.
  cbn [lf_lines_aux]. rewrite N.eqb_refl, <- app_assoc. cbn [app]. f_equal.
  apply IH; [cbn in Hn; lia|]. exact (T _ _ H').
Qed.
Lemma lf_univ t : no_bare_cr t -> lf_lines t = univ_lines t.
Proof. apply (lf_univ_aux (List.length t)). lia. Qed.

(** ** Rows *)
Lemma rows_plain limit items D rows e : parse_data limit items (Some D) None None None None false = (rows, e) ->
  exists srows, rows = map strs srows.
Proof.
  unfold parse_data, parse_data_. destruct (make_conf _ _ _ _ _ _) as [cf|] eqn:EC; [|intros [= <- <-]; now exists []].
  destruct (parse_items cf items) as [rs en] eqn:EP. intros [= <- <-].
  assert (ER : return_quoted cf = false).
  { unfold make_conf in EC. repeat (destruct (set_char _); cbn [bind] in EC; [|discriminate]). now injection EC as <-. }
  assert (H : forall r, In r rs -> exists sr, r = strs sr).
  { intros r Hr. destruct (inv_rows cf (fun _ fs => exists sr, fs = strs sr)) with (input := items) (r := r) as [_ H]; auto.
    - now exists [].
    - intros st b fs dq tr [sr ->]. destruct (save_fields st b (strs sr) dq cf tr) as (x & y & -> & _). rewrite ER.
      exists (sr ++ [x]). unfold strs. now rewrite map_app.
    - now rewrite EP. }
  clear EP. induction rs as [|r rs IH]; [now exists []|].
  destruct IH as [srs ->]; [intros; apply H; now right|]. destruct (H r (or_introl eq_refl)) as [sr ->].
  now exists (sr :: srs).
Qed.

Section Header.
Variable cat : N -> str.
Variable url : str -> str -> option nat.
Variable known : str -> bool -> res pyexc bool.
Variable O : orders.
Variable o_set : list SimpleDialect -> list SimpleDialect.
Variable accepts : pytype -> str -> bool.
Local Notation sniff := (sniff cat url known O o_set).
Local Notation has_header := (has_header cat url known O o_set (cast_of accepts)).

(** has_header reads what the parser reads from the lines ended by LF. *)
Lemma has_header_lf reg sample max s D s' rows e :
  sniff sample None s = (Ok (Some D), s') -> validate D = true ->
  parse_data (st_limit s') (map ILine (lf_lines sample)) (Some D) None None None None false = (map strs rows, e) ->
  match rows with
  | [] => has_header reg sample max s = (Err match e with None => StopIteration | Some x => x end, s')
  | header :: rows =>
      let k := Z.to_nat (max + 1) in
      match (if Nat.ltb k (List.length rows) then None else e) with
      | Some x => has_header reg sample max s = (Err x, s')
      | None => exists b, has_header reg sample max s = (Ok b, s') /\ header_vote accepts header (firstn k rows) b
      end
  end.
Proof.
  intros ES HV HP. unfold Detect.has_header. rewrite ES.
  unfold new_reader, make_simple_dialect. cbn [fold_left deref nth store]. rewrite HV. cbn [negb].
  set (lines := map ILine (lf_lines sample)) in *. set (limit := st_limit s') in *.
  unfold reader_next. cbn [r_parser]. unfold reader_iter. cbn [r_dialect r_seq r_rest r_line_num deref nth].
  unfold parse_data, parse_data_ in HP. cbn [or_else] in HP.
  destruct (make_conf limit (sd_delimiter D) (sd_quotechar D) (sd_escapechar D) (sd_strict D) false) as [cf|x] eqn:EC.
  2:{ injection HP as HP <-. destruct rows; [|discriminate]. reflexivity. }
  cbn [bind r_parser r_rest r_seq r_dialect r_line_num].
  destruct (parse_items cf lines) as [rs en] eqn:EP. injection HP as -> <-.
  unfold parse_items in EP. cbn [drain] in EP.
  pose proof (drain_fuel cf lines) as HF. unfold parse_items in HF. cbn [drain] in HF.
  destruct (iternext_any cf new_parser new_parser lines sane_new sane_new) as (_ & _ & HS & _).
  destruct (iternext mem_ops cf new_parser lines) as [[out o'] rest] eqn:EI. cbn [fst snd] in HS.
  destruct out as [row| |x].
  - destruct (drain mem_ops (List.length lines) cf o' rest) as [rows' e'] eqn:ED. injection EP as EP <-. cbn [snd] in HF.
    destruct rows as [|header rows]; [discriminate|]. cbn [map] in EP. injection EP as -> ->.
    assert (HL : (List.length rest < List.length lines)%nat).
    { destruct lines as [|l0 lines'] eqn:EE.
      - unfold iternext in EI. cbn in EI. discriminate.
      - destruct (iternext_loop_rest mem_ops cf _ _ _ _ _ EI) as [_ K]. apply K. discriminate. }
    rewrite (drain_any cf _ o' new_parser rest HS sane_new) in ED.
    rewrite (drain_mono mem_ops (fun _ => eq_refl) cf _ (S (List.length lines))) in ED by lia.
    assert (HH : List.length (strs header) = List.length header) by apply map_length. rewrite !HH.
    cbn [r_dialect r_seq r_rest r_line_num]. rewrite EC. cbn [bind].
    rewrite (check_rows_drain (cast_of accepts) limit [D] None 0%nat max (List.length header) (S (List.length lines)) rest 1%nat cf new_parser 0 _ _ _ ED HF).
    cbn zeta. rewrite Z.sub_0_r. set (k := Z.to_nat (max + 1)). rewrite firstn_map, map_length.
    destruct (check_and_count accepts header (firstn k rows)) as (m & v & b & -> & EV & -> & HB). cbn [bind].
    destruct (Nat.ltb k (List.length rows)).
    + exists (0 <? v)%Z. cbn [bind]. rewrite EV. auto.
    + destruct (py_ending e') as [x|]; cbn [bind]; [reflexivity|]. exists (0 <? v)%Z. cbn [bind]. rewrite EV. auto.
  - injection EP as EP <-. destruct rows; [|discriminate]. reflexivity.
  - injection EP as EP <-. destruct rows; [|discriminate]. destruct x; reflexivity.
Qed.

(** Without bare CRs these are the rows of parse_string. *)
Lemma has_header_rows reg sample max s D s' header rows e :
  any_orders O -> (forall l, incl (o_set l) l) -> no_bare_cr sample ->
  sniff sample None s = (Ok (Some D), s') ->
  parse_string (st_limit s) sample D false = (map (map CStr) (header :: rows), e) ->
  (e = None \/ (Z.to_nat (max + 1) < List.length rows)%nat) ->
  exists b, has_header reg sample max s = (Ok b, s') /\
    header_vote accepts header (firstn (Z.to_nat (max + 1)) rows) b.
Proof.
  intros HO Ho HC ES HP HE. destruct (sniff_valid _ _ _ _ _ _ _ _ _ HO Ho ES) as (HV & _ & HL).
  unfold parse_string in HP. rewrite <- HL, <- lf_univ in HP by assumption.
  pose proof (has_header_lf reg sample max s D s' (header :: rows) e ES HV HP) as H. cbn zeta iota in H.
  destruct (Nat.ltb _ _) eqn:E; [exact H|]. apply Nat.ltb_ge in E.
  destruct HE as [->|HE]; [exact H|]. lia.
Qed.
Lemma has_header_error reg sample max s D s' rows x :
  any_orders O -> (forall l, incl (o_set l) l) -> no_bare_cr sample ->
  sniff sample None s = (Ok (Some D), s') ->
  parse_string (st_limit s) sample D false = (rows, Some x) ->
  (List.length rows <= S (Z.to_nat (max + 1)))%nat ->
  has_header reg sample max s = (Err x, s').
Proof.
  intros HO Ho HC ES HP HE. destruct (sniff_valid _ _ _ _ _ _ _ _ _ HO Ho ES) as (HV & _ & HL).
  unfold parse_string in HP. rewrite <- HL, <- lf_univ in HP by assumption.
  destruct (rows_plain _ _ _ _ _ HP) as [srows ->].
  pose proof (has_header_lf reg sample max s D s' srows (Some x) ES HV HP) as H.
  destruct srows as [|header srows]; [exact H|]. cbn zeta iota in H. cbn [map List.length] in HE. rewrite map_length in HE.
  destruct (Nat.ltb _ _) eqn:E; [|exact H]. apply Nat.ltb_lt in E. lia.
Qed.
Lemma has_header_no_rows reg sample max s D s' :
  any_orders O -> (forall l, incl (o_set l) l) -> no_bare_cr sample ->
  sniff sample None s = (Ok (Some D), s') ->
  parse_string (st_limit s) sample D false = ([], None) ->
  has_header reg sample max s = (Err StopIteration, s').
Proof.
  intros HO Ho HC ES HP. destruct (sniff_valid _ _ _ _ _ _ _ _ _ HO Ho ES) as (HV & _ & HL).
  unfold parse_string in HP. rewrite <- HL, <- lf_univ in HP by assumption.
  exact (has_header_lf reg sample max s D s' [] None ES HV HP).
Qed.
Lemma has_header_empty reg max s D s' :
  any_orders O -> (forall l, incl (o_set l) l) -> sniff [] None s = (Ok (Some D), s') ->
  has_header reg [] max s = (Err StopIteration, s').
Proof.
  intros HO Ho ES. destruct (sniff_valid _ _ _ _ _ _ _ _ _ HO Ho ES) as (HV & _ & HL).
  apply (has_header_no_rows reg [] max s D s' HO Ho); [|exact ES|].
  - intros [|? a] c b E; discriminate.
  - destruct (simple_of_valid D HV) as [C ->]. now rewrite parse_string_conf.
Qed.
(** On short texts the answer is a boolean, or StopIteration if there are no rows. *)
Lemma has_header_total reg sample max s D s' :
  any_orders O -> (forall l, incl (o_set l) l) -> no_bare_cr sample -> ~ In NUL sample ->
  (Z.of_nat (List.length sample) <= st_limit s)%Z ->
  sniff sample None s = (Ok (Some D), s') ->
  (exists b, has_header reg sample max s = (Ok b, s')) \/
  (has_header reg sample max s = (Err StopIteration, s') /\ parse_string (st_limit s) sample D false = ([], None)).
Proof.
  intros HO Ho HC HN HL ES. destruct (sniff_valid _ _ _ _ _ _ _ _ _ HO Ho ES) as (HV & HT & _).
  destruct (parse_string_total (st_limit s) sample D false HV HT HL) as [_ HE]. specialize (HE HN).
  destruct (parse_string (st_limit s) sample D false) as [rows e] eqn:EP. cbn [snd] in HE. subst e.
  destruct (rows_plain _ _ _ _ _ EP) as [srows ->]. destruct srows as [|header srows].
  - right. split; [|reflexivity]. now apply (has_header_no_rows reg sample max s D s').
  - left. destruct (has_header_rows reg sample max s D s' header srows None) as (b & H & _); auto. eauto.
Qed.
End Header.
