(** * DetectorCases: bare CRs in has_header, concrete samples (C43, C49) *)
From Coq Require Import String Permutation.
From Verif Require Import Base Parser Dialect CsvLib Reader SpecLayout SpecParse SpecHistory ParserLift Potential SpecPotential PotentialFacts
  NormalForm NormalCases Ties Consistency SpecConsistency DetectFacts MaskedFacts DetectCases Detect SpecDetect DetectorFacts HeaderFacts BareCR.

Section Header.
Variable cat : N -> str.
Variable url : str -> str -> option nat.
Variable known : str -> bool -> res pyexc bool.
Variable O : orders.
Variable o_set : list SimpleDialect -> list SimpleDialect.
Variable accepts : pytype -> str -> bool.
Local Notation sniff := (sniff cat url known O o_set).
Local Notation has_header := (has_header cat url known O o_set (cast_of accepts)).

Lemma has_header_bare_cr reg max s s' D rs cells c rest :
  any_orders O -> (forall l, incl (o_set l) l) ->
  let d := mk_doc (rs ++ [(cells, ECR)]) TEnd in
  let sample := render D d ++ c :: rest in
  sniff sample None s = (Ok (Some (simple D false)), s') ->
  wf_chars D = true -> wf_doc D d = true -> no_bare_cr (render D d) ->
  (1 <= st_limit s)%Z -> Forall (fun s0 => Z.of_nat (List.length s0) <= st_limit s)%Z (raw_cells D d) ->
  is_nl c = false -> c <> NUL ->
  ((List.length rs <= S (Z.to_nat (max + 1)))%nat -> has_header reg sample max s = (Err (CleverError ENewline), s')) /\
  (forall header rows, (S (Z.to_nat (max + 1)) < List.length rs)%nat ->
    map (fun r => map fst (row_value D (fst r))) rs = header :: rows ->
    exists b, has_header reg sample max s = (Ok b, s') /\
      header_vote accepts header (firstn (Z.to_nat (max + 1)) rows) b).
Proof.
  intros HO Ho d sample ES HD Hd Hn Hl HL Hc H0.
  destruct (sniff_valid _ _ _ _ _ _ _ _ _ HO Ho ES) as (HV & _ & HS).
  pose proof (bare_cr_layout D rs cells (st_limit s) c rest HD Hd Hn Hl HL Hc H0) as HP. cbn zeta in HP. fold d in HP. fold sample in HP.
  rewrite <- HS in HP.
  set (rows := map (fun r => map fst (row_value D (fst r))) rs).
  assert (ER : mk_rows false (map (fun r => row_value D (fst r)) rs) = map strs rows).
  { unfold mk_rows, rows. rewrite !map_map. apply map_ext. intros r. unfold strs. rewrite map_map. reflexivity. }
  rewrite ER in HP.
  assert (EL : List.length rows = List.length rs) by (unfold rows; apply map_length). clearbody rows.
  pose proof (has_header_lf cat url known O o_set accepts reg sample max s _ s' rows _ ES HV HP) as H.
  split.
  - intros HR. destruct rows as [|header rows]; [exact H|]. cbn zeta in H. cbn [List.length] in EL.
    destruct (Nat.ltb _ _) eqn:E; [apply Nat.ltb_lt in E; lia|exact H].
  - intros header rows' HR ->. cbn zeta in H. cbn [List.length] in EL.
    destruct (Nat.ltb _ _) eqn:E; [exact H|apply Nat.ltb_ge in E; lia].
Qed.
End Header.

(** ** Samples *)
Notation ascii_detector := (detector_detect ascii_cat no_urls (total_known digits) plain_orders (fun l => l)).
Notation ascii_sniff := (sniff ascii_cat no_urls (total_known digits) plain_orders (fun l => l)).
Definition digit_types (t : pytype) (s : str) : bool := digits s false.
Notation ascii_header := (has_header ascii_cat no_urls (total_known digits) plain_orders (fun l => l) (cast_of digit_types)).
Definition state0 : dstate := mk_state None 131072.
Definition header_text : str := s2l "name,age" ++ [LF] ++ s2l "ann,12" ++ [LF] ++ s2l "robert,34".
Definition cr_text : str := s2l "a,b" ++ [CR] ++ s2l "c,d" ++ [CR].
Definition esc_text : str := [BACKSLASH].
Definition late_text : str := s2l "a,b" ++ [LF] ++ s2l "c,d" ++ [LF] ++ s2l "e,f" ++ [CR] ++ s2l "g,h".
Definition commas : chars := mk_chars (Some COMMA) None None.
Definition by_normal : dstate := mk_state (Some NORMAL) 131072.
Definition by_consistency : dstate := mk_state (Some CONSISTENCY) 131072.

(** Samples the normal forms do not settle. *)
Lemma ascii_consistency sample m r :
  In m [MStr (s2l "normal"); MEnum NORMAL; MStr (s2l "auto"); MEnum AUTO] ->
  detect_dialect_normal ascii_cat sample utf8 None = Ok None ->
  small_detect ascii_cat no_urls (total_known digits) plain_orders (fun l => l) 9 true sample None 131072 = (r, 131072%Z) ->
  ascii_detector sample None m true state0 = (r, by_consistency).
Proof.
  intros Hm HN HD. rewrite dispatch_normal, HN by assumption.
  rewrite dispatch_consistency by (cbn; auto). unfold detect_dialect_consistency, by_consistency.
  rewrite (detect_capacity _ _ _ _ _ 100000 9). cbn [st_limit state0]. rewrite small_detect_ok, HD. reflexivity.
Qed.
Lemma empty_case m : In m [MStr (s2l "normal"); MEnum NORMAL; MStr (s2l "auto"); MEnum AUTO] ->
  ascii_detector [] None m true state0 = (Ok (Some (dialect3 [] [] [])), by_consistency).
Proof. intros H. apply ascii_consistency; [exact H|reflexivity|vm_compute; reflexivity]. Qed.
Lemma tied_normal : ascii_detector tied_text None (MStr (s2l "normal")) true state0 = (Ok (Some esc_backslash), by_consistency) /\
  detect_dialect_normal ascii_cat tied_text utf8 None = Ok None.
Proof.
  assert (H : detect_dialect_normal ascii_cat tied_text utf8 None = Ok None) by (vm_compute; reflexivity).
  split; [|exact H]. apply ascii_consistency; [cbn -[s2l]; auto|exact H|]. rewrite <- small_detect_ok. apply tied_case1.
Qed.
Lemma ascii_sniff_eq sample s : ascii_sniff sample None s = ascii_detector sample None (MEnum AUTO) true s.
Proof. reflexivity. Qed.
Lemma late_sniff : ascii_sniff late_text None state0 = (Ok (Some (simple commas false)), by_consistency).
Proof.
  rewrite ascii_sniff_eq.
  apply ascii_consistency; [cbn -[s2l]; auto|vm_compute; reflexivity|vm_compute; reflexivity].
Qed.
Lemma header_case : ascii_sniff header_text None state0 = (Ok (Some (simple commas false)), by_normal) /\
  ascii_header std_registry header_text 20 state0 = (Ok true, by_normal) /\ no_bare_cr header_text.
Proof.
  split; [vm_compute; reflexivity|]. split; [vm_compute; reflexivity|].
  intros a c b E. assert (In CR header_text) by (rewrite E; apply in_or_app; right; now left).
  cbn in H. intuition discriminate.
Qed.
Lemma cr_case : ascii_sniff cr_text None state0 = (Ok (Some (simple commas false)), by_normal) /\
  ascii_header std_registry cr_text 20 state0 = (Err (CleverError ENewline), by_normal) /\
  parse_string 131072 cr_text (simple commas false) false =
    ([[CStr (s2l "a"); CStr (s2l "b")]; [CStr (s2l "c"); CStr (s2l "d")]], None).
Proof. split; [vm_compute; reflexivity|]. split; vm_compute; reflexivity. Qed.

(** The same sample as a layout. *)
Definition plain_row (s : string) : list (list piece) := map (fun c => [PChar c]) (s2l s).
Definition late_records : list (list (list piece) * eol) := [(plain_row "ab", ELF); (plain_row "cd", ELF)].
Lemma late_layout : let d := mk_doc (late_records ++ [(plain_row "ef", ECR)]) TEnd in
  late_text = render commas d ++ 103%N :: s2l ",h" /\ wf_chars commas = true /\ wf_doc commas d = true /\ no_bare_cr (render commas d) /\
  Forall (fun s0 => Z.of_nat (List.length s0) <= 131072)%Z (raw_cells commas d) /\
  map (fun r => map fst (row_value commas (fst r))) late_records = [[s2l "a"; s2l "b"]; [s2l "c"; s2l "d"]].
Proof.
  cbn zeta. split; [reflexivity|]. split; [reflexivity|]. split; [reflexivity|]. split; [|split; [|reflexivity]].
  - intros a c b E. cbn in E. do 11 (destruct a as [|? a]; [discriminate|]; injection E as _ E).
    destruct a as [|? a]; [discriminate|]. injection E as _ E. destruct a; discriminate.
  - repeat constructor; discriminate.
Qed.
Lemma late_answers :
  ascii_header std_registry late_text 0 state0 = (Err (CleverError ENewline), by_consistency) /\
  exists b, ascii_header std_registry late_text (-1) state0 = (Ok b, by_consistency) /\
    header_vote digit_types [s2l "a"; s2l "b"] [] b.
Proof.
  destruct late_layout as (E & H1 & H2 & H3 & H4 & H5). pose proof late_sniff as HS.
  assert (Ho : forall l : list SimpleDialect, incl l l) by (intros; apply incl_refl).
  assert (HL : (1 <= st_limit state0)%Z) by discriminate.
  rewrite E in *. split.
  - eapply (has_header_bare_cr ascii_cat no_urls (total_known digits) plain_orders (fun l => l) digit_types); eauto using plain_orders_ok; try discriminate.
  - eapply (has_header_bare_cr ascii_cat no_urls (total_known digits) plain_orders (fun l => l) digit_types) with (rows := [[s2l "c"; s2l "d"]]);
      eauto using plain_orders_ok; try discriminate.
Qed.

Lemma exclusive_refuted : exists cat url known O o_set sample s d,
  detect_dialect_normal cat sample utf8 None = Ok None /\
  detector_detect cat url known O o_set sample None (MStr (s2l "normal")) true s =
    (Ok (Some d), mk_state (Some CONSISTENCY) (st_limit s)).
Proof.
  exists ascii_cat, no_urls, (total_known digits), plain_orders, (fun l => l), tied_text, state0, esc_backslash.
  destruct tied_normal as [H1 H2]. split; [exact H2|]. exact H1.
Qed.
Lemma detected_refuted : exists cat url known O o_set accepts reg sample s D s' row1 row2,
  any_orders O /\ sniff cat url known O o_set sample None s = (Ok (Some D), s') /\
  parse_string (st_limit s) sample D false = ([row1; row2], None) /\
  has_header cat url known O o_set (cast_of accepts) reg sample 20 s = (Err (CleverError ENewline), s').
Proof.
  exists ascii_cat, no_urls, (total_known digits), plain_orders, (fun l => l), digit_types, std_registry, cr_text, state0.
  destruct cr_case as (H1 & H2 & H3). do 4 eexists. split; [apply plain_orders_ok|].
  split; [exact H1|]. split; [exact H3|exact H2].
Qed.
