(** * ArgCommands: the five commands *)
From Coq Require Import String Lia.
From Verif Require Import Base Json Files Standardize Console ArgParse SpecArgs ArgLoop ArgWords ArgLines ArgMeaning ArgSound.
Open Scope nat_scope.

(** ** The declarations are in order *)
Fixpoint distinct (l : list str) : bool := match l with [] => true | x :: l' => negb (existsb (str_eqb x) l') && distinct l' end.
Lemma distinct_ok l : distinct l = true -> NoDup l.
Proof.
  induction l as [|x l IH]; intros H; constructor; apply andb_true_iff in H as [H1 H2]; [|now apply IH].
  intros HI. apply negb_true_iff in H1. apply not_true_iff_false in H1. apply H1. apply existsb_exists. exists x.
  split; [exact HI|apply str_eqb_refl].
Qed.
Definition checked (P : parser) : bool :=
  distinct (map fst (option_map_of P)) &&
  forallb (fun o => match o_short o with Some c => negb (N.eqb c DASH) && negb (N.eqb c EQUALS) | None => true end &&
                    negb (mem_char EQUALS (o_long o)) && negb (is_nil (o_long o))) (all_options P) &&
  distinct (s2l "path" :: map (fun o => dest (o_long o)) (p_options P)) &&
  forallb (fun o => match o_kind o with KHelp => false | _ => true end) (p_options P) &&
  forallb (fun l => existsb (fun o => str_eqb (o_long o) l && Nat.eqb (arity o) 0) (p_options P)) (p_exclusive P).
Lemma checked_ok P : checked P = true ->
  good P /\ forall l, In l (p_exclusive P) -> exists o, In o (p_options P) /\ o_long o = l /\ arity o = 0.
Proof.
  unfold checked. rewrite !andb_true_iff. intros ((((H1 & H2) & H3) & H4) & H5). rewrite forallb_forall in H2, H4, H5. split.
  - split.
    + now apply distinct_ok.
    + intros o c Ho Hc. specialize (H2 o Ho). rewrite Hc, !andb_true_iff, !negb_true_iff, !N.eqb_neq in H2. tauto.
    + intros o Ho. specialize (H2 o Ho). rewrite !andb_true_iff, !negb_true_iff in H2. destruct H2 as [[_ K1] K2]. split.
      * intros HI. apply not_true_iff_false in K1. apply K1. unfold mem_char. apply existsb_exists. exists EQUALS.
        split; [exact HI|apply N.eqb_refl].
      * intros E. rewrite E in K2. discriminate.
    + now apply distinct_ok.
    + intros o Ho E. specialize (H4 o Ho). now rewrite E in H4.
  - intros l Hl. specialize (H5 l Hl). apply existsb_exists in H5 as (o & Ho & E). apply andb_true_iff in E as [E1 E2].
    exists o. split; [exact Ho|]. split; [now apply str_eqb_eq|now apply Nat.eqb_eq].
Qed.
Lemma detect_checked : checked detect_parser = true. Proof. vm_compute. reflexivity. Qed.
Lemma view_checked : checked view_parser = true. Proof. vm_compute. reflexivity. Qed.
Lemma standardize_checked : checked standardize_parser = true. Proof. vm_compute. reflexivity. Qed.
Lemma code_checked : checked code_parser = true. Proof. vm_compute. reflexivity. Qed.
Lemma explore_checked : checked explore_parser = true. Proof. vm_compute. reflexivity. Qed.

(** ** What the commands are called with *)
Section Commands.
Variables (digit : N -> bool) (int_of : str -> option Z) (items : list item) (ws : list str).

(** the attributes of an accepted command line *)
Definition holds (P : parser) (ns : namespace) (ps : list str) : Prop :=
  dict_get (s2l "path") ns = Some (if p_many P then AList ps else AStr (hd [] ps)) /\
  forall o, In o (p_options P) -> dict_get (dest (o_long o)) ns = Some (value_of int_of o items).

Lemma number_value : numbers int_of items ->
  as_opt_int (match latest (values items "num-chars") with
              | Some v => match int_of v with Some z => AInt z | None => ANone end
              | None => ANone end) = Some (number int_of items).
Proof.
  intros H. unfold number, latest. destruct (rev (values items "num-chars")) as [|v l] eqn:E; [reflexivity|].
  destruct (int_of v) eqn:EI; [reflexivity|]. exfalso. apply (H v); [|exact EI]. apply in_rev. rewrite E. now left.
Qed.
Lemma str_value l : as_opt_str (match latest (values items l) with Some v => AStr v | None => ANone end) = Some (latest (values items l)).
Proof. now destruct (latest (values items l)). Qed.

Ltac attribute P O HV :=
  let H := fresh in
  assert (H : In O (p_options P)) by (simpl; tauto);
  apply HV in H; rewrite H; clear H.

Definition detect_says (p : str) : str * detect_args :=
  (p, mk_detect_args (latest (values items "encoding")) (number int_of items) (given items "consistency") (given items "plain")
                     (given items "json") (given items "no-skip") (given items "add-runtime")).
Lemma detect_holds ns p : numbers int_of items -> holds detect_parser ns [p] -> detect_args_of ns = Ok (detect_says p).
Proof.
  intros HN [HP HV]. unfold detect_args_of, attr. rewrite HP. cbn [as_str p_many detect_parser hd bind].
  change (dict_get (s2l "encoding") ns) with (dict_get (dest (o_long (mk_opt (Some 101%N) (s2l "encoding") KStr))) ns).
  rewrite HV by (simpl; tauto).
  change (dict_get (s2l "num_chars") ns) with (dict_get (dest (o_long (mk_opt (Some 110%N) (s2l "num-chars") KInt))) ns).
  rewrite HV by (simpl; tauto).
  change (dict_get (s2l "consistency") ns) with (dict_get (dest (o_long (mk_opt (Some 99%N) (s2l "consistency") KFlag))) ns).
  rewrite HV by (simpl; tauto).
  change (dict_get (s2l "plain") ns) with (dict_get (dest (o_long (mk_opt (Some 112%N) (s2l "plain") KFlag))) ns).
  rewrite HV by (simpl; tauto).
  change (dict_get (s2l "json") ns) with (dict_get (dest (o_long (mk_opt (Some 106%N) (s2l "json") KFlag))) ns).
  rewrite HV by (simpl; tauto).
  change (dict_get (s2l "no_skip") ns) with (dict_get (dest (o_long (mk_opt None (s2l "no-skip") KFlag))) ns).
  rewrite HV by (simpl; tauto).
  change (dict_get (s2l "add_runtime") ns) with (dict_get (dest (o_long (mk_opt None (s2l "add-runtime") KFlag))) ns).
  rewrite HV by (simpl; tauto).
  unfold value_of. cbn [o_kind o_long]. change (values_s items (s2l "encoding")) with (values items "encoding").
  rewrite str_value. cbn [bind]. change (values_s items (s2l "num-chars")) with (values items "num-chars").
  rewrite (number_value HN). reflexivity.
Qed.
Definition sargs_says (locate : str -> path) (ps : list str) : sargs :=
  mk_sargs (map locate ps) (values items "encoding") (latest (values items "target-encoding")) (given items "in-place")
           (number int_of items) (map locate (values items "output")) (given items "transpose").
Lemma standardize_holds locate ns ps : numbers int_of items -> holds standardize_parser ns ps -> sargs_of locate ns = Ok (sargs_says locate ps).
Proof.
  intros HN [HP HV]. unfold sargs_of, attr. rewrite HP. cbn [as_list p_many standardize_parser bind].
  change (dict_get (s2l "output") ns) with (dict_get (dest (o_long (mk_opt (Some 111%N) (s2l "output") KAppend))) ns).
  rewrite HV by (simpl; tauto).
  change (dict_get (s2l "encoding") ns) with (dict_get (dest (o_long (mk_opt (Some 101%N) (s2l "encoding") KAppend))) ns).
  rewrite HV by (simpl; tauto).
  change (dict_get (s2l "num_chars") ns) with (dict_get (dest (o_long (mk_opt (Some 110%N) (s2l "num-chars") KInt))) ns).
  rewrite HV by (simpl; tauto).
  change (dict_get (s2l "in_place") ns) with (dict_get (dest (o_long (mk_opt (Some 105%N) (s2l "in-place") KFlag))) ns).
  rewrite HV by (simpl; tauto).
  change (dict_get (s2l "target_encoding") ns) with (dict_get (dest (o_long (mk_opt (Some 69%N) (s2l "target-encoding") KStr))) ns).
  rewrite HV by (simpl; tauto).
  change (dict_get (s2l "transpose") ns) with (dict_get (dest (o_long (mk_opt (Some 116%N) (s2l "transpose") KFlag))) ns).
  rewrite HV by (simpl; tauto).
  unfold value_of. cbn [o_kind o_long as_list bind]. change (values_s items (s2l "num-chars")) with (values items "num-chars").
  rewrite (number_value HN). cbn [bind as_bool]. change (values_s items (s2l "target-encoding")) with (values items "target-encoding").
  rewrite str_value. reflexivity.
Qed.
Definition small_says (flag : string) (p : str) : str * option str * option Z * bool :=
  (p, latest (values items "encoding"), number int_of items, given items flag).
Lemma small_holds P O flag ns p : p_many P = false ->
  In (mk_opt (Some 101%N) (s2l "encoding") KStr) (p_options P) -> In (mk_opt (Some 110%N) (s2l "num-chars") KInt) (p_options P) ->
  In O (p_options P) -> o_kind O = KFlag -> o_long O = s2l flag -> dest (o_long O) = s2l flag ->
  numbers int_of items -> holds P ns [p] -> small_args_of flag ns = Ok (small_says flag p).
Proof.
  intros HM H1 H2 H3 HK HL HD HN [HP HV]. unfold small_args_of, attr. rewrite HP, HM. cbn [as_str hd bind].
  apply HV in H1, H2, H3.
  change (dict_get (s2l "encoding") ns) with (dict_get (dest (o_long (mk_opt (Some 101%N) (s2l "encoding") KStr))) ns).
  rewrite H1.
  change (dict_get (s2l "num_chars") ns) with (dict_get (dest (o_long (mk_opt (Some 110%N) (s2l "num-chars") KInt))) ns).
  rewrite H2. rewrite <- HD, H3. unfold value_of. rewrite HK, HL. cbn [o_kind o_long].
  change (values_s items (s2l "encoding")) with (values items "encoding"). rewrite str_value. cbn [bind].
  change (values_s items (s2l "num-chars")) with (values items "num-chars"). rewrite (number_value HN). reflexivity.
Qed.

(** when the options are in order *)
Lemma fine_plain P : p_exclusive P = [] ->
  (forall o, In o (p_options P) -> o_kind o = KInt -> o_long o = s2l "num-chars") -> numbers int_of items -> fine int_of P items.
Proof.
  intros HE HI HN. split.
  - intros o Ho HK. rewrite (HI o Ho HK). exact HN.
  - rewrite HE. easy.
Qed.
Lemma fine_plain_back P : In (mk_opt (Some 110%N) (s2l "num-chars") KInt) (p_options P) -> fine int_of P items -> numbers int_of items.
Proof. intros HI [F1 _]. exact (F1 _ HI eq_refl). Qed.
Lemma fine_detect : fine int_of detect_parser items <->
  numbers int_of items /\ ~ (given items "plain" = true /\ given items "json" = true).
Proof.
  split.
  - intros F. split; [apply (fine_plain_back detect_parser); [simpl; tauto|exact F]|]. intros [E1 E2]. destruct F as [_ F2].
    discriminate (F2 (s2l "plain") (s2l "json") (or_introl eq_refl) (or_intror (or_introl eq_refl)) E1 E2).
  - intros [HN HX]. split.
    + intros o [<-|[<-|[<-|[<-|[<-|[<-|[<-|[]]]]]]]] HK; try discriminate HK. exact HN.
    + intros l l' [<-|[<-|[]]] [<-|[<-|[]]] E1 E2; try reflexivity; destruct HX; now split.
Qed.
Lemma int_name P : forallb (fun o => match o_kind o with KInt => str_eqb (o_long o) (s2l "num-chars") | _ => true end) (p_options P) = true ->
  forall o, In o (p_options P) -> o_kind o = KInt -> o_long o = s2l "num-chars".
Proof. intros H o Ho HK. rewrite forallb_forall in H. specialize (H o Ho). rewrite HK in H. now apply str_eqb_eq. Qed.

Lemma accepted P (S : sheet) ps : checked P = true -> S = sheet_of P -> line digit S items ws -> one_run P items ps -> fine int_of P items ->
  exists ns, parse_args digit int_of P ws = Parsed ns /\ holds P ns ps.
Proof.
  intros HC -> HL HO HF. destruct (checked_ok P HC) as [G X].
  destruct (line_meaning int_of P G X digit items ws HL ps HO HF) as (ns & H1 & H2 & H3). exists ns. split; [exact H1|now split].
Qed.
Lemma accepted_dashes P (S : sheet) ps : checked P = true -> S = sheet_of P -> line digit S items ws -> files items = [] ->
  ps <> [] -> (p_many P = false -> exists p, ps = [p]) -> fine int_of P items ->
  exists ns, parse_args digit int_of P (ws ++ [45; 45]%N :: ps) = Parsed ns /\ holds P ns ps.
Proof.
  intros HC -> HL HF Hps H1 HN. destruct (checked_ok P HC) as [G X].
  destruct (dashes_meaning int_of P G X digit items ws HL ps HF Hps H1 HN) as (ns & K1 & K2 & K3). exists ns. split; [exact K1|now split].
Qed.
Lemma refused P (S : sheet) : checked P = true -> S = sheet_of P -> line digit S items ws ->
  ~ ((exists ps, one_run P items ps) /\ fine int_of P items) -> parse_args digit int_of P ws = Usage.
Proof. intros HC -> HL. destruct (checked_ok P HC) as [G X]. now apply line_refused. Qed.
Lemma run_single P p : files items = [[p]] -> one_run P items [p].
Proof. intros H. split; [exact H|]. intros _. now exists p. Qed.
Lemma run_many P ps : p_many P = true -> files items = [ps] -> one_run P items ps.
Proof. intros HM H. split; [exact H|]. congruence. Qed.

Theorem detect_line p : line digit detect_sheet items ws -> files items = [[p]] -> numbers int_of items ->
  ~ (given items "plain" = true /\ given items "json" = true) ->
  exists ns, parse_args digit int_of detect_parser ws = Parsed ns /\ detect_args_of ns = Ok (detect_says p).
Proof.
  intros HL HF HN HX. destruct (accepted detect_parser detect_sheet [p] detect_checked eq_refl HL) as (ns & H1 & H2).
  - now apply run_single.
  - now apply fine_detect.
  - exists ns. split; [exact H1|now apply detect_holds].
Qed.
Theorem detect_dashes p : line digit detect_sheet items ws -> files items = [] -> numbers int_of items ->
  ~ (given items "plain" = true /\ given items "json" = true) ->
  exists ns, parse_args digit int_of detect_parser (ws ++ [[45; 45]%N; p]) = Parsed ns /\ detect_args_of ns = Ok (detect_says p).
Proof.
  intros HL HF HN HX. destruct (accepted_dashes detect_parser detect_sheet [p] detect_checked eq_refl HL HF) as (ns & H1 & H2).
  - discriminate.
  - intros _. now exists p.
  - now apply fine_detect.
  - exists ns. split; [exact H1|now apply detect_holds].
Qed.
Theorem standardize_line locate ps : line digit standardize_sheet items ws -> files items = [ps] -> numbers int_of items ->
  exists ns, parse_args digit int_of standardize_parser ws = Parsed ns /\ sargs_of locate ns = Ok (sargs_says locate ps).
Proof.
  intros HL HF HN. destruct (accepted standardize_parser standardize_sheet ps standardize_checked eq_refl HL) as (ns & H1 & H2).
  - now apply run_many.
  - now apply fine_plain; [|apply int_name|].
  - exists ns. split; [exact H1|now apply standardize_holds].
Qed.
Theorem standardize_dashes locate ps : line digit standardize_sheet items ws -> files items = [] -> ps <> [] -> numbers int_of items ->
  exists ns, parse_args digit int_of standardize_parser (ws ++ [45; 45]%N :: ps) = Parsed ns /\ sargs_of locate ns = Ok (sargs_says locate ps).
Proof.
  intros HL HF Hps HN. destruct (accepted_dashes standardize_parser standardize_sheet ps standardize_checked eq_refl HL HF Hps) as (ns & H1 & H2).
  - discriminate.
  - now apply fine_plain; [|apply int_name|].
  - exists ns. split; [exact H1|now apply standardize_holds].
Qed.
Theorem view_line p : line digit view_sheet items ws -> files items = [[p]] -> numbers int_of items ->
  exists ns, parse_args digit int_of view_parser ws = Parsed ns /\ small_args_of "transpose" ns = Ok (small_says "transpose" p).
Proof.
  intros HL HF HN. destruct (accepted view_parser view_sheet [p] view_checked eq_refl HL) as (ns & H1 & H2).
  - now apply run_single.
  - now apply fine_plain; [|apply int_name|].
  - exists ns. split; [exact H1|].
    apply (small_holds view_parser (mk_opt (Some 116%N) (s2l "transpose") KFlag)); try reflexivity; try assumption; simpl; tauto.
Qed.
Theorem code_line p : line digit code_sheet items ws -> files items = [[p]] -> numbers int_of items ->
  exists ns, parse_args digit int_of code_parser ws = Parsed ns /\ small_args_of "pandas" ns = Ok (small_says "pandas" p).
Proof.
  intros HL HF HN. destruct (accepted code_parser code_sheet [p] code_checked eq_refl HL) as (ns & H1 & H2).
  - now apply run_single.
  - now apply fine_plain; [|apply int_name|].
  - exists ns. split; [exact H1|].
    apply (small_holds code_parser (mk_opt (Some 112%N) (s2l "pandas") KFlag)); try reflexivity; try assumption; simpl; tauto.
Qed.
(** explore declares the same options as code *)
Theorem explore_same : parse_args digit int_of explore_parser ws = parse_args digit int_of code_parser ws.
Proof. reflexivity. Qed.

(** ** What is refused *)
Definition one_file : Prop := exists p, files items = [[p]].
Lemma one_run_file P : p_many P = false -> (exists ps, one_run P items ps) -> one_file.
Proof. intros HM (ps & H1 & H2). destruct (H2 HM) as (p & ->). now exists p. Qed.
Theorem detect_refused : line digit detect_sheet items ws ->
  ~ (one_file /\ numbers int_of items /\ ~ (given items "plain" = true /\ given items "json" = true)) ->
  parse_args digit int_of detect_parser ws = Usage.
Proof.
  intros HL HN. apply (refused detect_parser detect_sheet detect_checked eq_refl HL). intros [H1 H2]. apply HN.
  split; [now apply (one_run_file detect_parser)|]. now apply fine_detect.
Qed.
Theorem standardize_refused : line digit standardize_sheet items ws -> ~ (List.length (files items) = 1 /\ numbers int_of items) ->
  parse_args digit int_of standardize_parser ws = Usage.
Proof.
  intros HL HN. apply (refused standardize_parser standardize_sheet standardize_checked eq_refl HL). intros [(ps & H1 & _) H2]. apply HN.
  rewrite H1. split; [reflexivity|]. apply (fine_plain_back standardize_parser); [simpl; tauto|exact H2].
Qed.
Theorem view_refused : line digit view_sheet items ws -> ~ (one_file /\ numbers int_of items) ->
  parse_args digit int_of view_parser ws = Usage.
Proof.
  intros HL HN. apply (refused view_parser view_sheet view_checked eq_refl HL). intros [H1 H2]. apply HN.
  split; [now apply (one_run_file view_parser)|]. apply (fine_plain_back view_parser); [simpl; tauto|exact H2].
Qed.
Theorem code_refused : line digit code_sheet items ws -> ~ (one_file /\ numbers int_of items) ->
  parse_args digit int_of code_parser ws = Usage.
Proof.
  intros HL HN. apply (refused code_parser code_sheet code_checked eq_refl HL). intros [H1 H2]. apply HN.
  split; [now apply (one_run_file code_parser)|]. apply (fine_plain_back code_parser); [simpl; tauto|exact H2].
Qed.

(** ** All command lines *)
Lemma sound_of P ns : checked P = true -> parse_args digit int_of P ws = Parsed ns ->
  typed P ns /\ (exists v, dict_get (s2l "path") ns = Some v /\ path_ok P v) /\
  (forall l l', In l (p_exclusive P) -> In l' (p_exclusive P) -> chosen ns l -> chosen ns l' -> l = l').
Proof.
  intros HC HP. destruct (checked_ok P HC) as [G X]. pose proof (parse_sound digit int_of P G X ws) as H. now rewrite HP in H.
Qed.
Lemma get_flag P ns c l (k : string) : typed P ns -> In (mk_opt c (s2l l) KFlag) (p_options P) -> dest (s2l l) = s2l k ->
  exists b, attr as_bool ns k = Ok b /\ dict_get (s2l k) ns = Some (ABool b).
Proof. intros HT HI E. destruct (HT _ HI) as (v & Hv & b & ->). simpl in Hv. exists b. unfold attr. rewrite <- E, Hv. now split. Qed.
Lemma get_text P ns c l (k : string) : typed P ns -> In (mk_opt c (s2l l) KStr) (p_options P) -> dest (s2l l) = s2l k ->
  exists b, attr as_opt_str ns k = Ok b.
Proof.
  intros HT HI E. destruct (HT _ HI) as (v & Hv & HK). simpl in Hv. unfold attr. rewrite <- E, Hv.
  destruct HK as [->|(s & ->)]; eexists; reflexivity.
Qed.
Lemma get_number P ns c l (k : string) : typed P ns -> In (mk_opt c (s2l l) KInt) (p_options P) -> dest (s2l l) = s2l k ->
  exists b, attr as_opt_int ns k = Ok b.
Proof.
  intros HT HI E. destruct (HT _ HI) as (v & Hv & HK). simpl in Hv. unfold attr. rewrite <- E, Hv.
  destruct HK as [->|(s & ->)]; eexists; reflexivity.
Qed.
Lemma get_list P ns c l (k : string) : typed P ns -> In (mk_opt c (s2l l) KAppend) (p_options P) -> dest (s2l l) = s2l k ->
  exists b, attr as_list ns k = Ok b.
Proof. intros HT HI E. destruct (HT _ HI) as (v & Hv & b & ->). simpl in Hv. exists b. unfold attr. now rewrite <- E, Hv. Qed.
Lemma get_path P ns : p_many P = false -> (exists v, dict_get (s2l "path") ns = Some v /\ path_ok P v) -> exists p, attr as_str ns "path" = Ok p.
Proof. intros HM (v & Hv & HO). unfold path_ok in HO. rewrite HM in HO. destruct HO as (s & ->). exists s. unfold attr. now rewrite Hv. Qed.

Theorem detect_total ns : parse_args digit int_of detect_parser ws = Parsed ns ->
  exists p A, detect_args_of ns = Ok (p, A) /\ ~ (da_plain A = true /\ da_json A = true).
Proof.
  intros HP. destruct (sound_of detect_parser ns detect_checked HP) as (HT & HA & HX).
  destruct (get_path detect_parser ns eq_refl HA) as (p & Ep).
  destruct (get_text detect_parser ns (Some 101%N) "encoding" "encoding" HT) as (e & Ee); [simpl; tauto|reflexivity|].
  destruct (get_number detect_parser ns (Some 110%N) "num-chars" "num_chars" HT) as (n & En); [simpl; tauto|reflexivity|].
  destruct (get_flag detect_parser ns (Some 99%N) "consistency" "consistency" HT) as (c & Ec & _); [simpl; tauto|reflexivity|].
  destruct (get_flag detect_parser ns (Some 112%N) "plain" "plain" HT) as (b1 & E1 & D1); [simpl; tauto|reflexivity|].
  destruct (get_flag detect_parser ns (Some 106%N) "json" "json" HT) as (b2 & E2 & D2); [simpl; tauto|reflexivity|].
  destruct (get_flag detect_parser ns None "no-skip" "no_skip" HT) as (b3 & E3 & _); [simpl; tauto|reflexivity|].
  destruct (get_flag detect_parser ns None "add-runtime" "add_runtime" HT) as (b4 & E4 & _); [simpl; tauto|reflexivity|].
  exists p, (mk_detect_args e n c b1 b2 b3 b4). split.
  - unfold detect_args_of. rewrite Ep, Ee, En, Ec, E1, E2, E3, E4. reflexivity.
  - cbn [da_plain da_json]. intros [-> ->].
    discriminate (HX (s2l "plain") (s2l "json") (or_introl eq_refl) (or_intror (or_introl eq_refl)) D1 D2).
Qed.
Theorem standardize_total locate ns : parse_args digit int_of standardize_parser ws = Parsed ns ->
  exists A, sargs_of locate ns = Ok A /\ a_paths A <> [].
Proof.
  intros HP. destruct (sound_of standardize_parser ns standardize_checked HP) as (HT & (v & Hv & l & -> & Hl) & _).
  destruct (get_list standardize_parser ns (Some 111%N) "output" "output" HT) as (o & Eo); [simpl; tauto|reflexivity|].
  destruct (get_list standardize_parser ns (Some 101%N) "encoding" "encoding" HT) as (e & Ee); [simpl; tauto|reflexivity|].
  destruct (get_number standardize_parser ns (Some 110%N) "num-chars" "num_chars" HT) as (n & En); [simpl; tauto|reflexivity|].
  destruct (get_flag standardize_parser ns (Some 105%N) "in-place" "in_place" HT) as (i & Ei & _); [simpl; tauto|reflexivity|].
  destruct (get_text standardize_parser ns (Some 69%N) "target-encoding" "target_encoding" HT) as (t & Et); [simpl; tauto|reflexivity|].
  destruct (get_flag standardize_parser ns (Some 116%N) "transpose" "transpose" HT) as (b & Eb & _); [simpl; tauto|reflexivity|].
  exists (mk_sargs (map locate l) e t i n (map locate o) b). split.
  - unfold sargs_of. rewrite Eo, Ee, En, Ei, Et, Eb. unfold attr. rewrite Hv. reflexivity.
  - cbn [a_paths]. destruct l; [easy|discriminate].
Qed.
Theorem view_total ns : parse_args digit int_of view_parser ws = Parsed ns -> exists A, small_args_of "transpose" ns = Ok A.
Proof.
  intros HP. destruct (sound_of view_parser ns view_checked HP) as (HT & HA & _).
  destruct (get_path view_parser ns eq_refl HA) as (p & Ep).
  destruct (get_text view_parser ns (Some 101%N) "encoding" "encoding" HT) as (e & Ee); [simpl; tauto|reflexivity|].
  destruct (get_number view_parser ns (Some 110%N) "num-chars" "num_chars" HT) as (n & En); [simpl; tauto|reflexivity|].
  destruct (get_flag view_parser ns (Some 116%N) "transpose" "transpose" HT) as (b & Eb & _); [simpl; tauto|reflexivity|].
  exists (p, e, n, b). unfold small_args_of. now rewrite Ep, Ee, En, Eb.
Qed.
Theorem code_total ns : parse_args digit int_of code_parser ws = Parsed ns -> exists A, small_args_of "pandas" ns = Ok A.
Proof.
  intros HP. destruct (sound_of code_parser ns code_checked HP) as (HT & HA & _).
  destruct (get_path code_parser ns eq_refl HA) as (p & Ep).
  destruct (get_text code_parser ns (Some 101%N) "encoding" "encoding" HT) as (e & Ee); [simpl; tauto|reflexivity|].
  destruct (get_number code_parser ns (Some 110%N) "num-chars" "num_chars" HT) as (n & En); [simpl; tauto|reflexivity|].
  destruct (get_flag code_parser ns (Some 112%N) "pandas" "pandas" HT) as (b & Eb & _); [simpl; tauto|reflexivity|].
  exists (p, e, n, b). unfold small_args_of. now rewrite Ep, Ee, En, Eb.
Qed.
End Commands.
Theorem code_explore_line digit int_of items ws p : line digit code_sheet items ws -> files items = [[p]] -> numbers int_of items ->
  exists ns, parse_args digit int_of code_parser ws = Parsed ns /\ parse_args digit int_of explore_parser ws = Parsed ns /\
    small_args_of "pandas" ns = Ok (small_says int_of items "pandas" p).
Proof.
  intros HL HF HN. destruct (code_line digit int_of items ws p HL HF HN) as (ns & H1 & H2). exists ns.
  exact (conj H1 (conj (eq_trans (explore_same digit int_of ws) H1) H2)).
Qed.
Theorem lines_refused digit int_of items ws :
  (line digit detect_sheet items ws ->
     ~ ((exists p, files items = [[p]]) /\ numbers int_of items /\ ~ (given items "plain" = true /\ given items "json" = true)) ->
     parse_args digit int_of detect_parser ws = Usage) /\
  (line digit standardize_sheet items ws -> ~ (List.length (files items) = 1 /\ numbers int_of items) ->
     parse_args digit int_of standardize_parser ws = Usage) /\
  (line digit view_sheet items ws -> ~ ((exists p, files items = [[p]]) /\ numbers int_of items) ->
     parse_args digit int_of view_parser ws = Usage) /\
  (line digit code_sheet items ws -> ~ ((exists p, files items = [[p]]) /\ numbers int_of items) ->
     parse_args digit int_of code_parser ws = Usage /\ parse_args digit int_of explore_parser ws = Usage).
Proof.
  split; [exact (detect_refused digit int_of items ws)|]. split; [exact (standardize_refused digit int_of items ws)|].
  split; [exact (view_refused digit int_of items ws)|]. intros HL HN.
  pose proof (code_refused digit int_of items ws HL HN) as H. exact (conj H (eq_trans (explore_same digit int_of ws) H)).
Qed.
Theorem lines_dashes digit int_of items ws : files items = [] -> numbers int_of items ->
  (forall p, line digit detect_sheet items ws -> ~ (given items "plain" = true /\ given items "json" = true) ->
     exists ns, parse_args digit int_of detect_parser (ws ++ [s2l "--"; p]) = Parsed ns /\
       detect_args_of ns = Ok (detect_says int_of items p)) /\
  (forall locate ps, line digit standardize_sheet items ws -> ps <> [] ->
     exists ns, parse_args digit int_of standardize_parser (ws ++ s2l "--" :: ps) = Parsed ns /\
       sargs_of locate ns = Ok (sargs_says int_of items locate ps)).
Proof.
  intros HF HN. split.
  - intros p HL HX. exact (detect_dashes digit int_of items ws p HL HF HN HX).
  - intros locate ps HL Hps. exact (standardize_dashes digit int_of items ws locate ps HL HF Hps HN).
Qed.
Theorem any_words digit int_of locate ws :
  (forall P, parse_args digit int_of P ws <> Stuck) /\
  (forall ns, parse_args digit int_of detect_parser ws = Parsed ns ->
     exists p A, detect_args_of ns = Ok (p, A) /\ ~ (da_plain A = true /\ da_json A = true)) /\
  (forall ns, parse_args digit int_of standardize_parser ws = Parsed ns ->
     exists A, sargs_of locate ns = Ok A /\ a_paths A <> []) /\
  (forall ns, parse_args digit int_of view_parser ws = Parsed ns -> exists A, small_args_of "transpose" ns = Ok A) /\
  (forall ns, parse_args digit int_of code_parser ws = Parsed ns -> exists A, small_args_of "pandas" ns = Ok A) /\
  (forall ns, parse_args digit int_of explore_parser ws = Parsed ns -> exists A, small_args_of "pandas" ns = Ok A).
Proof.
  split; [intros P; exact (never_stuck digit int_of P ws)|]. split; [exact (detect_total digit int_of ws)|].
  split; [exact (standardize_total digit int_of ws locate)|]. split; [exact (view_total digit int_of ws)|].
  split; [exact (code_total digit int_of ws)|]. intros ns H.
  exact (code_total digit int_of ws ns (eq_trans (eq_sym (explore_same digit int_of ws)) H)).
Qed.
