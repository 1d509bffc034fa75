(** * MainFacts: commands from the command line to the result *)
From Coq Require Import String Lia.
From Verif Require Import Base Parser Dialect CsvLib Reader Writer Files Wrappers Standardize SpecLayout SpecParse SpecFiles Potential SpecPotential NormalForm Consistency Detect
  Json SpecJson SpecText Codegen SpecCodegen Console SpecConsole SpecTables SpecQuoted SpecColumn SpecExcel SpecDocument Documents SpecBatch
  StandardizeFacts TableFacts Batch ArgParse SpecArgs ArgLoop ArgSound ArgOrigin ArgCommands ArgMain SpecMain.
Open Scope nat_scope.

(** ** The loop over the files *)
Section Loop.
Variables (S : senv) (A : sargs).
Lemma job_encodings es n : enough es n ->
  exists encs, (let encs0 := match es with [] => repeat None n | es => map Some es end in
                match encs0 with
                | [e] => Some (repeat e n)
                | _ => if Nat.eqb (List.length encs0) n then Some encs0 else None
                end) = Some encs /\ List.length encs = n /\
    forall i, i < n -> nth_error encs i = Some (encoding_for es i).
Proof.
  assert (HR : forall A (x : A) k i, i < k -> nth_error (repeat x k) i = Some x).
  { intros B x k. induction k as [|k IH]; intros i Hi; [lia|]. destruct i; [reflexivity|simpl; apply IH; lia]. }
  intros HE. destruct es as [|e [|e' es]].
  - exists (repeat None n). split; [|split; [apply repeat_length|now apply HR]].
    destruct n as [|[|n]]; [reflexivity|reflexivity|]. cbn [repeat]. cbn [List.length]. now rewrite repeat_length, Nat.eqb_refl.
  - exists (repeat (Some e) n). split; [reflexivity|]. split; [apply repeat_length|now apply HR].
  - exists (map Some (e :: e' :: es)). destruct HE as [HE|HE]; [simpl in HE; lia|]. split; [|split].
    + cbn [map]. replace (List.length (Some e :: Some e' :: map Some es)) with n by (rewrite <- HE; simpl; now rewrite map_length).
      now rewrite Nat.eqb_refl.
    + now rewrite map_length.
    + intros i Hi. unfold encoding_for. rewrite nth_error_map. rewrite <- HE in Hi.
      destruct (nth_error (e :: e' :: es) i) eqn:E; [reflexivity|]. apply nth_error_None in E. lia.
Qed.

Lemma loop_stdout f ps : forall encs (texts : nat -> str), List.length encs = List.length ps ->
  (forall i p e, nth_error ps i = Some p -> nth_error encs i = Some e -> handle_path S A f p None e = (Code 0, f, texts i)) ->
  handle_loop S A f 0 (zip ps (zip (repeat None (List.length ps)) encs)) = (Code 0, f, List.concat (map texts (seq 0 (List.length ps)))).
Proof.
  induction ps as [|p ps IH]; intros [|e encs] texts HL H; try discriminate HL; [reflexivity|].
  cbn [List.length repeat zip handle_loop]. rewrite (H 0 p e eq_refl eq_refl). cbn [Nat.ltb Nat.eqb Nat.leb andb].
  rewrite (IH encs (fun i => texts (Datatypes.S i))).
  - cbn [seq map List.concat]. now rewrite <- seq_shift, map_map.
  - now injection HL.
  - intros i. exact (H (Datatypes.S i)).
Qed.
Lemma loop_outputs f ps : forall outs encs (new : nat -> bytes) g,
  List.length encs = List.length ps -> List.length outs = List.length ps -> NoDup outs -> (forall o, In o outs -> ~ In o ps) ->
  (forall p, In p ps -> g p = f p) ->
  (forall i p o e h, nth_error ps i = Some p -> nth_error outs i = Some o -> nth_error encs i = Some e -> h p = f p ->
     exists f', handle_path S A h p (Some o) e = (Code 0, f', []) /\ same_fs f' (upd h o (Some (new i)))) ->
  exists f', handle_loop S A g 0 (zip ps (zip (map Some outs) encs)) = (Code 0, f', []) /\
    (forall i o, nth_error outs i = Some o -> f' o = Some (new i)) /\ same_fs_but outs f' g.
Proof.
  induction ps as [|p ps IH]; intros [|o outs] [|e encs] new g HE HO HN HD HG H; try discriminate HE; try discriminate HO.
  - exists g. split; [reflexivity|]. split; [now intros []|now intros x _].
  - destruct (H 0 p o e g eq_refl eq_refl eq_refl (HG p (or_introl eq_refl))) as (g1 & E1 & S1).
    inversion HN as [|? ? N1 N2]; subst.
    destruct (IH outs encs (fun i => new (Datatypes.S i)) g1) as (f' & E2 & V & U).
    + now injection HE.
    + now injection HO.
    + exact N2.
    + intros x Hx Hp. exact (HD x (or_intror Hx) (or_intror Hp)).
    + intros x Hx. rewrite S1. unfold upd. destruct (N.eqb_spec x o) as [->|_]; [|now apply HG; right].
      exfalso. exact (HD o (or_introl eq_refl) (or_intror Hx)).
    + intros i. exact (H (Datatypes.S i)).
    + exists f'. cbn [map zip handle_loop]. rewrite E1. cbn [Nat.ltb Nat.eqb Nat.leb andb]. rewrite E2. split; [reflexivity|]. split.
      * intros [|i] x Hx; [|now apply V]. injection Hx as <-. rewrite (U o N1), S1. unfold upd. now rewrite N.eqb_refl.
      * intros x Hx. rewrite U by now intros Hx'; apply Hx; right. rewrite S1. unfold upd.
        destruct (N.eqb_spec x o) as [->|_]; [|reflexivity]. exfalso. apply Hx. now left.
Qed.
Lemma loop_in_place f ps : forall outs encs (same : nat -> Prop) (old new : nat -> bytes) g r,
  List.length encs = List.length ps -> List.length outs = List.length ps -> NoDup ps -> In r [0; 2] ->
  (forall p, In p ps -> g p = f p) -> (forall i p, nth_error ps i = Some p -> f p = Some (old i)) -> (forall i, same i \/ ~ same i) ->
  new_names S ps g ->
  (forall i p o e h, nth_error ps i = Some p -> nth_error outs i = Some o -> nth_error encs i = Some e -> h p = f p -> h (s_mkstemp S h) = None ->
     exists f', (~ same i -> handle_path S A h p o e = (Code 2, f', []) /\ same_fs f' (upd h p (Some (new i)))) /\
                (same i -> handle_path S A h p o e = (Code 0, f', []) /\ same_fs f' h)) ->
  exists f' r', handle_loop S A g r (zip ps (zip outs encs)) = (Code r', f', []) /\
    (forall i p, nth_error ps i = Some p -> (~ same i -> f' p = Some (new i)) /\ (same i -> f' p = Some (old i))) /\ same_fs_but ps f' g /\
    In r' [0; 2] /\ (r' = 0 <-> r = 0 /\ forall i, i < List.length ps -> same i).
Proof.
  induction ps as [|p ps IH]; intros [|o outs] [|e encs] same old new g r HE HO HN HR HG HB HS HT H; try discriminate HE; try discriminate HO.
  - exists g, r. split; [reflexivity|]. split; [now intros []|]. split; [now intros x _|]. split; [exact HR|].
    split; [intros ->; split; [reflexivity|simpl; lia]|tauto].
  - inversion HN as [|? ? N1 N2]; subst.
    destruct (H 0 p o e g eq_refl eq_refl eq_refl (HG p (or_introl eq_refl)) (HT g (fun x _ => eq_refl))) as (g1 & C1 & C2).
    assert (K : exists n, handle_path S A g p o e = (Code n, g1, []) /\ same_fs_but [p] g1 g /\ In n [0; 2] /\ (n = 0 <-> same 0) /\
                          (~ same 0 -> g1 p = Some (new 0)) /\ (same 0 -> g1 p = Some (old 0))).
    { destruct (HS 0) as [Hs|Hs].
      - destruct (C2 Hs) as (E & Q). exists 0. split; [exact E|]. split; [now intros x _; rewrite Q|]. split; [now left|]. split; [tauto|].
        split; [easy|]. intros _. rewrite Q, HG by now left. now apply HB.
      - destruct (C1 Hs) as (E & Q). exists 2. split; [exact E|]. split; [|split; [simpl; tauto|split; [|split; [|easy]]]].
        + intros x Hx. rewrite Q. unfold upd. destruct (N.eqb_spec x p) as [->|_]; [|reflexivity]. exfalso. apply Hx. now left.
        + split; [discriminate|easy].
        + intros _. rewrite Q. unfold upd. now rewrite N.eqb_refl. }
    clear C1 C2. destruct K as (n & E1 & U1 & Hn & Hn0 & V1 & V1').
    set (r1 := if Nat.ltb 0 n && Nat.eqb r 0 then n else r).
    assert (R1 : In r1 [0; 2]) by (unfold r1; now destruct (Nat.ltb 0 n && Nat.eqb r 0)).
    assert (R0 : r1 = 0 <-> r = 0 /\ n = 0).
    { unfold r1. destruct Hn as [<-|[<-|[]]], HR as [<-|[<-|[]]]; simpl; lia. }
    destruct (IH outs encs (fun i => same (Datatypes.S i)) (fun i => old (Datatypes.S i)) (fun i => new (Datatypes.S i)) g1 r1) as (f' & r' & E2 & V & U & HR' & Hr').
    + now injection HE.
    + now injection HO.
    + exact N2.
    + exact R1.
    + intros x Hx. rewrite U1; [now apply HG; right|]. intros [->|[]]. now apply N1.
    + intros i. exact (HB (Datatypes.S i)).
    + intros i. exact (HS (Datatypes.S i)).
    + intros h Hh. apply HT. intros x Hx. rewrite Hh by now intros Hx'; apply Hx; right. apply U1. intros [->|[]]. apply Hx. now left.
    + intros i. exact (H (Datatypes.S i)).
    + exists f', r'. cbn [zip handle_loop]. rewrite E1. fold r1.
      assert (E : Nat.eqb n 1 = false) by (destruct Hn as [<-|[<-|[]]]; reflexivity). rewrite E, E2. split; [reflexivity|].
      split; [|split; [|split; [exact HR'|]]].
      * intros [|i] x Hx; [|exact (V i x Hx)]. injection Hx as <-. rewrite (U p N1). split; assumption.
      * intros x Hx. rewrite U by now intros Hx'; apply Hx; right. apply U1. intros [->|[]]. apply Hx. now left.
      * rewrite Hr', R0, Hn0. split.
        -- intros [[HA HB'] HC]. split; [exact HA|]. intros [|i] Hi; [exact HB'|apply HC; simpl in Hi; lia].
        -- intros [HA HB']. split; [split; [exact HA|apply HB'; simpl; lia]|]. intros i Hi. apply HB'. simpl. lia.
Qed.
End Loop.

(** ** The command standardize *)
Lemma run_finished {A R} P (args_of : namespace -> res pyexc A) (command : A -> R) digit int_of ws ns a :
  parse_args digit int_of P ws = Parsed ns -> args_of ns = Ok a -> run_command P args_of command digit int_of ws = Finished (command a).
Proof. intros H1 H2. unfold run_command. now rewrite H1, H2. Qed.
Lemma open_same E f g p enc : g p = f p -> open_text E g p enc = open_text E f p enc.
Proof. intros H. unfold open_text. now rewrite H. Qed.
Lemma holds_same cat E f g p e n b cells : g p = f p -> holds cat E f p e n b cells -> holds cat E g p e n b cells.
Proof. intros HG (cod & text & d & q & H1 & H2 & H3). exists cod, text, d, q. split; [exact H1|]. split; [|exact H3]. now rewrite (open_same _ _ _ _ _ HG). Qed.
Lemma holds_content cat E f p e n b cells : holds cat E f p e n b cells -> f p = Some b.
Proof. intros (cod & text & d & q & _ & H & _). unfold open_text in H. destruct (f p) as [b0|]; [|discriminate]. simpl in H.
  destruct (e_codec E _) in H; [|discriminate]. simpl in H. now injection H as _ ->. Qed.
Lemma nth_located {A B} (g : A -> B) l i x : nth_error (map g l) i = Some x -> exists a, nth_error l i = Some a /\ x = g a.
Proof. rewrite nth_error_map. destruct (nth_error l i) as [a|]; [|discriminate]. intros H. injection H as <-. now exists a. Qed.

Section Standardize.
Variables (cat : N -> str) (url : str -> str -> option nat) (known : str -> bool -> res pyexc bool) (O : orders) (o_set : list SimpleDialect -> list SimpleDialect).
Variables (S : senv) (method : method_arg) (skip : bool) (st : dstate).
Hypothesis HM : In method [MStr (s2l "normal"); MEnum NORMAL; MStr (s2l "auto"); MEnum AUTO].
Hypothesis HE : forall sample, e_detect (s_env S) sample = fst (detector_detect cat url known O o_set sample None method skip st).
Hypothesis Hreg : e_registry (s_env S) (s2l "excel") = Some excel_csv.
Variables (digit : N -> bool) (int_of : str -> option Z) (locate : str -> path) (f : fs) (items : list item) (ws ps : list str).
Hypothesis HL : line digit standardize_sheet items ws.
Hypothesis HF : files items = [ps].
Hypothesis HN : numbers int_of items.
Hypothesis HC : enough (values items "encoding") (List.length ps).

Lemma finished : standardize_main locate S f digit int_of ws = Finished (handle S (sargs_says int_of items locate ps) f).
Proof.
  destruct (standardize_line digit int_of items ws locate ps HL HF HN) as (ns & H1 & H2).
  exact (run_finished _ _ (fun a => handle S a f) digit int_of ws ns _ H1 H2).
Qed.
Let A := sargs_says int_of items locate ps.
Lemma handled outs : (a_in_place A = true -> a_outputs A = []) ->
  (a_outputs A = [] -> outs = repeat None (List.length ps)) -> (a_outputs A <> [] -> outs = map Some (a_outputs A) /\ List.length (a_outputs A) = List.length ps) ->
  exists encs, handle S A f = handle_loop S A f 0 (zip (map locate ps) (zip outs encs)) /\ List.length encs = List.length ps /\
    forall i, i < List.length ps -> nth_error encs i = Some (encoding_for (values items "encoding") i).
Proof.
  intros HI H0 H1. destruct (job_encodings (values items "encoding") (List.length ps) HC) as (encs & E1 & E2 & E3).
  exists encs. split; [|now split]. unfold handle.
  replace (List.length (a_paths A)) with (List.length ps) by (symmetry; apply map_length).
  change (a_encodings A) with (values items "encoding").
  assert (X1 : a_in_place A && negb (Nat.eqb (List.length (a_outputs A)) 0) = false).
  { destruct (a_in_place A); [|reflexivity]. now rewrite HI. }
  rewrite X1. cbv zeta.
  assert (X2 : (match a_outputs A with [] => repeat None (List.length ps) | os => map Some os end) = outs /\ List.length outs = List.length ps).
  { destruct (a_outputs A) as [|o os]; [rewrite H0 by reflexivity; split; [reflexivity|apply repeat_length]|].
    destruct H1 as [-> H1]; [discriminate|]. split; [reflexivity|now rewrite map_length]. }
  destruct X2 as [X2 X3]. rewrite X2, X3, Nat.eqb_refl, andb_false_r.
  match goal with |- match ?U with _ => _ end = _ => assert (X4 : U = Some encs) by (clear -E1; destruct (values items "encoding"); exact E1) end. now rewrite X4.
Qed.
Lemma encoding_at encs i p e : (forall i, i < List.length ps -> nth_error encs i = Some (encoding_for (values items "encoding") i)) ->
  nth_error (map locate ps) i = Some p -> nth_error encs i = Some e -> e = encoding_for (values items "encoding") i.
Proof.
  intros H Hp He. rewrite H in He; [now injection He|]. apply nth_error_Some. intros K. rewrite nth_error_map, K in Hp. discriminate.
Qed.

Let held (f : fs) (i : nat) (p : str) (b : bytes) (cells : list (list str)) : Prop :=
  holds cat (s_env S) f (locate p) (encoding_for (values items "encoding") i) (number int_of items) b cells.
Let text (cells : list (list str)) : str := standard (given items "transpose") cells.
Let stored (i : nat) (b b' : bytes) (cells : list (list str)) : Prop :=
  encoded (s_env S) (encoding_for (values items "encoding") i) (latest (values items "target-encoding")) b (text cells) b'.

Theorem main_stdout (old : nat -> bytes) (tables : nat -> list (list str)) : given items "in-place" = false -> values items "output" = [] ->
  (forall i p, nth_error ps i = Some p -> held f i p (old i) (tables i)) ->
  standardize_main locate S f digit int_of ws = Finished (Code 0, f, List.concat (map (fun i => text (tables i)) (seq 0 (List.length ps)))).
Proof.
  intros HI HO H. rewrite finished. fold A. f_equal.
  assert (HO' : a_outputs A = []) by (change (a_outputs A) with (map locate (values items "output")); now rewrite HO).
  destruct (handled (repeat None (List.length ps))) as (encs & EH & EL & EI); [now intros _|now intros _|now intros K|].
  rewrite EH. rewrite <- (map_length locate ps). apply (loop_stdout S A f (map locate ps) encs (fun i => text (tables i))); [now rewrite map_length|].
  intros i p e Hp He. pose proof (encoding_at encs i p e EI Hp He) as ->. apply nth_located in Hp as (a & Ha & ->).
  destruct (H i a Ha) as (cod & tx & d & q & D1 & D2 & D3 & D4 & D5).
  exact (document_stdout cat url known O o_set S A method skip st HM HE Hreg f (locate a) _ cod (old i) tx d q (tables i) D1 D2 D3 (whole_sample cat _ _ _ _ _ D1 D4) D5 HI).
Qed.
Theorem main_outputs (old new : nat -> bytes) (tables : nat -> list (list str)) :
  let outs := map locate (values items "output") in
  given items "in-place" = false -> List.length outs = List.length ps -> NoDup outs -> (forall o, In o outs -> ~ In o (map locate ps)) ->
  (forall i p, nth_error ps i = Some p -> held f i p (old i) (tables i) /\ stored i (old i) (new i) (tables i)) ->
  exists f', standardize_main locate S f digit int_of ws = Finished (Code 0, f', []) /\
    (forall i o, nth_error (values items "output") i = Some o -> f' (locate o) = Some (new i)) /\ same_fs_but outs f' f.
Proof.
  intros outs HI HO ND HD H. rewrite finished. fold A. change outs with (a_outputs A) in *.
  assert (NE : a_outputs A = [] -> ps = []) by (intros K; rewrite K in HO; destruct ps; [reflexivity|discriminate]).
  destruct (handled (map Some (a_outputs A))) as (encs & EH & EL & EI).
  { intros K. change (a_in_place A) with (given items "in-place") in K. congruence. }
  { intros K. rewrite K. now rewrite (NE K). }
  { intros _. split; [reflexivity|exact HO]. }
  destruct (loop_outputs S A f (map locate ps) (a_outputs A) encs new f) as (f' & E & V & U).
  - now rewrite map_length.
  - now rewrite map_length.
  - exact ND.
  - exact HD.
  - reflexivity.
  - intros i p o e h Hp Ho He Hh. pose proof (encoding_at encs i p e EI Hp He) as ->.
    assert (Hne : o <> p) by (intros ->; apply (HD p); [now apply nth_error_In in Ho|now apply nth_error_In in Hp]).
    apply nth_located in Hp as (a & Ha & ->). destruct (H i a Ha) as (D & (cout & T1 & T2 & T3)).
    apply (holds_same cat _ f h) in D; [|exact Hh]. destruct D as (cod & tx & d & q & D1 & D2 & D3 & D4 & D5).
    exact (document_file cat url known O o_set S A method skip st HM HE Hreg h (locate a) _ cod (old i) tx d q (tables i) D1 D2 D3 (whole_sample cat _ _ _ _ _ D1 D4) D5 o cout (new i) HI Hne T1 T2 T3).
  - exists f'. rewrite EH, E. split; [reflexivity|]. split; [|exact U]. intros i o Ho. apply V.
    change (a_outputs A) with (map locate (values items "output")). now rewrite nth_error_map, Ho.
Qed.
Theorem main_in_place (old new : nat -> bytes) (tables : nat -> list (list str)) :
  given items "in-place" = true -> values items "output" = [] -> NoDup (map locate ps) -> new_names S (map locate ps) f ->
  (forall i p, nth_error ps i = Some p -> held f i p (old i) (tables i) /\ stored i (old i) (new i) (tables i)) ->
  let same i := s_sha1 S (old i) = s_sha1 S (new i) in
  exists f' r, standardize_main locate S f digit int_of ws = Finished (Code r, f', []) /\
    (forall i p, nth_error ps i = Some p -> (~ same i -> f' (locate p) = Some (new i)) /\ (same i -> f' (locate p) = Some (old i))) /\
    same_fs_but (map locate ps) f' f /\ (r = 0 \/ r = 2) /\ (r = 0 <-> forall i, i < List.length ps -> same i).
Proof.
  intros HI HO ND HT H same. rewrite finished. fold A.
  assert (HO' : a_outputs A = []) by (change (a_outputs A) with (map locate (values items "output")); now rewrite HO).
  destruct (handled (repeat None (List.length ps))) as (encs & EH & EL & EI); [now intros _|now intros _|now intros K|].
  destruct (loop_in_place S A f (map locate ps) (repeat None (List.length ps)) encs same old new f 0) as (f' & r & E & V & U & R & R0).
  - now rewrite map_length.
  - now rewrite map_length, repeat_length.
  - exact ND.
  - now left.
  - reflexivity.
  - intros i p Hp. apply nth_located in Hp as (a & Ha & ->). exact (holds_content _ _ _ _ _ _ _ _ (proj1 (H i a Ha))).
  - intros i. unfold same. destruct (str_eqb (s_sha1 S (old i)) (s_sha1 S (new i))) eqn:K; [left; now apply str_eqb_eq|right; now apply str_eqb_neq].
  - exact HT.
  - intros i p o e h Hp Ho He Hh Hm. pose proof (encoding_at encs i p e EI Hp He) as ->.
    apply nth_located in Hp as (a & Ha & ->). destruct (H i a Ha) as (D & (cout & T1 & T2 & T3)).
    apply (holds_same cat _ f h) in D; [|exact Hh]. destruct D as (cod & tx & d & q & D1 & D2 & D3 & D4 & D5).
    exact (document_in_place cat url known O o_set S A method skip st HM HE Hreg h (locate a) _ cod (old i) tx d q (tables i) D1 D2 D3 (whole_sample cat _ _ _ _ _ D1 D4) D5 o cout (new i) HI Hm T1 T2 T3).
  - exists f', r. rewrite EH, E. split; [reflexivity|]. rewrite map_length in R0. split; [|split; [exact U|split; [destruct R as [<-|[<-|[]]]; auto|]]].
    + intros i p Hp. apply V. now rewrite nth_error_map, Hp.
    + rewrite R0. tauto.
Qed.
End Standardize.

(** ** Any words *)
Lemma fewer_names S ps qs f : incl ps qs -> new_names S qs f -> new_names S ps f.
Proof. intros HI H g Hg. apply H. intros x Hx. apply Hg. intros K. apply Hx. now apply HI. Qed.
Lemma main_args digit int_of locate S f ws ex f' t : standardize_main locate S f digit int_of ws = Finished (ex, f', t) ->
  exists A, handle S A f = (ex, f', t) /\ incl (a_paths A) (map locate ws) /\ forall o, In o (a_outputs A) -> named locate ws o.
Proof.
  unfold standardize_main, run_command. destruct (parse_args digit int_of standardize_parser ws) as [ns| | |] eqn:EP; try discriminate.
  destruct (sargs_of locate ns) as [A|] eqn:EA; [|discriminate]. intros H. injection H as H. exists A. split; [exact H|]. clear H.
  destruct (parse_origin digit int_of standardize_parser ws (proj1 (checked_ok _ standardize_checked)) ns EP) as [O1 O2].
  unfold sargs_of, attr in EA.
  destruct (dict_get (s2l "path") ns) as [v1|] eqn:E1; [|discriminate]. destruct v1; try discriminate. cbn [as_list bind] in EA.
  destruct (dict_get (s2l "output") ns) as [v2|] eqn:E2; [|discriminate]. destruct v2; try discriminate. cbn [as_list bind] in EA.
  repeat match type of EA with bind ?T _ = _ => destruct T; [cbn [bind] in EA|discriminate EA] end.
  injection EA as <-. cbn [a_paths a_outputs]. split.
  - apply incl_map. exact (O2 _ eq_refl).
  - intros o Ho. apply in_map_iff in Ho as (s & <- & Hs). pose proof (O1 _ _ E2) as HE. rewrite Forall_forall in HE. destruct (HE s Hs) as (pre & Ha).
    now exists pre, s.
Qed.
Theorem main_touched digit int_of locate S f ws ex f' t : new_names S (map locate ws) f ->
  standardize_main locate S f digit int_of ws = Finished (ex, f', t) ->
  exists tmp, forall x, f' x <> f x -> named locate ws x \/ ((exists e, ex = Uncaught e) /\ x = tmp /\ f x = None).
Proof.
  intros HN H. destruct (main_args _ _ _ _ _ _ _ _ _ H) as (A & HA & HP & HO).
  pose proof (touched_files S A f ex f' t (fun _ => fewer_names _ _ _ _ HP HN) HA) as HT.
  assert (HI : forall x, In x (a_paths A) -> named locate ws x).
  { intros x Hx. apply HP in Hx. apply in_map_iff in Hx as (w & <- & Hw). now exists [], w. }
  assert (HB : forall l x, same_fs_but l f' f -> f' x <> f x -> In x l).
  { intros l x HS Hx. destruct (in_dec N.eq_dec x l) as [K|K]; [exact K|]. destruct (Hx (HS x K)). }
  destruct (a_in_place A).
  - destruct ex as [n|e].
    + exists 0%N. intros x Hx. left. apply HI. now apply (HB _ x HT).
    + destruct HT as (tmp & HT & HF). exists tmp. intros x Hx. destruct (HB _ x HT Hx) as [<-|K]; [|left; now apply HI].
      destruct (in_dec N.eq_dec tmp (a_paths A)) as [K|K]; [left; now apply HI|]. right. split; [now exists e|]. split; [reflexivity|now apply HF].
  - exists 0%N. intros x Hx. left. apply HO. now apply (HB _ x HT).
Qed.
Theorem main_never_crashes digit int_of locate ws :
  (forall S f x, standardize_main locate S f digit int_of ws <> Crashed x) /\
  (forall E det printable space rt rt6 f x, detect_main locate E det printable space rt rt6 f digit int_of ws <> Crashed x).
Proof.
  split; intros; unfold standardize_main, detect_main, run_command.
  - pose proof (never_stuck digit int_of standardize_parser ws). destruct (parse_args digit int_of standardize_parser ws) as [ns| | |] eqn:EP; try discriminate; [|easy].
    destruct (standardize_total digit int_of ws locate ns EP) as (A & -> & _). discriminate.
  - pose proof (never_stuck digit int_of detect_parser ws). destruct (parse_args digit int_of detect_parser ws) as [ns| | |] eqn:EP; try discriminate; [|easy].
    destruct (detect_total digit int_of ws ns EP) as (p & A & -> & _). discriminate.
Qed.

(** ** The command detect *)
Theorem main_detect cat url known O o_set s E printable space rt rt6 digit int_of locate f items ws p b cells :
  let det := fun m skip sample => fst (detector_detect cat url known O o_set sample None m skip s) in
  line digit detect_sheet items ws -> files items = [[p]] -> numbers int_of items -> ~ (given items "plain" = true /\ given items "json" = true) ->
  given items "consistency" = false ->
  holds cat E f (locate p) (latest (values items "encoding")) (number int_of items) b cells ->
  exists lines text cod d q, detect_main locate E det printable space rt rt6 f digit int_of ws = Finished (Printed lines 0) /\
    open_text E f (locate p) (or_encoding (latest (values items "encoding"))) = Ok (cod, b) /\ cd_decode cod b = (text, true) /\ document cat text d q cells /\
    (given items "plain" = true -> python_space space -> plain_fields lines = Some (visible space d, visible space q, [])) /\
    (given items "json" = true -> forall md depth, (1 <= depth)%nat -> float_text rt ->
       exists line v j, lines = [line] /\ loads md depth line = Ok v /\ from_dict v = Ok j /\ same_dialect j (dialect3 d q [])) /\
    (given items "plain" = false -> given items "json" = false -> exists line more, lines = line :: more /\ detected_fields line = Some (d, q, [])).
Proof.
  intros det HL HF HN HX HC (cod & text & d & q & D1 & D2 & D3 & D4 & D5).
  destruct (detect_line digit int_of items ws p HL HF HN HX) as (ns & H1 & H2).
  set (A := snd (detect_says int_of items p)).
  destruct (document_detect cat url known O o_set s E printable space rt rt6 f (locate p) A cod b text d q cells D1 D2 D3 (whole_sample cat _ _ _ _ _ D1 D4) HC) as (lines & E1 & E2 & E3 & E4).
  exists lines, text, cod, d, q. split; [|split; [exact D2|split; [exact D3|split; [exact D1|split; [exact E2|split; [|exact E4]]]]]].
  - unfold detect_main. rewrite (run_finished _ _ _ digit int_of ws ns _ H1 H2). f_equal. exact E1.
  - intros HJ. apply E3; [|exact HJ]. apply not_true_iff_false. intros HP. apply HX. now split.
Qed.
