(** * MainMore: view, code and explore on files in simple form *)
From Coq Require Import String Lia.
From Verif Require Import Base Parser Dialect CsvLib Reader Files Wrappers SpecLayout SpecFiles Potential SpecPotential NormalForm Consistency Detect
  Codegen SpecCodegen CodegenFacts CodegenRun Console ConsoleFacts SpecTables SpecQuoted SpecColumn SpecDocument Documents
  ArgParse SpecArgs ArgLoop ArgCommands ArgMain ArgMainMore SpecMain MainFacts.
Open Scope nat_scope.

Lemma document_rectangular cat text d q cells : document cat text d q cells -> cells <> [] /\ exists k, rectangular k cells.
Proof.
  intros [c k rows final e _ Hn _ HF _ _|c q' k rows final e _ _ (Hn & _ & HF) _ _ _ _|rows final e H2 _ _|q' rows final e _ H2 _ _ _].
  - split; [exact Hn|]. exists k. intros r Hr. rewrite Forall_forall in HF. now apply HF.
  - split; [now destruct (table_of rows final)|]. exists k. intros r Hr. apply in_map_iff in Hr as (r' & <- & Hr). rewrite map_length. rewrite Forall_forall in HF. now apply HF.
  - split; [destruct (column_of rows final); [simpl in H2; lia|discriminate]|]. exists 1. intros r Hr. apply in_map_iff in Hr as (s & <- & _). reflexivity.
  - split; [destruct (column_of rows final); [simpl in H2; lia|discriminate]|]. exists 1. intros r Hr. apply in_map_iff in Hr as (s & <- & _). reflexivity.
Qed.
Lemma longest_row k (rs : list (list cell)) : rectangular k rs -> forall m, fold_left (fun m r => Nat.max m (List.length r)) rs m = match rs with [] => m | _ => Nat.max m k end.
Proof.
  induction rs as [|r rs IH]; intros HR m; [reflexivity|]. cbn [fold_left]. rewrite (HR r (or_introl eq_refl)).
  rewrite IH by (intros x Hx; apply HR; now right). destruct rs; lia.
Qed.
Lemma fixed_rows k (rows : list (list cell)) : rows <> [] -> rectangular k rows ->
  exists n, max_row_length rows = Some n /\ map (fix_row n) rows = map (map Some) rows.
Proof.
  intros Hn HR. exists k. destruct rows as [|r rs]; [easy|]. split.
  - cbn [max_row_length]. f_equal. rewrite (longest_row k) by (intros x Hx; apply HR; now right). rewrite (HR r (or_introl eq_refl)). destruct rs; lia.
  - apply map_ext_in. intros x Hx. unfold fix_row. now rewrite (HR x Hx), Nat.eqb_refl.
Qed.

Section Simple.
Variables (cat : N -> str) (url : str -> str -> option nat) (known : str -> bool -> res pyexc bool) (O : orders) (o_set : list SimpleDialect -> list SimpleDialect).
Variables (E : env) (method : method_arg) (skip : bool) (st : dstate).
Hypothesis HM : In method [MStr (s2l "normal"); MEnum NORMAL; MStr (s2l "auto"); MEnum AUTO].
Hypothesis HE : forall sample, e_detect E sample = fst (detector_detect cat url known O o_set sample None method skip st).
Variables (digit : N -> bool) (int_of : str -> option Z) (locate : str -> path) (f : fs) (items : list item) (ws : list str) (p : str) (b : bytes) (cells : list (list str)).
Hypothesis HF : files items = [[p]].
Hypothesis HN : numbers int_of items.
Let encoding := latest (values items "encoding").
Hypothesis HH : holds cat E f (locate p) encoding (number int_of items) b cells.

Theorem main_view imp vlt h m : line digit view_sheet items ws -> encoding <> Some [] ->
  import_optional_dependency imp vlt (s2l "tabview") true = Ok m ->
  view_main locate E imp vlt false f h digit int_of ws =
    Finished (Viewed (map (map (fun x => Some (CStr x))) (if given items "transpose" then zip_star cells else cells))).
Proof.
  intros HL He Hm. destruct (view_line digit int_of items ws p HL HF HN) as (ns & H1 & H2).
  unfold view_main. rewrite (run_finished _ _ _ digit int_of ws ns _ H1 H2). f_equal. unfold small_says. cbv beta iota. fold encoding.
  destruct HH as (cod & text & d & q & D1 & D2 & D3 & D4 & D5).
  assert (HO : or_encoding encoding = encoding) by (destruct encoding as [[|c x]|]; easy). rewrite HO in D2.
  pose proof (document_read cat url known O o_set E method skip st HM HE f (locate p) encoding cod b text d q cells (number int_of items) D1 D3
    (whole_sample cat _ _ _ _ _ D1 D4) h D2 D5) as HR.
  unfold view_command. rewrite HR. unfold tabview. rewrite Hm. destruct (document_rectangular _ _ _ _ _ D1) as (Hne & k & HK).
  assert (HV : map (map Some) (map (map CStr) cells) = map (map (fun x => Some (CStr x))) cells)
    by (rewrite map_map; apply map_ext; intros r; apply map_map).
  destruct (given items "transpose"); [|now rewrite HV].
  destruct (fixed_rows k (map (map CStr) cells)) as (n & -> & ->).
  - now destruct cells.
  - intros r Hr. apply in_map_iff in Hr as (r' & <- & Hr). rewrite map_length. now apply HK.
  - now rewrite HV, zip_star_map.
Qed.

Let used := match or_encoding encoding with Some e => Some e | None => e_get_encoding E b end.
Lemma simple_code printable pandas : plain p -> plain_opt used -> e_registry E (s2l "excel") = Some excel_csv ->
  exists lines text cod d q,
    code_command E printable (fun _ => number int_of items) locate f p encoding (some_text (number int_of items)) pandas = Printed lines 0 /\
    e_codec E used = Ok cod /\ cd_decode cod b = (text, true) /\ document cat text d q cells /\
    (pandas = true -> program_of lines = Some (ReadFrame p d q [])) /\
    (pandas = false -> program_of lines = Some (ReadRows p used d q []) /\
       forall h, run_rows E locate f h p used d q [] = (map (map CStr) cells, None)).
Proof.
  intros Hp Hu Hreg. destruct HH as (cod & text & d & q & D1 & D2 & D3 & D4 & D5).
  destruct (opened_file _ _ _ _ _ _ D2) as (Hf & Hc).
  assert (HC : e_codec E used = Ok cod) by (unfold used; destruct (or_encoding encoding); exact Hc).
  assert (HU : open_text E f (locate p) (or_encoding used) = Ok (cod, b)).
  { unfold open_text. rewrite Hf. cbv zeta. unfold used in *. destruct (or_encoding encoding) as [e|] eqn:EE.
    - assert (K : or_encoding (Some e) = Some e) by (destruct encoding as [[|y e']|]; cbn in EE; try discriminate; injection EE as <-; reflexivity).
      rewrite K. rewrite HC. reflexivity.
    - unfold or_encoding. destruct (e_get_encoding E b) as [[|y e']|] eqn:EG; rewrite ?EG, HC; reflexivity. }
  pose proof (document_answer cat url known O o_set E method skip st HM HE f (locate p) used cod b text d q (number int_of items) D3
    (whole_sample cat _ _ _ _ _ D1 D4) HU) as HA.
  destruct (document_shape _ _ _ _ _ D1) as (Sd & Sq). pose proof (shape_valid d q Sd Sq) as HV.
  assert (K : forall pa, exists lines, generate_code printable p (dialect3 d q []) used pa = Ok lines)
    by (intros pa; eexists; exact (generate_text printable p d q [] false used pa)).
  destruct (K false) as (rows & KR). destruct (K true) as (frame & KF).
  assert (Id : inline d /\ good_delimiter d).
  { destruct Sd as [->|(c & Hc' & ->)]; [split; [apply inline_nil|now left]|]. split.
    - apply inline_one. repeat (destruct Hc' as [<-|Hc']; [intros HI; repeat (destruct HI as [HI|HI]; [discriminate|]); exact HI|]). destruct Hc'.
    - right. exists c. split; [reflexivity|]. repeat (destruct Hc' as [<-|Hc']; [intros HI; repeat (destruct HI as [HI|HI]; [discriminate|]); exact HI|]). destruct Hc'. }
  assert (Iq : inline q /\ good_quotechar q).
  { destruct Sq as [->|(c & Hc' & ->)]; [split; [apply inline_nil|now left]|]. split.
    - apply inline_one. destruct Hc' as [->| ->]; intros HI; repeat (destruct HI as [HI|HI]; [discriminate|]); exact HI.
    - right. exists c. split; [reflexivity|]. destruct Hc' as [->| ->]; discriminate. }
  destruct (code_exact printable p used d q [] false rows frame Hp Hu (proj1 Id) (proj1 Iq) scalar_nil HV KR KF) as (P1 & P2).
  assert (HG : good_delimiter d /\ good_quotechar q /\ good_escapechar []) by (split; [apply Id|split; [apply Iq|now left]]).
  exists (if pandas then frame else rows), text, cod, d, q. split; [|split; [exact HC|split; [exact D3|split; [exact D1|]]]].
  - unfold code_command. rewrite Hf.
    assert (HX : match or_encoding encoding with Some e => Ok (Some e) | None => Ok (e_get_encoding E b) end = @Ok pyexc _ used) by (unfold used; now destruct (or_encoding encoding)).
    rewrite HX. assert (HI : parse_int (fun _ => number int_of items) (some_text (number int_of items)) = Ok (number int_of items)) by (destruct (number int_of items); reflexivity).
    rewrite HI, HA. destruct pandas; [now rewrite KF|now rewrite KR].
  - split; intros ->; [now apply P2|]. split; [now apply P1|]. intros h.
    rewrite (run_is_file_rows E locate f h p used d q [] b cod Hreg Hf HC HV). unfold file_rows, text_items. rewrite D3. exact (document_parsed _ _ _ _ _ _ D1 D5).
Qed.
Theorem main_code printable : line digit code_sheet items ws -> plain p -> plain_opt used -> e_registry E (s2l "excel") = Some excel_csv ->
  exists lines text cod d q, code_main locate E printable f digit int_of ws = Finished (Printed lines 0) /\
    e_codec E used = Ok cod /\ cd_decode cod b = (text, true) /\ document cat text d q cells /\
    (given items "pandas" = true -> program_of lines = Some (ReadFrame p d q [])) /\
    (given items "pandas" = false -> program_of lines = Some (ReadRows p used d q []) /\
       forall h, run_rows E locate f h p used d q [] = (map (map CStr) cells, None)) /\
    forall C (push : C -> str -> C * bool) (console : C), (forall c l, snd (push c l) = false) ->
      explore_main push console locate E printable f digit int_of ws =
        Finished (Interacting (fold_left (fun c l => fst (push c l)) lines console) (if given items "pandas" then s2l "df" else s2l "rows")).
Proof.
  intros HL Hp Hu Hreg. destruct (code_explore_line digit int_of items ws p HL HF HN) as (ns & H1 & H1' & H2).
  destruct (simple_code printable (given items "pandas") Hp Hu Hreg) as (lines & text & cod & d & q & EC & K1 & K2 & K3 & K4 & K5).
  exists lines, text, cod, d, q. split; [|split; [exact K1|split; [exact K2|split; [exact K3|split; [exact K4|split; [exact K5|]]]]]].
  - unfold code_main. rewrite (run_finished _ _ _ digit int_of ws ns _ H1 H2). f_equal. exact EC.
  - intros C push console Hpush. unfold explore_main. rewrite (run_finished _ _ _ digit int_of ws ns _ H1' H2). f_equal.
    destruct (explore_runs push console E printable (fun _ => number int_of items) locate f p encoding (some_text (number int_of items)) (given items "pandas"))
      as (_ & _ & K). destruct (K lines EC) as (before & last & El & Ee). unfold small_says. cbv beta iota. fold encoding. rewrite Ee, Hpush, El, fold_left_app. reflexivity.
Qed.
End Simple.

Theorem more_usage digit int_of locate items ws : ~ ((exists p, files items = [[p]]) /\ numbers int_of items) ->
  (line digit view_sheet items ws -> forall E imp vlt win32 f h, view_main locate E imp vlt win32 f h digit int_of ws = UsageShown) /\
  (line digit code_sheet items ws -> forall E printable f, code_main locate E printable f digit int_of ws = UsageShown /\
     forall C (push : C -> str -> C * bool) (console : C), explore_main push console locate E printable f digit int_of ws = UsageShown).
Proof.
  intros HX. destruct (lines_refused digit int_of items ws) as (_ & _ & H1 & H2). split.
  - intros HL E imp vlt win32 f h. unfold view_main, run_command. now rewrite (H1 HL HX).
  - intros HL E printable f. destruct (H2 HL HX) as [H3 H4]. split; [unfold code_main, run_command; now rewrite H3|].
    intros C push console. unfold explore_main, run_command. now rewrite H4.
Qed.
