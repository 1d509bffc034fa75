(** * DocumentsTwice: standardizing a file a second time *)
From Coq Require Import String Permutation.
From Verif Require Import Base Parser Dialect CsvLib Reader Writer Files Wrappers Standardize SpecLayout SpecParse SpecWriter SpecFiles FilesFacts StandardizeFacts TableFacts Potential SpecPotential SpecNormal NormalForm
  Consistency DetectFacts Detect SpecTables TablesFiles SpecQuoted Simple SimpleFiles SpecColumn Columns ColumnFiles SpecExcel ExcelText SpecDocument Documents.
Open Scope N_scope.
Local Notation len := List.length.

(** ** Neighbours *)
Lemma before_lines u v (xs : list str) : u <> LF -> v <> CR -> v <> LF -> before u v (List.concat (map (fun x => x ++ [CR; LF]) xs)) -> exists x, In x xs /\ before u v x.
Proof.
  intros Hu Hv Hv'. induction xs as [|x xs IH]; intros (a & b & E); [destruct a; discriminate|]. cbn [map List.concat] in E. rewrite <- app_assoc in E.
  set (rest := List.concat (map (fun x => x ++ [CR; LF]) xs)) in *. change ([CR; LF] ++ rest) with (CR :: LF :: rest) in E.
  apply app_eq_app in E as (l & [(E1 & E2)|(E1 & E2)]).
  - destruct l as [|y [|z l]]; cbn [app] in E2; [injection E2 as _ E2 _; congruence|injection E2 as _ E2 _; congruence|]. injection E2 as Ey Ez _. rewrite <- Ey, <- Ez in E1.
    exists x. split; [now left|]. now exists a, l.
  - destruct l as [|y [|z l]]; cbn [app] in E2.
    + injection E2; intros; subst. congruence.
    + injection E2; intros; subst. congruence.
    + injection E2 as _ _ E2. destruct IH as (x' & Hx & HB); [now exists l, b|]. exists x'. split; [now right|exact HB].
Qed.
Lemma before_part u v pre x post : before u v x -> before u v (pre ++ x ++ post).
Proof. intros (a & b & ->). exists (pre ++ a), (b ++ post). now rewrite <- !app_assoc. Qed.
Lemma before_map (g : N -> N) u v s : before u v (map g s) -> exists u' v', before u' v' s /\ u = g u' /\ v = g v'.
Proof.
  intros (a & b & E). apply map_eq_app in E as (a' & b' & -> & <- & E). destruct b' as [|u' [|v' b']]; try discriminate. injection E as <- <- <-.
  exists u', v'. split; [now exists a', b'|]. split; reflexivity.
Qed.
Lemma before_in u v s : before u v s -> In u s /\ In v s.
Proof. intros (a & b & ->). split; apply in_or_app; right; [now left|right; now left]. Qed.
Lemma row_part c rows final r : In r (table_of rows final) -> exists pre post, table_text c rows final = pre ++ join [c] r ++ post.
Proof.
  unfold table_of, table_text. intros H. apply in_app_or in H as [H|H].
  - apply in_map_iff in H as (x & <- & Hx). apply in_split in Hx as (l1 & l2 & ->). rewrite map_app, concat_app. cbn [map List.concat].
    exists (List.concat (map (fun r => join [c] (fst r) ++ render_eol (snd r)) l1)). eexists. rewrite <- !app_assoc. reflexivity.
  - destruct final as [r'|]; [|destruct H]. destruct H as [<-|[]]. exists (List.concat (map (fun r => join [c] (fst r) ++ render_eol (snd r)) rows)), []. now rewrite app_nil_r.
Qed.
Definition swap (c x : N) : N := if x =? c then COMMA else x.
Lemma join_swap c (r : list str) : Forall (fun s => ~ In c s) r -> join [COMMA] r = map (swap c) (join [c] r).
Proof.
  assert (HS : forall s, ~ In c s -> map (swap c) s = s).
  { intros s Hs. rewrite <- (map_id s) at 2. apply map_ext_in. intros x Hx. unfold swap. destruct (N.eqb_spec x c) as [->|]; [contradiction|reflexivity]. }
  induction 1 as [|s r Hs Hr IH]; [reflexivity|]. destruct r as [|s' r]; [symmetry; now apply HS|].
  change (join [COMMA] (s :: s' :: r)) with (s ++ [COMMA] ++ join [COMMA] (s' :: r)). change (join [c] (s :: s' :: r)) with (s ++ [c] ++ join [c] (s' :: r)).
  rewrite IH, !map_app, (HS s Hs). cbn [map]. unfold swap at 2. rewrite N.eqb_refl. reflexivity.
Qed.
Lemma join_chars c (r : list str) x : In x (join [c] r) -> x = c \/ exists s, In s r /\ In x s.
Proof.
  induction r as [|s r IH]; [intros H; cbn in H; contradiction|]. destruct r as [|s' r]; [intros H; right; exists s; split; [now left|exact H]|].
  change (join [c] (s :: s' :: r)) with (s ++ [c] ++ join [c] (s' :: r)). intros H. apply in_app_or in H as [H|H]; [right; exists s; split; [now left|exact H]|].
  apply in_app_or in H as [[<-|[]]|H]; [now left|]. destruct (IH H) as [K|(t & Ht & K)]; [now left|right]. exists t. split; [now right|exact K].
Qed.

(** ** The standardized text of a file without quotes *)
Lemma plain_excel s : (forall x, In x s -> ~ In x [COMMA; DQ; CR; LF]) -> excel_cell s = s.
Proof.
  intros H. unfold excel_cell, needs_quotes. destruct (existsb _ s) eqn:E; [|reflexivity]. apply existsb_exists in E as (x & Hx & E). apply mem_char_In in E. now apply H in E.
Qed.
Lemma commas_join (r : list str) : commas r = join [COMMA] r.
Proof. induction r as [|s [|s' r] IH]; [reflexivity|reflexivity|]. change (commas (s :: s' :: r)) with (s ++ COMMA :: commas (s' :: r)). now rewrite IH. Qed.
Definition crlf {A} (l : list A) : list (A * eol) := map (fun x => (x, ECRLF)) l.
Lemma crlf_same {A} (l : list A) r : In r (crlf l) -> snd r = ECRLF.
Proof. intros H. apply in_map_iff in H as (x & <- & _). reflexivity. Qed.
Lemma crlf_table {A} (l : list (list A)) : table_of (crlf l) None = l.
Proof. unfold table_of, crlf. rewrite map_map, app_nil_r. apply map_id. Qed.
Lemma crlf_column (l : list str) : column_of (crlf l) None = l.
Proof. unfold column_of, crlf. rewrite map_map, app_nil_r. apply map_id. Qed.
Lemma crlf_text c l : table_text c (crlf l) None = List.concat (map (fun x => x ++ [CR; LF]) (map (join [c]) l)).
Proof. unfold table_text, crlf. rewrite app_nil_r, !map_map. reflexivity. Qed.
Lemma excel_bare cells : (forall r, In r cells -> (2 <= len r)%nat /\ Forall (over elementary) r) -> excel_table cells = table_text COMMA (crlf cells) None.
Proof.
  intros H. rewrite crlf_text, map_map. unfold excel_table. f_equal. apply map_ext_in. intros r Hr. destruct (H r Hr) as (H2 & HF). unfold excel_row.
  assert (EC : map excel_cell r = r).
  { rewrite <- (map_id r) at 2. apply map_ext_in. intros s Hs. apply plain_excel. intros x Hx. rewrite Forall_forall in HF. specialize (HF s Hs). unfold over in HF. rewrite Forall_forall in HF.
    now apply (elementary_not x _ (HF x Hx)). }
  rewrite EC, commas_join. destruct r as [|[|y s] [|s' r]]; try (cbn in H2; lia); reflexivity.
Qed.
Lemma excel_column (l : list str) : (forall s, In s l -> s <> [] /\ over word s) -> excel_table (map (fun s : str => [s]) l) = column_text (crlf l) None.
Proof.
  intros H. unfold column_text, excel_table, crlf. rewrite app_nil_r, !map_map. f_equal. apply map_ext_in. intros s Hs. destruct (H s Hs) as (Hn & HW). cbn [fst snd]. unfold excel_row. cbn [map commas].
  rewrite plain_excel; [destruct s; [congruence|reflexivity]|]. intros x Hx. unfold over in HW. rewrite Forall_forall in HW. apply (elementary_not x); [|reflexivity].
  unfold elementary. apply in_or_app. left. now apply HW.
Qed.

Section Twice.
Variable cat : N -> str.
Hypothesis control : cat LF <> s2l "Po".
Lemma comma_unsuspected c rows final : In c common_delimiters -> Forall (Forall (over elementary)) (table_of rows final) ->
  ~ escape_suspect cat common_delimiters (table_text c rows final) -> ~ escape_suspect cat common_delimiters (table_text COMMA (crlf (table_of rows final)) None).
Proof.
  intros Hc HF HN (u & v & HB & Hu & Hd & Hv). rewrite crlf_text in HB. set (T := table_of rows final) in *. rewrite Forall_forall in HF.
  assert (Hcell : forall r s x, In r T -> In s r -> In x s -> In x elementary).
  { intros r s x Hr Hs Hx. specialize (HF r Hr). rewrite Forall_forall in HF. specialize (HF s Hs). unfold over in HF. rewrite Forall_forall in HF. now apply HF. }
  assert (Hv' : v <> CR /\ v <> LF) by (split; intros ->; cbn in Hv; unfold CR, LF, COMMA, SEMI, TAB in Hv; intuition discriminate).
  apply before_lines in HB as (x & Hx & HB); [|intros ->; destruct Hu; contradiction|apply Hv'|apply Hv'].
  apply in_map_iff in Hx as (r & <- & Hr). destruct (common_nl c Hc) as (_ & _ & Hq & _).
  assert (Hne : Forall (fun s => ~ In c s) r) by (apply Forall_forall; intros s Hs Hi; apply (Hcell r s c Hr Hs), elementary_nl in Hi; tauto).
  rewrite (join_swap c r Hne) in HB. apply before_map in HB as (u' & v' & HB & -> & ->).
  assert (Ev : v' = c).
  { destruct (before_in _ _ _ HB) as (_ & Hi). apply join_chars in Hi as [->|(s & Hs & Hi)]; [reflexivity|]. exfalso. pose proof (Hcell r s v' Hr Hs Hi) as He. apply elementary_nl in He as (_ & _ & K1 & K2).
    unfold swap in Hv. destruct (N.eqb_spec v' c) as [->|]; [contradiction|]. destruct Hv as [<-|[<-|Hv]]; [apply K1; now right|apply K1; now left|contradiction]. }
  subst v'. assert (Eu : swap c u' = u').
  { unfold swap. destruct (N.eqb_spec u' c) as [->|]; [|reflexivity]. exfalso. destruct Hu as (_ & Hu). apply Hu. unfold swap. rewrite N.eqb_refl. cbn. tauto. }
  rewrite Eu in Hu. apply HN. exists u', c. destruct (row_part c rows final r Hr) as (pre & post & ->). split; [now apply before_part|]. split; [exact Hu|]. split; [exact Hd|]. right. right. exact Hc.
Qed.
Lemma join_before c (r : list str) u : Forall (fun s => ~ In c s) r -> u <> c -> before u c (join [c] r) -> exists l1 t s' l2, r = l1 ++ (t ++ [u]) :: s' :: l2.
Proof.
  intros H Hu. induction H as [|s r Hs Hr IH]; intros (a & b & E); [cbn in E; destruct a; discriminate|]. destruct r as [|s' r].
  - cbn in E. exfalso. apply Hs. rewrite E. apply in_or_app. right. right. now left.
  - change (join [c] (s :: s' :: r)) with (s ++ c :: join [c] (s' :: r)) in E. apply app_eq_app in E as (l & [(E1 & E2)|(E1 & E2)]).
    + destruct l as [|y [|z l]]; cbn [app] in E2.
      * injection E2 as E2 _. congruence.
      * injection E2 as Ey _. exists [], a, s', r. rewrite E1, <- Ey. reflexivity.
      * injection E2 as _ Ez _. exfalso. apply Hs. rewrite E1, <- Ez. apply in_or_app. right. right. now left.
    + destruct l as [|y l]; cbn [app] in E2.
      * injection E2 as E2 _. congruence.
      * injection E2 as _ E2. destruct IH as (l1 & t & s2 & l2 & ->); [now exists l, b|]. exists (s :: l1), t, s2, l2. reflexivity.
Qed.
Lemma join_split c l1 : forall (x y : str) l2, exists pre post, join [c] (l1 ++ x :: y :: l2) = pre ++ x ++ c :: post.
Proof.
  induction l1 as [|z l1 IH]; intros x y l2; [exists []; eexists; reflexivity|]. destruct (IH x y l2) as (pre & post & E). exists (z ++ c :: pre), post.
  rewrite <- app_assoc. cbn [app]. rewrite <- E. destruct l1; reflexivity.
Qed.
Lemma quoted_unsuspected c q rows final : a_quote q -> In c common_delimiters -> Forall (Forall (over elementary)) (map (map snd) (table_of rows final)) ->
  ~ escape_suspect cat common_delimiters (quoted_text c q rows final) -> ~ escape_suspect cat common_delimiters (table_text COMMA (crlf (map (map snd) (table_of rows final))) None).
Proof.
  intros Hq Hc HF HN (u & v & HB & Hu & Hd & Hv). rewrite crlf_text in HB. rewrite Forall_forall in HF.
  assert (Hcell : forall r s x, In r (map (map snd) (table_of rows final)) -> In s r -> In x s -> In x elementary).
  { intros r s x Hr Hs Hx. specialize (HF r Hr). rewrite Forall_forall in HF. specialize (HF s Hs). unfold over in HF. rewrite Forall_forall in HF. now apply HF. }
  assert (Hv' : v <> CR /\ v <> LF) by (split; intros ->; cbn in Hv; unfold CR, LF, COMMA, SEMI, TAB in Hv; intuition discriminate).
  apply before_lines in HB as (x & Hx & HB); [|intros ->; destruct Hu; contradiction|apply Hv'|apply Hv'].
  apply in_map_iff in Hx as (r & <- & Hr).
  assert (Ev : v = COMMA).
  { destruct (before_in _ _ _ HB) as (_ & Hi). apply join_chars in Hi as [->|(s & Hs & Hi)]; [reflexivity|]. exfalso. pose proof (Hcell r s v Hr Hs Hi) as He. apply elementary_nl in He as (_ & _ & K1 & K2).
    destruct Hv as [<-|[<-|Hv]]; [apply K1; now right|apply K1; now left|contradiction]. }
  subst v. assert (Hnu : u <> COMMA) by (intros ->; destruct Hu as (_ & Hu); apply Hu; cbn; tauto).
  destruct (join_before COMMA r u) as (l1 & t & s' & l2 & Er); [|exact Hnu|exact HB|].
  { apply Forall_forall. intros s Hs Hi. apply (Hcell r s COMMA Hr Hs), elementary_nl in Hi as (_ & _ & _ & K). apply K. now left. }
  apply in_map_iff in Hr as (r0 & Er0 & Hr0). rewrite Er in Er0. apply map_eq_app in Er0 as (m1 & m2 & Em & _ & E2). destruct m2 as [|x [|y m2]]; try discriminate.
  injection E2 as Ex _ _.
  assert (Hin : In (map (cell_text q) r0) (table_of (map (fun r => (map (cell_text q) (fst r), snd r)) rows) (option_map (map (cell_text q)) final))).
  { unfold table_of in *. apply in_app_or in Hr0 as [K|K].
    - apply in_or_app. left. rewrite map_map. cbn [fst]. apply in_map_iff in K as (z & <- & Hz). apply in_map_iff. now exists z.
    - apply in_or_app. right. destruct final as [z|]; [|destruct K]. destruct K as [<-|[]]. now left. }
  apply (row_part c) in Hin as (pre & post & EP). fold (quoted_text c q rows final) in EP. rewrite Em, map_app in EP. cbn [map] in EP.
  destruct (join_split c (map (cell_text q) m1) (cell_text q x) (cell_text q y) (map (cell_text q) m2)) as (pre' & post' & EJ).
  assert (EQ : quoted_text c q rows final = pre ++ (pre' ++ cell_text q x ++ c :: post') ++ post) by (refine (eq_trans EP _); f_equal; f_equal; exact EJ).
  apply HN. rewrite EQ. unfold cell_text. destruct (fst x); rewrite Ex.
  - exists u, q. split; [|split; [exact Hu|split; [exact Hd|]]].
    + exists (pre ++ pre' ++ q :: t), ((c :: post') ++ post). repeat (rewrite <- ?app_assoc; cbn [app]). reflexivity.
    + destruct Hq as [->| ->]; [right; now left|now left].
  - exists u, c. split; [|split; [exact Hu|split; [exact Hd|right; right; exact Hc]]].
    exists (pre ++ pre' ++ t), (post' ++ post). repeat (rewrite <- ?app_assoc; cbn [app]). reflexivity.
Qed.
Lemma bare_settled text d cells : document cat text d [] cells -> settled d cells.
Proof.
  assert (G : forall q, document cat text d q cells -> q = [] -> settled d cells); [|intros H; now apply (G [])].
  intros q [c k rows final e Hc Hn Hk HF Hs Hx|c q' k rows final e Hq Hc HG HS H0 Hs Hx|rows final e H2 Hs HW|q' rows final e Hq H2 Hs HW Hx] Hq0 r s Hr Hsr; try discriminate.
  - rewrite Forall_forall in HF. destruct (HF r Hr) as (_ & K). rewrite Forall_forall in K. now apply K.
  - apply in_map_iff in Hr as (s' & <- & Hr). destruct Hsr as [<-|[]]. now apply HW.
Qed.
Theorem document_again text d q cells : document cat text d q cells -> settled d cells -> document cat (excel_table cells) (match d with [] => [] | _ => [COMMA] end) [] cells.
Proof.
  intros [c k rows final e Hc Hn Hk HF Hs Hx|c q' k rows final e Hq Hc HG HS H0 Hs Hx|rows final e H2 Hs HW|q' rows final e Hq H2 Hs HW Hx] HT.
  - assert (HE : Forall (Forall (over elementary)) (table_of rows final)) by (eapply Forall_impl; [|exact HF]; now intros r (_ & K)).
    assert (EX : excel_table (table_of rows final) = table_text COMMA (crlf (table_of rows final)) None).
    { apply excel_bare. intros r Hr. rewrite Forall_forall in HF. destruct (HF r Hr) as (-> & K). split; assumption. }
    rewrite EX. pose proof (bare_table cat COMMA k (crlf (table_of rows final)) None ECRLF) as B. rewrite crlf_table in B.
    apply B; [now left|exact Hn|exact Hk|exact HF|apply crlf_same|]. now apply (comma_unsuspected c).
  - destruct HG as (Hne & Hk & HF).
    assert (HF' : Forall (fun r => len r = k /\ Forall (over elementary) r) (map (map snd) (table_of rows final))).
    { apply Forall_forall. intros r Hr. split.
      - apply in_map_iff in Hr as (r0 & <- & Hr0). rewrite Forall_forall in HF. destruct (HF r0 Hr0) as (K & _). now rewrite map_length.
      - apply Forall_forall. intros s Hsr. exact (HT r s Hr Hsr). }
    assert (HE : Forall (Forall (over elementary)) (map (map snd) (table_of rows final))) by (eapply Forall_impl; [|exact HF']; now intros r (_ & K)).
    assert (EX : excel_table (map (map snd) (table_of rows final)) = table_text COMMA (crlf (map (map snd) (table_of rows final))) None).
    { apply excel_bare. intros r Hr. rewrite Forall_forall in HF'. destruct (HF' r Hr) as (-> & K). split; assumption. }
    rewrite EX. pose proof (bare_table cat COMMA k (crlf (map (map snd) (table_of rows final))) None ECRLF) as B. rewrite crlf_table in B.
    apply B; [now left|intros K; apply map_eq_nil in K; contradiction|exact Hk|exact HF'|apply crlf_same|]. now apply (quoted_unsuspected c q').
  - rewrite (excel_column _ HW). pose proof (bare_lines cat (crlf (column_of rows final)) None ECRLF) as B. rewrite crlf_column in B.
    apply B; [exact H2|apply crlf_same|exact HW].
  - assert (HW' : forall s, In s (column_of rows final) -> s <> [] /\ over word s) by (intros s Hs'; apply (HT [s] s); [apply in_map_iff; now exists s|now left]).
    rewrite (excel_column _ HW'). pose proof (bare_lines cat (crlf (column_of rows final)) None ECRLF) as B. rewrite crlf_column in B.
    apply B; [exact H2|apply crlf_same|exact HW'].
Qed.

Section Standardize.
Variables (url : str -> str -> option nat) (known : str -> bool -> res pyexc bool) (O : orders) (o_set : list SimpleDialect -> list SimpleDialect).
Variables (S : senv) (A : sargs) (method : method_arg) (skip : bool) (s : dstate).
Hypothesis HM : In method [MStr (s2l "normal"); MEnum NORMAL; MStr (s2l "auto"); MEnum AUTO].
Hypothesis HE : forall sample, e_detect (s_env S) sample = fst (detector_detect cat url known O o_set sample None method skip s).
Hypothesis Hreg : e_registry (s_env S) (s2l "excel") = Some excel_csv.
Theorem in_place_twice f p encoding cod b b' text d q cells output :
  a_in_place A = true -> a_transpose A = false -> a_num_chars A = None -> a_target A = None -> encoding <> [] -> (forall g, same_fs_but [p] g f -> g (s_mkstemp S g) = None) ->
  document cat text d q cells -> settled d cells -> f p = Some b -> e_codec (s_env S) (Some encoding) = Ok cod -> lawful cod -> cd_decode cod b = (text, true) ->
  cells_fit (e_limit (s_env S)) cells -> cd_encode cod (excel_table cells) = Some b' ->
  exists n f1 f2, handle_path S A f p output (Some encoding) = (Code n, f1, []) /\ In n [0; 2]%nat /\
    handle_path S A f1 p output (Some encoding) = (Code 0, f2, []) /\ same_fs f2 f1.
Proof.
  intros Hi Htr Hnc Htg Hen Hm HD HT Hf Hc Hl Hb HL He.
  assert (Hor : or_encoding (Some encoding) = Some encoding) by (destruct encoding; [congruence|reflexivity]).
  assert (Hop : forall g c, g p = Some c -> open_text (s_env S) g p (or_encoding (Some encoding)) = Ok (cod, c)).
  { intros g c Hg. unfold open_text. rewrite Hg, Hor, Hc. reflexivity. }
  assert (Hai : forall c, aimed S A (Some encoding) c = Some encoding) by (intros c; unfold aimed, used; now rewrite Htg, Hor).
  assert (Hsh : shown A cells = cells) by (unfold shown; now rewrite Htr).
  assert (Hhd : forall t, head_chars (a_num_chars A) t = t) by (intros t; now rewrite Hnc).
  destruct (document_in_place cat url known O o_set S A method skip s HM HE Hreg f p (Some encoding) cod b text d q cells HD (Hop f b Hf) Hb (whole_sample cat _ _ _ _ _ HD (Hhd text)) HL output cod b' Hi (Hm f ltac:(intros x _; reflexivity))) as (f1 & H1 & H2);
    [rewrite Hai; exact Hc|exact Hl|rewrite Hsh; exact He|].
  destruct (list_eq_dec N.eq_dec (s_sha1 S b) (s_sha1 S b')) as [EQ|EQ].
  - destruct (H2 EQ) as (R1 & R2). exists 0%nat, f1. assert (Hf1 : f1 p = Some b) by (rewrite (R2 p); exact Hf). assert (Hb1 : same_fs_but [p] f1 f) by (intros x _; apply R2).
    destruct (document_in_place cat url known O o_set S A method skip s HM HE Hreg f1 p (Some encoding) cod b text d q cells HD (Hop f1 b Hf1) Hb (whole_sample cat _ _ _ _ _ HD (Hhd text)) HL output cod b' Hi (Hm f1 Hb1)) as (f2 & _ & K2);
      [rewrite Hai; exact Hc|exact Hl|rewrite Hsh; exact He|].
    destruct (K2 EQ) as (Q1 & Q2). exists f2. split; [exact R1|]. split; [now left|]. split; [exact Q1|exact Q2].
  - destruct (H1 EQ) as (R1 & R2). exists 2%nat, f1. assert (Hf1 : f1 p = Some b') by (rewrite (R2 p); apply upd_same).
    assert (Hb1 : same_fs_but [p] f1 f) by (intros x Hx; rewrite (R2 x); apply upd_other; intros ->; apply Hx; now left).
    pose proof (document_again _ _ _ _ HD HT) as HD'. destruct Hl as (Hl1 & Hl2). pose proof (Hl1 _ _ He) as Hb'.
    destruct (document_in_place cat url known O o_set S A method skip s HM HE Hreg f1 p (Some encoding) cod b' _ _ [] cells HD' (Hop f1 b' Hf1) Hb' (whole_sample cat _ _ _ _ _ HD' (Hhd _)) HL output cod b' Hi (Hm f1 Hb1)) as (f2 & _ & K2);
      [rewrite Hai; exact Hc|split; assumption|rewrite Hsh; exact He|].
    destruct (K2 eq_refl) as (Q1 & Q2). exists f2. split; [exact R1|]. split; [right; now left|]. split; [exact Q1|exact Q2].
Qed.
End Standardize.
End Twice.
