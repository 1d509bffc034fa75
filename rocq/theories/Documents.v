(** * Documents: every entry point on files in simple form *)
From Coq Require Import String Permutation.
From Verif Require Import Base Parser Dialect CsvLib Reader Writer Files Wrappers Standardize SpecLayout SpecParse SpecWriter SpecFiles FilesFacts StandardizeFacts TableFacts Potential PotentialFacts SpecPotential SpecNormal NormalForm
  Json SpecJson JsonFacts JsonScan SpecText Codegen SpecCodegen CodegenFacts CodegenRun
  Consistency DetectFacts Detect Console SpecConsole ConsoleText ConsoleFacts SpecTables TablesFiles SpecQuoted Simple SimpleFiles SpecColumn Columns ColumnFiles SpecExcel ExcelText SpecDocument.
Open Scope N_scope.
Local Notation len := List.length.

Section Document.
Variable cat : N -> str.
Lemma document_normal text d q cells : document cat text d q cells -> detect_dialect_normal cat text utf8 None = Ok (Some (dialect3 d q [])).
Proof.
  intros [c k rows final e Hc Hn Hk HF Hs Hx|c q' k rows final e Hq Hc HG HS H0 Hs Hx|rows final e H2 Hs HW|q' rows final e Hq H2 Hs HW Hx].
  - exact (bare_simple cat c k rows final e Hc (conj Hn (conj Hk HF)) Hs Hx).
  - exact (quoted_simple cat c q' k rows final e Hq Hc HG Hs HS Hx).
  - exact (plain_column cat rows final e H2 Hs HW).
  - exact (quoted_column_normal cat q' rows final e Hq H2 Hs HW Hx).
Qed.
Lemma whole_sample text d q cells nc : document cat text d q cells -> head_chars nc text = text -> detect_dialect_normal cat (head_chars nc text) utf8 None = Ok (Some (dialect3 d q [])).
Proof. intros HD ->. exact (document_normal _ _ _ _ HD). Qed.
Lemma document_parsed limit text d q cells : document cat text d q cells -> cells_fit limit cells ->
  parse_string limit text (dialect3 d q []) false = (map (map CStr) cells, None).
Proof.
  intros [c k rows final e Hc Hn Hk HF Hs Hx|c q' k rows final e Hq Hc HG HS H0 Hs Hx|rows final e H2 Hs HW|q' rows final e Hq H2 Hs HW Hx] HL.
  - apply (bare_parsed c k rows final limit Hc (conj Hn (conj Hk HF))). intros r s Hr Hi. specialize (HL r s Hr Hi). lia.
  - rewrite map_map. erewrite map_ext; [apply (simple_parsed c q' k rows final)|intros r; now rewrite map_map]; try assumption.
    + intros r x Hr Hi. unfold all_cells in H0. rewrite Forall_forall in H0. specialize (H0 r Hr). rewrite Forall_forall in H0. now apply H0.
    + intros r x Hr Hi. assert (K : (Z.of_nat (len (snd x)) + 2 <= limit)%Z).
      { apply (HL (map snd r)); [now apply in_map|now apply in_map]. }
      unfold cell_text. destruct (fst x); [cbn [List.length]; rewrite app_length; cbn [List.length]; lia|lia].
  - rewrite map_map. apply (plain_parsed rows final limit). intros s Hs'. destruct (HW s Hs') as (K1 & K2). split; [exact K1|]. split; [exact K2|].
    assert (K : (Z.of_nat (len s) + 2 <= limit)%Z) by (apply (HL [s]); [apply in_map_iff; now exists s|now left]). lia.
  - rewrite map_map. apply (quoted_column_parsed q' rows final limit); [exact Hq|]. intros s Hs'. split; [now apply HW|].
    apply (HL [s]); [apply in_map_iff; now exists s|now left].
Qed.
Definition one_delimiter (d : str) : Prop := d = [] \/ exists c, In c common_delimiters /\ d = [c].
Definition one_quote (q : str) : Prop := q = [] \/ exists c, a_quote c /\ q = [c].
Lemma document_shape text d q cells : document cat text d q cells -> one_delimiter d /\ one_quote q.
Proof.
  unfold one_delimiter, one_quote.
  intros [c k rows final e Hc _ _ _ _ _|c q' k rows final e Hq Hc _ _ _ _ _|rows final e _ _ _|q' rows final e Hq _ _ _ _]; split; try (left; reflexivity); right; eexists; (split; [|reflexivity]); assumption.
Qed.
Lemma shape_valid d q : one_delimiter d -> one_quote q -> validate (dialect3 d q []) = true.
Proof. intros [->|(c & Hc & ->)] [->|(c' & Hq & ->)]; reflexivity. Qed.
Lemma shape_scalar d q : one_delimiter d -> one_quote q -> scalar d /\ scalar q.
Proof.
  intros Hd Hq. split.
  - destruct Hd as [->|(c & Hc & ->)]; [apply scalar_nil|]. apply one_scalar. repeat (destruct Hc as [<-|Hc]; [discriminate|]). destruct Hc.
  - destruct Hq as [->|(c & [->| ->] & ->)]; [apply scalar_nil| |]; apply one_scalar; discriminate.
Qed.
Lemma shape_length d q : one_delimiter d -> one_quote q -> (len d <= 1)%nat /\ (len q <= 1)%nat.
Proof. intros [->|(c & Hc & ->)] [->|(c' & Hq & ->)]; split; cbn; lia. Qed.

(** ** The detect command *)
Theorem document_detect url known O o_set s E printable space rt rt6 f p A cod b text d q cells :
  let det := fun m skip sample => fst (detector_detect cat url known O o_set sample None m skip s) in
  document cat text d q cells -> open_text E f p (or_encoding (da_encoding A)) = Ok (cod, b) -> cd_decode cod b = (text, true) ->
  detect_dialect_normal cat (head_chars (da_num_chars A) text) utf8 None = Ok (Some (dialect3 d q [])) -> da_consistency A = false ->
  exists lines, detect_command E det printable space rt rt6 f p A = Printed lines 0 /\
    (da_plain A = true -> python_space space -> plain_fields lines = Some (visible space d, visible space q, [])) /\
    (da_plain A = false -> da_json A = true -> forall md depth, (1 <= depth)%nat -> float_text rt ->
       exists line v j, lines = [line] /\ loads md depth line = Ok v /\ from_dict v = Ok j /\ same_dialect j (dialect3 d q [])) /\
    (da_plain A = false -> da_json A = false -> exists line more, lines = line :: more /\ detected_fields line = Some (d, q, [])).
Proof.
  intros det HD HO Ht Hh Hc. destruct (document_shape _ _ _ _ HD) as (Sd & Sq). destruct (shape_scalar d q Sd Sq) as (Kd & Kq). destruct (shape_length d q Sd Sq) as (Ld & Lq).
  assert (EA : detect_dialect_by E det f p (da_num_chars A) (da_encoding A) (MStr (if da_consistency A then s2l "consistency" else s2l "auto")) (negb (da_no_skip A)) = Ok (Some (dialect3 d q []))).
  { rewrite (detect_by_head E det f p _ _ _ _ cod b text HO Ht), Hc. unfold det.
    rewrite (normal_method cat url known O o_set _ _ (MStr (s2l "auto")) (negb (da_no_skip A)) s Hh); [reflexivity|]. right. right. left. reflexivity. }
  unfold detect_command. rewrite EA. destruct (da_plain A).
  { eexists. split; [reflexivity|]. split; [|split; discriminate]. intros _ Hp. cbn [dialect3 sd_delimiter sd_quotechar sd_escapechar fmt].
    assert (E1 : plain_value (s2l "delimiter") (strip_by space (s2l "delimiter = " ++ d)) = Some (visible space d))
      by exact (plain_line space (s2l "elimiter") 100 d Hp Ld ltac:(split; [discriminate|reflexivity])).
    assert (E2 : plain_value (s2l "quotechar") (strip_by space (s2l "quotechar = " ++ q)) = Some (visible space q))
      by exact (plain_line space (s2l "uotechar") 113 q Hp Lq ltac:(split; [discriminate|reflexivity])).
    assert (E3 : plain_value (s2l "escapechar") (strip_by space (s2l "escapechar = " ++ [])) = Some (visible space []))
      by exact (plain_line space (s2l "scapechar") 101 [] Hp ltac:(cbn; lia) ltac:(split; [discriminate|reflexivity])).
    exact (plain_three _ _ _ _ _ _ _ E1 E2 E3). }
  destruct (da_json A).
  - unfold to_dict. rewrite (shape_valid d q Sd Sq). cbv iota beta. eexists. split; [reflexivity|]. split; [discriminate|]. split; [|discriminate].
    intros _ _ md depth Hdep Hr. destruct depth as [|depth]; [lia|]. destruct (da_add_runtime A).
    + exists (dumps (JObj (members d q [] false ++ [(s2l "runtime", JNum rt)]))), (JObj (members d q [] false ++ [(s2l "runtime", JNum rt)])).
      eexists. split; [reflexivity|]. split; [apply runtime_loads; try assumption; [now apply scalar_points|now apply scalar_points|apply scalar_points, scalar_nil|cbn; lia]|]. split; [reflexivity|repeat split].
    + assert (SE : serialize (dialect3 d q []) = Ok (dumps (JObj (members d q [] false)))).
      { unfold serialize, to_dict. rewrite (shape_valid d q Sd Sq). reflexivity. }
      assert (HP : dialect_points (dialect3 d q [])).
      { intros s' [[= <-]|[[= <-]|[[= <-]|[]]]]; [now apply scalar_points|now apply scalar_points|apply scalar_points, scalar_nil]. }
      destruct (roundtrip_same md (S depth) _ _ Hdep HP SE) as (j & EJ & HJ). unfold deserialize in EJ.
      destruct (loads md (S depth) (dumps (JObj (members d q [] false)))) as [v|] eqn:EL; [|discriminate]. cbn [bind] in EJ.
      exists (dumps (JObj (members d q [] false))), v, j. split; [reflexivity|]. split; [exact EL|]. split; [exact EJ|exact HJ].
  - eexists. split; [reflexivity|]. split; [discriminate|]. split; [discriminate|]. intros _ _. eexists _, _. split; [reflexivity|]. apply repr_fields; [exact Kd|exact Kq|apply scalar_nil].
Qed.

Lemma opened_file E f p cod b enc : open_text E f p enc = Ok (cod, b) -> f p = Some b /\ e_codec E (match enc with None => e_get_encoding E b | x => x end) = Ok cod.
Proof.
  unfold open_text. destruct (f p) as [b'|]; [|discriminate]. cbv zeta. intros H. destruct enc as [e|].
  - destruct (e_codec E (Some e)) as [c|] eqn:EC; [|discriminate]. injection H as -> <-. split; reflexivity.
  - destruct (e_codec E (e_get_encoding E b')) as [c|] eqn:EC; [|discriminate]. injection H as -> <-. split; [reflexivity|exact EC].
Qed.
(** ** Files *)
Section Files.
Variables (url : str -> str -> option nat) (known : str -> bool -> res pyexc bool) (O : orders) (o_set : list SimpleDialect -> list SimpleDialect).
Variables (E : env) (method : method_arg) (skip : bool) (s : dstate).
Hypothesis HM : In method [MStr (s2l "normal"); MEnum NORMAL; MStr (s2l "auto"); MEnum AUTO].
Hypothesis HE : forall sample, e_detect E sample = fst (detector_detect cat url known O o_set sample None method skip s).
Variables (f : fs) (p : path) (encoding : option str) (cod : codec) (b : bytes) (text d q : str) (cells : list (list str)) (nc : option Z).
Hypothesis HD : document cat text d q cells.
Hypothesis Hb : cd_decode cod b = (text, true).
Hypothesis Hh : detect_dialect_normal cat (head_chars nc text) utf8 None = Ok (Some (dialect3 d q [])).
Theorem document_read h : open_text E f p encoding = Ok (cod, b) -> cells_fit (e_limit E) cells -> read_table E f h p None encoding nc = Ok (map (map CStr) cells).
Proof.
  intros Hop HL. destruct (document_shape _ _ _ _ HD) as (Sd & Sq).
  exact (sampled_file cat url known O o_set E method skip s HM HE f h p encoding cod b text (dialect3 d q []) nc _ Hop Hb Hh (shape_valid d q Sd Sq) (document_parsed _ _ _ _ _ HD HL)).
Qed.
Lemma document_answer : open_text E f p (or_encoding encoding) = Ok (cod, b) -> detect_dialect E f p encoding nc = Ok (Some (dialect3 d q [])).
Proof.
  intros HO. unfold detect_dialect. rewrite HO. cbn [bind]. rewrite (read_chars_head cod b text nc Hb). cbn [bind].
  rewrite HE. now rewrite (normal_method cat url known O o_set _ _ method skip s Hh HM).
Qed.
Theorem document_dataframe {V} imp vlt (args : list V) kwargs m : open_text E f p (or_encoding encoding) = Ok (cod, b) ->
  import_optional_dependency imp vlt (s2l "pandas") true = Ok m -> existsb (fun kv => str_eqb (fst kv) (s2l "dialect")) kwargs = false ->
  read_dataframe E imp vlt f p args nc encoding kwargs =
  match d with
  | [] => Err CsvError
  | _ => Ok (mk_csv_call p args
           (mk_csvdialect (Some d) (Some (match q with [] => [DQ] | _ => q end)) None true false (Some [LF]) (match q with [] => QUOTE_NONE | _ => QUOTE_MINIMAL end) None)
           (match or_encoding encoding with Some e => Some e | None => e_get_encoding E b end) kwargs)
  end.
Proof.
  intros HO HI Hk. destruct (opened_file _ _ _ _ _ _ HO) as (Hf & _). rewrite (dataframe_call E imp vlt f p b args nc encoding kwargs m Hf HI), (document_answer HO), Hk.
  destruct (document_shape _ _ _ _ HD) as ([->|(c & Hc & ->)] & [->|(c' & Hq & ->)]); try reflexivity.
  all: try (repeat (destruct Hc as [<-|Hc]; [destruct Hq as [->| ->]; reflexivity|]); destruct Hc).
  all: destruct Hq as [->| ->]; reflexivity.
Qed.
End Files.

(** ** The standardize command *)
Lemma zip_map {A B C D} (g : A -> C) (h : B -> D) (l : list A) : forall (m : list B), zip (map g l) (map h m) = map (fun xy => (g (fst xy), h (snd xy))) (zip l m).
Proof. induction l as [|x l IH]; intros [|y m]; try reflexivity. cbn [map zip]. now rewrite IH. Qed.
Lemma zip_star_map {A B} (g : A -> B) rows : zip_star (map (map g) rows) = map (map g) (zip_star rows).
Proof.
  induction rows as [|r rows IH]; [reflexivity|]. destruct rows as [|r' rows]; [cbn [map zip_star]; rewrite !map_map; reflexivity|].
  change (zip_star (map (map g) (r :: r' :: rows))) with (map (fun '(x, col) => x :: col) (zip (map g r) (zip_star (map (map g) (r' :: rows))))).
  change (zip_star (r :: r' :: rows)) with (map (fun '(x, col) => x :: col) (zip r (zip_star (r' :: rows)))).
  rewrite IH, zip_map, !map_map. apply map_ext. now intros [x col].
Qed.
Lemma back_cells (rows : list (list str)) : map (map cell_str) (map (map CStr) rows) = rows.
Proof. rewrite map_map. rewrite <- (map_id rows) at 2. apply map_ext. intros r. rewrite map_map. apply map_id. Qed.
Section Standardize.
Variables (url : str -> str -> option nat) (known : str -> bool -> res pyexc bool) (O : orders) (o_set : list SimpleDialect -> list SimpleDialect).
Variables (S : senv) (A : sargs) (method : method_arg) (skip : bool) (s : dstate).
Hypothesis HM : In method [MStr (s2l "normal"); MEnum NORMAL; MStr (s2l "auto"); MEnum AUTO].
Hypothesis HE : forall sample, e_detect (s_env S) sample = fst (detector_detect cat url known O o_set sample None method skip s).
Hypothesis Hreg : e_registry (s_env S) (s2l "excel") = Some excel_csv.
Section One.
Variables (f : fs) (p : path) (encoding : option str) (cod : codec) (b : bytes) (text d q : str) (cells : list (list str)).
Hypothesis HD : document cat text d q cells.
Hypothesis Hop : open_text (s_env S) f p (or_encoding encoding) = Ok (cod, b).
Hypothesis Hb : cd_decode cod b = (text, true).
Hypothesis Hh : detect_dialect_normal cat (head_chars (a_num_chars A) text) utf8 None = Ok (Some (dialect3 d q [])).
Hypothesis HL : cells_fit (e_limit (s_env S)) cells.
Definition used : option str := match or_encoding encoding with None => e_get_encoding (s_env S) b | e => e end.
Definition aimed : option str := match or_encoding (a_target A) with None => used | e => e end.
Lemma document_handled output : handle_path S A f p output encoding =
  if a_in_place A then let '(c, f') := in_place S f p (dialect3 d q []) used aimed (a_transpose A) in (c, f', [])
  else match output with
       | None => let '(c, t) := to_stdout S f p (dialect3 d q []) used (a_transpose A) in (c, f, t)
       | Some o => let '(c, f') := to_file S f p o (dialect3 d q []) used aimed (a_transpose A) in (c, f', [])
       end.
Proof.
  destruct (opened_file _ _ _ _ _ _ Hop) as (Hf & Hc). unfold handle_path. rewrite Hf. fold used. fold aimed.
  assert (HU : open_text (s_env S) f p (or_encoding used) = Ok (cod, b)).
  { unfold open_text. rewrite Hf. cbv zeta. unfold used in *. destruct (or_encoding encoding) as [e|] eqn:EE.
    - assert (K : or_encoding (Some e) = Some e) by (destruct encoding as [[|y e']|]; cbn in EE; try discriminate; injection EE as <-; reflexivity).
      rewrite K. rewrite Hc. reflexivity.
    - unfold or_encoding. destruct (e_get_encoding (s_env S) b) as [[|y e']|] eqn:EG; rewrite ?EG, Hc; reflexivity. }
  pose proof (document_answer url known O o_set (s_env S) method skip s HM HE f p used cod b text d q (a_num_chars A) Hb Hh HU) as EA.
  rewrite EA. reflexivity.
Qed.
Lemma document_rows : file_rows (e_limit (s_env S)) cod b (dialect3 d q []) = (map (map CStr) cells, None).
Proof. unfold file_rows, text_items. rewrite Hb. exact (document_parsed _ _ _ _ _ HD HL). Qed.
Lemma used_codec : e_codec (s_env S) used = Ok cod.
Proof. destruct (opened_file _ _ _ _ _ _ Hop) as (_ & Hc). unfold used. now destruct (or_encoding encoding). Qed.
Lemma document_valid : validate (dialect3 d q []) = true.
Proof. destruct (document_shape _ _ _ _ HD) as (Sd & Sq). now apply shape_valid. Qed.
Definition shown : list (list str) := if a_transpose A then zip_star cells else cells.
Lemma shown_cells : map (map cell_str) (if a_transpose A then zip_star (map (map CStr) cells) else map (map CStr) cells) = shown.
Proof. unfold shown. destruct (a_transpose A); [rewrite zip_star_map|]; apply back_cells. Qed.
Theorem document_stdout : a_in_place A = false -> handle_path S A f p None encoding = (Code 0, f, excel_table shown).
Proof.
  intros Hi. destruct (opened_file _ _ _ _ _ _ Hop) as (Hf & _). rewrite document_handled, Hi.
  rewrite (stdout_text S f p (dialect3 d q []) used cod b (map (map CStr) cells) None Hreg document_valid Hf used_codec document_rows). now rewrite shown_cells.
Qed.
Theorem document_file o cout b' : a_in_place A = false -> o <> p -> e_codec (s_env S) aimed = Ok cout -> lawful cout -> cd_encode cout (excel_table shown) = Some b' ->
  exists f', handle_path S A f p (Some o) encoding = (Code 0, f', []) /\ same_fs f' (upd f o (Some b')).
Proof.
  intros Hi Ho Hc Hl He. destruct (opened_file _ _ _ _ _ _ Hop) as (Hf & _). rewrite document_handled, Hi. rewrite <- shown_cells in He.
  destruct (file_text S f p (dialect3 d q []) used cod b (map (map CStr) cells) None Hreg document_valid Hf used_codec document_rows (a_transpose A) o aimed cout b' Ho Hc Hl) as (f' & E1 & E2).
  { unfold written. exact He. }
  exists f'. rewrite E1. split; [reflexivity|exact E2].
Qed.
Theorem document_in_place output cout b' : a_in_place A = true -> f (s_mkstemp S f) = None -> e_codec (s_env S) aimed = Ok cout -> lawful cout ->
  cd_encode cout (excel_table shown) = Some b' ->
  exists f', (s_sha1 S b <> s_sha1 S b' -> handle_path S A f p output encoding = (Code 2, f', []) /\ same_fs f' (upd f p (Some b'))) /\
             (s_sha1 S b = s_sha1 S b' -> handle_path S A f p output encoding = (Code 0, f', []) /\ same_fs f' f).
Proof.
  intros Hi Ht Hc Hl He. destruct (opened_file _ _ _ _ _ _ Hop) as (Hf & _). rewrite document_handled, Hi. rewrite <- shown_cells in He.
  destruct (in_place_text S f p (dialect3 d q []) used cod b (map (map CStr) cells) None Hreg document_valid Hf used_codec document_rows (a_transpose A) aimed cout b' eq_refl Ht Hc Hl He) as (f' & E1 & E2).
  exists f'. split; intros HS; [destruct (E1 HS) as (-> & K)|destruct (E2 HS) as (-> & K)]; (split; [reflexivity|exact K]).
Qed.
End One.
End Standardize.
End Document.
