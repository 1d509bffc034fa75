(** * Rename: the code treats characters by their role only *)
From Verif Require Import Base Parser Dialect ParserFacts CsvLib CsvReader Potential Abstraction Floats Ties Consistency SpecRename.

Section Rename.
Variable f : N -> N.
Hypothesis F : renaming f.
Local Notation ren := (ren f).

Lemma f_eqb x y : (f x =? f y)%N = (x =? y)%N.
Proof.
  destruct (x =? y)%N eqn:E; [apply N.eqb_eq in E as ->; apply N.eqb_refl|]. apply N.eqb_neq. intros H. apply (rn_inj f F) in H. apply N.eqb_neq in E. now elim E.
Qed.
Lemma f_nul x : (f x =? 0)%N = (x =? 0)%N.
Proof. rewrite <- (f_eqb x 0%N). change 0%N with NUL at 2. now rewrite (rn_nul f F). Qed.
Lemma f_cr x : (f x =? CR)%N = (x =? CR)%N.
Proof. rewrite <- (f_eqb x CR). now rewrite (rn_cr f F). Qed.
Lemma f_lf x : (f x =? LF)%N = (x =? LF)%N.
Proof. rewrite <- (f_eqb x LF). now rewrite (rn_lf f F). Qed.
Lemma f_nl x : is_nl (f x) = is_nl x.
Proof. unfold is_nl. now rewrite f_cr, f_lf. Qed.

(** ** The parser *)
Definition ren_conf (c : pconf) : pconf :=
  mk_pconf (f (delimiter c)) (f (quotechar c)) (f (escapechar c)) (field_limit c) (strict c) (return_quoted c).
Definition ren_obj (o : pobj str) : pobj str :=
  mk_pobj (p_state o) (ren (p_buf o)) (map (ren_cell f) (p_fields o)) (p_doublequote o).
Definition ren_res (x : res perr (pobj str)) : res perr (pobj str) :=
  match x with Ok o => Ok (ren_obj o) | Err e => Err e end.
Lemma bind_ren x g h : (forall o, g (ren_obj o) = ren_res (h o)) -> bind (ren_res x) g = ren_res (bind x h).
Proof. intros H. destruct x; cbn; [apply H|reflexivity]. Qed.
Lemma add_ren cf o c : add_char str_ops (ren_conf cf) (ren_obj o) (f c) = ren_res (add_char str_ops cf o c).
Proof.
  unfold add_char, ren_obj. cbn. unfold str_add, SpecRename.ren. rewrite map_length. destruct (_ <=? _)%Z; cbn; [reflexivity|]. unfold ren_obj, SpecRename.ren. cbn. now rewrite map_app.
Qed.
Lemma start_ren s c : str_startswith (ren s) (f c) = str_startswith s c.
Proof. destruct s; [reflexivity|]. apply f_eqb. Qed.
Lemma end_ren s c : str_endswith (ren s) (f c) = str_endswith s c.
Proof. unfold str_endswith, SpecRename.ren. rewrite <- map_rev. apply start_ren. Qed.
Lemma quote_ren s q : quotecond (ren s) (f q) = quotecond s q.
Proof. unfold quotecond. rewrite f_nul, start_ren, end_ren. unfold SpecRename.ren. now rewrite map_length. Qed.
Lemma removelast_ren s : removelast (ren s) = ren (removelast s).
Proof. induction s as [|x [|y s] IH]; [reflexivity|reflexivity|]. cbn in *. now rewrite IH. Qed.
Lemma front_ren s : strip_front (ren s) = ren (strip_front s).
Proof. now destruct s. Qed.
Lemma save_ren cf o t : save_field str_ops (ren_conf cf) (ren_obj o) t = ren_obj (save_field str_ops cf o t).
Proof.
  unfold save_field. cbn [b_str str_ops ren_obj p_buf ren_conf quotechar return_quoted]. rewrite quote_ren.
  destruct (quotecond (p_buf o) (quotechar cf)).
  - unfold strip_back. rewrite front_ren, removelast_ren, start_ren. destruct (t && _); [rewrite front_ren|]; unfold ren_obj; cbn; rewrite map_app; now destruct (return_quoted cf).
  - rewrite start_ren. destruct (t && _); [rewrite front_ren|]; unfold ren_obj; cbn; rewrite map_app; now destruct (return_quoted cf).
Qed.
Lemma state_ren o st : set_state (ren_obj o) st = ren_obj (set_state o st).
Proof. reflexivity. Qed.
Lemma double_ren o : set_doublequote (ren_obj o) = ren_obj (set_doublequote o).
Proof. reflexivity. Qed.
Lemma d_ren u cf : (f u =? delimiter (ren_conf cf))%N = (u =? delimiter cf)%N.
Proof. apply f_eqb. Qed.
Lemma q_ren u cf : (f u =? quotechar (ren_conf cf))%N = (u =? quotechar cf)%N.
Proof. apply f_eqb. Qed.
Lemma e_ren u cf : (f u =? escapechar (ren_conf cf))%N = (u =? escapechar cf)%N.
Proof. apply f_eqb. Qed.
Lemma add_state_ren cf o c st :
  bind (add_char str_ops (ren_conf cf) (ren_obj o) (f c)) (fun o => Ok (set_state o st)) = ren_res (bind (add_char str_ops cf o c) (fun o => Ok (set_state o st))).
Proof. rewrite add_ren. now apply bind_ren. Qed.
Lemma start_field_ren cf o u : do_start_field str_ops (ren_conf cf) (ren_obj o) (f u) = ren_res (do_start_field str_ops cf o u).
Proof.
  unfold do_start_field. rewrite f_nl, f_nul, d_ren, q_ren, e_ren, save_ren, !add_state_ren.
  destruct (_ || _); [reflexivity|]. destruct (_ =? quotechar cf)%N; [reflexivity|]. destruct (_ =? escapechar cf)%N; [reflexivity|]. now destruct (_ =? delimiter cf)%N.
Qed.
Lemma in_field_ren cf o u : do_in_field str_ops (ren_conf cf) (ren_obj o) (f u) = ren_res (do_in_field str_ops cf o u).
Proof.
  unfold do_in_field. rewrite f_nl, f_nul, d_ren, q_ren, e_ren, save_ren, add_state_ren, add_ren.
  destruct (_ || _); [reflexivity|]. destruct (_ =? escapechar cf)%N; [reflexivity|]. destruct (_ =? quotechar cf)%N; [reflexivity|]. now destruct (_ =? delimiter cf)%N.
Qed.
Lemma if_add_ren (b : bool) cf o c : (if b then add_char str_ops (ren_conf cf) (ren_obj o) (f c) else Ok (ren_obj o)) = ren_res (if b then add_char str_ops cf o c else Ok o).
Proof. destruct b; [apply add_ren|reflexivity]. Qed.
Lemma if_not_add_ren (b : bool) cf o c : (if b then Ok (ren_obj o) else add_char str_ops (ren_conf cf) (ren_obj o) (f c)) = ren_res (if b then Ok o else add_char str_ops cf o c).
Proof. destruct b; [reflexivity|apply add_ren]. Qed.
Lemma char_ren cf o u v : process_char str_ops (ren_conf cf) (ren_obj o) (f u) (f v) = ren_res (process_char str_ops cf o u v).
Proof.
  unfold process_char. change (p_state (ren_obj o)) with (p_state o). change (escapechar (ren_conf cf)) with (f (escapechar cf)). change (strict (ren_conf cf)) with (strict cf).
  rewrite !f_nl, !f_nul, !d_ren, !q_ren, ?f_eqb. destruct (p_state o).
  - destruct (u =? 0)%N; [reflexivity|]. destruct (is_nl u); [reflexivity|]. apply (start_field_ren cf (set_state o START_FIELD) u).
  - apply start_field_ren.
  - destruct (is_nl u); [apply add_state_ren|]. rewrite if_add_ren. apply bind_ren. intros o'. rewrite if_not_add_ren. now apply bind_ren.
  - apply in_field_ren.
  - destruct (u =? 0)%N; [reflexivity|]. destruct (u =? escapechar cf)%N; [reflexivity|]. destruct (u =? quotechar cf)%N; [|apply add_ren]. destruct (v =? quotechar cf)%N; [reflexivity|].
    destruct (strict cf); [reflexivity|]. apply add_state_ren.
  - rewrite if_add_ren. apply bind_ren. intros o'. replace (if (u =? 0)%N then LF else f u) with (f (if (u =? 0)%N then LF else u)) by (destruct (u =? 0)%N; [apply (rn_lf f F)|reflexivity]). apply add_state_ren.
  - destruct (u =? quotechar cf)%N; [apply add_state_ren|]. rewrite save_ren. destruct (u =? delimiter cf)%N; [reflexivity|]. destruct (_ || _); [reflexivity|]. destruct (negb _); [apply add_state_ren|reflexivity].
  - destruct (is_nl u); [reflexivity|]. now destruct (u =? 0)%N.
  - destruct (u =? 0)%N; [reflexivity|]. apply in_field_ren.
Qed.
Lemma f_zero : f 0%N = 0%N.
Proof. apply (rn_nul f F). Qed.
Lemma chars_ren cf line : forall o v, process_chars str_ops (ren_conf cf) (ren_obj o) (f v) (ren line) = ren_res (process_chars str_ops cf o v line).
Proof.
  induction line as [|x line IH]; intros o v; [reflexivity|]. cbn [SpecRename.ren map process_chars]. rewrite f_nul.
  replace (if negb (v =? 0)%N then f v else f x) with (f (if negb (v =? 0)%N then v else x)) by now destruct (negb _). rewrite f_nul. destruct (_ =? 0)%N; [reflexivity|].
  change (SpecRename.ren f line) with (map f line).
  replace (match map f line with [] => 0%N | y :: _ => y end) with (f (match line with [] => 0%N | y :: _ => y end)) by (destruct line; [apply f_zero|reflexivity]).
  rewrite char_ren. apply bind_ren. intros o'. apply IH.
Qed.
Lemma line_ren cf o line : process_line str_ops (ren_conf cf) (ren_obj o) (ren line) = ren_res (process_line str_ops cf o line).
Proof.
  unfold process_line. assert (E := chars_ren cf line o 0%N). rewrite f_zero in E. rewrite E. apply bind_ren. intros o'. assert (E' := char_ren cf o' 0%N 0%N). rewrite f_zero in E'. exact E'.
Qed.
Definition ren_out (x : outcome * pobj str * list item) : outcome * pobj str * list item :=
  let '(a, o, rest) := x in (match a with Row r => Row (map (ren_cell f) r) | a => a end, ren_obj o, map (ren_item f) rest).
Lemma next_ren cf input : forall o, iternext_loop str_ops (ren_conf cf) (ren_obj o) (map (ren_item f) input) = ren_out (iternext_loop str_ops cf o input).
Proof.
  induction input as [|i input IH]; intros o; cbn [map iternext_loop].
  - cbn [b_str str_ops ren_obj p_buf p_state]. unfold SpecRename.ren. rewrite map_length. destruct (_ || _); [|reflexivity]. change (strict (ren_conf cf)) with (strict cf). destruct (strict cf); [reflexivity|].
    change (mk_pobj (p_state o) (map f (p_buf o)) (map (ren_cell f) (p_fields o)) (p_doublequote o)) with (ren_obj o). now rewrite save_ren.
  - destruct i as [line| |]; try reflexivity. cbn [ren_item]. rewrite line_ren. destruct (process_line str_ops cf o line) as [o'|e]; cbn [ren_res]; [|reflexivity].
    cbn [ren_obj p_state]. destruct (p_state o'); try reflexivity; apply IH.
Qed.
Definition ren_end (x : list (list cell) * ending) : list (list cell) * ending := (map (map (ren_cell f)) (fst x), snd x).
Lemma drain_ren cf n : forall o input, drain str_ops n (ren_conf cf) (ren_obj o) (map (ren_item f) input) = ren_end (drain str_ops n cf o input).
Proof.
  induction n as [|n IH]; intros o input; [reflexivity|]. cbn [drain]. unfold iternext. change (parse_reset str_ops (ren_obj o)) with (ren_obj (parse_reset str_ops o)). rewrite next_ren.
  destruct (iternext_loop str_ops cf (parse_reset str_ops o) input) as [[a o'] rest]. cbn [ren_out]. destruct a as [r| |e]; try reflexivity. rewrite IH. now destruct (drain str_ops n cf o' rest).
Qed.
Lemma items_ren cf input : parse_items (ren_conf cf) (map (ren_item f) input) = ren_end (parse_items cf input).
Proof. rewrite !parse_items_pure. unfold parse_items_s. rewrite map_length. change pure_new with (ren_obj pure_new) at 1. apply drain_ren. Qed.
Lemma set_char_ren o : set_char (option_map ren o) = match set_char o with Ok c => Ok (f c) | Err x => Err x end.
Proof. destruct o as [[|c [|c' s]]|]; cbn; try reflexivity; now rewrite (rn_nul f F : f 0%N = 0%N). Qed.
Lemma data_ren_ limit input d q e st rq :
  parse_data_ limit (map (ren_item f) input) (option_map ren d) (option_map ren q) (option_map ren e) st rq = ren_rows f (parse_data_ limit input d q e st rq).
Proof.
  unfold parse_data_, make_conf. rewrite !set_char_ren. destruct (set_char d) as [dc|]; cbn [bind]; [|reflexivity]. destruct (set_char q) as [qc|]; cbn [bind]; [|reflexivity]. destruct (set_char e) as [ec|]; cbn [bind]; [|reflexivity].
  change (mk_pconf (f dc) (f qc) (f ec) limit st rq) with (ren_conf (mk_pconf dc qc ec limit st rq)). rewrite items_ren. destruct (parse_items _ _) as [rows en]. reflexivity.
Qed.
Lemma data_ren limit input dl d q e st rq :
  parse_data limit (map (ren_item f) input) (option_map (ren_dialect f) dl) (option_map ren d) (option_map ren q) (option_map ren e) st rq = ren_rows f (parse_data limit input dl d q e st rq).
Proof.
  unfold parse_data. rewrite <- data_ren_. destruct dl as [dl|], d, q, e; reflexivity.
Qed.
Lemma lines_ren t : forall cur, univ_lines_aux (ren cur) (ren t) = map ren (univ_lines_aux cur t).
Proof.
  assert (G : forall n t, (length t <= n)%nat -> forall cur, univ_lines_aux (ren cur) (ren t) = map ren (univ_lines_aux cur t)).
  { clear t. unfold SpecRename.ren. induction n as [|n IH]; intros [|c t] Hn cur; cbn in Hn; try lia; cbn [map univ_lines_aux]; try now destruct cur.
    assert (IH0 : forall t, (length t <= n)%nat -> univ_lines_aux [] (map f t) = map (map f) (univ_lines_aux [] t)) by (intros t' H'; exact (IH t' H' [])).
    rewrite f_lf, f_cr. destruct (c =? LF)%N; [rewrite IH0 by lia; cbn [map]; now rewrite map_app|].
    destruct (c =? CR)%N; [|rewrite <- IH by lia; now rewrite map_app].
    destruct t as [|d t]; cbn [map]; [now rewrite map_app|]. rewrite f_lf. destruct (d =? LF)%N.
    - rewrite IH0 by (cbn in Hn; lia). cbn [map]. now rewrite map_app.
    - change (f d :: map f t) with (map f (d :: t)). rewrite IH0 by (cbn in *; lia). cbn [map]. now rewrite map_app. }
  intros cur. exact (G (length t) t (le_n _) cur).
Qed.
Lemma string_ren limit t dl rq : parse_string limit (ren t) (ren_dialect f dl) rq = ren_rows f (parse_string limit t dl rq).
Proof.
  unfold parse_string. rewrite <- (data_ren limit _ (Some dl) None None None None rq). f_equal. assert (E : univ_lines (ren t) = map ren (univ_lines t)) by exact (lines_ren t []). rewrite E, !map_map. reflexivity.
Qed.

(** ** The scores *)
Lemma b_char_ren d q e st s : b_char (f d) (f q) (f e) st (f s) = b_char d q e st s.
Proof. unfold b_char. now rewrite f_nl, !f_eqb. Qed.
Lemma b_loop_ren d q e s : forall st, b_loop (f d) (f q) (f e) st (ren s) = b_loop d q e st s.
Proof.
  induction s as [|c s IH]; intros st; [reflexivity|]. cbn [SpecRename.ren map b_loop]. rewrite b_char_ren. destruct (b_char d q e st c); cbn [bind]; [apply IH|reflexivity].
Qed.
Lemma abstraction_ren t dl : make_abstraction (ren t) (ren_dialect f dl) = make_abstraction t dl.
Proof.
  unfold make_abstraction. f_equal. unfold base_abstraction. cbn [ren_dialect sd_delimiter sd_quotechar sd_escapechar]. rewrite !set_char_ren.
  destruct (set_char (sd_delimiter dl)); [|reflexivity]. destruct (set_char (sd_quotechar dl)); [|reflexivity]. destruct (set_char (sd_escapechar dl)); [|reflexivity].
  unfold base_abstraction_sized. destruct (a_zero _ _ _); cbn [bind]; [|reflexivity]. now rewrite b_loop_ren.
Qed.
Lemma pattern_ren t dl : pattern_score (ren t) (ren_dialect f dl) = pattern_score t dl.
Proof. unfold pattern_score. now rewrite abstraction_ren. Qed.
Lemma cells_ren known known' : (forall s q, known' (ren s) q = known s q) -> forall cells total kn,
  plain_cells known' (map (ren_cell f) cells) total kn = plain_cells known cells total kn.
Proof.
  intros H. induction cells as [|[s|s q] cells IH]; intros total kn; try reflexivity. cbn [map ren_cell plain_cells]. rewrite H. destruct (known s q); cbn [bind]; [apply IH|reflexivity].
Qed.
Lemma type_ren known known' limit t dl : (forall s q, known' (ren s) q = known s q) -> type_score known' limit (ren t) (ren_dialect f dl) = type_score known limit t dl.
Proof.
  intros H. unfold type_score. rewrite string_ren. destruct (parse_string limit t dl true) as [rows en]. unfold ren_rows. cbn [fst snd]. rewrite <- concat_map. now rewrite (cells_ren known known' H).
Qed.
Lemma is_char_ren c s : is_char (f c) (ren s) = is_char c s.
Proof. unfold is_char, str_eqb. destruct s as [|x s]; [reflexivity|]. cbn. rewrite f_eqb. now destruct s. Qed.
Lemma masked_ren t q e d : masked_by_quotechar (ren t) (ren q) (ren e) (ren d) = masked_by_quotechar t q e d.
Proof.
  assert (G : forall s esc inq skip, masked_loop (ren q) (ren e) (ren d) esc inq skip (ren s) = masked_loop q e d esc inq skip s).
  { induction s as [|c s IH]; intros esc inq skip; [reflexivity|]. cbn [SpecRename.ren map masked_loop]. fold ren. change (map f s) with (ren s). rewrite !is_char_ren, !IH.
    destruct s as [|x s]; [reflexivity|]. cbn [SpecRename.ren map]. now rewrite is_char_ren. }
  unfold masked_by_quotechar. destruct d as [|x d]; [reflexivity|]. apply G.
Qed.

(** ** Writing *)
Section Write.
Variable w : wdialect.
Hypothesis HS : wd_skipspace w = false \/ f SPACE = SPACE.
Local Notation w' := (ren_csv f w).
Lemma opt_ren o c : opt_is (option_map f o) (f c) = opt_is o c.
Proof. destruct o; [apply f_eqb|reflexivity]. Qed.
Lemma mem_ren c s : mem_char (f c) (ren s) = mem_char c s.
Proof. unfold mem_char. induction s as [|x s IH]; [reflexivity|]. cbn. now rewrite f_eqb, IH. Qed.
Lemma special_ren c : w_special w' (f c) = w_special w c.
Proof. unfold w_special. cbn [ren_csv wd_delim wd_escape wd_quote wd_term]. now rewrite f_eqb, !opt_ren, f_lf, f_cr, mem_ren. Qed.
Definition rp (x : res pyexc (str * bool)) : res pyexc (str * bool) := match x with Ok (t, q) => Ok (ren t, q) | Err e => Err e end.
Lemma w_char_ren b c : w_char w' b (f c) = rp (w_char w b c).
Proof.
  unfold w_char. rewrite special_ren. cbn [ren_csv wd_quoting wd_quote wd_doublequote wd_escape]. rewrite !opt_ren.
  destruct (w_special w c); [|reflexivity]. destruct (wd_quoting w), (opt_is (wd_quote w) c), (wd_doublequote w), (opt_is (wd_escape w) c), (wd_escape w); reflexivity.
Qed.
Lemma w_field_ren s : forall b, w_field w' b (ren s) = rp (w_field w b s).
Proof.
  induction s as [|c s IH]; intros b; [reflexivity|]. cbn [SpecRename.ren map w_field]. rewrite w_char_ren. destruct (w_char w b c) as [[t q]|]; cbn [rp bind]; [|reflexivity].
  change (map f s) with (ren s). rewrite IH. destruct (w_field w q s) as [[t' q']|]; cbn [rp bind]; [|reflexivity]. unfold SpecRename.ren. now rewrite map_app.
Qed.
Lemma quote_str_ren : w_quote_str w' = ren (w_quote_str w).
Proof. unfold w_quote_str. cbn [ren_csv wd_quote]. now destruct (wd_quote w). Qed.
Lemma w_empty_ren b s : w_empty w' b (ren s) = w_empty w b s.
Proof.
  unfold w_empty. destruct s; [|reflexivity]. cbn [SpecRename.ren map ren_csv wd_delim wd_skipspace wd_quoting].
  replace ((f (wd_delim w) =? SPACE)%N && wd_skipspace w) with ((wd_delim w =? SPACE)%N && wd_skipspace w); [reflexivity|]. destruct HS as [->|E]; [now rewrite !andb_false_r|]. rewrite <- E at 2. now rewrite f_eqb.
Qed.
Definition rs (x : res pyexc str) : res pyexc str := match x with Ok t => Ok (ren t) | Err e => Err e end.
Lemma w_append_ren first b s : w_append w' first b (ren s) = rs (w_append w first b s).
Proof.
  unfold w_append. rewrite w_empty_ren. destruct (w_empty w b s) as [b'|]; cbn [bind]; [|reflexivity]. rewrite w_field_ren. destruct (w_field w b' s) as [[t q]|]; cbn [rp bind rs]; [|reflexivity].
  rewrite quote_str_ren. unfold SpecRename.ren. destruct first, q; cbn; rewrite ?map_app; reflexivity.
Qed.
Lemma value_ren v : value_str (ren_value f v) = ren (value_str v).
Proof. now destruct v. Qed.
Lemma quoted_ren v : w_quoted w' (ren_value f v) = w_quoted w v.
Proof. unfold w_quoted. cbn [ren_csv wd_quoting]. destruct (wd_quoting w), v; reflexivity. Qed.
Lemma w_fields_ren row : forall first, w_fields w' first (map (ren_value f) row) = rs (w_fields w first row).
Proof.
  induction row as [|v row IH]; intros first; [reflexivity|]. cbn [map w_fields]. rewrite quoted_ren, value_ren, w_append_ren. destruct (w_append w first _ _); cbn [rs bind]; [|reflexivity].
  rewrite IH. destruct (w_fields w false row); cbn [rs bind]; [|reflexivity]. unfold SpecRename.ren. now rewrite map_app.
Qed.
Lemma writerow_ren row : csv_writerow w' (map (ren_value f) row) = rs (csv_writerow w row).
Proof.
  unfold csv_writerow. rewrite w_fields_ren. destruct (w_fields w true row) as [t|]; cbn [rs bind]; [|reflexivity]. rewrite quote_str_ren. cbn [ren_csv wd_quoting wd_term].
  assert (A : forall u v, ren (u ++ v) = ren u ++ ren v) by (intros; apply map_app).
  destruct row as [|v row], t as [|x t]; cbn [map SpecRename.ren]; try destruct (wd_quoting w); cbn [rs]; rewrite ?A; reflexivity.
Qed.
Lemma writerows_ren rows : csv_writerows w' (map (map (ren_value f)) rows) = (ren (fst (csv_writerows w rows)), snd (csv_writerows w rows)).
Proof.
  induction rows as [|r rows IH]; [reflexivity|]. cbn [map csv_writerows]. rewrite writerow_ren. destruct (csv_writerow w r) as [t|]; cbn [rs]; [|reflexivity]. rewrite IH.
  destruct (csv_writerows w rows) as [t' x]. cbn [fst snd]. unfold SpecRename.ren. now rewrite map_app.
Qed.
End Write.
End Rename.
