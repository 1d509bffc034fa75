(** * RenameTies: breaking ties and reading after characters were exchanged *)
From Verif Require Import Base Parser Dialect ParserFacts CsvLib CsvReader Potential Ties SpecRename Rename.

Section Ties.
Variable f : N -> N.
Hypothesis F : renaming f.
Hypothesis Fc : f COMMA = COMMA.
Hypothesis Fs : f SPACE = SPACE.
Hypothesis Fh : f 45%N = 45%N.
Variable limit : Z.
Variable data : str.
Variables o_set o_set' : list SimpleDialect -> list SimpleDialect.
Hypothesis HO : forall l, o_set' (map (ren_dialect f) l) = map (ren_dialect f) (o_set l).
Local Notation ren := (ren f).
Local Notation R := (ren_dialect f).
Local Notation RT := (map (map (ren_cell f))).

Lemma list_eqb_map {A B} (g : A -> B) (e : A -> A -> bool) (e' : B -> B -> bool) :
  (forall x y, e' (g x) (g y) = e x y) -> forall a b, list_eqb e' (map g a) (map g b) = list_eqb e a b.
Proof. intros H. induction a as [|x a IH]; intros [|y b]; try reflexivity. cbn. now rewrite H, IH. Qed.
Lemma str_ren s t : str_eqb (ren s) (ren t) = str_eqb s t.
Proof. apply list_eqb_map. intros x y. now apply f_eqb. Qed.
Lemma ostr_ren a b : opt_str_eqb (option_map ren a) (option_map ren b) = opt_str_eqb a b.
Proof. destruct a, b; try reflexivity. apply str_ren. Qed.
Lemma delim_same A B : same_delim (R A) (R B) = same_delim A B.
Proof. apply ostr_ren. Qed.
Lemma quote_same A B : same_quote (R A) (R B) = same_quote A B.
Proof. apply ostr_ren. Qed.
Lemma escape_same A B : same_escape (R A) (R B) = same_escape A B.
Proof. apply ostr_ren. Qed.
Lemma differ_ren A B x : only_differ_in (R A) (R B) x = only_differ_in A B x.
Proof. destruct x; cbn [only_differ_in]; now rewrite ?delim_same, ?quote_same, ?escape_same. Qed.
Lemma dialect_ren A B : dialect_eqb (R A) (R B) = dialect_eqb A B.
Proof. unfold dialect_eqb. cbn [ren_dialect sd_delimiter sd_quotechar sd_escapechar sd_strict]. now rewrite !ostr_ren. Qed.
Lemma is_str_ren o s : is_str (option_map ren o) (ren s) = is_str o s.
Proof. unfold is_str. apply (ostr_ren o (Some s)). Qed.
Lemma cell_ren a b : cell_eqb (ren_cell f a) (ren_cell f b) = cell_eqb a b.
Proof. destruct a, b; try reflexivity; cbn; now rewrite str_ren. Qed.
Lemma table_ren X Y : table_eqb (RT X) (RT Y) = table_eqb X Y.
Proof. apply list_eqb_map. intros x y. apply list_eqb_map. apply cell_ren. Qed.
Definition rt (x : res pyexc table) : res pyexc table := match x with Ok t => Ok (RT t) | Err e => Err e end.
Lemma plist_ren d : plist limit (ren data) (R d) = rt (plist limit data d).
Proof.
  unfold plist. rewrite (string_ren f F). destruct (parse_string limit data d false) as [rows [x|]]; reflexivity.
Qed.
Lemma zip_map {A B C D} (g : A -> C) (h : B -> D) a : forall b, zip (map g a) (map h b) = map (fun p => (g (fst p), h (snd p))) (zip a b).
Proof. induction a as [|x a IH]; intros [|y b]; try reflexivity. cbn. now rewrite IH. Qed.
Lemma shape_ren X Y : same_shape (RT X) (RT Y) = same_shape X Y.
Proof.
  unfold same_shape. rewrite !map_length, zip_map. f_equal. induction (zip X Y) as [|[x y] l IH]; [reflexivity|]. cbn. now rewrite !map_length, IH.
Qed.
Definition rpair (p : str * str) : str * str := (ren (fst p), ren (snd p)).
Lemma cell_text_ren u : cell_text (ren_cell f u) = ren (cell_text u).
Proof. now destruct u. Qed.
Lemma flat_map_ext' {A B C} (g : A -> B) (h : B -> list C) (k : A -> list C) l : (forall x, h (g x) = k x) -> flat_map h (map g l) = flat_map k l.
Proof. intros H. induction l as [|x l IH]; [reflexivity|]. cbn. now rewrite H, IH. Qed.
Lemma flat_map_map' {A B C} (g : B -> C) (k : A -> list B) l : flat_map (fun x => map g (k x)) l = map g (flat_map k l).
Proof. induction l as [|x l IH]; [reflexivity|]. cbn. now rewrite map_app, IH. Qed.
Lemma different_ren X Y : different (RT X) (RT Y) = map rpair (different X Y).
Proof.
  unfold different. rewrite zip_map. rewrite <- flat_map_map'. apply flat_map_ext'. intros [x y]. cbn [fst snd]. rewrite zip_map. rewrite <- flat_map_map'. apply flat_map_ext'. intros [u v]. cbn [fst snd].
  rewrite cell_ren, !cell_text_ren. now destruct (cell_eqb u v).
Qed.
Lemma pairwise_map {A B} (g : A -> B) l : pairwise (map g l) = map (fun p => (g (fst p), g (snd p))) (pairwise l).
Proof. unfold pairwise. rewrite <- zip_map. f_equal. now destruct l. Qed.
Lemma count_ren e q u : count_escapes (option_map ren e) (option_map ren q) (ren u) = count_escapes e q u.
Proof.
  unfold count_escapes, SpecRename.ren at 3. rewrite pairwise_map. induction (pairwise u) as [|[a b] l IH]; [reflexivity|]. cbn [map filter fst snd].
  change [f a] with (ren [a]). change [f b] with (ren [b]). rewrite !is_str_ren. destruct (_ && _); cbn [length]; now rewrite IH.
Qed.
Lemma starts_ren p : forall s, starts_with (ren p) (ren s) = starts_with p s.
Proof. induction p as [|x p IH]; intros [|y s]; try reflexivity. cbn. rewrite (f_eqb f F). f_equal. apply IH. Qed.
Lemma contains_ren p s : contains (ren p) (ren s) = contains p s.
Proof.
  induction s as [|y s IH]; [apply (f_equal (fun b => b || false)), (starts_ren p [])|]. cbn [SpecRename.ren map contains]. assert (E := starts_ren p (y :: s)). cbn [SpecRename.ren map] in E. rewrite E. f_equal. exact IH.
Qed.
Definition ro (x : res pyexc (option SimpleDialect)) : res pyexc (option SimpleDialect) := match x with Ok o => Ok (option_map R o) | Err e => Err e end.
Lemma bind_rt x g h : (forall t, g (RT t) = ro (h t)) -> bind (rt x) g = ro (bind x h).
Proof. intros H. destruct x; cbn; [apply H|reflexivity]. Qed.
Lemma if_R (b : bool) A B : (if b then R A else R B) = R (if b then A else B).
Proof. now destruct b. Qed.
Lemma s_nil : @nil N = ren [].
Proof. reflexivity. Qed.
Lemma is_nil_ren o : is_str (option_map ren o) [] = is_str o [].
Proof. apply (is_str_ren o []). Qed.
Lemma is_comma_ren o : is_str (option_map ren o) [COMMA] = is_str o [COMMA].
Proof. rewrite <- (is_str_ren o [COMMA]). unfold SpecRename.ren. cbn [map]. now rewrite Fc. Qed.
Lemma is_space_ren o : is_str (option_map ren o) [SPACE] = is_str o [SPACE].
Proof. rewrite <- (is_str_ren o [SPACE]). unfold SpecRename.ren. cbn [map]. now rewrite Fs. Qed.
Lemma is_hyphen_ren o : is_str (option_map ren o) [45%N] = is_str o [45%N].
Proof. rewrite <- (is_str_ren o [45%N]). unfold SpecRename.ren. cbn [map]. now rewrite Fh. Qed.

Lemma two_ren A B : break_ties_two limit (ren data) (R A) (R B) = ro (break_ties_two limit data A B).
Proof.
  unfold break_ties_two. rewrite !differ_ren, delim_same. cbn [ren_dialect sd_delimiter sd_quotechar sd_escapechar]. rewrite !is_nil_ren, !is_comma_ren, !is_space_ren, !is_hyphen_ren.
  change (mk_dialect (option_map ren (sd_delimiter A)) (option_map ren (sd_quotechar A)) (option_map ren (sd_escapechar A)) (sd_strict A)) with (R A).
  change (mk_dialect (option_map ren (sd_delimiter B)) (option_map ren (sd_quotechar B)) (option_map ren (sd_escapechar B)) (sd_strict B)) with (R B).
  destruct (only_differ_in A B FQuotechar).
  { destruct (_ || _); [|reflexivity]. cbv zeta. rewrite !if_R, dialect_ren, !plist_ren. apply bind_rt. intros X. apply bind_rt. intros Y. rewrite table_ren. now rewrite if_R. }
  destruct (only_differ_in A B FDelimiter).
  { rewrite !if_R. destruct (_ || _); [reflexivity|]. destruct (_ || _); reflexivity. }
  destruct (only_differ_in A B FEscapechar).
  { assert (G : forall A B, bind (plist limit (ren data) (R A)) (fun X => bind (plist limit (ren data) (R B)) (fun Y => if negb (same_shape X Y) then Ok None
      else match different X Y with [] => Ok None | (u, _) :: _ => Ok (Some (if Nat.ltb 0 (count_escapes (sd_escapechar (R B)) (sd_quotechar (R B)) u) && Nat.even (count_escapes (sd_escapechar (R B)) (sd_quotechar (R B)) u) then R B else R A)) end)) =
      ro (bind (plist limit data A) (fun X => bind (plist limit data B) (fun Y => if negb (same_shape X Y) then Ok None
      else match different X Y with [] => Ok None | (u, _) :: _ => Ok (Some (if Nat.ltb 0 (count_escapes (sd_escapechar B) (sd_quotechar B) u) && Nat.even (count_escapes (sd_escapechar B) (sd_quotechar B) u) then B else A)) end)))).
    { intros A' B'. rewrite !plist_ren. apply bind_rt. intros X. apply bind_rt. intros Y. rewrite shape_ren, different_ren. destruct (negb _); [reflexivity|]. destruct (different X Y) as [|[u v] l]; [reflexivity|].
      cbn [map rpair fst snd ren_dialect sd_escapechar sd_quotechar]. rewrite count_ren. destruct (_ && _); reflexivity. }
    destruct (is_str (sd_escapechar A) []); apply G. }
  destruct (same_delim A B); [|reflexivity]. cbv zeta. destruct (_ || _); [|reflexivity]. rewrite !if_R, dialect_ren, !plist_ren.
  set (y := if dialect_eqb _ _ then B else A). apply bind_rt. intros X. apply bind_rt. intros Y. rewrite shape_ren, different_ren. destruct (negb _); [reflexivity|].
  cbn [ren_dialect sd_escapechar sd_quotechar]. destruct (sd_escapechar y) as [e|]; [|reflexivity]. destruct (sd_quotechar y) as [q|]; [|reflexivity]. cbn [option_map].
  assert (E : forallb (fun '(x, _) => contains (ren e ++ ren q) x) (map rpair (different X Y)) = forallb (fun '(x, _) => contains (e ++ q) x) (different X Y)).
  { rewrite (eq_sym (map_app f e q) : ren e ++ ren q = ren (e ++ q)). induction (different X Y) as [|[u v] l IH]; [reflexivity|]. cbn [map forallb rpair fst snd]. now rewrite contains_ren, IH. }
  rewrite E. clear E. now destruct (forallb _ _).
Qed.
Lemma mem_dialect_ren d l : mem_dialect (R d) (map R l) = mem_dialect d l.
Proof. unfold mem_dialect. induction l as [|x l IH]; [reflexivity|]. cbn. now rewrite dialect_ren, IH. Qed.
Lemma dset_ren d l : dset_add (R d) (map R l) = map R (dset_add d l).
Proof. unfold dset_add. rewrite mem_dialect_ren. destruct (mem_dialect d l); [reflexivity|]. now rewrite map_app. Qed.
Lemma equal_delim_ren l : equal_delim (map R l) = equal_delim l.
Proof. destruct l as [|d l]; [reflexivity|]. cbn [map equal_delim]. induction l as [|x l IH]; [reflexivity|]. cbn. now rewrite delim_same, IH. Qed.
Definition rpp (p : SimpleDialect * SimpleDialect) := (R (fst p), R (snd p)).
Lemma equal_pairs_ren ps : equal_pairs limit (ren data) (map rpp ps) = match equal_pairs limit data ps with Ok l => Ok (map rpp l) | Err x => Err x end.
Proof.
  induction ps as [|[a b] ps IH]; [reflexivity|]. cbn [map rpp fst snd equal_pairs]. rewrite !plist_ren, IH. destruct (plist limit data a); cbn [rt bind]; [|reflexivity]. destruct (plist limit data b); cbn [rt bind]; [|reflexivity].
  destruct (equal_pairs limit data ps); cbn [bind]; [|reflexivity]. rewrite table_ren. now destruct (table_eqb _ _).
Qed.
Lemma break_pairs_ren ps : forall new vis, break_pairs limit (ren data) (map rpp ps) (map R new) (map R vis) =
  match break_pairs limit data ps new vis with Ok (a, b) => Ok (map R a, map R b) | Err x => Err x end.
Proof.
  induction ps as [|[a b] ps IH]; intros new vis; [reflexivity|]. cbn [map rpp fst snd break_pairs]. rewrite two_ren. destruct (break_ties_two limit data a b) as [o|]; cbn [ro bind]; [|reflexivity].
  rewrite !dset_ren. destruct o as [d|]; cbn [option_map]; [rewrite dset_ren|]; apply IH.
Qed.
Lemma fold_ren vis l : forall new, fold_left (fun new d => if mem_dialect d (map R vis) then new else dset_add d new) (map R l) (map R new) =
  map R (fold_left (fun new d => if mem_dialect d vis then new else dset_add d new) l new).
Proof.
  induction l as [|d l IH]; intros new; [reflexivity|]. cbn [map fold_left]. rewrite mem_dialect_ren, dset_ren. destruct (mem_dialect d vis); apply IH.
Qed.
Lemma reduce_ren l : reduce_pairwise limit (ren data) o_set' (map R l) = match reduce_pairwise limit data o_set l with Ok o => Ok (option_map (map R) o) | Err x => Err x end.
Proof.
  unfold reduce_pairwise. rewrite equal_delim_ren. destruct (negb _); [reflexivity|]. rewrite pairwise_map. change (map (fun p => (R (fst p), R (snd p))) (pairwise l)) with (map rpp (pairwise l)). rewrite equal_pairs_ren.
  destruct (equal_pairs limit data (pairwise l)) as [eq|]; cbn [bind]; [|reflexivity]. assert (E := break_pairs_ren eq [] []). cbn [map] in E. rewrite E. destruct (break_pairs limit data eq [] []) as [[new vis]|]; cbn [bind]; [|reflexivity].
  cbn [option_map]. rewrite <- HO. rewrite fold_ren. reflexivity.
Qed.
Lemma three_ren A B C : break_ties_three limit (ren data) o_set' (R A) (R B) (R C) = ro (break_ties_three limit data o_set A B C).
Proof.
  unfold break_ties_three. rewrite !delim_same, !escape_same. cbv zeta. destruct (_ && _ && _).
  - rewrite !plist_ren. apply bind_rt. intros X. apply bind_rt. intros Y. apply bind_rt. intros Z. rewrite !map_length. destruct (_ || _); [reflexivity|].
    set (g := fun p : table * SimpleDialect => (RT (fst p), R (snd p))). change (zip [RT X; RT Y; RT Z] [R A; R B; R C]) with (map g (zip [X; Y; Z] [A; B; C])).
    assert (E : forall l, find (fun '(p, d) => is_str (sd_quotechar d) []) (map g l) = option_map g (find (fun '(p, d) => is_str (sd_quotechar d) []) l)).
    { induction l as [|[x d] l IH]; [reflexivity|]. cbn [map find g fst snd ren_dialect sd_quotechar]. rewrite is_nil_ren. destruct (is_str (sd_quotechar d) []); [reflexivity|apply IH]. }
    rewrite E. destruct (find _ _) as [[pn dn]|]; [|reflexivity]. cbn [option_map g fst snd].
    assert (E2 : forall l, filter (fun '(p, d) => negb (table_eqb p (RT pn))) (map g l) = map g (filter (fun '(p, d) => negb (table_eqb p pn)) l)).
    { induction l as [|[x d] l IH]; [reflexivity|]. cbn [map filter g fst snd]. rewrite table_ren. destruct (negb _); cbn [map g fst snd]; now rewrite IH. }
    rewrite E2. change [R A; R B; R C] with (map R [A; B; C]). rewrite reduce_ren.
    assert (E3 : bind (match reduce_pairwise limit data o_set [A; B; C] with Ok o => Ok (option_map (map R) o) | Err x => Err x end) (fun new => match new with Some [d] => Ok (Some d) | _ => Ok None end) =
      ro (bind (reduce_pairwise limit data o_set [A; B; C]) (fun new => match new with Some [d] => Ok (Some d) | _ => Ok None end))).
    { destruct (reduce_pairwise limit data o_set [A; B; C]) as [[[|a [|b l]]|]|]; reflexivity. }
    destruct (filter _ _) as [|[p0 d0] [|[p1 d1] l]]; cbn [map g fst snd]; try exact E3. rewrite !table_ren. destruct (table_eqb pn p0); [apply two_ren|]. destruct (table_eqb pn p1); [apply two_ren|reflexivity].
  - destruct (_ && _); [|reflexivity].
    assert (E : forall l, filter (fun d => negb (is_str (sd_quotechar d) [])) (map R l) = map R (filter (fun d => negb (is_str (sd_quotechar d) [])) l)).
    { induction l as [|d l IH]; [reflexivity|]. cbn [map filter]. change (sd_quotechar (R d)) with (option_map ren (sd_quotechar d)). rewrite is_nil_ren. destruct (negb _); cbn [map]; now rewrite IH. }
    change [R A; R B; R C] with (map R [A; B; C]). rewrite E. destruct (filter _ _) as [|d0 [|d1 [|d2 l]]]; try reflexivity. apply two_ren.
Qed.
Lemma four_ren l : break_ties_four limit (ren data) o_set' (map R l) = ro (break_ties_four limit data o_set l).
Proof.
  unfold break_ties_four. rewrite equal_delim_ren. destruct (negb _); [reflexivity|]. rewrite reduce_ren. destruct (reduce_pairwise limit data o_set l) as [[[|a [|b [|c [|d l']]]]|]|]; cbn [bind option_map map]; try reflexivity; [apply two_ren|apply three_ren].
Qed.
Lemma tie_ren l : tie_breaker limit (ren data) o_set' (map R l) = ro (tie_breaker limit data o_set l).
Proof.
  destruct l as [|a [|b [|c [|d [|e l]]]]]; cbn [map tie_breaker]; try reflexivity; [apply two_ren|apply three_ren|apply (four_ren [a; b; c; d])].
Qed.
End Ties.

(** ** csv.reader *)
Section Csv.
Variable f : N -> N.
Hypothesis F : renaming f.
Variable w : wdialect.
Variable strict : bool.
Variable limit : Z.
Hypothesis HS : wd_skipspace w = false \/ f SPACE = SPACE.
Local Notation w' := (ren_csv f w).
Local Notation ren := (ren f).
Definition ren_cobj (o : cobj) : cobj := mk_cobj (c_state o) (ren (c_field o)) (map ren (c_fields o)).
Definition rc (x : res pyexc cobj) : res pyexc cobj := match x with Ok o => Ok (ren_cobj o) | Err e => Err e end.
Lemma c_add_ren o c st : c_add limit (ren_cobj o) (f c) st = rc (c_add limit o c st).
Proof.
  unfold c_add, ren_cobj. cbn. unfold SpecRename.ren. rewrite map_length. destruct (_ <=? _)%Z; [reflexivity|]. cbn. unfold ren_cobj, SpecRename.ren. cbn. now rewrite map_app.
Qed.
Lemma c_save_ren o st : c_save (ren_cobj o) st = ren_cobj (c_save o st).
Proof. unfold c_save, ren_cobj. cbn. now rewrite map_app. Qed.
Lemma c_goto_ren o st : c_goto (ren_cobj o) st = ren_cobj (c_goto o st).
Proof. reflexivity. Qed.
Lemma c_nl_ren c : c_nl (option_map f c) = c_nl c.
Proof. destruct c; [now apply f_nl|reflexivity]. Qed.
Lemma c_end_ren c : c_end (option_map f c) = c_end c.
Proof. destruct c; [now apply f_nl|reflexivity]. Qed.
Lemma c_is_ren o c : c_is (option_map f o) (option_map f c) = c_is o c.
Proof. destruct c; [now apply opt_ren|reflexivity]. Qed.
Lemma c_delim_ren c : c_is (Some (wd_delim w')) (option_map f c) = c_is (Some (wd_delim w)) c.
Proof. apply (c_is_ren (Some (wd_delim w))). Qed.
Lemma c_esc_ren c : c_is (wd_escape w') (option_map f c) = c_is (wd_escape w) c.
Proof. apply c_is_ren. Qed.
Lemma c_quote_ren c : c_quote w' (option_map f c) = c_quote w c.
Proof. unfold c_quote. cbn [ren_csv wd_quoting wd_quote]. now rewrite c_is_ren. Qed.
Lemma c_space_ren c : c_is (Some SPACE) (option_map f c) && wd_skipspace w' = c_is (Some SPACE) c && wd_skipspace w.
Proof. cbn [ren_csv wd_skipspace]. destruct HS as [E|E]; [now rewrite E, !andb_false_r|]. rewrite <- E at 1. now rewrite (c_is_ren (Some SPACE)). Qed.
Lemma c_after_ren c : c_after (option_map f c) = c_after c.
Proof. now destruct c. Qed.
Lemma c_char_ren c : c_char (option_map f c) = f (c_char c).
Proof. destruct c; [reflexivity|]. symmetry. apply (rn_lf f F). Qed.
Ltac go := rewrite ?c_char_ren, ?c_end_ren, ?c_nl_ren, ?c_quote_ren, ?c_esc_ren, ?c_delim_ren, ?c_space_ren, ?c_after_ren, ?c_save_ren, ?c_goto_ren, ?c_add_ren.
Lemma c_start_ren o c : c_start_field w' limit (ren_cobj o) (option_map f c) = rc (c_start_field w limit o c).
Proof.
  unfold c_start_field. go. destruct (c_end c); [reflexivity|]. destruct (c_quote w c); [reflexivity|]. destruct (c_is (wd_escape w) c); [reflexivity|]. destruct (_ && _); [reflexivity|]. destruct (c_is _ c); reflexivity.
Qed.
Lemma c_in_ren o c : c_in_field w' limit (ren_cobj o) (option_map f c) = rc (c_in_field w limit o c).
Proof.
  unfold c_in_field. go. destruct (c_end c); [reflexivity|]. destruct (c_is (wd_escape w) c); [reflexivity|]. destruct (c_is _ c); reflexivity.
Qed.
Lemma c_process_ren o c : c_process w' strict limit (ren_cobj o) (option_map f c) = rc (c_process w strict limit o c).
Proof.
  unfold c_process. change (c_state (ren_cobj o)) with (c_state o). go. rewrite c_start_ren, c_in_ren. change (wd_doublequote w') with (wd_doublequote w). destruct (c_state o).
  - destruct c; [|reflexivity]. cbn [option_map]. destruct (c_nl _); reflexivity.
  - reflexivity.
  - reflexivity.
  - reflexivity.
  - destruct c; [|reflexivity]. cbn [option_map]. destruct (c_is _ _); [reflexivity|]. destruct (c_quote _ _); reflexivity.
  - reflexivity.
  - destruct (c_quote _ _); [reflexivity|]. destruct (c_is _ _); [reflexivity|]. destruct (c_end _); [reflexivity|]. destruct (negb _); reflexivity.
  - destruct c; [|reflexivity]. cbn [option_map]. destruct (c_nl _); reflexivity.
  - destruct c; reflexivity.
Qed.
Lemma c_chars_ren l : forall o, c_chars w' strict limit (ren_cobj o) (ren l) = rc (c_chars w strict limit o l).
Proof.
  induction l as [|c l IH]; intros o; [reflexivity|]. cbn [SpecRename.ren map c_chars]. change (Some (f c)) with (option_map f (Some c)). rewrite c_process_ren. destruct (c_process w strict limit o (Some c)); cbn [rc bind]; [apply IH|reflexivity].
Qed.
Definition ren_table (x : list (list str) * option pyexc) : list (list str) * option pyexc := (map (map ren) (fst x), snd x).
Lemma c_run_ren ls : forall o, c_run w' strict limit (ren_cobj o) (map ren ls) = ren_table (c_run w strict limit o ls).
Proof.
  induction ls as [|l ls IH]; intros o; cbn [map c_run].
  - unfold c_eof. cbn [ren_cobj c_field c_state c_fields]. unfold SpecRename.ren at 1. rewrite map_length. destruct (_ || _); [|reflexivity]. destruct strict; [reflexivity|]. unfold ren_table. cbn. now rewrite map_app.
  - rewrite c_chars_ren. destruct (c_chars w strict limit o l) as [o1|]; cbn [rc bind]; [|reflexivity]. change None with (option_map f None) at 1. rewrite c_process_ren. destruct (c_process w strict limit o1 None) as [o2|]; cbn [rc]; [|reflexivity].
    cbn [ren_cobj c_state c_fields]. assert (E := IH c_new). change (ren_cobj c_new) with c_new in E. rewrite E. destruct (c_state o2); try apply (IH o2). now destruct (c_run w strict limit c_new ls).
Qed.
Lemma csv_reader_ren t : csv_reader w' strict limit (ren t) = ren_table (csv_reader w strict limit t).
Proof.
  unfold csv_reader. assert (E : univ_lines (ren t) = map ren (univ_lines t)) by exact (lines_ren f F t []). rewrite E. apply (c_run_ren (univ_lines t) c_new).
Qed.
End Csv.

Lemma swapped_renaming a b : a <> NUL -> a <> CR -> a <> LF -> b <> NUL -> b <> CR -> b <> LF -> renaming (swapped a b).
Proof.
  intros A1 A2 A3 B1 B2 B3. assert (G : forall x, x <> a -> x <> b -> swapped a b x = x).
  { intros x Ha Hb. unfold swapped. apply N.eqb_neq in Ha as ->. now apply N.eqb_neq in Hb as ->. }
  split; [|apply G; congruence..]. intros x y. unfold swapped. destruct (N.eqb_spec x a), (N.eqb_spec y a), (N.eqb_spec x b), (N.eqb_spec y b); congruence.
Qed.
