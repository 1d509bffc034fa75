(** * Pieces: how the input is divided into strings *)
From Coq Require Import Bool.
From Verif Require Import Base Parser ParserFacts ParserProps SpecLayout SpecPotential SpecParse NormalRows SpecPieces.
Local Notation len := List.length.
Open Scope N_scope.

(** ** The parser over a list of strings, without fuel *)
Fixpoint run (cf : pconf) (o : pobj str) (input : list str) : list (list cell) * ending :=
  match input with
  | [] => at_eof cf o
  | l :: rest =>
      match process_line str_ops cf o l with
      | Err e => ([], Raised e)
      | Ok o' => match p_state o' with START_RECORD => cons_row (p_fields o') (run cf (parse_reset str_ops o') rest) | _ => run cf o' rest end
      end
  end.
Lemma dloop_run cf : forall ls fuel o, (len ls <= fuel)%nat -> (1 <= fuel)%nat -> dloop cf fuel o (map ILine ls) = run cf o ls.
Proof.
  induction ls as [|l ls IH]; intros fuel o H H1.
  - cbn [map run]. unfold dloop, at_eof. destruct (iternext_loop str_ops cf o []) as [[r o'] rest] eqn:E. destruct r; try reflexivity.
    assert (rest = []) by (cbn in E; destruct (_ || _), (strict cf); congruence). subst rest. destruct fuel; [lia|]. reflexivity.
  - cbn [map run]. unfold dloop. cbn [iternext_loop]. destruct (process_line str_ops cf o l) as [o'|e]; [|reflexivity].
    cbn [len] in H. destruct fuel as [|fuel]; [lia|]. destruct (p_state o') eqn:ES.
    1: { f_equal. rewrite drain_dloop. destruct ls as [|l' ls]; [|apply IH; cbn [len] in *; lia].
         cbn [map run]. unfold dloop, at_eof. reflexivity. }
    all: change (dloop cf (S fuel) o' (map ILine ls) = run cf o' ls); apply IH; lia.
Qed.
Lemma parse_run cf ls : parse_items cf (map ILine ls) = run cf pure_new ls.
Proof.
  rewrite parse_items_pure. unfold parse_items_s. rewrite drain_dloop. change (parse_reset str_ops pure_new) with pure_new. rewrite map_length.
  destruct ls as [|l ls]; [reflexivity|]. apply dloop_run; cbn [len]; lia.
Qed.

(** ** Characters with their real successors *)
Fixpoint chars (cf : pconf) (o : pobj str) (line : str) : res perr (pobj str) :=
  match line with
  | [] => Ok o
  | x :: rest => if x =? 0 then Err ENull else bind (process_char str_ops cf o x (hd 0 rest)) (fun o' => chars cf o' rest)
  end.
Lemma process_hd cf : forall line o v, v = 0 \/ v = hd 0 line -> process_chars str_ops cf o v line = chars cf o line.
Proof.
  induction line as [|x line IH]; intros o v H; [reflexivity|]. cbn [process_chars chars].
  assert (E : (if negb (v =? 0) then v else x) = x) by (destruct H as [->| ->]; [reflexivity|]; cbn [hd]; destruct (x =? 0) eqn:EX; [now apply N.eqb_eq in EX as ->|reflexivity]).
  rewrite E. assert (EH : match line with [] => 0 | y :: _ => y end = hd 0 line) by now destruct line. rewrite EH.
  destruct (x =? 0); [reflexivity|]. destruct (process_char str_ops cf o x (hd 0 line)) as [o'|]; [|reflexivity]. cbn [bind]. apply IH. now right.
Qed.
Lemma process_line_chars cf o l : process_line str_ops cf o l = bind (chars cf o l) (fun o => process_char str_ops cf o 0 0).
Proof. unfold process_line. now rewrite process_hd by now left. Qed.

Section Conf.
Variable cf : pconf.
Hypothesis HC : plain_conf cf.
Local Notation q := (quotechar cf).
Lemma no_escape : escapechar cf = 0. Proof. apply HC. Qed.
Lemma quote_flat : is_nl q = false.
Proof. destruct HC as (_ & H1 & H2 & _). unfold is_nl. apply orb_false_iff. split; now apply N.eqb_neq. Qed.

(** [b]: a quoted cell is open; [v]: the next character. *)
Definition sane (o : pobj str) (b : bool) (v : N) : Prop :=
  match p_state o with
  | IN_QUOTED_FIELD => b = true /\ q <> 0
  | START_RECORD | START_FIELD | IN_FIELD | EAT_CRNL => b = false
  | QUOTE_IN_QUOTED_FIELD => b = false /\ v = q /\ q <> 0
  | _ => False
  end.
Ltac add := unfold add_char; cbn [bind str_ops b_add b_str]; unfold str_add; destruct (_ <=? _)%Z; cbn [bind]; [discriminate|].
Lemma sane_step o b u v o' : sane o b u -> u <> 0 -> process_char str_ops cf o u v = Ok o' -> sane o' (xorb b (u =? q)) v.
Proof.
  intros HS Hu. unfold sane, process_char in *. assert (HN : (u =? q) = true -> q <> 0) by (intros H; apply N.eqb_eq in H; congruence). apply N.eqb_neq in Hu.
  assert (HE : (u =? escapechar cf) = false) by (rewrite no_escape; exact Hu).
  assert (HQ : is_nl u = true -> (u =? q) = false).
  { intros Hn. destruct (N.eqb_spec u q) as [->|]; [|reflexivity]. now rewrite quote_flat in Hn. }
  destruct (p_state o) eqn:ES; try contradiction; try subst b; rewrite ?Hu; cbn [andb orb negb].
  - destruct (is_nl u) eqn:EN; [intros [= <-]; cbn; now rewrite HQ|]. unfold do_start_field. rewrite EN, Hu, HE. cbn [orb].
    destruct (u =? q) eqn:EQ; [add; intros [= <-]; split; [reflexivity|now apply HN]|]. destruct (u =? delimiter cf); [intros [= <-]; unfold save_field; cbn; now destruct (quotecond _ _)|].
    add. intros [= <-]. reflexivity.
  - unfold do_start_field. rewrite Hu, HE. destruct (is_nl u) eqn:EN; cbn [orb].
    + intros [= <-]. cbn. now rewrite HQ.
    + destruct (u =? q) eqn:EQ; [add; intros [= <-]; split; [reflexivity|now apply HN]|]. destruct (u =? delimiter cf); [intros [= <-]; unfold save_field; cbn; destruct (quotecond _ _); cbn; now rewrite ES|].
      add. intros [= <-]. reflexivity.
  - unfold do_in_field. rewrite Hu, HE. destruct (is_nl u) eqn:EN; cbn [orb].
    + intros [= <-]. cbn. now rewrite HQ.
    + destruct (u =? q) eqn:EQ; [add; intros [= <-]; split; [reflexivity|now apply HN]|]. destruct (u =? delimiter cf); [intros [= <-]; reflexivity|].
      add. intros [= <-]. cbn. now rewrite ES.
  - destruct HS as (-> & Hq). rewrite HE. destruct (u =? q) eqn:EQ.
    + destruct (v =? q) eqn:EV; [intros [= <-]; cbn; split; [reflexivity|split; [now apply N.eqb_eq|exact Hq]]|]. destruct (strict cf); [discriminate|]. add. intros [= <-]. reflexivity.
    + add. intros [= <-]. cbn. rewrite ES. now split.
  - destruct HS as (-> & -> & Hq). rewrite N.eqb_refl. add. intros [= <-]. now split.
  - destruct (is_nl u) eqn:EN; [|discriminate]. intros [= <-]. rewrite ES. now rewrite HQ.
Qed.
Definition odd_q (s : str) : bool := Nat.odd (occurrences q s).
Lemma odd_app a b : odd_q (a ++ b) = xorb (odd_q a) (odd_q b).
Proof. unfold odd_q. now rewrite occ_app, Nat.odd_add. Qed.
Lemma sane_chars : forall l o b o', sane o b (hd 0 l) -> chars cf o l = Ok o' -> sane o' (xorb b (odd_q l)) 0.
Proof.
  induction l as [|x l IH]; intros o b o' HS; cbn [chars].
  - intros [= <-]. change (odd_q []) with false. rewrite xorb_false_r. exact HS.
  - destruct (N.eqb_spec x 0) as [|Hx]; [discriminate|]. destruct (process_char str_ops cf o x (hd 0 l)) as [o1|] eqn:E; [|discriminate]. cbn [bind].
    intros H. cbn [hd] in HS. pose proof (sane_step o b x (hd 0 l) o1 HS Hx E) as H1. specialize (IH o1 _ o' H1 H).
    unfold odd_q in *. rewrite odd_occ_cons. now rewrite <- xorb_assoc_reverse in IH || rewrite xorb_assoc in IH.
Qed.
(** The end of a string. *)
Lemma sane_event o b : sane o b 0 ->
  (b = true /\ process_char str_ops cf o 0 0 = Ok o /\ p_state o = IN_QUOTED_FIELD) \/
  (b = false /\ exists o', process_char str_ops cf o 0 0 = Ok o' /\ p_state o' = START_RECORD).
Proof.
  unfold sane, process_char. destruct (p_state o) eqn:ES; intros HS; try contradiction; try subst b.
  - right. split; [reflexivity|]. exists o. now split.
  - right. split; [reflexivity|]. unfold do_start_field. eexists. split; reflexivity.
  - right. split; [reflexivity|]. unfold do_in_field. eexists. split; reflexivity.
  - left. now destruct HS as (-> & _).
  - destruct HS as (_ & E & H). now elim H.
  - right. split; [reflexivity|]. eexists. split; reflexivity.
Qed.
Lemma new_sane o v : p_state o = START_RECORD -> sane o false v.
Proof. intros H. unfold sane. now rewrite H. Qed.

(** ** A cut inside a quoted cell *)
Lemma chars_cut y : forall x o b, sane o b (hd 0 (x ++ y)) -> xorb b (odd_q x) = true ->
  chars cf o (x ++ y) = bind (chars cf o x) (fun o' => chars cf o' y).
Proof.
  induction x as [|u x IH]; intros o b HS HB; [reflexivity|]. cbn [app chars]. destruct (N.eqb_spec u 0) as [|Hu]; [reflexivity|].
  cbn [app hd] in HS. unfold odd_q in HB. rewrite odd_occ_cons in HB.
  destruct x as [|u' x].
  - cbn [app hd]. change (Nat.odd (occurrences q [])) with false in HB. rewrite xorb_false_r in HB.
    assert (E : process_char str_ops cf o u (hd 0 y) = process_char str_ops cf o u 0).
    { unfold process_char. destruct (p_state o) eqn:ES; try reflexivity. unfold sane in HS. rewrite ES in HS. destruct HS as (-> & _).
      destruct (u =? q); [discriminate HB|reflexivity]. }
    rewrite E. destruct (process_char str_ops cf o u 0) as [o1|]; reflexivity.
  - change (hd 0 ((u' :: x) ++ y)) with u'. change (hd 0 (u' :: x)) with u'. destruct (process_char str_ops cf o u u') as [o1|] eqn:E; [|reflexivity]. cbn [bind].
    apply (IH o1 (xorb b (u =? q))); [exact (sane_step o b u u' o1 HS Hu E)|]. unfold odd_q. now rewrite xorb_assoc.
Qed.
Lemma run_cut x y post : forall pre o b, (forall v, sane o b v) -> xorb b (odd_q (List.concat (pre ++ [x]))) = true ->
  run cf o (pre ++ x :: y :: post) = run cf o (pre ++ (x ++ y) :: post).
Proof.
  induction pre as [|p pre IH]; intros o b HS HB.
  - cbn [app List.concat] in *. rewrite app_nil_r in HB. cbn [run]. rewrite !process_line_chars, (chars_cut y x o b (HS _) HB).
    destruct (chars cf o x) as [o1|] eqn:E; [|reflexivity]. cbn [bind]. pose proof (sane_chars x o b o1 (HS _) E) as H1. rewrite HB in H1.
    destruct (sane_event o1 true H1) as [(_ & E1 & ES)|(K & _)]; [|discriminate]. rewrite E1, ES. cbn [run]. now rewrite process_line_chars.
  - cbn [app List.concat] in HB. rewrite odd_app in HB. cbn [app run]. rewrite process_line_chars. destruct (chars cf o p) as [o1|] eqn:E; [|reflexivity]. cbn [bind].
    pose proof (sane_chars p o b o1 (HS _) E) as H1. rewrite <- xorb_assoc in HB.
    destruct (sane_event o1 _ H1) as [(K & E1 & ES)|(K & o2 & E1 & ES)]; rewrite E1, ES; rewrite K in HB.
    + apply (IH o1 true); [|exact HB]. intros v. unfold sane in *. rewrite ES in *. now rewrite K in H1.
    + f_equal. apply (IH _ false); [|exact HB]. intros v. now apply new_sane.
Qed.
Lemma cut_inside pre x y post : leaves_open cf (List.concat (pre ++ [x])) ->
  parse_items cf (map ILine (pre ++ x :: y :: post)) = parse_items cf (map ILine (pre ++ (x ++ y) :: post)).
Proof.
  intros (_ & H). rewrite !parse_run. apply (run_cut x y post pre pure_new false); [intros v; now apply new_sane|]. now rewrite xorb_false_l.
Qed.

(** ** A string that ends outside of quoted cells ends the row *)
Lemma run_any o ls : run cf (parse_reset str_ops o) ls = run cf pure_new ls.
Proof.
  pose proof (drain_f cf cf (fun c => c) eq_refl eq_refl eq_refl eq_refl eq_refl (fun _ _ => eq_refl) (S (S (len ls))) o pure_new (map ILine ls)) as (E1 & E2).
  rewrite !(map_ext _ _ (fun x => map_id x)), !map_id in E1.
  rewrite !drain_dloop, !dloop_run in E1, E2 by lia. change (parse_reset str_ops pure_new) with pure_new in E1, E2.
  destruct (run cf (parse_reset str_ops o) ls), (run cf pure_new ls). cbn in *. congruence.
Qed.
Lemma run_ends post : forall ls o b, (forall v, sane o b v) -> (b = false -> exists o', o = parse_reset str_ops o') ->
  (q = 0 \/ xorb b (odd_q (List.concat ls)) = false) -> snd (run cf o ls) = Done ->
  run cf o (ls ++ post) = (fst (run cf o ls) ++ fst (run cf pure_new post), snd (run cf pure_new post)).
Proof.
  induction ls as [|l ls IH]; intros o b HS HR HB HD.
  - assert (Hb : b = false).
    { destruct HB as [HB|HB]; [|cbn in HB; now rewrite xorb_false_r in HB]. destruct b; [|reflexivity]. specialize (HS (q + 1)). unfold sane in HS.
      destruct (p_state o); try discriminate; try contradiction; destruct HS as (_ & HS); try contradiction; destruct HS; try contradiction. }
    destruct (HR Hb) as (o' & ->). cbn [app run]. rewrite run_any. destruct (run cf pure_new post); reflexivity.
  - cbn [app run] in *. rewrite process_line_chars in *. destruct (chars cf o l) as [o1|] eqn:E; [|discriminate]. cbn [bind] in *.
    pose proof (sane_chars l o b o1 (HS _) E) as H1. cbn [List.concat] in HB. rewrite odd_app, <- xorb_assoc in HB.
    destruct (sane_event o1 _ H1) as [(K & E1 & ES)|(K & o2 & E1 & ES)]; rewrite E1, ES in *; rewrite K in HB.
    + apply (IH o1 true); [|discriminate|exact HB|exact HD]. intros v. unfold sane in *. rewrite ES in *. now rewrite K in H1.
    + unfold cons_row in *. cbn [snd fst] in *. rewrite (IH _ false); [reflexivity| |intros _; now exists o2|exact HB|exact HD]. intros v. now apply new_sane.
Qed.
Lemma ends_row ls post : ~ leaves_open cf (List.concat ls) -> snd (parse_items cf (map ILine ls)) = Done ->
  parse_items cf (map ILine (ls ++ post)) = (fst (parse_items cf (map ILine ls)) ++ fst (parse_items cf (map ILine post)), snd (parse_items cf (map ILine post))).
Proof.
  intros H HD. rewrite !parse_run in *. apply (run_ends post ls pure_new false); [intros v; now apply new_sane|intros _; now exists pure_new| |exact HD].
  destruct (N.eq_dec q 0) as [->|Hq]; [now left|]. right. rewrite xorb_false_l. unfold leaves_open in H. unfold odd_q. destruct (Nat.odd _); [elim H; now split|reflexivity].
Qed.

(** ** Lines without their line ends *)
Lemma unlined_app a b : unlined (a ++ b) = unlined a ++ unlined b.
Proof. apply filter_app. Qed.
Lemma unlined_flat c : is_nl c = false -> unlined [c] = [c].
Proof. intros H. unfold unlined. cbn. unfold is_nl in H. now rewrite orb_comm, H || rewrite H. Qed.
Definition ends_ok (st : pstate) (buf : str) : Prop :=
  match st with
  | START_RECORD | START_FIELD => buf = []
  | IN_FIELD => buf <> [] /\ is_nl (hd 0 buf) = false /\ is_nl (List.last buf 0) = false
  | IN_QUOTED_FIELD | QUOTE_IN_QUOTED_FIELD => buf <> [] /\ is_nl (hd 0 buf) = false
  | _ => False
  end.
Definition R (o1 o2 : pobj str) : Prop :=
  p_state o1 = p_state o2 /\ p_buf o2 = unlined (p_buf o1) /\ p_fields o2 = map unlined_cell (p_fields o1) /\ ends_ok (p_state o1) (p_buf o1).
Definition unquoted (buf : str) : str * bool :=
  if quotecond buf q then (strip_back (strip_front buf), true) else (buf, false).
Lemma unquoted_flat buf : buf = [] \/ (buf <> [] /\ is_nl (hd 0 buf) = false /\ is_nl (List.last buf 0) = false) ->
  unquoted (unlined buf) = (unlined (fst (unquoted buf)), snd (unquoted buf)).
Proof.
  intros [->|(H & Ha & Hz)]; [unfold unquoted, quotecond; cbn; now destruct (q =? 0)|].
  destruct buf as [|a buf]; [now elim H|]. clear H. cbn [hd] in Ha. change (a :: buf) with ([a] ++ buf). rewrite unlined_app, (unlined_flat a Ha).
  destruct buf as [|z buf _] using rev_ind; [assert (E : unquoted [a] = ([a], false)) by (unfold unquoted, quotecond; now destruct (q =? 0)); change ([a] ++ unlined []) with [a]; change ([a] ++ []) with [a]; rewrite E; cbn [fst snd]; now rewrite (unlined_flat a Ha)|].
  assert (Hz' : is_nl z = false) by (change (a :: buf ++ [z]) with ((a :: buf) ++ [z]) in Hz; now rewrite last_last in Hz). rewrite unlined_app, (unlined_flat z Hz').
  assert (K : forall m, unquoted (([a] ++ m ++ [z])) = if negb (q =? 0) && ((a =? q) && (z =? q)) then (m, true) else ([a] ++ m ++ [z], false)).
  { intros m. unfold unquoted, quotecond. destruct (q =? 0); [reflexivity|]. cbn [negb andb app].
    replace (Nat.leb (len (a :: m ++ [z])) 1) with false by (symmetry; apply Nat.leb_gt; cbn [len]; rewrite app_length; cbn; lia).
    unfold str_endswith. change (rev (a :: m ++ [z])) with (rev (m ++ [z]) ++ [a]). rewrite rev_unit. cbn [app str_startswith].
    destruct ((a =? q) && (z =? q)); [|reflexivity]. unfold strip_back, strip_front. cbn [tl]. now rewrite removelast_last. }
  rewrite !K. destruct (negb (q =? 0) && ((a =? q) && (z =? q))); cbn [fst snd]; [reflexivity|]. now rewrite !unlined_app, (unlined_flat a Ha), (unlined_flat z Hz').
Qed.
Lemma save_eq o : save_field str_ops cf o false =
  mk_pobj (p_state o) [] (p_fields o ++ [if return_quoted cf then CTuple (fst (unquoted (p_buf o))) (snd (unquoted (p_buf o))) else CStr (fst (unquoted (p_buf o)))]) (p_doublequote o).
Proof. unfold save_field, unquoted. cbn [b_str str_ops b_clear andb]. destruct (quotecond _ _); reflexivity. Qed.
Lemma save_R o1 o2 : R o1 o2 -> (p_state o1 = START_FIELD \/ p_state o1 = IN_FIELD \/ p_state o1 = START_RECORD) ->
  p_fields (save_field str_ops cf o2 false) = map unlined_cell (p_fields (save_field str_ops cf o1 false)).
Proof.
  intros (_ & EB & EF & HO) HS. rewrite !save_eq. cbn [p_fields]. rewrite map_app, EF, EB. f_equal. cbn [map]. f_equal.
  rewrite unquoted_flat; [destruct (return_quoted cf); reflexivity|]. destruct HS as [E|[E|E]]; rewrite E in HO; cbn in HO; auto.
Qed.
Lemma add_R o1 o2 u : p_buf o2 = unlined (p_buf o1) -> is_nl u = false ->
  match add_char str_ops cf o1 u with
  | Ok o1' => o1' = mk_pobj (p_state o1) (p_buf o1 ++ [u]) (p_fields o1) (p_doublequote o1) /\
      add_char str_ops cf o2 u = Ok (mk_pobj (p_state o2) (unlined (p_buf o1 ++ [u])) (p_fields o2) (p_doublequote o2))
  | Err e => e = EFieldLimit
  end.
Proof.
  intros EB Hu. unfold add_char. cbn [str_ops b_add]. unfold str_add. destruct (Z.leb_spec (field_limit cf) (Z.of_nat (len (p_buf o1)))) as [H|H]; [reflexivity|]. cbn [bind].
  split; [reflexivity|]. rewrite EB. assert (len (unlined (p_buf o1)) <= len (p_buf o1))%nat.
  { unfold unlined. generalize (p_buf o1). intros b. induction b as [|x b IH]; cbn; [lia|]. destruct (negb _); cbn; lia. }
  destruct (Z.leb_spec (field_limit cf) (Z.of_nat (len (unlined (p_buf o1))))); [lia|]. cbn [bind]. now rewrite unlined_app, (unlined_flat u Hu).
Qed.

Lemma tail_ok buf u : buf <> [] -> is_nl (hd 0 buf) = false -> is_nl u = false -> buf ++ [u] <> [] /\ is_nl (hd 0 (buf ++ [u])) = false /\ is_nl (List.last (buf ++ [u]) 0) = false.
Proof. intros H H1 H2. rewrite last_last. repeat split; [now destruct buf| |exact H2]. now destruct buf. Qed.
Ltac addR H Hu := let A := fresh in
  match goal with |- context [add_char str_ops cf ?o1 ?u] =>
    match goal with |- context [add_char str_ops cf ?o2 u] => lazymatch o2 with o1 => fail | _ =>
      pose proof (add_R o1 o2 u H Hu) as A; destruct (add_char str_ops cf o1 u) as [?o|?e]; [destruct A as (-> & ->)|subst; now left]; cbn [bind] end end end.
Lemma step_R o1 o2 b u v1 v2 : R o1 o2 -> sane o1 b u -> u <> 0 -> is_nl u = false -> (v1 =? q) = (v2 =? q) ->
  match process_char str_ops cf o1 u v1 with
  | Ok o1' => exists o2', process_char str_ops cf o2 u v2 = Ok o2' /\ R o1' o2'
  | Err e => e = EFieldLimit \/ process_char str_ops cf o2 u v2 = Err e
  end.
Proof.
  intros HR HS Hu Hn Hv. pose proof HR as (ES & EB & EF & HO). apply N.eqb_neq in Hu.
  assert (HE : (u =? escapechar cf) = false) by (rewrite no_escape; exact Hu).
  assert (ST : forall p1 p2 : pobj str, p_buf p1 = [] -> p_buf p2 = [] -> p_state p1 = START_FIELD -> p_state p2 = START_FIELD -> p_fields p2 = map unlined_cell (p_fields p1) ->
    match do_start_field str_ops cf p1 u with
    | Ok o1' => exists o2', do_start_field str_ops cf p2 u = Ok o2' /\ R o1' o2'
    | Err e => e = EFieldLimit \/ do_start_field str_ops cf p2 u = Err e
    end).
  { intros p1 p2 B1 B2 S1 S2 F. unfold do_start_field. rewrite Hu, Hn, HE. cbn [orb].
    assert (BB : p_buf p2 = unlined (p_buf p1)) by now rewrite B1, B2. destruct (u =? q).
    - addR BB Hn. eexists. split; [reflexivity|]. refine (conj eq_refl (conj eq_refl (conj F _))). change (ends_ok IN_QUOTED_FIELD (p_buf p1 ++ [u])). rewrite B1. cbn [app ends_ok hd List.last]. repeat split; [discriminate|exact Hn..].
    - destruct (u =? delimiter cf).
      + eexists. split; [reflexivity|]. assert (RR : R p1 p2) by (refine (conj (eq_trans S1 (eq_sym S2)) (conj BB (conj F _))); rewrite S1; exact B1).
        refine (conj _ (conj _ (conj (save_R p1 p2 RR (or_introl S1)) _))); rewrite !save_eq; cbn [p_state p_buf]; [congruence|reflexivity|now rewrite S1].
      + addR BB Hn. eexists. split; [reflexivity|]. refine (conj eq_refl (conj eq_refl (conj F _))). change (ends_ok IN_FIELD (p_buf p1 ++ [u])). rewrite B1. cbn [app ends_ok hd List.last]. repeat split; [discriminate|exact Hn..]. }
  unfold sane, process_char in *. rewrite <- ES. destruct (p_state o1) eqn:E1; try contradiction; cbn in HO.
  - rewrite Hu, Hn. apply ST; cbn; auto. now rewrite EB, HO.
  - apply ST; auto. now rewrite EB, HO.
  - unfold do_in_field. rewrite Hu, Hn, HE. cbn [orb]. destruct HO as (H1 & H2 & H3). destruct (u =? q).
    + addR EB Hn. eexists. split; [reflexivity|]. destruct (tail_ok _ u H1 H2 Hn) as (K1 & K2 & K3). repeat split; cbn; auto.
    + destruct (u =? delimiter cf).
      * eexists. split; [reflexivity|]. refine (conj eq_refl (conj _ (conj (save_R o1 o2 HR (or_intror (or_introl E1))) _))); cbn [set_state p_buf p_state]; rewrite !save_eq; reflexivity.
      * addR EB Hn. eexists. split; [reflexivity|]. destruct (tail_ok _ u H1 H2 Hn) as (K1 & K2 & K3). unfold R; cbn [p_state p_buf p_fields]; rewrite <- ES, E1. repeat split; auto.
  - rewrite Hu, HE. destruct HO as (H1 & H2). destruct (tail_ok _ u H1 H2 Hn) as (K1 & K2 & K3). destruct (u =? q).
    + rewrite <- Hv. destruct (v1 =? q); [eexists; split; [reflexivity|]; repeat split; cbn; auto|]. destruct (strict cf); [now right|].
      addR EB Hn. eexists. split; [reflexivity|]. repeat split; cbn; auto.
    + addR EB Hn. eexists. split; [reflexivity|]. unfold R; cbn [p_state p_buf p_fields]; rewrite <- ES, E1. repeat split; auto.
  - destruct HS as (_ & -> & _). rewrite N.eqb_refl. destruct HO as (H1 & H2). destruct (tail_ok _ q H1 H2 Hn) as (K1 & K2 & K3).
    addR EB Hn. eexists. split; [reflexivity|]. repeat split; cbn; auto.
Qed.

Definition flat (l : str) : Prop := forall c, In c l -> is_nl c = false.
Lemma chars_R : forall l o1 o2 b, R o1 o2 -> sane o1 b (hd 0 l) -> flat l ->
  match chars cf o1 l with
  | Ok o1' => exists o2', chars cf o2 l = Ok o2' /\ R o1' o2'
  | Err e => e = EFieldLimit \/ chars cf o2 l = Err e
  end.
Proof.
  induction l as [|u l IH]; intros o1 o2 b HR HS Hf; cbn [chars]; [now exists o2|]. destruct (N.eqb_spec u 0) as [|Hu]; [now right|].
  pose proof (step_R o1 o2 b u (hd 0 l) (hd 0 l) HR HS Hu (Hf u (or_introl eq_refl)) eq_refl) as H.
  destruct (process_char str_ops cf o1 u (hd 0 l)) as [o1'|e] eqn:E; cbn [bind].
  - destruct H as (o2' & -> & HR'). cbn [bind]. apply (IH o1' o2' (xorb b (u =? q)) HR'); [exact (sane_step o1 b u _ o1' HS Hu E)|]. intros c Hc. apply Hf. now right.
  - destruct H as [->|H]; [now left|]. right. now rewrite H.
Qed.
Lemma end_hd e : line_end e -> hd 0 e = 0 \/ is_nl (hd 0 e) = true.
Proof. intros [->|(x & ->)]; [now left|]. right. now destruct x. Qed.
Lemma chars_line e : line_end e -> forall l o b, sane o b (hd 0 (l ++ e)) ->
  chars cf o (l ++ e) = bind (chars cf o l) (fun o' => chars cf o' e).
Proof.
  intros HE. induction l as [|u l IH]; intros o b HS; [reflexivity|]. cbn [app chars]. destruct (N.eqb_spec u 0) as [|Hu]; [reflexivity|]. cbn [app hd] in HS.
  destruct l as [|u' l].
  - cbn [app hd]. assert (E : process_char str_ops cf o u (hd 0 e) = process_char str_ops cf o u 0).
    { unfold process_char. destruct (p_state o) eqn:ES; try reflexivity. unfold sane in HS. rewrite ES in HS. destruct HS as (_ & Hq).
      assert (E1 : (hd 0 e =? q) = false). { apply N.eqb_neq. intros K. destruct (end_hd e HE) as [K1|K1]; [congruence|]. rewrite K, quote_flat in K1. discriminate. }
      rewrite E1. assert (E2 : (0 =? q) = false) by (apply N.eqb_neq; congruence). now rewrite E2. }
    rewrite E. destruct (process_char str_ops cf o u 0); reflexivity.
  - change (hd 0 ((u' :: l) ++ e)) with u'. change (hd 0 (u' :: l)) with u'. destruct (process_char str_ops cf o u u') as [o1|] eqn:E; [|reflexivity]. cbn [bind].
    exact (IH o1 _ (sane_step o b u u' o1 HS Hu E)).
Qed.
(** The characters of a line end. *)
Definition nls (e : str) : Prop := forall c, In c e -> is_nl c = true.
Lemma end_nls e : line_end e -> nls e.
Proof. intros [->|(x & ->)] c H; [destruct H|]. destruct x; cbn in H; repeat (destruct H as [<-|H]; [reflexivity|]); destruct H. Qed.
Lemma nl_nz c : is_nl c = true -> (c =? 0) = false /\ (c =? q) = false /\ (c =? escapechar cf) = false.
Proof.
  intros H. assert (A : (c =? 0) = false) by (destruct (N.eqb_spec c 0) as [->|]; [discriminate|reflexivity]). rewrite no_escape. repeat split; try exact A.
  destruct (N.eqb_spec c q) as [->|]; [|reflexivity]. now rewrite quote_flat in H.
Qed.
Lemma eat_chars : forall e o, nls e -> p_state o = EAT_CRNL -> chars cf o e = Ok o.
Proof.
  induction e as [|c e IH]; intros o H HS; [reflexivity|]. cbn [chars]. destruct (nl_nz c (H c (or_introl eq_refl))) as (A & _). rewrite A.
  unfold process_char. rewrite HS, (H c (or_introl eq_refl)). cbn [bind]. apply IH; [intros x Hx; apply H; now right|exact HS].
Qed.
Lemma quoted_chars : forall e o, nls e -> p_state o = IN_QUOTED_FIELD ->
  chars cf o e = Err EFieldLimit \/ chars cf o e = Ok (mk_pobj IN_QUOTED_FIELD (p_buf o ++ e) (p_fields o) (p_doublequote o)).
Proof.
  induction e as [|c e IH]; intros o H HS; cbn [chars]; [right; rewrite app_nil_r, <- HS; now destruct o|].
  destruct (nl_nz c (H c (or_introl eq_refl))) as (A & B & C). rewrite A. unfold process_char. rewrite HS, A, B, C. unfold add_char. cbn [str_ops b_add]. unfold str_add.
  destruct (_ <=? _)%Z; [now left|]. cbn [bind]. rewrite HS. destruct (IH (mk_pobj IN_QUOTED_FIELD (p_buf o ++ [c]) (p_fields o) (p_doublequote o))) as [E|E];
    [intros x Hx; apply H; now right|reflexivity|now left|]. right. refine (eq_trans E _). cbn [p_buf p_fields p_doublequote]. now rewrite <- app_assoc.
Qed.
Lemma unlined_end e : nls e -> unlined e = [].
Proof.
  induction e as [|c e IH]; intros H; [reflexivity|]. unfold unlined in *. cbn [filter]. assert (K : is_nl c = true) by now apply H; left. unfold is_nl in K.
  replace ((c =? CR) || (c =? LF)) with true by (rewrite <- K; first [reflexivity|apply orb_comm]). cbn [negb]. apply IH. intros x Hx. apply H. now right.
Qed.
Lemma end_R e o1 o2 b : line_end e -> R o1 o2 -> sane o1 b 0 ->
  match bind (chars cf o1 e) (fun o => process_char str_ops cf o 0 0) with
  | Ok o1' => exists o2', process_char str_ops cf o2 0 0 = Ok o2' /\ p_fields o2' = map unlined_cell (p_fields o1') /\
      (if b then p_state o1' = IN_QUOTED_FIELD /\ R o1' o2' else p_state o1' = START_RECORD /\ p_state o2' = START_RECORD)
  | Err e => e = EFieldLimit
  end.
Proof.
  intros HE HR HS. pose proof (end_nls e HE) as HN. pose proof HR as (ES & EB & EF & HO). unfold sane in HS. destruct (p_state o1) eqn:E1; try contradiction.
  - subst b. destruct e as [|c e].
    + cbn [chars bind]. unfold process_char. rewrite E1, <- ES. cbn. eexists. split; [reflexivity|]. split; [exact EF|]. now split.
    + cbn [chars]. destruct (nl_nz c (HN c (or_introl eq_refl))) as (A & _). rewrite A. unfold process_char at 1. rewrite E1, A, (HN c (or_introl eq_refl)). cbn [bind].
      rewrite eat_chars; [|intros x Hx; apply HN; now right|reflexivity]. cbn [bind]. unfold process_char. rewrite <- ES. cbn. eexists. split; [reflexivity|]. split; [exact EF|]. now split.
  - subst b. pose proof (save_R o1 o2 HR (or_introl E1)) as SR. destruct e as [|c e].
    + cbn [chars bind]. unfold process_char. rewrite E1, <- ES. unfold do_start_field. cbn [is_nl N.eqb orb]. eexists. split; [reflexivity|]. split; [exact SR|]. now split.
    + cbn [chars]. destruct (nl_nz c (HN c (or_introl eq_refl))) as (A & _). rewrite A. unfold process_char at 1. rewrite E1. unfold do_start_field. rewrite (HN c (or_introl eq_refl)), A. cbn [orb bind].
      rewrite eat_chars; [|intros x Hx; apply HN; now right|reflexivity]. cbn [bind]. unfold process_char. rewrite <- ES. unfold do_start_field. cbn [set_state p_state is_nl N.eqb orb].
      eexists. split; [reflexivity|]. split; [exact SR|]. now split.
  - subst b. pose proof (save_R o1 o2 HR (or_intror (or_introl E1))) as SR. destruct e as [|c e].
    + cbn [chars bind]. unfold process_char. rewrite E1, <- ES. unfold do_in_field. cbn [is_nl N.eqb orb]. eexists. split; [reflexivity|]. split; [exact SR|]. now split.
    + cbn [chars]. destruct (nl_nz c (HN c (or_introl eq_refl))) as (A & _). rewrite A. unfold process_char at 1. rewrite E1. unfold do_in_field. rewrite (HN c (or_introl eq_refl)), A. cbn [orb bind].
      rewrite eat_chars; [|intros x Hx; apply HN; now right|reflexivity]. cbn [bind]. unfold process_char. rewrite <- ES. unfold do_in_field. cbn [set_state p_state is_nl N.eqb orb].
      eexists. split; [reflexivity|]. split; [exact SR|]. now split.
  - destruct HS as (-> & _). destruct (quoted_chars e o1 HN E1) as [->| ->]; [reflexivity|]. cbn [bind]. unfold process_char. cbn [p_state]. rewrite <- ES. cbn.
    exists o2. split; [reflexivity|]. split; [exact EF|]. split; [reflexivity|]. refine (conj (eq_sym (eq_sym _)) (conj _ (conj EF _))); cbn [p_state p_buf].
    + now rewrite <- ES.
    + now rewrite unlined_app, (unlined_end e HN), app_nil_r.
    + cbn [ends_ok] in *. destruct HO as (H1 & H2). destruct (p_buf o1); [now elim H1|]. split; [discriminate|exact H2].
  - destruct HS as (_ & K1 & K2). now elim K2.
Qed.
Definition joined (x : str * str) : str := fst x ++ snd x.
Lemma odd_end e : line_end e -> odd_q e = false.
Proof.
  intros H. apply end_nls in H. induction e as [|c e IH]; [reflexivity|]. unfold odd_q in *. rewrite odd_occ_cons.
  destruct (nl_nz c (H c (or_introl eq_refl))) as (_ & -> & _). rewrite IH; [reflexivity|]. intros x Hx. apply H. now right.
Qed.
Lemma sane_open o : q = 0 -> sane o true (q + 1) -> False.
Proof. intros Hq HS. unfold sane in HS. destruct (p_state o); try discriminate; try contradiction; destruct HS as (HS & K); try contradiction; discriminate. Qed.
Lemma run_R : forall ls o1 o2 b, R o1 o2 -> (forall v, sane o1 b v) -> (b = false -> p_state o1 = START_RECORD) ->
  Forall (fun x => flat (fst x) /\ line_end (snd x)) ls ->
  (q = 0 \/ xorb b (odd_q (List.concat (map fst ls))) = false) -> snd (run cf o1 (map joined ls)) <> Raised EFieldLimit ->
  run cf o2 (map fst ls) = (map (map unlined_cell) (fst (run cf o1 (map joined ls))), snd (run cf o1 (map joined ls))).
Proof.
  induction ls as [|(l, e) ls IH]; intros o1 o2 b HR HS HP HF HB HL.
  - assert (Hb : b = false).
    { destruct HB as [HB|HB]; [|cbn in HB; now rewrite xorb_false_r in HB]. destruct b; [|reflexivity]. now elim (sane_open o1 HB). }
    specialize (HP Hb). destruct HR as (ES & EB & _ & HO). rewrite HP in *. cbn in HO. cbn [map run]. unfold at_eof. cbn [iternext_loop str_ops b_str]. rewrite <- ES, HP, EB, HO. reflexivity.
  - pose proof (Forall_inv HF) as (Hf & He). apply Forall_inv_tail in HF. cbn [fst snd] in Hf, He. cbn [map run fst] in *. change (joined (l, e)) with (l ++ e) in *.
    rewrite !process_line_chars in *. rewrite (chars_line e He l o1 b (HS _)) in *. pose proof (chars_R l o1 o2 b HR (HS _) Hf) as H.
    destruct (chars cf o1 l) as [m1|er] eqn:E1; cbn [bind] in *.
    2:{ destruct H as [->|H]; [now elim HL|]. now rewrite H. }
    destruct H as (m2 & -> & HR'). cbn [bind]. pose proof (sane_chars l o1 b m1 (HS _) E1) as HS'. pose proof (end_R e m1 m2 _ He HR' HS') as H.
    cbn [List.concat] in HB. rewrite odd_app, <- xorb_assoc in HB.
    destruct (bind (chars cf m1 e) (fun o => process_char str_ops cf o 0 0)) as [n1|er]; [|subst er; now elim HL].
    destruct H as (n2 & -> & EF & H). destruct (xorb b (odd_q l)).
    + destruct H as (EN & HRn). pose proof HRn as (EN2 & _). rewrite <- EN2. rewrite EN in *.
      apply (IH n1 n2 true HRn); auto; [|discriminate]. intros v. unfold sane. rewrite EN. split; [reflexivity|].
      unfold sane in HS'. destruct (p_state m1); try discriminate; try contradiction; apply HS'.
    + destruct H as (EN & EN2). rewrite EN2. rewrite EN in *. unfold cons_row in *. cbn [fst snd map] in *. rewrite EF.
      assert (HR0 : R (parse_reset str_ops n1) (parse_reset str_ops n2)) by (repeat split).
      now rewrite (IH (parse_reset str_ops n1) (parse_reset str_ops n2) false HR0 (fun v => new_sane (parse_reset str_ops n1) v eq_refl) (fun _ => eq_refl) HF HB HL).
Qed.
Lemma without_ends ls : Forall (fun x => ~ In CR (fst x) /\ ~ In LF (fst x) /\ line_end (snd x)) ls ->
  ~ leaves_open cf (List.concat (map fst ls)) -> snd (parse_items cf (map ILine (map joined ls))) <> Raised EFieldLimit ->
  parse_items cf (map ILine (map fst ls)) =
    (map (map unlined_cell) (fst (parse_items cf (map ILine (map joined ls)))), snd (parse_items cf (map ILine (map joined ls)))).
Proof.
  intros HF HO HL. rewrite !parse_run in *. assert (HR0 : R pure_new pure_new) by (repeat split).
  apply (run_R ls pure_new pure_new false HR0 (fun v => new_sane pure_new v eq_refl) (fun _ => eq_refl)); [| |exact HL].
  - revert HF. apply Forall_impl. intros (l, e) (H1 & H2 & H3). split; [|exact H3]. intros c Hc. unfold is_nl. cbn [fst] in *.
    apply orb_false_iff. split; apply N.eqb_neq; intros ->; contradiction.
  - destruct (N.eq_dec q 0) as [->|Hq]; [now left|]. right. rewrite xorb_false_l. unfold leaves_open in HO. unfold odd_q. destruct (Nat.odd _); [elim HO; now split|reflexivity].
Qed.
Lemma without_ends_same ls : Forall (fun x => ~ In CR (fst x) /\ ~ In LF (fst x) /\ line_end (snd x)) ls ->
  ~ leaves_open cf (List.concat (map fst ls)) -> snd (parse_items cf (map ILine (map joined ls))) <> Raised EFieldLimit ->
  Forall (Forall (fun c => ~ In CR (cell_str c) /\ ~ In LF (cell_str c))) (fst (parse_items cf (map ILine (map joined ls)))) ->
  parse_items cf (map ILine (map fst ls)) = parse_items cf (map ILine (map joined ls)).
Proof.
  intros H1 H2 H3 H4. rewrite (without_ends ls H1 H2 H3). destruct (parse_items cf (map ILine (map joined ls))) as (rows, en). cbn [fst snd] in *. f_equal.
  assert (K : forall s, ~ In CR s /\ ~ In LF s -> unlined s = s).
  { clear. induction s as [|c s IH]; intros (A & B); [reflexivity|]. unfold unlined in *. cbn [filter]. assert (C : (c =? CR) || (c =? LF) = false).
    { apply orb_false_iff. split; apply N.eqb_neq; intros ->; [apply A|apply B]; now left. } rewrite C. cbn [negb]. f_equal. apply IH. split; intros D; [apply A|apply B]; now right. }
  clear H1 H2 H3. induction H4 as [|r rows Hr _ IH]; [reflexivity|]. cbn [map]. f_equal; [|exact IH]. clear IH. induction Hr as [|c r Hc _ IH]; [reflexivity|]. cbn [map].
  f_equal; [|exact IH]. destruct c as [s|s b]; cbn [cell_str unlined_cell] in *; now rewrite K.
Qed.
End Conf.
