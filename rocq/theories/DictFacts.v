(** * DictFacts *)
From Coq Require Import String.
From Verif Require Import Base Parser Dialect CsvLib Reader Writer Files Wrappers Dict
  SpecLayout SpecParse SpecWriter SpecFiles SpecDict ParserFacts ParserProps
  ReaderFacts WriterFacts FilesFacts StandardizeFacts TableFacts.
Local Notation length := List.length.

(** ** Ordered dictionaries *)
Lemma key_eqb_eq a b : key_eqb a b = true <-> a = b.
Proof.
  destruct a as [a|], b as [b|]; cbn; split; intros H; try discriminate; auto.
  - apply str_eqb_eq in H. now subst.
  - injection H as ->. apply str_eqb_refl.
Qed.
Lemma key_eqb_refl a : key_eqb a a = true. Proof. now apply key_eqb_eq. Qed.
Lemma key_eqb_neq a b : key_eqb a b = false <-> a <> b.
Proof.
  split; intros H.
  - intros ->. now rewrite key_eqb_refl in H.
  - destruct (key_eqb a b) eqn:E; [|reflexivity]. apply key_eqb_eq in E. contradiction.
Qed.
Lemma key_eqb_sym a b : key_eqb a b = key_eqb b a.
Proof.
  destruct (key_eqb a b) eqn:E.
  - apply key_eqb_eq in E. subst. now rewrite key_eqb_refl.
  - apply key_eqb_neq in E. symmetry. apply key_eqb_neq. congruence.
Qed.

Section OD.
  Context {A : Type}.
  Lemma od_set_new (d : odict A) k v : ~ In k (map fst d) -> od_set d k v = d ++ [(k, v)].
  Proof.
    induction d as [|[k' v'] d IH]; cbn; intros H; [reflexivity|].
    replace (key_eqb k' k) with false by (symmetry; apply key_eqb_neq; intuition congruence).
    now rewrite IH by intuition.
  Qed.
  Lemma od_set_keys (d : odict A) k v x : In x (map fst (od_set d k v)) <-> x = k \/ In x (map fst d).
  Proof.
    induction d as [|[k' v'] d IH]; cbn; [intuition|].
    destruct (key_eqb k' k) eqn:E; cbn.
    - apply key_eqb_eq in E. subst. intuition.
    - rewrite IH. intuition.
  Qed.
  Lemma od_set_nodup (d : odict A) k v : NoDup (map fst d) -> NoDup (map fst (od_set d k v)).
  Proof.
    induction d as [|[k' v'] d IH]; cbn; intros H; [repeat constructor; auto|].
    inversion H; subst. destruct (key_eqb k' k) eqn:E; cbn; constructor; auto.
    rewrite od_set_keys. apply key_eqb_neq in E. intuition congruence.
  Qed.
  Lemma od_get_set (d : odict A) k v x :
    od_get (od_set d k v) x = if key_eqb k x then Some v else od_get d x.
  Proof.
    induction d as [|[k' v'] d IH]; cbn.
    - reflexivity.
    - destruct (key_eqb k' k) eqn:E; cbn.
      + apply key_eqb_eq in E. subst. now destruct (key_eqb k x).
      + rewrite IH. destruct (key_eqb k' x) eqn:E2; [|reflexivity].
        apply key_eqb_eq in E2. subst. rewrite key_eqb_sym in E. now rewrite E.
  Qed.
  Lemma od_update_nodup ps : forall d : odict A, NoDup (map fst d) -> NoDup (map fst (od_update d ps)).
  Proof. induction ps as [|p ps IH]; intros d H; [exact H|]. apply IH. now apply od_set_nodup. Qed.
  Lemma od_update_keys ps : forall (d : odict A) x,
    In x (map fst (od_update d ps)) <-> In x (map fst d) \/ In x (map fst ps).
  Proof.
    induction ps as [|[k v] ps IH]; intros d x; cbn; [intuition|].
    unfold od_update in IH. rewrite IH, od_set_keys. intuition.
  Qed.
  Lemma od_update_new ps : forall d : odict A, NoDup (map fst (d ++ ps)) -> od_update d ps = d ++ ps.
  Proof.
    induction ps as [|[k v] ps IH]; intros d H; [now rewrite app_nil_r|].
    cbn. unfold od_update in IH. rewrite od_set_new.
    - rewrite IH; rewrite <- app_assoc; [reflexivity|exact H].
    - intros Hk. rewrite map_app in H. cbn in H. apply NoDup_remove_2 in H. apply H.
      apply in_or_app. now left.
  Qed.
  Lemma od_update_get ps : forall (d : odict A) x,
    od_get (od_update d ps) x = match last_value x ps with Some v => Some v | None => od_get d x end.
  Proof.
    unfold last_value. induction ps as [|[k v] ps IH]; intros d x; [reflexivity|].
    cbn. unfold od_update in IH. rewrite IH, od_get_set. rewrite filter_app. cbn.
    destruct (filter _ (rev ps)); cbn; [|reflexivity]. now destruct (key_eqb k x).
  Qed.
  Lemma od_update_app a b (d : odict A) : od_update d (a ++ b) = od_update (od_update d a) b.
  Proof. apply fold_left_app. Qed.
End OD.

(** ** The dictionary of a row *)
Lemma zip_pad {A B} (ks : list A) (vs : list B) x : (length vs <= length ks)%nat ->
  zip ks (vs ++ repeat x (length ks - length vs)) = zip ks vs ++ map (fun k => (k, x)) (skipn (length vs) ks).
Proof.
  revert vs. induction ks as [|k ks IH]; intros [|v vs] H; cbn in *; try lia; auto.
  - f_equal. specialize (IH [] ltac:(cbn; lia)). cbn in IH. rewrite Nat.sub_0_r in IH. rewrite IH.
    now destruct ks.
  - f_equal. apply IH. lia.
Qed.
Lemma zip_app_same {A B} (ks : list A) (vs ws : list B) : (length ks <= length vs)%nat ->
  zip ks (vs ++ ws) = zip ks vs.
Proof.
  revert vs. induction ks as [|k ks IH]; intros [|v vs] H; cbn in *; try lia; auto.
  f_equal. apply IH. lia.
Qed.
Lemma row_dict_update names rk rv row :
  row_dict names rk rv row = od_update [] (expected_dict names rk rv row).
Proof.
  unfold row_dict, expected_dict. rewrite map_length.
  change (map (fun x => DStr (cell_text x)) row) with (map (fun x => DStr (cell_str x)) row).
  rewrite <- (map_map cell_str DStr row).
  destruct (Nat.ltb_spec (length names) (length row)) as [H|H].
  - replace (length names - length row)%nat with 0%nat by lia. cbn [repeat]. rewrite app_nil_r.
    assert (HS : skipn (length names) (map cell_str row) <> []).
    { intros E. apply (f_equal (@length str)) in E. rewrite skipn_length, map_length in E. cbn in E. lia. }
    assert (HE : map cell_text (skipn (length names) row) = skipn (length names) (map cell_str row)).
    { symmetry. apply skipn_map. }
    rewrite HE. destruct (skipn (length names) (map cell_str row)) as [|x l]; [congruence|].
    rewrite od_update_app. reflexivity.
  - rewrite (skipn_all2 (map cell_str row)) by (rewrite map_length; exact H). rewrite app_nil_r.
    assert (HZ := zip_pad names (map DStr (map cell_str row)) (rest_dval rv)).
    rewrite !map_length in HZ. rewrite (HZ H), od_update_app.
    destruct (Nat.ltb_spec (length row) (length names)) as [H2|H2]; [reflexivity|].
    rewrite skipn_all2 by exact H2. reflexivity.
Qed.

Lemma zip_fst_incl {A B} (ks : list A) (vs : list B) x : In x (map fst (zip ks vs)) -> In x ks.
Proof.
  revert vs. induction ks as [|k ks IH]; intros [|v vs]; cbn; try tauto.
  intros [->|H]; [now left|right; eauto].
Qed.
Lemma zip_fst_nodup {A B} (ks : list A) (vs : list B) : NoDup ks -> NoDup (map fst (zip ks vs)).
Proof.
  intros H. revert vs. induction H as [|k ks Hk H IH]; intros [|v vs]; cbn; try constructor; auto.
  intros Hi. apply Hk. now apply zip_fst_incl in Hi.
Qed.
Lemma row_dict_distinct names rk rv row : NoDup names -> ~ In rk names ->
  row_dict names rk rv row = expected_dict names rk rv row.
Proof.
  intros Hn Hr. rewrite row_dict_update. rewrite od_update_new; [reflexivity|]. cbn [app].
  unfold expected_dict. rewrite map_app.
  destruct (skipn _ _) as [|x l]; cbn [map fst]; [rewrite app_nil_r; now apply zip_fst_nodup|].
  apply (NoDup_Add (a := rk) (l := map fst (zip names (map DStr (map cell_str row) ++
    repeat (rest_dval rv) (length names - length (map cell_str row)))))).
  - rewrite <- (app_nil_r (map fst (zip names _))) at 1. apply Add_app.
  - split; [now apply zip_fst_nodup|]. intros Hi. apply Hr. now apply zip_fst_incl in Hi.
Qed.
Theorem row_dict_general names rk rv row :
  NoDup (map fst (row_dict names rk rv row)) /\
  forall k, od_get (row_dict names rk rv row) k = last_value k (assignments names rk rv row) /\
    (In k (map fst (row_dict names rk rv row)) <-> In k (map fst (assignments names rk rv row))).
Proof.
  rewrite row_dict_update. split; [apply od_update_nodup; constructor|].
  intros k. split.
  - rewrite od_update_get. unfold assignments. now destruct (last_value k _).
  - rewrite od_update_keys. cbn. unfold assignments. tauto.
Qed.

(** ** Streams of rows *)
Inductive gives (limit : Z) (h : heap) : reader -> list (list cell) -> option pyexc -> Prop :=
| gives_end r r' : reader_next limit h r = (NStop, r') -> gives limit h r [] None
| gives_raise r r' x : reader_next limit h r = (NRaise x, r') -> gives limit h r [] (Some x)
| gives_row r r' row rows e : reader_next limit h r = (NRow row, r') -> gives limit h r' rows e ->
    gives limit h r (row :: rows) e.

Lemma drain_gives limit h fuel : forall r rows e, reader_drain fuel limit h r = (rows, e) ->
  e <> Some Diverged -> gives limit h r rows e.
Proof.
  induction fuel as [|f IH]; intros r rows e; cbn; [intros [= <- <-]; congruence|].
  destruct (reader_next limit h r) as [[row| |x] r'] eqn:E.
  - destruct (reader_drain f limit h r') as [rs e'] eqn:ED. intros [= <- <-] Hd.
    econstructor; eauto.
  - intros [= <- <-] _. econstructor; eauto.
  - intros [= <- <-] _. econstructor; eauto.
Qed.

Lemma iternext_row_rest cf (o : pobj membuf) input r o' rest :
  iternext mem_ops cf o input = (Row r, o', rest) -> (length rest < length input)%nat.
Proof.
  unfold iternext. intros H. destruct input as [|i input].
  - cbn in H. destruct o. cbn in H. rewrite ?mem_clear_empty in H. discriminate H.
  - apply iternext_loop_rest in H as [_ H]. apply H. discriminate.
Qed.

Lemma reader_next_parser limit h r row r' : reader_next limit h r = (NRow row, r') ->
  r_parser r' <> None.
Proof.
  unfold reader_next. destruct (match r_parser r with Some _ => Ok r | None => reader_iter limit h r end) as [r1|x];
    [|discriminate].
  destruct (r_parser r1) as [[cf o]|]; [|discriminate].
  destruct (iternext mem_ops cf o (r_rest r1)) as [[out o'] rest].
  destruct out as [row'| |e]; [|discriminate|destruct e; discriminate].
  intros [= <- <-]. discriminate.
Qed.
Lemma reader_next_shrinks limit h r row r' : r_parser r <> None ->
  reader_next limit h r = (NRow row, r') -> (length (r_rest r') < length (r_rest r))%nat.
Proof.
  intros Hp. unfold reader_next. destruct (r_parser r) as [[cf o]|] eqn:E; [|congruence]. rewrite E.
  destruct (iternext mem_ops cf o (r_rest r)) as [[out o'] rest] eqn:EI.
  destruct out as [row'| |e]; [|discriminate|destruct e; discriminate].
  intros [= <- <-]. cbn. now apply iternext_row_rest in EI.
Qed.
Lemma iternext_stop_rest cf (o : pobj membuf) input o' rest :
  iternext mem_ops cf o input = (Stop, o', rest) -> rest = [].
Proof.
  unfold iternext. generalize (parse_reset mem_ops o). clear o. induction input as [|i input IH]; intros o; cbn.
  - destruct (_ || _); [destruct (strict cf); discriminate|congruence].
  - destruct i as [line| |]; try discriminate. destruct (process_line mem_ops cf o line) as [o1|]; [|discriminate].
    destruct (p_state o1); try discriminate; apply IH.
Qed.
Lemma gives_length limit h r rows e : gives limit h r rows e -> r_parser r <> None ->
  (length rows <= length (r_rest r))%nat.
Proof.
  intros H. induction H as [r r' E|r r' x E|r r' row rows e E H IH]; cbn; intros Hp; try lia.
  pose proof (reader_next_shrinks _ _ _ _ _ Hp E). specialize (IH (reader_next_parser _ _ _ _ _ E)). lia.
Qed.

Fixpoint drop_blank (rows : list (list cell)) : list (list cell) :=
  match rows with [] :: rs => drop_blank rs | _ => rows end.

Definition after limit h (e : option pyexc) (r : reader) : Prop :=
  e = None -> gives limit h r [] None.

Lemma gives_stop_after limit h r r' : reader_next limit h r = (NStop, r') -> gives limit h r' [] None.
Proof.
  intros H. unfold reader_next in H.
  destruct (match r_parser r with Some _ => Ok r | None => reader_iter limit h r end) as [r1|x]; [|discriminate].
  destruct (r_parser r1) as [[cf o]|]; [|discriminate].
  destruct (iternext mem_ops cf o (r_rest r1)) as [[out o'] rest] eqn:E.
  destruct out as [row'| |e]; [discriminate| |destruct e; discriminate].
  injection H as <-. apply iternext_stop_rest in E as ->.
  eapply gives_end. unfold reader_next. cbn. reflexivity.
Qed.

Lemma skip_blank_gives limit h fuel : forall row r rows e,
  gives limit h r rows e -> (length rows < fuel)%nat ->
  match drop_blank (row :: rows) with
  | [] => match e with
          | None => exists r', skip_blank fuel limit h row r = (NStop, r') /\ gives limit h r' [] None
          | Some x => exists r', skip_blank fuel limit h row r = (NRaise x, r')
          end
  | row' :: rows' => exists r', skip_blank fuel limit h row r = (NRow row', r') /\ gives limit h r' rows' e
  end.
Proof.
  induction fuel as [|f IH]; intros row r rows e Hg Hl; [lia|].
  destruct row as [|c row]; [|cbn; eauto].
  cbn [drop_blank skip_blank]. inversion Hg as [? r' E|? r' x E|? r' row rows' ? E Hg']; subst; rewrite E.
  - cbn. eexists. split; [reflexivity|]. now apply gives_stop_after in E.
  - cbn. eauto.
  - apply (IH row r' rows' e Hg'). cbn in Hl. lia.
Qed.

Lemma drop_blank_filter rows : filter not_blank rows =
  match drop_blank rows with [] => [] | r :: rs => r :: filter not_blank rs end.
Proof.
  induction rows as [|[|c r] rows IH]; cbn; auto.
Qed.
Lemma drop_blank_head rows r rs : drop_blank rows = r :: rs -> r <> [].
Proof. induction rows as [|[|c r0] rows IH]; cbn; [discriminate|auto|]. intros [= <- <-]. discriminate. Qed.

Section Named.
  Variables (limit : Z) (h : heap) (ns : list key) (rk : key) (rv : option str).
  Let dict := row_dict ns rk rv.

  Lemma dr_next_named r n rows e : gives limit h r rows e ->
    match filter not_blank rows with
    | [] => exists r' n', dr_next limit h (mk_dict_reader (Some ns) rk rv r n) =
              (final e, mk_dict_reader (Some ns) rk rv r' n') /\ after limit h e r'
    | row :: recs => exists r' n' rows', dr_next limit h (mk_dict_reader (Some ns) rk rv r n) =
              (DRow (dict row), mk_dict_reader (Some ns) rk rv r' n') /\
              gives limit h r' rows' e /\ filter not_blank rows' = recs
    end.
  Proof.
    intros Hg. unfold dr_next. cbn [dr_line_num].
    assert (HS : exists n1 y, (if Nat.eqb n 0 then dr_fieldnames limit h (mk_dict_reader (Some ns) rk rv r n)
        else (Ok None, mk_dict_reader (Some ns) rk rv r n)) = (Ok y, mk_dict_reader (Some ns) rk rv r n1)).
    { destruct (Nat.eqb n 0); cbn; eauto. }
    destruct HS as (n1 & y & ->). cbn [dr_names dr_restkey dr_restval dr_reader dr_line_num].
    inversion Hg as [? r' E|? r' x E|? r' row rows' ? E Hg']; subst; rewrite E.
    - cbn. do 2 eexists. split; [reflexivity|]. intros _. now apply gives_stop_after in E.
    - cbn. do 2 eexists. split; [reflexivity|]. discriminate.
    - pose proof (gives_length _ _ _ _ _ Hg' (reader_next_parser _ _ _ _ _ E)) as HL.
      pose proof (skip_blank_gives limit h (S (length (r_rest r'))) row r' rows' e Hg' ltac:(lia)) as HB.
      rewrite (drop_blank_filter (row :: rows')).
      destruct (drop_blank (row :: rows')) as [|row2 rows2].
      + destruct e as [x|].
        * destruct HB as (r2 & ->). do 2 eexists. split; [reflexivity|discriminate].
        * destruct HB as (r2 & -> & H2). do 2 eexists. split; [reflexivity|]. now intros _.
      + destruct HB as (r2 & -> & H2). cbn. do 3 eexists. split; [reflexivity|]. split; [exact H2|reflexivity].
  Qed.

  Lemma named_history cs : forall r n rows e, gives limit h r rows e ->
    e = None \/ (count_next cs <= S (length (filter not_blank rows)))%nat ->
    run_dict limit h cs (mk_dict_reader (Some ns) rk rv r n) =
    answers ns dict (filter not_blank rows) (final e) cs.
  Proof.
    assert (HN : forall cs r n x, count_next cs = 0%nat ->
      run_dict limit h cs (mk_dict_reader (Some ns) rk rv r n) = answers ns dict [] x cs).
    { clear cs. induction cs as [|[|] cs IH]; intros r n x H; [reflexivity|discriminate H|].
      cbn. f_equal. apply IH. exact H. }
    induction cs as [|[|] cs IH]; intros r n rows e Hg Hc; [reflexivity| |].
    - cbn [run_dict answers]. pose proof (dr_next_named r n rows e Hg) as HX.
      destruct (filter not_blank rows) as [|row recs].
      + destruct HX as (r' & n' & -> & HA). f_equal. destruct Hc as [->|Hc].
        * now apply (IH r' n' [] None (HA eq_refl)); left.
        * apply HN. unfold count_next in *. cbn in Hc. lia.
      + destruct HX as (r' & n' & rows' & -> & Hg' & Hf). f_equal. subst recs.
        apply (IH r' n' rows' e Hg'). destruct Hc as [->|Hc]; [now left|right].
        unfold count_next in *. cbn in Hc. lia.
    - cbn. f_equal. apply (IH r _ rows e Hg). exact Hc.
  Qed.
End Named.

Lemma fresh_gives reg h0 seq file dialect params r h1 limit h rows e :
  new_reader reg h0 seq file dialect params = (Ok r, h1) ->
  reader_rows limit h r = (rows, e) -> gives limit h r rows e.
Proof.
  unfold new_reader. destruct (make_simple_dialect _ _ _ _) as [[a|y] h2]; [|discriminate].
  intros [= <- <-]. unfold reader_rows.
  set (r0 := mk_reader (if seq then Some file else None) file a 0 None).
  destruct (reader_iter limit h r0) as [r1|x] eqn:EI.
  2: { intros [= <- <-]. eapply gives_raise. unfold reader_next. cbn [r_parser r0]. now rewrite EI. }
  assert (HP : exists cf, r1 = mk_reader (r_seq r0) file a 0 (Some (cf, new_parser))).
  { unfold reader_iter in EI. destruct (make_conf _ _ _ _ _ _) as [cf|]; cbn in EI; [|discriminate].
    injection EI as <-. exists cf. now destruct seq. }
  destruct HP as [cf ->]. intros HD.
  assert (HG : gives limit h (mk_reader (r_seq r0) file a 0 (Some (cf, new_parser))) rows e).
  { eapply drain_gives; [exact HD|]. rewrite drain_seen in HD.
    destruct (drain mem_ops _ cf new_parser _) as [rs en] eqn:ED. injection HD as <- <-.
    assert (HF : en <> OutOfFuel).
    { replace en with (snd (drain mem_ops (S (length file)) cf new_parser file)) by (cbn [r_rest] in ED; now rewrite ED).
      apply drain_enough; [reflexivity|lia]. }
    destruct en as [|x|]; [discriminate|destruct x; discriminate|congruence]. }
  assert (HE : reader_next limit h r0 = reader_next limit h (mk_reader (r_seq r0) file a 0 (Some (cf, new_parser)))).
  { unfold reader_next at 1. cbn [r_parser r0]. fold r0. rewrite EI. reflexivity. }
  inversion HG as [? r' E|? r' x E|? r' row rows' ? E Hg']; subst; rewrite <- HE in E; econstructor; eauto.
Qed.

(** ** C22 *)
Section Histories.
  Variables (reg : registry) (h0 : heap) (seq : bool) (file : list item) (dialect : dialect_arg)
    (params : list fmtparam) (r : reader) (h1 : heap) (limit : Z) (h : heap).
  Hypothesis Hr : new_reader reg h0 seq file dialect params = (Ok r, h1).

  Theorem dict_given_names ns rk rv rows e cs : NoDup ns -> ~ In rk ns ->
    reader_rows limit h r = (rows, e) ->
    e = None \/ (count_next cs <= S (length (filter not_blank rows)))%nat ->
    run_dict limit h cs (new_dict_reader (Some ns) rk rv r) =
    answers ns (expected_dict ns rk rv) (filter not_blank rows) (final e) cs.
  Proof.
    intros Hn Hk HR Hc. unfold new_dict_reader.
    rewrite (named_history limit h ns rk rv cs r 0%nat rows e (fresh_gives _ _ _ _ _ _ _ _ _ _ _ _ Hr HR) Hc).
    clear Hc. revert cs. induction (filter not_blank rows) as [|x l IH]; intros cs.
    - induction cs as [|[|] cs IHc]; cbn; f_equal; auto.
    - induction cs as [|[|] cs IHc]; cbn; f_equal; auto. f_equal. f_equal. now apply row_dict_distinct.
  Qed.

  Lemma answers_ext ns f g l fin : (forall x, f x = g x) -> forall cs, answers ns f l fin cs = answers ns g l fin cs.
  Proof.
    intros H. induction l as [|x l IH]; intros cs; induction cs as [|[|] cs IHc]; cbn; f_equal; auto. now rewrite H.
  Qed.

  Theorem dict_header rk rv hdr rows e cs :
    let ns := map (fun x => Some (cell_str x)) hdr in
    NoDup ns -> ~ In rk ns ->
    reader_rows limit h r = (hdr :: rows, e) ->
    e = None \/ (count_next cs <= S (length (filter not_blank rows)))%nat ->
    run_dict limit h cs (new_dict_reader None rk rv r) =
    answers ns (expected_dict ns rk rv) (filter not_blank rows) (final e) cs.
  Proof.
    intros ns Hn Hk HR Hc. unfold new_dict_reader.
    assert (HG := fresh_gives _ _ _ _ _ _ _ _ _ _ _ _ Hr HR).
    inversion HG as [|? |? r' ? ? ? E Hg']; subst.
    assert (HF : dr_fieldnames limit h (mk_dict_reader None rk rv r 0) =
                 (Ok (Some ns), mk_dict_reader (Some ns) rk rv r' (r_line_num r'))).
    { unfold dr_fieldnames. cbn. rewrite E. reflexivity. }
    assert (HF2 : forall n, dr_fieldnames limit h (mk_dict_reader (Some ns) rk rv r' n) =
                 (Ok (Some ns), mk_dict_reader (Some ns) rk rv r' (r_line_num r'))) by reflexivity.
    assert (HN : dr_next limit h (mk_dict_reader None rk rv r 0) =
                 dr_next limit h (mk_dict_reader (Some ns) rk rv r' (r_line_num r'))).
    { unfold dr_next. cbn [dr_line_num Nat.eqb]. rewrite HF.
      destruct (Nat.eqb (r_line_num r') 0); [rewrite HF2|]; reflexivity. }
    rewrite (answers_ext ns (expected_dict ns rk rv) (row_dict ns rk rv)) by (intros; symmetry; now apply row_dict_distinct).
    destruct cs as [|[|] cs]; [reflexivity| |].
    - rewrite <- (named_history limit h ns rk rv (CNext :: cs) r' (r_line_num r') rows e Hg' Hc).
      cbn [run_dict]. now rewrite HN.
    - rewrite <- (named_history limit h ns rk rv (CNames :: cs) r' (r_line_num r') rows e Hg' Hc).
      cbn [run_dict]. rewrite HF, HF2. reflexivity.
  Qed.

  (** Without any row there is no header: reading it finds nothing, and [next]
      stops. *)
  Theorem dict_no_rows rk rv cs : reader_rows limit h r = ([], None) ->
    run_dict limit h cs (new_dict_reader None rk rv r) =
    map (fun c => match c with CNext => ANext DStop | CNames => ANames (Ok None) end) cs.
  Proof.
    intros HR. assert (HG := fresh_gives _ _ _ _ _ _ _ _ _ _ _ _ Hr HR). unfold new_dict_reader.
    clear HR. revert HG. clear Hr. generalize r. clear r.
    induction cs as [|c cs IH]; intros r HG; [reflexivity|].
    inversion HG as [? r' E| |]; subst. pose proof (gives_stop_after _ _ _ _ E) as HG'.
    destruct c; cbn [run_dict map].
    - unfold dr_next. cbn [dr_line_num Nat.eqb]. unfold dr_fieldnames. cbn [dr_names dr_reader]. rewrite E.
      cbn [dr_names dr_restkey dr_restval dr_reader dr_line_num].
      inversion HG' as [? r2 E2| |]; subst. rewrite E2. f_equal. apply IH. now apply gives_stop_after in E2.
    - unfold dr_fieldnames. cbn [dr_names dr_reader]. rewrite E. cbn. f_equal. now apply IH.
  Qed.
End Histories.

(** All dictionaries of a DictReader over a header. *)
Lemma dr_drain_run limit h fuel : forall o ds,
  dr_drain fuel limit h o = (ds, None) <->
  (length ds < fuel)%nat /\
  run_dict limit h (repeat CNext (S (length ds))) o = map (fun d => ANext (DRow d)) ds ++ [ANext DStop].
Proof.
  induction fuel as [|f IH]; intros o ds; cbn [dr_drain].
  { split; [discriminate|]. intros [H _]. lia. }
  cbn [repeat run_dict]. destruct (dr_next limit h o) as [[d| |x] o'] eqn:E.
  - destruct (dr_drain f limit h o') as [ds' x'] eqn:ED. split.
    + intros [= <- ->]. apply IH in ED as [H1 H2]. cbn [length map app repeat] in *.
      split; [lia|]. f_equal. exact H2.
    + intros [H1 H2]. destruct ds as [|d0 ds]; [discriminate|]. cbn [length map app repeat] in *.
      injection H2 as -> H2. assert (K : dr_drain f limit h o' = (ds, None)) by (apply IH; split; [lia|exact H2]).
      rewrite K in ED. now injection ED as <- <-.
  - split; [intros [= <-]; cbn; split; [lia|reflexivity]|].
    intros [_ H]. destruct ds; [reflexivity|discriminate].
  - split; [discriminate|]. intros [_ H]. destruct ds; discriminate.
Qed.
