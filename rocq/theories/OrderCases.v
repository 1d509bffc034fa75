(** * OrderCases: concrete texts whose lines change places *)
From Coq Require Import String Permutation.
From Verif Require Import Base Parser Dialect SpecLayout Potential SpecPotential PotentialFacts MaskedFacts NormalForm Consistency SpecConsistency DetectCases Detect Types SpecTypes TypesUrl TypesDetect TypesCases FilesCases
  SpecColumn SpecLines LineLayout UrlLines LineEnds LineDetect LineNormal LineCases SpecOrder LineOrder OrderNormal.
Local Notation len := List.length.
Open Scope nat_scope.

(** ** The shipped type detector answers for texts without an opening brace *)
Lemma line_answers U : sane_categories (u_cat U) -> (forall c, digit (u_cat U) c -> u_isdigit U c = true) -> forall ls : list str,
  (forall l, In l ls -> ~ In 123%N l) -> forall l s b, In l ls -> incl s l -> exists r, is_known_type U s b = Ok r.
Proof.
  intros Hs Hd ls H l s b Hl Hi. eexists. apply (no_brace_known U Hs Hd). intros K. now apply (H l Hl), Hi.
Qed.

(** ** Lines that reappear *)
Lemma repeated_agree d h r1 r2 : Permutation r1 r2 -> incl r1 h -> shapes_agree d (h ++ r1) (h ++ r2).
Proof.
  intros HP HI. apply seen_agree; [exact HP|]. intros x Hx. apply in_map_iff in Hx as (l & <- & Hl). now apply in_map, HI.
Qed.

(** ** A table in which the rows have one or two cells *)
Definition ragged : list str := map s2l ["name,x;y"; "total"; "b,12"; "c,'1;2'"]%string.
Definition with_end (e : eol) (ls : list str) : list (str * eol) := map (fun l => (l, e)) ls.
Definition shape_test (ls1 ls2 : list str) (d : SimpleDialect) : bool :=
  if list_eq_dec Nat.eq_dec (firsts (map (line_cells d) ls1)) (firsts (map (line_cells d) ls2)) then true
  else Nat.leb (len (firsts (map (line_cells d) ls1))) 2.
Lemma shape_test_ok ls1 ls2 d : shape_test ls1 ls2 d = true -> shapes_agree d ls1 ls2.
Proof. unfold shape_test, shapes_agree. destruct (list_eq_dec _ _ _); [now left|]. intros H. right. now apply Nat.leb_le. Qed.
Lemma ascii_candidates rows final L0 : get_dialects ascii_cat (shipped_url ascii_data) plain_orders utf8 (column_text rows final) None false = Ok L0 ->
  forall O L d, any_orders O -> get_dialects ascii_cat (shipped_url ascii_data) O utf8 (column_text rows final) None false = Ok L -> In d L -> In d L0.
Proof.
  intros E0 O L d HO EL Hd.
  destruct (candidates_same ascii_cat (shipped_url ascii_data) None (shipped_line ascii_data ascii_control) ascii_control ltac:(intros l E; discriminate) O plain_orders rows final rows final false HO plain_orders_ok eq_refl eq_refl)
    as [(L1 & L2 & E1 & E2 & HP & _)|[E1 _]]; rewrite EL in E1; [|discriminate]. rewrite E0 in E2. injection E1 as <-. injection E2 as <-. now apply (Permutation_in _ HP).
Qed.
Lemma column_end (e : eol) (ls : list str) : column_of (map (fun l => (l, e)) ls) None = ls.
Proof. unfold column_of. now rewrite app_nil_r, map_map, map_id. Qed.
Lemma ragged_case : let t := column_text (with_end ELF ragged) None in
  column_of (with_end ELF ragged) None = ragged /\ column_of (with_end ECRLF (rev ragged)) None = rev ragged /\ Permutation ragged (rev ragged) /\
  (forall l, In l ragged -> balanced_line ascii_cat None l /\ l <> [] /\ ~ In 123%N l) /\
  (forall O L d, any_orders O -> get_dialects ascii_cat (shipped_url ascii_data) O utf8 t None false = Ok L -> In d L ->
     shapes_agree d ragged (rev ragged)) /\
  map (line_cells (dialect3 [SEMI] [] [])) ragged = [2; 1; 1; 2] /\
  exists L, get_dialects ascii_cat (shipped_url ascii_data) plain_orders utf8 t None false = Ok L /\ In (dialect3 [SEMI] [] []) L.
Proof.
  cbv zeta. split; [apply column_end|]. split; [apply column_end|]. split; [apply Permutation_rev|]. split; [|split; [|split]].
  - assert (K : forallb (fun l => balanced_test ascii_cat l && negb (str_eqb l []) && negb (mem_char 123 l)) ragged = true) by (vm_compute; reflexivity).
    intros l Hl. rewrite forallb_forall in K. specialize (K l Hl). apply andb_true_iff in K as (K & K3). apply andb_true_iff in K as (K1 & K2).
    split; [now apply balanced_ok|]. split; [intros ->; discriminate K2|]. intros H. apply mem_char_In in H. now rewrite H in K3.
  - destruct (get_dialects ascii_cat (shipped_url ascii_data) plain_orders utf8 (column_text (with_end ELF ragged) None) None false) as [L0|x] eqn:E0; [|vm_compute in E0; discriminate E0].
    intros O L d HO EL Hd. apply shape_test_ok. pose proof (ascii_candidates _ _ L0 E0 O L d HO EL Hd) as H0.
    assert (K : match get_dialects ascii_cat (shipped_url ascii_data) plain_orders utf8 (column_text (with_end ELF ragged) None) None false with Ok L => forallb (shape_test ragged (rev ragged)) L | Err _ => false end = true) by (vm_compute; reflexivity).
    rewrite E0 in K. rewrite forallb_forall in K. now apply K.
  - vm_compute. reflexivity.
  - eexists. split; [vm_compute; reflexivity|]. cbn. tauto.
Qed.

(** ** Three lines whose order decides *)
Definition three_lines_text (ls : list str) : str := column_text (with_end ELF ls) None.
Definition swayed : list str := map s2l ["a;b"; "a,b;c,d;e"; "a,b"]%string.
Lemma swayed_detected : shipped_detect (mk_state None 131072) (three_lines_text swayed) = Ok (Some (dialect3 [COMMA] [] [])).
Proof.
  unfold shipped_detect, detector_detect.
  assert (E : detect_dialect_normal ascii_cat (three_lines_text swayed) utf8 None = Ok None) by (vm_compute; reflexivity).
  rewrite E. cbn -[detect three_lines_text]. rewrite small_detect_ok. vm_compute. reflexivity.
Qed.
Lemma swayed_reversed : shipped_detect (mk_state None 131072) (three_lines_text (rev swayed)) = Ok (Some (dialect3 [SEMI] [] [])).
Proof.
  unfold shipped_detect, detector_detect.
  assert (E : detect_dialect_normal ascii_cat (three_lines_text (rev swayed)) utf8 None = Ok None) by (vm_compute; reflexivity).
  rewrite E. cbn -[detect three_lines_text]. rewrite small_detect_ok. vm_compute. reflexivity.
Qed.
Lemma swayed_lines : forall l, In l swayed -> balanced_line ascii_cat None l /\ l <> [] /\ ~ In 123%N l.
Proof.
  assert (K : forallb (fun l => balanced_test ascii_cat l && negb (str_eqb l []) && negb (mem_char 123 l)) swayed = true) by (vm_compute; reflexivity).
  intros l Hl. rewrite forallb_forall in K. specialize (K l Hl). apply andb_true_iff in K as (K & K3). apply andb_true_iff in K as (K1 & K2).
  split; [now apply balanced_ok|]. split; [intros ->; discriminate K2|]. intros H. apply mem_char_In in H. now rewrite H in K3.
Qed.
Lemma order_refuted : exists ls1 ls2, Permutation ls1 ls2 /\ (forall l, In l ls1 -> balanced_line ascii_cat None l /\ l <> [] /\ ~ In 123%N l) /\
  shipped_detect (mk_state None 131072) (column_text (map (fun l => (l, ELF)) ls1) None) = Ok (Some (dialect3 [COMMA] [] [])) /\
  shipped_detect (mk_state None 131072) (column_text (map (fun l => (l, ELF)) ls2) None) = Ok (Some (dialect3 [SEMI] [] [])).
Proof.
  exists swayed, (rev swayed). split; [apply Permutation_rev|]. split; [exact swayed_lines|]. split; [exact swayed_detected|exact swayed_reversed].
Qed.

(** ** The detector as shipped *)
Lemma shipped_order U user o_set : sane_categories (u_cat U) -> (forall c, digit (u_cat U) c -> u_isdigit U c = true) ->
  control_ends (u_cat U) -> usual_delimiters user -> (forall l, Permutation (o_set l) l) ->
  forall O1 O2 method skip s e1 e2 rows1 final1 rows2 final2, any_orders O1 -> any_orders O2 ->
  Permutation (column_of rows1 final1) (column_of rows2 final2) ->
  (forall r, In r rows1 -> snd r = e1) -> (forall r, In r rows2 -> snd r = e2) ->
  (forall l, In l (column_of rows1 final1) -> balanced_line (u_cat U) user l /\ l <> [] /\ ~ In 123%N l) ->
  (forall O L d, any_orders O -> get_dialects (u_cat U) (shipped_url U) O utf8 (column_text rows1 final1) user false = Ok L -> In d L ->
     shapes_agree d (column_of rows1 final1) (column_of rows2 final2)) ->
  fst (detector_detect (u_cat U) (shipped_url U) (is_known_type U) O1 o_set (column_text rows1 final1) user method skip s) =
  fst (detector_detect (u_cat U) (shipped_url U) (is_known_type U) O2 o_set (column_text rows2 final2) user method skip s).
Proof.
  intros Hs Hd HK HU Ho O1 O2 method skip s e1 e2 rows1 final1 rows2 final2 H1 H2 HP U1 U2 HB HS.
  apply (detector_order (u_cat U) (shipped_url U) (is_known_type U) user (shipped_line U HK) HK HU o_set Ho O1 O2 method skip s e1 e2); try assumption.
  - intros l Hl. destruct (HB l Hl) as (K1 & K2 & _). now split.
  - apply (line_answers U Hs Hd). intros l Hl. now apply HB.
Qed.
Lemma shipped_repeated U user o_set : sane_categories (u_cat U) -> (forall c, digit (u_cat U) c -> u_isdigit U c = true) ->
  control_ends (u_cat U) -> usual_delimiters user -> (forall l, Permutation (o_set l) l) ->
  forall O1 O2 method skip s e h r1 r2, any_orders O1 -> any_orders O2 ->
  Permutation r1 r2 -> incl r1 h -> (forall l, In l h -> balanced_line (u_cat U) user l /\ l <> [] /\ ~ In 123%N l) ->
  fst (detector_detect (u_cat U) (shipped_url U) (is_known_type U) O1 o_set (column_text (map (fun l => (l, e)) (h ++ r1)) None) user method skip s) =
  fst (detector_detect (u_cat U) (shipped_url U) (is_known_type U) O2 o_set (column_text (map (fun l => (l, e)) (h ++ r2)) None) user method skip s).
Proof.
  intros Hs Hd HK HU Ho O1 O2 method skip s e h r1 r2 H1 H2 HP HI HB.
  apply (shipped_order U user o_set Hs Hd HK HU Ho O1 O2 method skip s e e); try assumption.
  - rewrite !column_end. now apply Permutation_app_head.
  - intros r Hr. apply in_map_iff in Hr as (l & <- & _). reflexivity.
  - intros r Hr. apply in_map_iff in Hr as (l & <- & _). reflexivity.
  - rewrite column_end. intros l Hl. apply HB. apply in_app_or in Hl as [Hl|Hl]; [exact Hl|now apply HI].
  - intros O L d _ _ _. rewrite !column_end. now apply repeated_agree.
Qed.
