(** * QuotedNormal: tables with quoted cells in the other detection methods *)
From Coq Require Import String Permutation.
From Verif Require Import Base Parser Dialect SpecLayout Potential SpecPotential PotentialFacts SpecTies NormalForm SpecNormal NormalFacts NormalForms CellFacts
  Consistency DetectFacts Detect Types SpecTypes TypesAll TypesUrl SpecTables TablesFacts TablesNormal SpecQuoted QuotedLayout QuotedDetect QuotedWords.
Open Scope N_scope.
Local Notation len := List.length.

(** ** Which side of the quotes *)
Section Parity.
Variable q : N.
Definition odd_before (s : str) : bool := Nat.odd (occurrences q s).
Lemma odd_app a b : odd_before (a ++ b) = xorb (odd_before a) (odd_before b).
Proof. unfold odd_before, occurrences. now rewrite count_occ_app, Nat.odd_add. Qed.
Lemma odd_none s : ~ In q s -> odd_before s = false.
Proof. intros H. unfold odd_before, occurrences. apply (count_occ_not_In N.eq_dec) in H. now rewrite H. Qed.
Lemma odd_quote : odd_before [q] = true.
Proof. unfold odd_before, occurrences. cbn [count_occ]. now destruct (N.eq_dec q q). Qed.
Variable R : N -> bool -> Prop.
Definition shape (t : str) : Prop := odd_before t = false /\ forall a x b, t = a ++ x :: b -> x <> q -> R x (odd_before a).
Lemma shape_app s t : shape s -> shape t -> shape (s ++ t).
Proof.
  intros (Hs & Rs) (Ht & Rt). split; [now rewrite odd_app, Hs, Ht|]. intros a x b E Hx.
  apply app_eq_app in E as (l & [(E1 & E2)|(E1 & E2)]).
  - destruct l as [|y l].
    + rewrite app_nil_r in E1. subst a. cbn in E2. rewrite Hs. symmetry in E2. exact (Rt [] x b E2 Hx).
    + injection E2 as -> E2. now apply (Rs a y l).
  - subst a. rewrite odd_app, Hs. replace (xorb false (odd_before l)) with (odd_before l) by (now destruct (odd_before l)). now apply (Rt l x b).
Qed.
Lemma shape_bare s : ~ In q s -> Forall (fun x => R x false) s -> shape s.
Proof.
  intros Hn HF. split; [now apply odd_none|]. intros a x b -> _. rewrite odd_none.
  - apply Forall_app in HF as (_ & HF). now inversion HF.
  - intros H. apply Hn, in_or_app. now left.
Qed.
Lemma shape_quoted s : ~ In q s -> Forall (fun x => R x true) s -> shape (q :: s ++ [q]).
Proof.
  intros Hn HF. split.
  - change (q :: s ++ [q]) with ([q] ++ s ++ [q]). now rewrite !odd_app, odd_quote, odd_none.
  - intros a x b E Hx. destruct a as [|y a]; injection E as E0 E; [congruence|]. subst y.
    change (q :: a) with ([q] ++ a). rewrite odd_app, odd_quote. apply app_eq_app in E as (l & [(E1 & E2)|(E1 & E2)]).
    + destruct l as [|y l]; [injection E2 as E2 _; congruence|]. injection E2 as -> _. subst s. rewrite odd_none.
      * apply Forall_app in HF as (_ & HF). now inversion HF.
      * intros H. apply Hn, in_or_app. now left.
    + destruct l as [|y l]; [injection E2 as E2; congruence|]. injection E2 as _ E2. now destruct l.
Qed.
Lemma shape_concat l : Forall shape l -> shape (List.concat l).
Proof.
  induction 1 as [|t l Ht _ IH]; [|now apply shape_app]. apply shape_bare; [intros []|constructor].
Qed.
Lemma shape_join c (l : list str) : c <> q -> R c false -> Forall shape l -> shape (join [c] l).
Proof.
  intros Hc HR. induction l as [|a [|b l] IH]; intros H.
  - apply shape_bare; [intros []|constructor].
  - now inversion H.
  - change (join [c] (a :: b :: l)) with (a ++ [c] ++ join [c] (b :: l)). inversion H; subst. apply shape_app; [assumption|]. apply shape_app; [|now apply IH].
    apply shape_bare; [intros [E|[]]; congruence|now constructor].
Qed.
(** A cell in quotes has everything inside them. *)
Lemma odd_quoted s a x b : ~ In q s -> x <> q -> quoted q s = a ++ x :: b -> odd_before a = true.
Proof.
  intros Hn Hx E. unfold quoted in E. destruct a as [|y a]; injection E as E0 E; [congruence|]. subst y.
  change (q :: a) with ([q] ++ a). rewrite odd_app, odd_quote. rewrite odd_none; [reflexivity|]. intros Hi.
  apply app_eq_app in E as (l & [(E1 & E2)|(E1 & E2)]).
  - subst s. apply Hn, in_or_app. now left.
  - destruct l as [|y l]; [injection E2 as E2; congruence|]. injection E2 as _ E2. now destruct l.
Qed.
End Parity.

(** A closing quote is followed, and an opening quote preceded, by a separator. *)
Section Glue.
Variables (q : N) (sep : N -> Prop).
Definition glue (t : str) : Prop := forall a x y b, t = a ++ x :: y :: b ->
  (x = q -> odd_before q a = true -> sep y) /\ (y = q -> x <> q -> odd_before q a = false -> sep x).
Lemma glue_bare s : ~ In q s -> glue s.
Proof.
  intros Hn a x y b ->. split; intros E; exfalso; apply Hn; rewrite E; apply in_or_app; right; [now left|right; now left].
Qed.
Lemma glue_quoted s : ~ In q s -> glue (q :: s ++ [q]).
Proof.
  intros Hn a x y b E. split; intros Ex.
  - intros Ho. exfalso. destruct a as [|z a]; [discriminate Ho|]. injection E as _ E.
    replace (a ++ x :: y :: b) with ((a ++ [x]) ++ y :: b) in E by now rewrite <- app_assoc. apply app_eq_app in E as (l & [(E1 & E2)|(E1 & E2)]).
    + apply Hn. rewrite E1. rewrite Ex. apply in_or_app. left. apply in_elt.
    + destruct l as [|w [|w' l]]; [| |discriminate E2].
      * apply Hn. rewrite app_nil_r in E1. rewrite <- E1. rewrite Ex. apply in_elt.
      * discriminate E2.
  - intros Hx Ho. exfalso. destruct a as [|z a]; [injection E as E _; congruence|]. injection E as <- E. change (q :: a) with ([q] ++ a) in Ho. rewrite odd_app, odd_quote in Ho.
    rewrite odd_none in Ho; [discriminate Ho|]. intros Hi. apply app_eq_app in E as (l & [(E1 & E2)|(E1 & E2)]).
    + apply Hn. rewrite E1. apply in_or_app. now left.
    + destruct l as [|w [|w' l]]; try discriminate E2.
Qed.
Hypothesis differ : ~ sep q.
Lemma glue_sep s t y0 : sep y0 -> glue s -> odd_before q s = false -> glue t -> glue (s ++ y0 :: t).
Proof.
  intros Hy Hs Ho Ht a x y b E. assert (Hn : y0 <> q) by (intros E0; apply differ; now rewrite <- E0).
  apply app_eq_app in E as (l & [(E1 & E2)|(E1 & E2)]).
  - destruct l as [|w [|w' l]].
    + injection E2 as E2 _. split; [intros; congruence|]. intros _ _ _. now rewrite E2.
    + injection E2 as _ E2 _. split; [intros _ _; now rewrite E2|intros; congruence].
    + injection E2 as E2 E3 _. apply (Hs a x y l). now rewrite E1, E2, E3.
  - destruct l as [|w l].
    + injection E2 as E2 _. split; [intros; congruence|]. intros _ _ _. now rewrite <- E2.
    + injection E2 as <- E2. assert (EO : odd_before q a = odd_before q l).
      { rewrite E1. change (y0 :: l) with ([y0] ++ l). rewrite !odd_app, Ho, (odd_none q [y0]); [now destruct (odd_before q l)|]. intros [E0|[]]. congruence. }
      rewrite EO. now apply (Ht l x y b).
Qed.
Lemma glue_part t pre l post : glue t -> t = pre ++ l ++ post -> odd_before q pre = false -> glue l.
Proof.
  intros Ht E Ho a x y b El. assert (EO : odd_before q (pre ++ a) = odd_before q a) by (rewrite odd_app, Ho; now destruct (odd_before q a)).
  rewrite <- EO. apply (Ht (pre ++ a) x y (b ++ post)). now rewrite E, El, <- !app_assoc.
Qed.
(** Cells cut at another delimiter have no quotes. *)
Lemma join_cut d (ls : list str) y post : ls <> [] -> join [d] (ls ++ y :: post) = join [d] ls ++ d :: join [d] (y :: post).
Proof.
  intros Hn. induction ls as [|a [|b ls] IH]; [congruence|reflexivity|]. cbn [app]. change (join [d] (a :: b :: ls ++ y :: post)) with (a ++ d :: join [d] ((b :: ls) ++ y :: post)).
  rewrite IH by discriminate. change (join [d] (a :: b :: ls)) with (a ++ d :: join [d] (b :: ls)). now rewrite <- app_assoc.
Qed.
Lemma join_even d (ls : list str) : d <> q -> Forall (fun s => odd_before q s = false) ls -> odd_before q (join [d] ls) = false.
Proof.
  intros Hd. induction 1 as [|a ls Ha Hl IH]; [reflexivity|]. destruct ls as [|b ls]; [exact Ha|].
  change (join [d] (a :: b :: ls)) with (a ++ [d] ++ join [d] (b :: ls)). rewrite !odd_app, Ha, IH, (odd_none q [d]); [reflexivity|]. intros [E|[]]. congruence.
Qed.
Lemma first_cell s d b : odd_before q (q :: s ++ [q]) = false -> glue ((q :: s ++ [q]) ++ d :: b) -> sep d.
Proof.
  intros Ho H. refine (proj1 (H (q :: s) q d b _) eq_refl _).
  - cbn [app]. now rewrite <- app_assoc.
  - change (q :: s ++ [q]) with ((q :: s) ++ [q]) in Ho. rewrite odd_app, odd_quote in Ho. now destruct (odd_before q (q :: s)).
Qed.
Lemma cut_cells_bare d cells extra : d <> q -> ~ sep d -> (2 <= len cells)%nat -> Forall (fun s => odd_before q s = false) (removelast cells) ->
  Forall (fun s => ~ In q s \/ exists v, s = q :: v ++ [q]) cells -> glue (join [d] cells ++ extra) -> Forall (fun s => ~ In q s) cells.
Proof.
  intros Hd Hs Hl He HC HG. rewrite Forall_forall in HC. apply Forall_forall. intros s Hi. destruct (HC s Hi) as [H|(v & Ev)]; [exact H|]. exfalso.
  apply in_split in Hi as (pre & post & E). destruct pre as [|p pre].
  - destruct post as [|z post]; [rewrite E in Hl; cbn in Hl; lia|]. rewrite E in HG, He. cbn [app] in HG, He.
    change (removelast (s :: z :: post)) with (s :: removelast (z :: post)) in He. pose proof (Forall_inv He) as Hev.
    change (join [d] (s :: z :: post)) with (s ++ d :: join [d] (z :: post)) in HG. rewrite <- app_assoc, Ev in HG. rewrite Ev in Hev. exact (Hs (first_cell v d _ Hev HG)).
  - assert (Ho : odd_before q (join [d] (p :: pre)) = false).
    { apply join_even; [exact Hd|]. rewrite E, removelast_app in He by discriminate. now apply Forall_app in He as (He & _). }
    apply Hs. assert (EJ : exists b, join [d] (s :: post) = q :: b) by (rewrite Ev; destruct post as [|z post]; eexists; reflexivity). destruct EJ as (b & EJ).
    assert (EC : join [d] cells = join [d] (p :: pre) ++ d :: q :: b) by (rewrite E, join_cut by discriminate; f_equal; f_equal; exact EJ). rewrite EC in HG.
    refine (proj2 (HG (join [d] (p :: pre)) d q (b ++ extra) _) eq_refl Hd Ho). now rewrite <- app_assoc.
Qed.
End Glue.

(** ** Places in lines *)
Definition at_start (eol pre : str) : Prop := pre = [] \/ exists p, pre = p ++ eol.
Lemma at_start_cons eol (l pre : str) : at_start eol pre -> at_start eol (l ++ eol ++ pre).
Proof.
  intros [->|(p & ->)]; right; [exists l; now rewrite app_nil_r|]. exists (l ++ eol ++ p). now rewrite !app_assoc.
Qed.
Lemma join_locate eol (ls : list str) : eol <> [] -> forall A x B, join eol ls = A ++ x :: B -> ~ In x eol ->
  exists l a b pre, In l ls /\ l = a ++ x :: b /\ A = pre ++ a /\ at_start eol pre.
Proof.
  intros He. induction ls as [|l [|l2 ls] IH]; intros A x B E Hx.
  - destruct A; discriminate.
  - exists l, A, B, []. split; [now left|]. split; [exact E|]. split; [reflexivity|now left].
  - change (join eol (l :: l2 :: ls)) with (l ++ eol ++ join eol (l2 :: ls)) in E. apply app_eq_app in E as (z & [(E1 & E2)|(E1 & E2)]).
    + destruct z as [|y z].
      * destruct eol as [|e eol]; [congruence|]. injection E2 as E2 _. destruct Hx. left. congruence.
      * injection E2 as -> E2. exists l, A, z, []. split; [now left|]. split; [exact E1|]. split; [reflexivity|now left].
    + assert (K : exists A', A = l ++ eol ++ A' /\ join eol (l2 :: ls) = A' ++ x :: B).
      { apply app_eq_app in E2 as (w & [(E3 & E4)|(E3 & E4)]).
        - destruct w as [|y w].
          + rewrite app_nil_r in E3. exists []. split; [rewrite app_nil_r, E3; exact E1|]. symmetry. exact E4.
          + injection E4 as -> _. destruct Hx. rewrite E3. apply in_elt.
        - exists w. rewrite E1, E3. now split. }
      destruct K as (A' & -> & E'). destruct (IH A' x B E' Hx) as (l' & a & b & pre & Hl & El & EA & Hp).
      exists l', a, b, (l ++ eol ++ pre). split; [now right|]. split; [exact El|]. split; [rewrite EA; now rewrite !app_assoc|]. now apply at_start_cons.
Qed.
Lemma join_line eol (ls : list str) l : In l ls -> exists pre post, join eol ls = pre ++ l ++ post /\ at_start eol pre.
Proof.
  induction ls as [|a [|b ls] IH]; intros H; [destruct H| |].
  - destruct H as [->|[]]. exists [], []. rewrite app_nil_r. split; [reflexivity|now left].
  - change (join eol (a :: b :: ls)) with (a ++ eol ++ join eol (b :: ls)). destruct H as [->|H].
    + exists [], (eol ++ join eol (b :: ls)). split; [reflexivity|now left].
    + destruct (IH H) as (pre & post & E & Hp). exists (a ++ eol ++ pre), post. rewrite E. split; [now rewrite !app_assoc|]. now apply at_start_cons.
Qed.
Definition nl_end (pre : str) : Prop := pre = [] \/ exists p y, pre = p ++ [y] /\ (y = CR \/ y = LF).
Lemma at_start_nl eol pre : eol = [CR; LF] \/ eol = [LF] \/ eol = [CR] -> at_start eol pre -> nl_end pre.
Proof.
  intros He [->|(p & ->)]; [now left|]. right. destruct He as [->|[->| ->]].
  - exists (p ++ [CR]), LF. rewrite <- app_assoc. split; [reflexivity|now right].
  - exists p, LF. split; [reflexivity|now right].
  - exists p, CR. split; [reflexivity|now left].
Qed.
Lemma line_locate data lines A x B : file_lines data lines -> data = A ++ x :: B -> x <> CR -> x <> LF ->
  exists l a b pre, In l lines /\ l = a ++ x :: b /\ A = pre ++ a /\ nl_end pre.
Proof.
  intros (s & n & m & eol & E & _ & _ & _ & Es & _ & He) E' H1 H2.
  assert (He' : eol = [CR; LF] \/ eol = [LF] \/ eol = [CR]) by tauto.
  assert (Hs : exists B', s = A ++ x :: B').
  { rewrite E in E'. apply app_eq_app in E' as (l & [(E1 & E2)|(E1 & E2)]).
    - destruct l as [|y l]; [|injection E2 as -> _; now exists l]. exfalso.
      assert (Hi : In x (repeat CR n ++ repeat LF m)) by (change (repeat CR n ++ repeat LF m) with ([] ++ repeat CR n ++ repeat LF m); rewrite <- E2; now left).
      apply in_app_or in Hi as [Hi|Hi]; apply repeat_spec in Hi; congruence.
    - exfalso. assert (Hi : In x (repeat CR n ++ repeat LF m)) by (rewrite E2; apply in_elt).
      apply in_app_or in Hi as [Hi|Hi]; apply repeat_spec in Hi; congruence. }
  destruct Hs as (B' & Hs). rewrite Es in Hs.
  destruct (join_locate eol lines) with (A := A) (x := x) (B := B') as (l & a & b & pre & Hl & El & EA & Hp).
  - destruct He' as [->|[->| ->]]; discriminate.
  - exact Hs.
  - destruct He' as [->|[->| ->]]; cbn; intuition congruence.
  - exists l, a, b, pre. split; [exact Hl|]. split; [exact El|]. split; [exact EA|]. now apply (at_start_nl eol).
Qed.
Lemma line_place data lines l : file_lines data lines -> In l lines -> exists pre post, data = pre ++ l ++ post /\ nl_end pre.
Proof.
  intros (s & n & m & eol & -> & _ & _ & _ & -> & _ & He) Hl. destruct (join_line eol lines l Hl) as (pre & post & E & Hp).
  exists pre, (post ++ repeat CR n ++ repeat LF m). rewrite E. split; [now rewrite <- !app_assoc|]. apply (at_start_nl eol); [tauto|exact Hp].
Qed.

Section Normal.
Variable cat : N -> str.
Variables (c q : N) (k : nat) (rows : list (list qcell * eol)) (final : option (list qcell)).
Local Notation T := (table_of rows final).
Local Notation text := (quoted_text c q rows final).
Hypothesis Hq : a_quote q.
Hypothesis delim : c <> CR /\ c <> LF /\ ~ a_quote c.
Definition ncell (x : qcell) : Prop := Forall (fun y => y <> CR /\ y <> LF /\ if fst x then y <> q else y <> c /\ ~ a_quote y) (snd x).
Hypothesis table : quoted_grid k ncell T.

Definition place (x : N) (b : bool) : Prop := if b then x <> CR /\ x <> LF else ~ a_quote x.
Lemma quote_nl : q <> CR /\ q <> LF /\ c <> q.
Proof.
  destruct delim as (_ & _ & Hc).
  split; [destruct Hq as [->| ->]; discriminate|]. split; [destruct Hq as [->| ->]; discriminate|]. intros E. apply Hc. now rewrite E.
Qed.
Lemma cell_chars r x y : In r T -> In x r -> In y (snd x) -> y <> CR /\ y <> LF /\ if fst x then y <> q else y <> c /\ ~ a_quote y.
Proof.
  intros Hr Hx. pose proof table as (_ & HF & _). rewrite Forall_forall in HF. destruct (HF r Hr) as (_ & HC). rewrite Forall_forall in HC.
  specialize (HC x Hx). unfold ncell in HC. rewrite Forall_forall in HC. exact (HC y).
Qed.
Lemma cell_no_quote r (x : qcell) : In r T -> In x r -> ~ In q (snd x).
Proof.
  intros Hr Hx Hi. destruct (cell_chars r x q Hr Hx Hi) as (_ & _ & H). destruct (fst x); [congruence|]. now apply (proj2 H).
Qed.
Lemma cell_shape r x : In r T -> In x r -> shape q place (cell_text q x).
Proof.
  intros Hr Hx. pose proof (cell_no_quote r x Hr Hx) as Hn. pose proof (fun y => cell_chars r x y Hr Hx) as HC.
  destruct x as [[|] s]; cbn [fst snd cell_text] in *.
  - apply shape_quoted; [exact Hn|]. apply Forall_forall. intros y Hy. destruct (HC y Hy) as (H1 & H2 & _). now split.
  - apply shape_bare; [exact Hn|]. apply Forall_forall. intros y Hy. destruct (HC y Hy) as (_ & _ & _ & H). exact H.
Qed.
Lemma row_shape r : In r T -> shape q place (join [c] (map (cell_text q) r)).
Proof.
  intros Hr. destruct quote_nl as (_ & _ & Hc). apply shape_join; [exact Hc|exact (proj2 (proj2 delim))|]. apply Forall_map, Forall_forall. intros x Hx. now apply (cell_shape r).
Qed.
Lemma eol_shape e : shape q place (render_eol e).
Proof.
  destruct quote_nl as (H1 & H2 & _). apply shape_bare.
  - destruct e; cbn; intuition congruence.
  - apply Forall_forall. intros x Hx [E|E]; rewrite E in Hx; destruct e; cbn in Hx; unfold CR, LF in Hx; intuition discriminate.
Qed.
Lemma text_shape : shape q place text.
Proof.
  unfold quoted_text, table_text. apply shape_app.
  - apply shape_concat. rewrite map_map. apply Forall_map, Forall_forall. intros [r e] Hr. cbn [fst snd]. apply shape_app; [|apply eol_shape].
    apply row_shape. unfold table_of. apply in_or_app. left. apply in_map_iff. now exists (r, e).
  - assert (K : forall r, final = Some r -> shape q place (join [c] (map (cell_text q) r))).
    { intros r E. apply row_shape. unfold table_of. rewrite E. apply in_or_app. right. now left. }
    revert K. clear. destruct final as [r|]; intros K; cbn [option_map]; [now apply K|apply shape_bare; [intros []|constructor]].
Qed.
Lemma start_even pre post : text = pre ++ post -> nl_end pre -> odd_before q pre = false.
Proof.
  intros E [->|(p & y & -> & Hy)]; [now apply odd_none|]. destruct quote_nl as (H1 & H2 & _).
  assert (Hyq : y <> q) by (destruct Hy as [->| ->]; congruence).
  rewrite odd_app, (odd_none q [y]) by (intros [E'|[]]; congruence). rewrite <- app_assoc in E.
  pose proof (proj2 text_shape p y post E Hyq) as HR. destruct (odd_before q p); [|reflexivity]. cbn in HR. destruct Hy as [->| ->]; tauto.
Qed.
(** Quotes stand only beside delimiters and line ends. *)
Definition outer (x : N) : Prop := x = c \/ x = CR \/ x = LF.
Lemma outer_glue s t y : outer y -> glue q outer s -> odd_before q s = false -> glue q outer t -> glue q outer (s ++ y :: t).
Proof.
  intros Hy. apply glue_sep; [|exact Hy]. destruct quote_nl as (H1 & H2 & H3). unfold outer. intros [E|[E|E]]; congruence.
Qed.
Lemma cell_glue r x : In r T -> In x r -> glue q outer (cell_text q x).
Proof.
  intros Hr Hx. pose proof (cell_no_quote r x Hr Hx) as Hn. destruct x as [[|] s]; cbn [fst snd cell_text] in *; [now apply glue_quoted|now apply glue_bare].
Qed.
Lemma row_glue r : In r T -> glue q outer (join [c] (map (cell_text q) r)).
Proof.
  intros Hr. assert (K : forall r', (forall x, In x r' -> In x r) -> glue q outer (join [c] (map (cell_text q) r'))).
  { induction r' as [|x [|y r'] IH]; intros Hi.
    - apply glue_bare. intros [].
    - apply (cell_glue r); [exact Hr|]. apply Hi. now left.
    - cbn [map]. change (join [c] (cell_text q x :: cell_text q y :: map (cell_text q) r')) with (cell_text q x ++ c :: join [c] (map (cell_text q) (y :: r'))).
      apply outer_glue; [now left| | |].
      + apply (cell_glue r); [exact Hr|]. apply Hi. now left.
      + apply (cell_shape r); [exact Hr|]. apply Hi. now left.
      + apply IH. intros z Hz. apply Hi. now right. }
  now apply K.
Qed.
Lemma text_glue : glue q outer text.
Proof.
  unfold quoted_text, table_text. rewrite map_map. cbn [fst snd].
  assert (K1 : forall r e, In (r, e) rows -> In r T) by (intros r e Hr; unfold table_of; apply in_or_app; left; apply in_map_iff; now exists (r, e)).
  assert (K2 : forall r, final = Some r -> In r T) by (intros r E; unfold table_of; rewrite E; apply in_or_app; right; now left).
  assert (KF : glue q outer match option_map (map (cell_text q)) final with Some row => join [c] row | None => [] end).
  { pose proof row_glue as RG. revert K2 RG. clear. destruct final as [r|]; intros K2 RG; cbn [option_map]; [now apply RG, K2|]. apply glue_bare. intros []. }
  assert (K : forall l, (forall r e, In (r, e) l -> In r T) ->
    glue q outer (List.concat (map (fun r => join [c] (map (cell_text q) (fst r)) ++ render_eol (snd r)) l) ++ match option_map (map (cell_text q)) final with Some row => join [c] row | None => [] end)).
  { induction l as [|[r e] l IH]; intros Hl; [exact KF|]. cbn [map List.concat fst snd]. rewrite <- !app_assoc.
    assert (Hr : In r T) by (apply (Hl r e); now left). assert (HG := row_glue r Hr). assert (HS := proj1 (row_shape r Hr)).
    specialize (IH (fun r e H => Hl r e (or_intror H))). destruct quote_nl as (H1 & H2 & _).
    destruct e; cbn [render_eol app]; apply outer_glue; try assumption; unfold outer; try tauto.
    change (glue q outer ([] ++ LF :: List.concat (map (fun r0 => join [c] (map (cell_text q) (fst r0)) ++ render_eol (snd r0)) l) ++ match option_map (map (cell_text q)) final with Some row => join [c] row | None => [] end)).
    apply outer_glue; [unfold outer; tauto|apply glue_bare; intros []|reflexivity|exact IH]. }
  now apply K.
Qed.
Lemma line_glue l : In l (split_file text) -> glue q outer l.
Proof.
  intros Hl. destruct (line_place text (split_file text) _ (split_file_lines text) Hl) as (pre & post & E & Hp).
  apply (glue_part q outer text pre l post text_glue E). exact (start_even pre _ E Hp).
Qed.
Lemma common_outer d : In d common_delimiters -> d <> c -> ~ outer d.
Proof.
  intros Hd Hc [E|[E|E]]; [contradiction| |]; rewrite E in Hd; cbn in Hd; unfold CR, LF, COMMA, SEMI, TAB in Hd; intuition discriminate.
Qed.
Lemma bare_delimiter : exists A B, text = A ++ c :: B /\ odd_before q A = false.
Proof.
  assert (HT : exists r rest, In r T /\ text = join [c] (map (cell_text q) r) ++ rest).
  { pose proof table as (_ & _ & r0 & s0 & Hr0 & _). revert Hr0. clear. intros Hr0. unfold quoted_text, table_text. destruct rows as [|[r e] rs].
    - destruct final as [r|]; [|destruct Hr0]. exists r, []. split; [now left|]. cbn. now rewrite app_nil_r.
    - exists r. eexists. split; [now left|]. cbn [map List.concat fst snd]. rewrite <- !app_assoc. reflexivity. }
  destruct HT as (r & rest & Hr & E). pose proof table as (Hk & HF & _). rewrite Forall_forall in HF. destruct (HF r Hr) as (Hl & _).
  destruct r as [|x [|y r]]; cbn in Hl; [lia|lia|].
  exists (cell_text q x), (join [c] (map (cell_text q) (y :: r)) ++ rest). split.
  - rewrite E. cbn [map]. change (join [c] (cell_text q x :: cell_text q y :: map (cell_text q) r)) with
      (cell_text q x ++ [c] ++ join [c] (cell_text q y :: map (cell_text q) r)). now rewrite <- !app_assoc.
  - apply (proj1 (cell_shape _ x Hr (or_introl eq_refl))).
Qed.
Lemma bare_line : exists l a b, In l (split_file text) /\ l = a ++ c :: b /\ odd_before q a = false.
Proof.
  destruct bare_delimiter as (A & B & E & HA). pose proof delim as (H2 & H1 & _).
  destruct (line_locate text (split_file text) A c B (split_file_lines text) E H2 H1) as (l & a & b & pre & Hl & El & EA & Hp).
  exists l, a, b. split; [exact Hl|]. split; [exact El|]. rewrite EA, odd_app in HA. rewrite EA, <- app_assoc in E.
  rewrite (start_even pre _ E Hp) in HA. now destruct (odd_before q a).
Qed.
Lemma quote_line : exists l, In l (split_file text) /\ In q l.
Proof.
  destruct quote_nl as (H1 & H2 & _). apply (chars_line text); [apply split_file_lines| |exact H1|exact H2].
  pose proof table as (_ & _ & r & s & Hr & Hs). unfold quoted_text.
  apply (text_in c _ _ q (map (cell_text q) r)); [rewrite quoted_table; now apply in_map|].
  apply (in_join_cell c q (cell_text q (true, s))); [now apply in_map|now left].
Qed.
(** The first quote of a line has no other quote before it. *)
Lemma first_in (x : N) (l : str) : In x l -> exists a b, l = a ++ x :: b /\ ~ In x a.
Proof.
  induction l as [|y l IH]; intros H; [destruct H|]. destruct (N.eq_dec y x) as [->|Hn]; [exists [], l; split; [reflexivity|intros []]|].
  destruct H as [H|H]; [congruence|]. destruct (IH H) as (a & b & -> & Ha). exists (y :: a), b. split; [reflexivity|]. intros [E|E]; [congruence|contradiction].
Qed.
Lemma other_after q' l X Y : a_quote q' -> q' <> q -> In l (split_file text) -> In q l -> l = X ++ q' :: Y -> In q X.
Proof.
  intros Hq' Hn Hl Hi E. destruct (in_dec N.eq_dec q X) as [H|H]; [exact H|]. exfalso.
  destruct (line_place text (split_file text) _ (split_file_lines text) Hl) as (pre & post & ET & Hp).
  assert (E2 : text = (pre ++ X) ++ q' :: Y ++ post) by (rewrite ET, E; now rewrite <- !app_assoc).
  pose proof (proj2 text_shape _ q' _ E2 Hn) as HR. rewrite odd_app, (start_even pre _ ET Hp), (odd_none q X H) in HR. cbn in HR. contradiction.
Qed.
Lemma not_elementary : ~ In q elementary /\ ~ In q word /\ ~ In q (SPACE :: word).
Proof.
  assert (H : forall s, mem_char 34 s = false -> mem_char 39 s = false -> ~ In q s).
  { intros s H1 H2 Hi. apply mem_char_In in Hi. destruct Hq as [E|E]; rewrite E in Hi; congruence. }
  split; [|split]; apply H; reflexivity.
Qed.
Lemma join_two d (cells : list str) n : len cells = n -> (2 <= n)%nat -> exists x y t, cells = x :: y :: t /\ join [d] cells = x ++ d :: join [d] (y :: t).
Proof. intros <- H. destruct cells as [|x [|y t]]; cbn in H; try lia. now exists x, y, t. Qed.
Lemma no_form2 d : In d common_delimiters -> ~ form2 d (split_file text).
Proof.
  intros Hd (_ & n & Hn & HF). destruct quote_line as (l & Hl & Hi). rewrite Forall_forall in HF. destruct (HF l Hl) as (cells & Hc & -> & HC).
  apply in_join_any in Hi as [(s & Hs & Hi)|([Hi|[]] & _)].
  - rewrite Forall_forall in HC. destruct (HC s Hs) as (He & _). unfold over in He. rewrite Forall_forall in He. now apply (proj1 not_elementary), He.
  - rewrite Hi in Hd. unfold common_delimiters, COMMA, SEMI, TAB in Hd. destruct Hq as [E0|E0]; rewrite E0 in Hd; cbn in Hd; intuition discriminate.
Qed.
Theorem normal_answer : exists r, detect_dialect_normal cat text utf8 None = Ok r /\ (r = None \/ r = Some (dialect3 [c] [q] [])).
Proof.
  destruct (detect_normal cat utf8 text common_delimiters) as (r & E & Hs & Hf).
  { now left. }
  { repeat apply Forall_cons; try apply Forall_nil; cbn; intuition discriminate. }
  exists r. split; [exact E|]. clear E.
  assert (Hdec : escape_suspect cat common_delimiters text \/ ~ escape_suspect cat common_delimiters text).
  { pose proof (escape_suspect_spec cat text common_delimiters) as H. destruct (existsb _ _) in H; [left|right; intros K]; [now apply H|apply H in K; discriminate]. }
  destruct Hdec as [K|K]; [left; now apply Hs|]. specialize (Hf K). clear Hs K.
  pose proof (fit_answer (attempts common_delimiters) [] (split_file text) r (dialect3 [c] [q] [])) as HA. rewrite app_nil_r in HA.
  apply HA; [exact Hf| |intros _ ? ? []]. clear HA Hf. intros D P Hi HP.
  destruct bare_line as (l0 & a0 & b0 & Hl0 & El0 & Ha0). destruct quote_nl as (_ & _ & Hcq). destruct quote_line as (lq & Hlq & Hiq).
  assert (Henc : forall s, ~ In q s -> l0 <> quoted q s).
  { intros s Hn E. rewrite E in El0. rewrite (odd_quoted q s a0 c b0 Hn Hcq El0) in Ha0. discriminate. }
  unfold attempts in Hi. apply in_app_or in Hi as [Hi|Hi]; [|apply in_app_or in Hi as [Hi|Hi]].
  - apply in_map_iff in Hi as (d & [= <- <-] & Hd). now destruct (no_form2 d).
  - apply in_flat_map in Hi as (d & Hd & Hi). apply in_flat_map in Hi as (q' & Hq' & Hi).
    assert (Hq2 : a_quote q') by (unfold a_quote; cbn in Hq'; intuition congruence). clear Hq'.
    destruct (N.eq_dec q' q) as [->|Hn].
    + destruct (N.eq_dec d c) as [->|Hc]; [destruct Hi as [[= <- _]|[[= <- _]|[[= <- _]|[]]]]; reflexivity|]. exfalso.
      assert (Hdq : d <> q).
      { intros E. rewrite E in Hd. unfold common_delimiters, COMMA, SEMI, TAB in Hd. destruct Hq as [E0|E0]; rewrite E0 in Hd; cbn in Hd; intuition discriminate. }
      destruct Hi as [[= <- <-]|[[= <- <-]|[[= <- <-]|[]]]].
      * destruct HP as (_ & n & Hn & HF). rewrite Forall_forall in HF. destruct (HF l0 Hl0) as (cells & Hlen & vs & extra & -> & Hvs & E).
        pose proof (line_glue l0 Hl0) as HG. rewrite E in HG.
        assert (HB : Forall (fun s => ~ In q s) (map (quoted q) vs)).
        { refine (cut_cells_bare q outer d _ _ Hdq (common_outer d Hd Hc) _ _ _ HG).
          - rewrite Hlen. exact Hn.
          - assert (HE : Forall (fun s => odd_before q s = false) (map (quoted q) vs)).
            { apply Forall_map. eapply Forall_impl; [|exact Hvs]. intros v Hv. unfold quoted. change (q :: v ++ [q]) with ([q] ++ v ++ [q]). now rewrite !odd_app, odd_quote, (odd_none q v Hv). }
            apply Forall_forall. intros s Hs. rewrite Forall_forall in HE. now apply HE, in_removelast.
          - apply Forall_map, Forall_forall. intros v _. right. now exists v. }
        destruct vs as [|v vs]; [cbn in Hlen; lia|]. apply (Forall_inv HB). now left.
      * destruct HP as (_ & _ & n & Hn & HF). rewrite Forall_forall in HF. destruct (HF lq Hlq) as (cells & Hlen & (_ & Hev & Hj) & HC).
        assert (EJ : exists extra, lq = join [d] cells ++ extra /\ ~ In q extra).
        { destruct Hj as [Hj|(_ & _ & Hj)]; [exists []; rewrite app_nil_r; split; [exact Hj|intros []]|exists [d]; split; [exact Hj|intros [E|[]]; congruence]]. }
        destruct EJ as (extra & EJ & Hex). pose proof (line_glue lq Hlq) as HG. rewrite EJ in HG.
        assert (HB : Forall (fun s => ~ In q s) cells).
        { refine (cut_cells_bare q outer d _ _ Hdq (common_outer d Hd Hc) _ _ _ HG).
          - rewrite Hlen. exact Hn.
          - eapply Forall_impl; [|exact Hev]. intros s Hs. unfold odd_before. unfold even_quotes in Hs. now rewrite <- Nat.negb_even, Hs.
          - eapply Forall_impl; [|exact HC]. intros s (_ & [Hs|(v & _ & Hs)]); [left|right; now exists v].
            intros Hi. unfold over in Hs. rewrite Forall_forall in Hs. now apply (proj1 not_elementary), Hs. }
        rewrite EJ in Hiq. apply in_app_or in Hiq as [Hiq|Hiq]; [|contradiction]. apply in_join_any in Hiq as [(s & Hs & Hiq)|([E|[]] & _)]; [|congruence].
        rewrite Forall_forall in HB. exact (HB s Hs Hiq).
      * destruct HP as (_ & ls & El & _ & n & Hn & HF). rewrite El in Hl0. apply in_map_iff in Hl0 as (s & Es & Hs).
        apply (Henc s); [|congruence]. rewrite Forall_forall in HF. destruct (HF s Hs) as (cells & _ & -> & HC). intros Hi.
        apply in_join_any in Hi as [(u & Hu & Hi)|([Hi|[]] & _)]; [|congruence].
        rewrite Forall_forall in HC. destruct (HC u Hu) as (He & _). unfold over in He. rewrite Forall_forall in He. now apply (proj1 not_elementary), He.
    + exfalso. assert (Hst : forall Y, lq <> q' :: Y) by (intros Y E; destruct (other_after q' lq [] Y Hq2 Hn Hlq Hiq E)).
      destruct Hi as [[= <- <-]|[[= <- <-]|[[= <- <-]|[]]]].
      * destruct HP as (_ & n & Hn2 & HF). rewrite Forall_forall in HF. destruct (HF lq Hlq) as (cells & Hlen & vs & extra & -> & _ & E).
        destruct (join_two d _ n Hlen Hn2) as (x & y & t & Ec & Ej). destruct vs as [|v vs]; [discriminate Ec|]. injection Ec as Ex _.
        rewrite Ej, <- Ex in E. exact (Hst _ E).
      * destruct HP as (_ & _ & n & Hn2 & HF). rewrite Forall_forall in HF. destruct (HF lq Hlq) as (cells & Hlen & (_ & _ & Hj) & HC).
        assert (Hdq : d <> q).
        { intros E. rewrite E in Hd. unfold common_delimiters, COMMA, SEMI, TAB in Hd. destruct Hq as [E0|E0]; rewrite E0 in Hd; cbn in Hd; intuition discriminate. }
        assert (EJ : exists extra, lq = join [d] cells ++ extra /\ ~ In q extra).
        { destruct Hj as [Hj|(_ & _ & Hj)]; [exists []; rewrite app_nil_r; split; [exact Hj|intros []]|exists [d]; split; [exact Hj|intros [E|[]]; congruence]]. }
        destruct EJ as (extra & EJ & Hex). assert (HK : forall pre post, cells = pre ++ post -> Forall (fun s => ~ In q s) pre).
        { induction pre as [|s pre IH] using rev_ind; intros post E; [constructor|]. rewrite <- app_assoc in E. specialize (IH _ E). apply Forall_app. split; [exact IH|].
          constructor; [|constructor]. intros Hi. rewrite Forall_forall in HC. destruct (HC s) as (_ & [Hs|(v & _ & Hs)]); [rewrite E; apply in_elt| |].
          - unfold over in Hs. rewrite Forall_forall in Hs. now apply (proj1 not_elementary), Hs.
          - assert (EX : exists X Y, lq = X ++ q' :: Y /\ ~ In q X).
            { cbn [app] in E. destruct pre as [|p pre].
              - exists []. cbn [app] in E. rewrite EJ, E, Hs. destruct post as [|z post]; eexists; (split; [reflexivity|intros []]).
              - exists (join [d] (p :: pre) ++ [d]). rewrite EJ, E, join_cut by discriminate. rewrite Hs.
                assert (EB : exists B, join [d] (quoted q' v :: post) = q' :: B) by (destruct post as [|z post]; eexists; reflexivity). destruct EB as (B & EB).
                exists (B ++ extra). split; [rewrite <- !app_assoc; cbn [app]; f_equal; f_equal; change (q' :: B ++ extra) with ((q' :: B) ++ extra); f_equal; exact EB|].
                intros Hi2. apply in_app_or in Hi2 as [Hi2|[Hi2|[]]]; [|congruence]. apply in_join_any in Hi2 as [(u & Hu & Hi2)|([E1|[]] & _)]; [|congruence].
                rewrite Forall_forall in IH. exact (IH u Hu Hi2). }
            destruct EX as (X & Y & EX & HX). exact (HX (other_after q' lq X Y Hq2 Hn Hlq Hiq EX)). }
        specialize (HK cells [] (eq_sym (app_nil_r cells))). rewrite EJ in Hiq. apply in_app_or in Hiq as [Hi|Hi]; [|contradiction].
        apply in_join_any in Hi as [(u & Hu & Hi)|([E1|[]] & _)]; [|congruence]. rewrite Forall_forall in HK. exact (HK u Hu Hi).
      * destruct HP as (_ & ls & El & _). rewrite El in Hlq. apply in_map_iff in Hlq as (s & Es & _). apply (Hst (s ++ [q'])). now rewrite <- Es.
  - exfalso. assert (H4 : forall q', a_quote q' -> ~ form4 q' (split_file text)).
    { intros q' Hq2 (_ & HF). rewrite Forall_forall in HF. destruct (N.eq_dec q' q) as [->|Hn].
      - destruct (HF l0 Hl0) as (s & E & Hs). apply (Henc s); [|exact E]. intros Hi0. unfold over in Hs. rewrite Forall_forall in Hs. now apply (proj2 (proj2 not_elementary)), Hs.
      - destruct (HF lq Hlq) as (s & E & _). destruct (other_after q' lq [] _ Hq2 Hn Hlq Hiq E). }
    destruct Hi as [[= <- <-]|[[= <- <-]|[[= <- <-]|[]]]].
    + apply (H4 39); [now right|exact HP].
    + apply (H4 34); [now left|exact HP].
    + destruct HP as (_ & HF). rewrite Forall_forall in HF. specialize (HF lq Hlq). unfold over in HF. rewrite Forall_forall in HF.
      now apply (proj1 (proj2 not_elementary)), HF.
Qed.
End Normal.

Theorem quoted_answer U c q k rows final : a_quote q -> plain_delimiter (u_cat U) c -> quoted_grid k (qcell_ok c) (table_of rows final) ->
  exists r, detect_dialect_normal (u_cat U) (quoted_text c q rows final) utf8 None = Ok r /\ (r = None \/ r = Some (dialect3 [c] [q] [])).
Proof.
  intros Hq Hd (Hk & HF & Hs). apply (normal_answer (u_cat U) c q k rows final Hq).
  - pose proof Hd as (Hdd & Hn & _). destruct (default_not_nl U c Hdd) as (H1 & H2). split; [exact H2|]. split; [exact H1|]. intros H. apply Hn. unfold quote_like. destruct H as [->| ->]; cbn; tauto.
  - split; [exact Hk|]. split; [|exact Hs]. eapply Forall_impl; [|exact HF]. intros r (Hl & Hr). split; [exact Hl|]. eapply Forall_impl; [|exact Hr]. intros x Hx. unfold ncell, qcell_ok in *.
    eapply Forall_impl; [|exact Hx]. intros y Hy. assert (HQ : a_quote y -> quote_like y) by (intros [->| ->]; unfold quote_like; cbn; tauto).
    destruct (fst x); [destruct Hy as (Hb & Hnq & _)|destruct Hy as (Hyc & Hb & Hnq & _)]; (split; [intros ->; apply Hb; cbn; tauto|]); (split; [intros ->; apply Hb; cbn; tauto|]).
    + intros ->. apply Hnq. unfold quote_like. destruct Hq as [->| ->]; cbn; tauto.
    + split; [exact Hyc|]. intros H. now apply Hnq, HQ.
Qed.
