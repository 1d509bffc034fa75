(** * QuotedWords: quoted words and numbers are detected *)
From Coq Require Import String Permutation.
From Verif Require Import Base Dialect SpecLayout Potential SpecPotential MaskedFacts Consistency DetectCases
  Types SpecTypes TypesText TypesAll TypesUrl TypesDetect TypesCases SpecTables TablesFacts SpecQuoted QuotedLayout QuotedDetect.
Open Scope N_scope.
Local Notation len := List.length.

Section Words.
Variable U : unidata.
Local Notation cat := (u_cat U).
Hypothesis uni : unicode_like cat.
Hypothesis isdigit_ok : forall c, digit cat c -> u_isdigit U c = true.
Lemma word_known c (x : qcell) : qword cat c x -> exists name P, In (name, P) (types U (fst x)) /\ P (strip U (snd x)).
Proof.
  intros H. destruct (strip U (snd x)) as [|y t] eqn:E.
  - exists "empty"%string, (fun s => s = []). split; [now left|reflexivity].
  - exists "unicode_alphanum"%string, (a_text cat (fst x)). split; [unfold types, cell_types; cbn [In]; tauto|]. split; [discriminate|].
    rewrite <- E. apply Forall_forall. intros z Hz. apply (strip_sub (u_space U)) in Hz. unfold qword in H. rewrite Forall_forall in H.
    destruct (H z Hz) as [[A|[A|A]]|(A & -> & B)]; [now left|right; now left| |].
    + right. right. right. left. cbn in *. tauto.
    + right. right. right. right. auto.
Qed.
Lemma words_grid c k rows final : plain_delimiter cat c -> quoted_grid k (qword cat c) (table_of rows final) -> quoted_grid k (qcell_ok c) (table_of rows final).
Proof.
  intros Hc Hg. pose proof Hc as (Hd & Hcq & _ & Hc0 & Hcs).
  assert (Hcell : forall r x y, In r (table_of rows final) -> In x r -> In y (snd x) -> plain_char cat y \/ (fst x = true /\ y = c)).
  { intros r x y Hr Hx Hy. destruct Hg as (_ & HF & _). rewrite Forall_forall in HF. destruct (HF r Hr) as (_ & HC). rewrite Forall_forall in HC.
    specialize (HC x Hx). unfold qword in HC. rewrite Forall_forall in HC. destruct (HC y Hy) as [H|(A & B & _)]; auto. }
  destruct Hg as (H1 & H2 & H3). split; [exact H1|]. split; [|exact H3]. apply Forall_forall. intros r Hr. rewrite Forall_forall in H2. destruct (H2 r Hr) as (Hl & _).
    split; [exact Hl|]. apply Forall_forall. intros x Hx. unfold qcell_ok. apply Forall_forall. intros y Hy. destruct (Hcell r x y Hr Hx Hy) as [H|(A & ->)].
    - pose proof (plain_cell_char U uni c y Hd H) as Hcc. destruct (fst x); [|exact Hcc]. destruct Hcc as (_ & Hcc). exact Hcc.
    - rewrite A. split; [|split; [exact Hcq|exact Hcs]]. destruct (default_not_nl U c Hd) as (N1 & N2). pose proof (c_not_brace U uni c Hc) as N3.
      cbn. intuition congruence.
Qed.
Theorem words_detected c q k rows final O o_set capacity skip old : a_quote q -> quote_kept U q -> plain_delimiter cat c -> ~ escape_like cat c ->
  quoted_grid k (qword cat c) (table_of rows final) -> unquoted_delimiter c (table_of rows final) \/ uneven k (per_row_all c (table_of rows final)) ->
  (Z.of_nat (len (quoted_text c q rows final)) < 2 ^ 50)%Z -> any_orders O -> (forall l, Permutation (o_set l) l) ->
  detect cat (shipped_url U) (is_known_type U) O o_set capacity skip (quoted_text c q rows final) None old = (Ok (Some (dialect3 [c] [q] [])), old).
Proof.
  intros Hq Hk Hc He Hg Hin Hs HO Hp. pose proof Hc as (Hd & Hcq & _ & Hc0 & Hcs).
  assert (Hcell : forall r x y, In r (table_of rows final) -> In x r -> In y (snd x) -> plain_char cat y \/ (fst x = true /\ y = c)).
  { intros r x y Hr Hx Hy. destruct Hg as (_ & HF & _). rewrite Forall_forall in HF. destruct (HF r Hr) as (_ & HC). rewrite Forall_forall in HC.
    specialize (HC x Hx). unfold qword in HC. rewrite Forall_forall in HC. destruct (HC y Hy) as [H|(A & B & _)]; auto. }
  pose proof (words_grid c k rows final Hc Hg) as Hg'.
  assert (Hchar : forall x, In x (quoted_text c q rows final) -> x = c \/ x = q \/ plain_char cat x \/ x = LF \/ x = CR).
  { intros x Hx. apply in_text in Hx as [(s & Hs' & Hx)|Hx]; [|tauto]. rewrite quoted_table in Hs'. apply in_map_iff in Hs' as (r & <- & Hr).
    apply in_join in Hx as [Hx|(s & Hss & Hx)]; [now left|]. apply in_map_iff in Hss as (y & <- & Hy).
    assert (Hsnd : In x (snd y) -> x = c \/ x = q \/ plain_char cat x \/ x = LF \/ x = CR).
    { intros Hi. destruct (Hcell r y x Hr Hy Hi) as [H|(_ & ->)]; tauto. }
    unfold cell_text in Hx. destruct (fst y); [|now apply Hsnd]. destruct Hx as [<-|Hx]; [tauto|]. apply in_app_or in Hx as [Hx|[<-|[]]]; [now apply Hsnd|tauto]. }
  assert (Hqd : ~ default_delimiter cat q).
  { intros [E|(Hn & _)]; [unfold TAB in E; destruct Hq; congruence|]. apply Hn. destruct Hq as [->| ->]; cbn; tauto. }
  assert (Honly : forall x, In x (quoted_text c q rows final) -> default_delimiter cat x -> x = c).
  { intros x Hx Hdx. destruct (Hchar x Hx) as [E|[E|[E|E]]]; [exact E|subst x; contradiction|now apply (plain_not_default U uni) in E|]. destruct (default_not_nl U x Hdx). tauto. }
  apply (quoted_detected U uni isdigit_ok c q k); auto.
  - intros r x Hr Hx. apply (word_known c). destruct Hg as (_ & HF & _). rewrite Forall_forall in HF. destruct (HF r Hr) as (_ & HC). rewrite Forall_forall in HC. now apply HC.
  - intros u v (a & b & E) Hu. exfalso. assert (Hiu : In u (quoted_text c q rows final)) by (rewrite E; apply in_elt).
    destruct (Hchar u Hiu) as [->|[->|[H|H]]]; [contradiction| | |].
    + destruct Hu as (_ & Hm). apply Hm. destruct Hq as [->| ->]; cbn; tauto.
    + destruct Hu as (Hcat & Hm). apply (plain_cat U uni) in H as [H| ->]; [rewrite Hcat in H; cbn in H; intuition discriminate|apply Hm; cbn; tauto].
    + destruct Hu as (Hcat & _). pose proof uni as (_ & _ & _ & Hcc & _). destruct H as [->| ->]; rewrite Hcc in Hcat by reflexivity; discriminate.
  - intros d Hn Hi Hdd. now apply Honly in Hi.
Qed.
End Words.
