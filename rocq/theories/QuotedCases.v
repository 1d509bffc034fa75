(** * QuotedCases: concrete tables with quoted cells *)
From Coq Require Import String Permutation.
From Verif Require Import Base Dialect SpecLayout Potential SpecPotential MaskedFacts Consistency DetectCases
  Types SpecTypes TypesAll TypesUrl TypesCases SpecTables TablesFacts TablesCases SpecQuoted.
Open Scope N_scope.

Lemma ascii_quotes q : a_quote q -> quote_kept ascii_data q.
Proof.
  intros Hq. split; [destruct Hq as [->| ->]; reflexivity|]. intros s Hs. cbn. apply in_map_iff. exists q. split; [|exact Hs]. destruct Hq as [->| ->]; reflexivity.
Qed.
Definition qcase_rows : list (list qcell * eol) :=
  [([(false, s2l "id"); (true, s2l "big blue, cat"); (false, s2l "1.5")], ECRLF)].
Definition qcase_final : option (list qcell) := Some [(true, s2l "x"); (false, s2l "red"); (false, [])].
Lemma qcase_text : quoted_text SEMI 34 qcase_rows qcase_final = s2l "id;""big blue, cat"";1.5" ++ CR :: LF :: s2l """x"";red;".
Proof. reflexivity. Qed.
Lemma ascii_text_known b s : s <> [] -> forallb (fun c => existsb (str_eqb (ascii_cat c)) (map s2l ["Ll"; "Nd"]%string) || mem_char c [SPACE; dot] || (b && mem_char c [COMMA]))%bool s = true ->
  a_text ascii_cat b s.
Proof.
  intros Hn HF. split; [exact Hn|]. apply Forall_forall. intros c Hc. rewrite forallb_forall in HF. specialize (HF c Hc).
  apply orb_true_iff in HF as [HF|HF]; [apply orb_true_iff in HF as [HF|HF]|].
  - apply existsb_exists in HF as (x & Hx & E). apply str_eqb_eq in E. cbn in Hx. destruct Hx as [<-|[<-|[]]].
    + left. exists (s2l "l"). rewrite E. reflexivity.
    + right. left. exists (s2l "d"). rewrite E. reflexivity.
  - apply mem_char_In in HF. destruct HF as [<-|[<-|[]]]; [right; right; now left|]. right. right. right. left. cbn. tauto.
  - apply andb_true_iff in HF as (Hb & HF). apply mem_char_In in HF. destruct HF as [<-|[]]. right. right. right. right. split; [exact Hb|]. cbn. tauto.
Qed.
Ltac text_known := exists "unicode_alphanum"%string; eexists; split; [unfold types, cell_types; cbn [In u_cat ascii_data fst]; do 12 right; left; reflexivity|apply ascii_text_known; [discriminate|reflexivity]].
Ltac qchar := split; [cbn; intuition discriminate|split; [unfold quote_like; cbn; intuition discriminate|reflexivity]].

Lemma semi_plain : plain_delimiter ascii_cat SEMI.
Proof.
  split; [right; split; cbn; intuition discriminate|]. split; [unfold quote_like; cbn; intuition discriminate|].
  split; [cbn; intuition discriminate|]. split; [discriminate|reflexivity].
Qed.
Lemma comma_plain : plain_delimiter ascii_cat COMMA.
Proof.
  split; [right; split; cbn; intuition discriminate|]. split; [unfold quote_like; cbn; intuition discriminate|].
  split; [cbn; intuition discriminate|]. split; [discriminate|reflexivity].
Qed.
Lemma qcase_meets :
  a_quote 34 /\ quote_kept ascii_data 34 /\ plain_delimiter ascii_cat SEMI /\ quoted_grid 3 (qcell_ok SEMI) (table_of qcase_rows qcase_final) /\
  (forall r x, In r (table_of qcase_rows qcase_final) -> In x r ->
     exists name P, In (name, P) (types ascii_data (fst x)) /\ P (strip ascii_data (snd x))) /\
  no_quoted_escapes ascii_cat 34 (quoted_text SEMI 34 qcase_rows qcase_final) /\
  (forall d, d <> SEMI -> In d (quoted_text SEMI 34 qcase_rows qcase_final) -> default_delimiter ascii_cat d ->
     outdone 3 (per_row_bare d (table_of qcase_rows qcase_final)) /\ outdone 3 (per_row_all d (table_of qcase_rows qcase_final))) /\
  unquoted_delimiter SEMI (table_of qcase_rows qcase_final).
Proof.
  assert (Hdef : forall d, In d (quoted_text SEMI 34 qcase_rows qcase_final) -> default_delimiter ascii_cat d -> d = 32 \/ d = COMMA \/ d = SEMI).
  { intros d Hd H. rewrite qcase_text in Hd. cbn in Hd. destruct H as [->|(H1 & H2)].
    - unfold TAB, LF, CR in Hd. intuition discriminate.
    - intuition (subst; auto); exfalso; solve [apply H1; cbn; tauto|apply H2; cbn; tauto]. }
  split; [now left|]. split; [apply ascii_quotes; now left|]. split; [exact semi_plain|]. split; [|split; [|split; [|split]]].
  - split; [lia|]. split.
    + cbn [table_of qcase_rows qcase_final map fst app]. each; (split; [reflexivity|]); each; unfold qcell_ok; cbn [fst snd]; each;
        first [qchar|split; [discriminate|qchar]].
    + eexists _, _. split; [now left|]. right. now left.
  - intros r x Hr Hx. cbn [table_of qcase_rows qcase_final map fst app In] in Hr. destruct Hr as [<-|[<-|[]]]; cbn [In] in Hx; destruct Hx as [<-|[<-|[<-|[]]]]; try text_known.
    exists "empty"%string, (fun s => s = []). split; [now left|reflexivity].
  - intros u v (a & b & E) (Hu & Hx). exfalso. assert (Hi : In u (quoted_text SEMI 34 qcase_rows qcase_final)) by (rewrite E; apply in_elt).
    rewrite qcase_text in Hi. cbn in Hi. intuition (subst; try discriminate); apply Hx; cbn; tauto.
  - intros d Hn Hi Hd. destruct (Hdef d Hi Hd) as [->|[->| ->]]; [| |congruence].
    all: split; [right; exists 0%nat; cbn; split; [lia|]; split; [lia|]; each; reflexivity|left].
    + exists 2%nat, 0%nat. cbn. split; [tauto|]. split; [tauto|]. split; [discriminate|]. left. lia.
    + exists 1%nat, 0%nat. cbn. split; [tauto|]. split; [tauto|]. split; [discriminate|]. left. lia.
  - intros r s Hr Hs. cbn [table_of qcase_rows qcase_final map fst app In] in Hr. destruct Hr as [<-|[<-|[]]]; cbn [In] in Hs.
    + destruct Hs as [[=]|[[= <-]|[[=]|[]]]]. cbn. intuition discriminate.
    + destruct Hs as [[= <-]|[[=]|[[=]|[]]]]. cbn. intuition discriminate.
Qed.

(** Commas inside quotes that are found in every row can win. *)
Definition commas_row : list qcell := [(false, s2l "a"); (true, s2l "b,c,d,e,f")].
Lemma commas_win :
  detect ascii_cat (shipped_url ascii_data) (is_known_type ascii_data) plain_orders (fun l => l) 9 true (quoted_text COMMA 34 [] (Some commas_row)) None 131072 =
  (Ok (Some (dialect3 [COMMA] [] [])), 131072%Z).
Proof. rewrite small_detect_ok. vm_compute. reflexivity. Qed.
Lemma quoted_lost : exists U O o_set capacity skip c q k rows final old,
  unicode_like (u_cat U) /\ (forall x, digit (u_cat U) x -> u_isdigit U x = true) /\ a_quote q /\ quote_kept U q /\
  plain_delimiter (u_cat U) c /\ quoted_grid k (qcell_ok c) (table_of rows final) /\
  (forall r x, In r (table_of rows final) -> In x r -> exists name P, In (name, P) (types U (fst x)) /\ P (strip U (snd x))) /\
  no_quoted_escapes (u_cat U) q (quoted_text c q rows final) /\
  (forall d, d <> c -> In d (quoted_text c q rows final) -> ~ default_delimiter (u_cat U) d) /\
  any_orders O /\ (forall l, Permutation (o_set l) l) /\
  detect (u_cat U) (shipped_url U) (is_known_type U) O o_set capacity skip (quoted_text c q rows final) None old =
    (Ok (Some (dialect3 [c] [] [])), old).
Proof.
  exists ascii_data, plain_orders, (fun l => l), 9%Z, true, COMMA, 34, 2%nat, [], (Some commas_row), 131072%Z.
  assert (ET : quoted_text COMMA 34 [] (Some commas_row) = s2l "a,""b,c,d,e,f""") by reflexivity.
  split; [exact ascii_unicode|]. split; [exact ascii_isdigit|]. split; [now left|]. split; [apply ascii_quotes; now left|]. split; [exact comma_plain|].
  split; [|split; [|split; [|split]]].
  - split; [lia|]. split.
    + cbn [table_of commas_row map fst app]. each; (split; [reflexivity|]); each; unfold qcell_ok; cbn [fst snd]; each; first [qchar|split; [discriminate|qchar]].
    + eexists _, _. split; [now left|]. right. now left.
  - intros r x Hr Hx. cbn [table_of commas_row map fst app In] in Hr. destruct Hr as [<-|[]]; cbn [In] in Hx; destruct Hx as [<-|[<-|[]]]; text_known.
  - intros u v (a & b & E) (Hu & Hx). exfalso. assert (Hi : In u (quoted_text COMMA 34 [] (Some commas_row))) by (rewrite E; apply in_elt).
    rewrite ET in Hi. cbn in Hi. intuition (subst; try discriminate); apply Hx; cbn; tauto.
  - intros d Hn Hi H. rewrite ET in Hi. cbn in Hi. destruct H as [->|(H1 & H2)].
    + unfold TAB in Hi. intuition discriminate.
    + intuition (subst; auto); solve [apply H1; cbn; tauto|apply H2; cbn; tauto].
  - split; [exact plain_orders_any|]. split; [intros l; apply Permutation_refl|]. exact commas_win.
Qed.
(** Words, with a comma inside a quoted cell of one row. *)
Definition qwords_rows : list (list qcell * eol) := [([(true, s2l "a,b"); (false, s2l "x1")], ELF); ([(true, s2l "c"); (true, [])], ELF)].
Lemma qwords_meet :
  ~ escape_like ascii_cat COMMA /\ quoted_grid 2 (qword ascii_cat COMMA) (table_of qwords_rows None) /\
  uneven 2 (per_row_all COMMA (table_of qwords_rows None)) /\ ~ unquoted_delimiter COMMA (table_of qwords_rows None) /\
  quoted_text COMMA 34 qwords_rows None = s2l """a,b"",x1" ++ LF :: s2l """c"",""""" ++ [LF].
Proof.
  split; [intros (_ & H); apply H; cbn; tauto|]. split; [|split; [|split; [|reflexivity]]].
  - split; [lia|]. split.
    + cbn [table_of qwords_rows map fst app]. each; (split; [reflexivity|]); each; unfold qword; cbn [fst snd]; each; unfold plain_char;
      solve [left; left; exists (s2l "l"); reflexivity|left; right; left; exists (s2l "d"); reflexivity|right; repeat split; cbn; tauto].
    + eexists _, _. split; [now left|]. now left.
  - exists 1%nat, 0%nat. cbn. split; [tauto|]. split; [tauto|]. split; [discriminate|]. right. split; [lia|]. each; lia.
  - intros H. refine (H _ (s2l "a,b") (or_introl eq_refl) (or_introl eq_refl) _). cbn. tauto.
Qed.
