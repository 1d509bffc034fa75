(** * TablesCases: concrete tables *)
From Coq Require Import String Permutation.
From Verif Require Import Base Dialect SpecLayout Potential SpecPotential MaskedFacts Consistency DetectCases
  Types SpecTypes TypesAll TypesUrl TypesCases SpecTables TablesFacts.
Open Scope N_scope.

Lemma ascii_unicode : unicode_like ascii_cat.
Proof.
  split; [exact ascii_sane|].
  assert (HL : forall c t, ascii_cat c = 76 :: t -> In (ascii_cat c) (map s2l ["Lu"; "Ll"; "Lt"; "Lm"; "Lo"]%string) /\ c < 128).
  { intros c t Ht. assert (H := ascii_table (fun c s => negb (starts_with [76] s) || (existsb (str_eqb s) (map s2l ["Lu"; "Ll"; "Lt"; "Lm"; "Lo"]%string) && (c <? 128)))%bool).
    specialize (H ltac:(reflexivity) ltac:(reflexivity) c). cbv beta in H. rewrite Ht in H. rewrite Ht. change (starts_with [76] (76 :: t)) with true in H. cbn [negb orb] in H.
    apply andb_true_iff in H as (H1 & H2). split; [|now apply N.ltb_lt]. apply existsb_exists in H1 as (x & Hx & E). apply str_eqb_eq in E. rewrite E. exact Hx. }
  assert (HN : forall c t, ascii_cat c = 78 :: t -> In (ascii_cat c) (map s2l ["Nd"; "Nl"; "No"]%string) /\ c < 128).
  { intros c t Ht. assert (H := ascii_table (fun c s => negb (starts_with [78] s) || (existsb (str_eqb s) (map s2l ["Nd"; "Nl"; "No"]%string) && (c <? 128)))%bool).
    specialize (H ltac:(reflexivity) ltac:(reflexivity) c). cbv beta in H. rewrite Ht in H. rewrite Ht. change (starts_with [78] (78 :: t)) with true in H. cbn [negb orb] in H.
    apply andb_true_iff in H as (H1 & H2). split; [|now apply N.ltb_lt]. apply existsb_exists in H1 as (x & Hx & E). apply str_eqb_eq in E. rewrite E. exact Hx. }
  split; [intros c (t & Ht); now apply (HL c t)|]. split; [intros c (t & Ht); now apply (HN c t)|].
  split; [intros c Hc; unfold ascii_cat; apply N.ltb_lt in Hc; now rewrite Hc|].
  split; [|repeat split; reflexivity].
  intros c Hs. unfold surrogate in Hs. apply andb_true_iff in Hs as (Hs & _). apply N.leb_le in Hs.
  split; intros (t & Ht); [destruct (HL c t Ht) as (_ & Hb)|destruct (HN c t Ht) as (_ & Hb)]; lia.
Qed.

(** A table of three columns, with a space in one of its cells. *)
Definition case_rows : list (list str * eol) := [([s2l "x y"; s2l "1"; s2l "z"], ELF)].
Definition case_final : option (list str) := Some [s2l "u"; s2l "2"; s2l "v"].
Lemma case_text : table_text SEMI case_rows case_final = s2l "x y;1;z" ++ LF :: s2l "u;2;v".
Proof. reflexivity. Qed.
Ltac each := repeat (apply Forall_cons || apply Forall_nil).
Lemma case_meets :
  plain_delimiter ascii_cat SEMI /\ grid 3 (cell_char SEMI) (table_of case_rows case_final) /\
  (forall r s, In r (table_of case_rows case_final) -> In s r ->
     exists name P, In (name, P) (types ascii_data false) /\ P (strip ascii_data s)) /\
  no_escapes ascii_cat (table_text SEMI case_rows case_final) /\
  (forall d, d <> SEMI -> In d (table_text SEMI case_rows case_final) -> default_delimiter ascii_cat d ->
     outdone 3 (per_row d (table_of case_rows case_final))).
Proof.
  assert (Hdef : forall d, In d (table_text SEMI case_rows case_final) -> default_delimiter ascii_cat d -> d = 32 \/ d = SEMI).
  { intros d Hd H. rewrite case_text in Hd. cbn in Hd. destruct H as [->|(H1 & H2)].
    - unfold TAB, LF in Hd. intuition discriminate.
    - intuition (subst; auto); exfalso; solve [apply H1; cbn; tauto|apply H2; cbn; tauto]. }
  split; [|split; [|split; [|split]]].
  - split; [right; split; cbn; intuition discriminate|]. split; [unfold quote_like; cbn; intuition discriminate|].
    split; [cbn; intuition discriminate|]. split; [discriminate|reflexivity].
  - split; [discriminate|]. split; [lia|]. cbn [table_of case_rows case_final map fst app]. each; (split; [reflexivity|]); each;
      (split; [discriminate|split; [cbn; intuition discriminate|split; [unfold quote_like; cbn; intuition discriminate|reflexivity]]]).
  - intros r s Hr Hs. exists "unicode_alphanum"%string, (a_text ascii_cat false). split; [unfold types, cell_types; cbn [In u_cat ascii_data]; tauto|].
    assert (A : forall s, s <> [] -> Forall (fun c => In (ascii_cat c) (map s2l ["Ll"; "Nd"]%string) \/ c = 32) s -> a_text ascii_cat false s).
    { intros s' Hn HF. split; [exact Hn|]. eapply Forall_impl; [|exact HF]. intros c [[Hc|[Hc|[]]]| ->].
      - left. exists (s2l "l"). rewrite <- Hc. reflexivity.
      - right. left. exists (s2l "d"). rewrite <- Hc. reflexivity.
      - right. right. now left. }
    cbn [table_of case_rows case_final map fst app In] in Hr. destruct Hr as [<-|[<-|[]]]; cbn [In] in Hs; destruct Hs as [<-|[<-|[<-|[]]]];
      (apply A; [discriminate|cbn; each; cbn; tauto]).
  - intros u v (a & b & E) (Hu & Hx) Hv. assert (Hi : In u (table_text SEMI case_rows case_final)) by (rewrite E; apply in_elt).
    rewrite case_text in Hi. cbn in Hi. intuition (subst; try discriminate); apply Hx; cbn; tauto.
  - intros d Hn Hi Hd. destruct (Hdef d Hi Hd) as [->| ->]; [|congruence]. left. exists 1%nat, 0%nat. cbn. split; [tauto|]. split; [tauto|]. split; [discriminate|]. left. lia.
Qed.
(** The delimiter of a table of known cells can still lose. *)
Lemma spaces_win :
  detect ascii_cat (shipped_url ascii_data) (is_known_type ascii_data) plain_orders (fun l => l) 9 true (s2l "a b c d|e") None 131072 =
  (Ok (Some (dialect3 [32] [] [])), 131072%Z).
Proof. rewrite small_detect_ok. vm_compute. reflexivity. Qed.
Lemma plain_orders_any : any_orders plain_orders.
Proof. repeat split; intros; apply Permutation_refl. Qed.
Lemma regular_lost : exists U O o_set capacity skip c rows final d old,
  unicode_like (u_cat U) /\ (forall x, digit (u_cat U) x -> u_isdigit U x = true) /\
  plain_delimiter (u_cat U) c /\ grid 2 (cell_char c) (table_of rows final) /\ no_escapes (u_cat U) (table_text c rows final) /\
  (forall r s, In r (table_of rows final) -> In s r -> exists name P, In (name, P) (types U false) /\ P (strip U s)) /\
  any_orders O /\ (forall l, Permutation (o_set l) l) /\ d <> c /\
  detect (u_cat U) (shipped_url U) (is_known_type U) O o_set capacity skip (table_text c rows final) None old =
    (Ok (Some (dialect3 [d] [] [])), old).
Proof.
  exists ascii_data, plain_orders, (fun l => l), 9%Z, true, 124, [], (Some [s2l "a b c d"; s2l "e"]), 32, 131072%Z.
  split; [exact ascii_unicode|]. split; [exact ascii_isdigit|]. split; [|split; [|split; [|split]]].
  - split; [right; split; cbn; intuition discriminate|]. split; [unfold quote_like; cbn; intuition discriminate|].
    split; [cbn; intuition discriminate|]. split; [discriminate|reflexivity].
  - split; [discriminate|]. split; [lia|]. cbn [table_of map fst app]. each; (split; [reflexivity|]); each;
      (split; [discriminate|split; [cbn; intuition discriminate|split; [unfold quote_like; cbn; intuition discriminate|reflexivity]]]).
  - intros u v (a & b & E) (Hu & Hx) Hv. assert (Hi : In u (s2l "a b c d|e")) by (change (s2l "a b c d|e") with (table_text 124 [] (Some [s2l "a b c d"; s2l "e"])); rewrite E; apply in_elt).
    cbn in Hi. intuition (subst; discriminate).
  - intros r s Hr Hs. exists "unicode_alphanum"%string, (a_text ascii_cat false). split; [unfold types, cell_types; cbn [In u_cat ascii_data]; tauto|].
    assert (A : forall s, s <> [] -> Forall (fun c => In (ascii_cat c) (map s2l ["Ll"]%string) \/ c = 32) s -> a_text ascii_cat false s).
    { intros s' Hn HF. split; [exact Hn|]. eapply Forall_impl; [|exact HF]. intros c [[Hc|[]]| ->].
      - left. exists (s2l "l"). rewrite <- Hc. reflexivity.
      - right. right. now left. }
    cbn [table_of map app In] in Hr. destruct Hr as [<-|[]]; cbn [In] in Hs; destruct Hs as [<-|[<-|[]]];
      (apply A; [discriminate|cbn; each; cbn; tauto]).
  - split; [exact plain_orders_any|]. split; [intros l; apply Permutation_refl|]. split; [discriminate|exact spaces_win].
Qed.
Lemma words_meet :
  let rows := [([s2l "a"; s2l "x1"], ECRLF); ([s2l "b.c"; []], ELF)] in
  unicode_like ascii_cat /\ plain_delimiter ascii_cat COMMA /\ ~ escape_like ascii_cat COMMA /\ grid 2 (plain_char ascii_cat) (table_of rows None) /\
  table_text COMMA rows None = s2l "a,x1" ++ CR :: LF :: s2l "b.c," ++ [LF].
Proof.
  intros rows. split; [exact ascii_unicode|]. split; [|split; [|split; [|reflexivity]]].
  - split; [right; split; cbn; intuition discriminate|]. split; [unfold quote_like; cbn; intuition discriminate|].
    split; [cbn; intuition discriminate|]. split; [discriminate|reflexivity].
  - intros (_ & H). apply H. cbn. tauto.
  - split; [discriminate|]. split; [lia|]. unfold rows. cbn [table_of map fst app]. each; (split; [reflexivity|]); each; unfold plain_char;
      solve [left; exists (s2l "l"); reflexivity|right; left; exists (s2l "d"); reflexivity|right; right; cbn; tauto].
Qed.
