(** * MaskedFacts: quoted segments and the order of dialects *)
From Coq Require Import String Permutation Sorted.
From Verif Require Import Base Parser Dialect Potential SpecPotential PotentialFacts.

(** ** masked_by_quotechar *)
Fixpoint ins (q t : N) (inq : bool) (s : str) : bool :=
  match s with
  | [] => true
  | c :: s' => if (c =? q)%N then ins q t (negb inq) s'
               else (negb (c =? t)%N || inq) && ins q t inq s'
  end.

Lemma is_char_one c d : is_char c [d] = (c =? d)%N.
Proof. unfold is_char, str_eqb. cbn [list_eqb]. now rewrite andb_true_r. Qed.

Lemma is_char_nil c : is_char c [] = false.
Proof. reflexivity. Qed.

(** The part of the text before the first escape character. *)
Lemma masked_prefix q t e post : forall n pre inq, length pre <= n ->
  (forall c, In c pre -> is_char c e = false \/ c = q) ->
  (forall c p, post = c :: p -> c <> q) ->
  masked_loop [q] e [t] false inq false (pre ++ post) =
  ins q t inq pre &&
  masked_loop [q] e [t] false (xorb inq (Nat.odd (occurrences q pre))) false post.
Proof.
  induction n as [|n IH]; intros pre inq Hn He Hp.
  - destruct pre; [|cbn in Hn; lia]. cbn. now destruct inq.
  - destruct pre as [|c pre]; [cbn; now destruct inq|].
    assert (He' : forall x, In x pre -> is_char x e = false \/ x = q)
      by (intros x Hx; apply He; now right).
    cbn [length] in Hn. cbn [app masked_loop ins]. rewrite is_char_one.
    unfold occurrences. cbn [count_occ].
    destruct (N.eqb_spec c q) as [->|Hcq].
    + destruct (N.eq_dec q q) as [_|Hx]; [|congruence].
      destruct inq; cbn [negb].
      * destruct pre as [|d pre].
        -- cbn [app]. destruct post as [|p post].
           ++ reflexivity.
           ++ rewrite is_char_one. destruct (N.eqb_spec p q) as [->|Hpq].
              { exfalso. now apply (Hp q post). }
              reflexivity.
        -- cbn [app]. rewrite is_char_one. destruct (N.eqb_spec d q) as [->|Hdq].
           ++ cbn [masked_loop]. rewrite IH; [|cbn in Hn; lia|intros x Hx; apply He'; now right|exact Hp].
              cbn [ins]. rewrite N.eqb_refl. cbn [negb count_occ].
              destruct (N.eq_dec q q) as [_|Hx]; [|congruence].
              unfold occurrences. rewrite !Nat.odd_succ, Nat.even_succ. reflexivity.
           ++ change (d :: pre ++ post) with ((d :: pre) ++ post).
              rewrite IH; [|lia|exact He'|exact Hp].
              f_equal. f_equal. unfold occurrences.
              rewrite Nat.odd_succ, <- Nat.negb_odd. now destruct (Nat.odd _).
      * rewrite IH; [|lia|exact He'|exact Hp]. f_equal. f_equal. unfold occurrences.
        rewrite Nat.odd_succ, <- Nat.negb_odd. now destruct (Nat.odd _).
    + destruct (N.eq_dec c q) as [Hx|_]; [congruence|].
      rewrite is_char_one. destruct (N.eqb_spec c t) as [->|Hct]; cbn [negb orb andb].
      * destruct inq; cbn [negb andb]; [|reflexivity].
        destruct (He t (or_introl eq_refl)) as [E|E]; [|congruence]. rewrite E.
        rewrite IH; [reflexivity|lia|exact He'|exact Hp].
      * destruct (He c (or_introl eq_refl)) as [E|E]; [|congruence]. rewrite E.
        rewrite IH; [reflexivity|lia|exact He'|exact Hp].
Qed.

Lemma ins_spec q t : t <> q -> forall s inq, ins q t inq s = true <->
  forall k, nth_error s k = Some t -> xorb inq (Nat.odd (occurrences q (firstn k s))) = true.
Proof.
  intros Htq. induction s as [|c s IH]; intros inq.
  - cbn. split; [|auto]. intros _ [|k]; discriminate.
  - cbn [ins]. unfold occurrences in *. destruct (N.eqb_spec c q) as [->|Hcq].
    + rewrite IH. split; intros H.
      * intros [|k] Hk; [cbn in Hk; congruence|]. cbn [nth_error] in Hk. specialize (H k Hk).
        cbn [firstn count_occ]. destruct (N.eq_dec q q) as [_|Hx]; [|congruence].
        rewrite Nat.odd_succ, <- Nat.negb_odd. destruct inq, (Nat.odd _); auto.
      * intros k Hk. specialize (H (S k) Hk). cbn [firstn count_occ] in H.
        destruct (N.eq_dec q q) as [_|Hx]; [|congruence].
        rewrite Nat.odd_succ, <- Nat.negb_odd in H. destruct inq, (Nat.odd _); auto.
    + rewrite andb_true_iff, IH. split.
      * intros [H0 H] [|k] Hk.
        -- cbn in Hk. injection Hk as ->. rewrite N.eqb_refl in H0. cbn in *. now destruct inq.
        -- cbn [firstn count_occ]. destruct (N.eq_dec c q) as [Hx|_]; [congruence|]. now apply H.
      * intros H. split.
        -- destruct (N.eqb_spec c t) as [->|Hct]; [|reflexivity].
           specialize (H 0 eq_refl). cbn in *. now destruct inq.
        -- intros k Hk. specialize (H (S k) Hk). cbn [firstn count_occ] in H.
           destruct (N.eq_dec c q) as [Hx|_]; [congruence|]. exact H.
Qed.

Lemma ins_always q t s : t <> q -> ins q t false s = true <-> always_inside q t s.
Proof.
  intros H. rewrite ins_spec by assumption. unfold always_inside, inside.
  split; intros K k Hk; specialize (K k Hk); now rewrite xorb_false_l in *.
Qed.

(** After an escape character. *)
Lemma masked_frozen q e t : t <> q -> forall s inq,
  masked_loop [q] e [t] true inq false s = inq || negb (mem_char t s).
Proof.
  intros Htq. induction s as [|c s IH]; intros inq; [now rewrite orb_true_r|].
  cbn [masked_loop mem_char existsb]. rewrite !is_char_one.
  destruct (N.eqb_spec c q) as [->|Hcq].
  - rewrite IH. destruct (N.eqb_spec t q) as [->|_]; [congruence|]. reflexivity.
  - destruct (N.eqb_spec c t) as [->|Hct].
    + rewrite N.eqb_refl. cbn [orb andb negb]. destruct inq; cbn [negb]; [|reflexivity].
      destruct (is_char t e); rewrite IH; reflexivity.
    + destruct (N.eqb_spec t c) as [->|_]; [congruence|]. cbn [andb orb].
      destruct (is_char c e); rewrite IH; reflexivity.
Qed.

Lemma masked_exact data q e t : t <> q -> (forall c, e = [c] -> ~ In c data \/ c = q) ->
  masked_by_quotechar data [q] e [t] = true <-> always_inside q t data.
Proof.
  intros Htq He. unfold masked_by_quotechar.
  rewrite <- (app_nil_r data) at 1. rewrite (masked_prefix q t e [] (length data)); [|lia| |].
  - cbn [masked_loop]. rewrite andb_true_r. now apply ins_always.
  - intros c Hc. destruct (is_char c e) eqn:E; [|now left]. apply is_char_eq in E as ->.
    destruct (He c eq_refl) as [H|H]; [tauto|now right].
  - intros c p H. discriminate.
Qed.

Lemma masked_no_quote data e t : masked_by_quotechar data [] e [t] = true <-> ~ In t data.
Proof.
  unfold masked_by_quotechar. generalize false at 1 as esc. induction data as [|c s IH]; intros esc.
  - cbn. tauto.
  - cbn [masked_loop]. rewrite is_char_nil, is_char_one. destruct (N.eqb_spec c t) as [->|Hct].
    + cbn. split; [discriminate|]. intros H. exfalso. apply H. now left.
    + cbn [andb]. destruct (is_char c e); rewrite IH; cbn; intuition congruence.
Qed.

Lemma masked_after_escape pre post q e t : t <> q -> e <> q -> e <> t -> ~ In e pre ->
  masked_by_quotechar (pre ++ e :: post) [q] [e] [t] = true <->
  always_inside q t pre /\ (Nat.odd (occurrences q pre) = true \/ ~ In t post).
Proof.
  intros Htq Heq Het He. unfold masked_by_quotechar.
  rewrite (masked_prefix q t [e] (e :: post) (length pre)); [|lia| |].
  - rewrite andb_true_iff, ins_always by assumption.
    apply and_iff_compat_l. cbn [masked_loop]. rewrite !is_char_one, N.eqb_refl.
    destruct (N.eqb_spec e q) as [Hx|_]; [congruence|].
    destruct (N.eqb_spec e t) as [Hx|_]; [congruence|]. cbn [andb].
    rewrite masked_frozen by assumption. rewrite xorb_false_l, orb_true_iff, negb_true_iff, mem_char_false.
    reflexivity.
  - intros c Hc. left. rewrite is_char_one. apply N.eqb_neq. intros ->. tauto.
  - intros c p H. congruence.
Qed.

(** [\"a\nb",c] with backslash as escape character: the comma is outside. *)
Definition masked_witness : str := s2l """a\nb"",c".
Lemma masked_wrong :
  masked_by_quotechar masked_witness [DQ] [BACKSLASH] [COMMA] = true /\
  nth_error masked_witness 6 = Some COMMA /\ ~ inside DQ masked_witness 6 /\
  parse_string 1000 masked_witness (dialect3 [COMMA] [DQ] [BACKSLASH]) false =
    ([[CStr (s2l "a\nb"); CStr (s2l "c")]], None).
Proof. repeat split. vm_compute. discriminate. Qed.

(** ** Strings *)
Lemma str_ltb_irrefl a : str_ltb a a = false.
Proof. induction a as [|x a IH]; [reflexivity|]. cbn. now rewrite N.eqb_refl. Qed.

Lemma str_ltb_trans a : forall b c, str_ltb a b = true -> str_ltb b c = true -> str_ltb a c = true.
Proof.
  induction a as [|x a IH]; intros [|y b] [|z c]; cbn [str_ltb]; try discriminate; auto.
  destruct (N.eqb_spec x y) as [->|Hxy], (N.eqb_spec y z) as [->|Hyz]; intros H1 H2.
  - now apply (IH b).
  - exact H2.
  - destruct (N.eqb_spec x z); [congruence|exact H1].
  - apply N.ltb_lt in H1. apply N.ltb_lt in H2.
    destruct (N.eqb_spec x z); [lia|]. apply N.ltb_lt. lia.
Qed.

Lemma str_ltb_total a : forall b, str_ltb a b = true \/ a = b \/ str_ltb b a = true.
Proof.
  induction a as [|x a IH]; intros [|y b]; cbn [str_ltb]; auto.
  destruct (N.eqb_spec x y) as [->|Hxy].
  - rewrite N.eqb_refl. destruct (IH b) as [H|[->|H]]; auto.
  - destruct (N.eqb_spec y x) as [->|_]; [congruence|]. rewrite !N.ltb_lt. lia.
Qed.

(** ** Dialects: the order is the lexicographic order of a key *)
Definition rank (d : SimpleDialect) : N :=
  if delim_is d COMMA then 0 else if delim_is d SEMI then 1 else 2.
Definition key (d : SimpleDialect) : N * (str * (str * (str * bool))) :=
  (rank d, (str_of (sd_delimiter d), (str_of (sd_quotechar d), (str_of (sd_escapechar d), sd_strict d)))).
Definition lex {A B} (eqA ltA : A -> A -> bool) (ltB : B -> B -> bool) (x y : A * B) : bool :=
  if eqA (fst x) (fst y) then ltB (snd x) (snd y) else ltA (fst x) (fst y).
Definition key_lt := lex N.eqb N.ltb (lex str_eqb str_ltb (lex str_eqb str_ltb (lex str_eqb str_ltb
  (fun a b => negb a && b)))).

Definition strict_total {A} (lt : A -> A -> bool) : Prop :=
  (forall a, lt a a = false) /\ (forall a b c, lt a b = true -> lt b c = true -> lt a c = true) /\
  (forall a b, lt a b = true \/ a = b \/ lt b a = true).

Lemma lex_total {A B} (eqA ltA : A -> A -> bool) (ltB : B -> B -> bool) :
  (forall a b, eqA a b = true <-> a = b) -> strict_total ltA -> strict_total ltB ->
  strict_total (lex eqA ltA ltB).
Proof.
  intros He (Ai & At & Ac) (Bi & Bt & Bc). unfold lex. split; [|split].
  - intros [a b]. cbn. now destruct (eqA a a).
  - intros [a b] [a' b'] [a'' b'']. cbn.
    destruct (eqA a a') eqn:E1, (eqA a' a'') eqn:E2.
    + apply He in E1 as ->. apply He in E2 as ->.
      assert (eqA a'' a'' = true) as -> by now apply He. eauto.
    + apply He in E1 as ->. rewrite E2. auto.
    + apply He in E2 as ->. rewrite E1. auto.
    + intros H1 H2. destruct (eqA a a'') eqn:E3; [|eauto].
      apply He in E3 as ->. exfalso. specialize (At _ _ _ H1 H2). rewrite Ai in At. discriminate.
  - intros [a b] [a' b']. cbn.
    destruct (eqA a a') eqn:E.
    + apply He in E as ->. assert (eqA a' a' = true) as -> by now apply He.
      destruct (Bc b b') as [H|[->|H]]; auto.
    + assert (eqA a' a = false) as ->.
      { destruct (eqA a' a) eqn:E'; [|reflexivity]. apply He in E' as ->.
        assert (eqA a a = true) by now apply He. congruence. }
      destruct (Ac a a') as [H|[->|H]]; auto.
      assert (eqA a' a' = true) by now apply He. congruence.
Qed.

Lemma key_lt_total : strict_total key_lt.
Proof.
  assert (Hs : strict_total str_ltb)
    by (split; [exact str_ltb_irrefl|split; [intros a; apply str_ltb_trans|exact str_ltb_total]]).
  unfold key_lt. repeat apply lex_total; try apply N.eqb_eq; try apply str_eqb_eq; try exact Hs.
  - split; [apply N.ltb_irrefl|split].
    + intros a b c. rewrite !N.ltb_lt. lia.
    + intros a b. rewrite !N.ltb_lt. lia.
  - split; [now intros []|split; [now intros [] [] []|intros [] []; auto]].
Qed.

Lemma key_inj a b : defined a -> defined b -> key a = key b -> a = b.
Proof.
  intros (A1 & A2 & A3) (B1 & B2 & B3) H.
  destruct a as [[d|] [q|] [e|] s], b as [[d'|] [q'|] [e'|] s'];
    cbn [sd_delimiter sd_quotechar sd_escapechar] in *; try congruence.
  unfold key in H. cbn [sd_delimiter sd_quotechar sd_escapechar sd_strict str_of] in H.
  injection H as _ -> -> -> ->. reflexivity.
Qed.

Lemma delim_is_eq d c : delim_is d c = true <-> sd_delimiter d = Some [c].
Proof.
  unfold delim_is, opt_str_eqb. destruct (sd_delimiter d) as [s|].
  - rewrite str_eqb_eq. split; [intros ->; reflexivity|intros H; now injection H].
  - split; discriminate.
Qed.

Lemma lt_key a b : defined a -> defined b -> dialect_ltb a b = Ok (key_lt (key a) (key b)).
Proof.
  intros (A1 & A2 & A3) (B1 & B2 & B3). unfold dialect_ltb, key_lt, lex, key, rank.
  cbn [fst snd].
  assert (Hk : key_ltb a b = Ok (lex str_eqb str_ltb (lex str_eqb str_ltb (lex str_eqb str_ltb
     (fun a b => negb a && b))) (snd (key a)) (snd (key b)))).
  { unfold key_ltb, key, lex. cbn [fst snd].
    destruct a as [[d|] [q|] [e|] s], b as [[d'|] [q'|] [e'|] s'];
      cbn [sd_delimiter sd_quotechar sd_escapechar] in *; try congruence.
    cbn [sd_delimiter sd_quotechar sd_escapechar sd_strict str_of opt_str_eqb opt_str_ltb].
    destruct (str_eqb d d'); cbn [negb]; [|reflexivity].
    destruct (str_eqb q q'); cbn [negb]; [|reflexivity].
    destruct (str_eqb e e'); reflexivity. }
  destruct (delim_is a COMMA) eqn:Ea, (delim_is b COMMA) eqn:Eb; cbn [andb negb].
  - apply delim_is_eq in Ea. apply delim_is_eq in Eb.
    assert (delim_is a SEMI = false) as -> by (unfold delim_is; now rewrite Ea).
    assert (delim_is b SEMI = false) as -> by (unfold delim_is; now rewrite Eb).
    cbn [andb]. rewrite Hk. reflexivity.
  - destruct (delim_is b SEMI); reflexivity.
  - destruct (delim_is a SEMI); reflexivity.
  - destruct (delim_is a SEMI), (delim_is b SEMI); cbn [andb negb]; try reflexivity;
      rewrite Hk; reflexivity.
Qed.

Lemma eqb_eq a b : dialect_eqb a b = true <-> a = b.
Proof.
  assert (Ho : forall x y, opt_str_eqb x y = true <-> x = y).
  { intros [x|] [y|]; cbn; rewrite ?str_eqb_eq; split; congruence. }
  unfold dialect_eqb. rewrite !andb_true_iff, !Ho, Bool.eqb_true_iff.
  destruct a, b; cbn. split; [intros [[[-> ->] ->] ->]; reflexivity|].
  intros H. injection H as -> -> -> ->. auto.
Qed.

(** Exactly one of [a < b], [a == b], [b < a]. *)
Lemma dialect_trichotomy a b : defined a -> defined b ->
  (dlt a b /\ a <> b /\ dialect_ltb b a = Ok false) \/
  (dialect_ltb a b = Ok false /\ a = b /\ dialect_ltb b a = Ok false) \/
  (dialect_ltb a b = Ok false /\ a <> b /\ dlt b a).
Proof.
  intros Ha Hb. unfold dlt. rewrite !lt_key by assumption.
  destruct key_lt_total as (Hi & Ht & Hc).
  destruct (key_lt (key a) (key b)) eqn:E1.
  - left. split; [reflexivity|]. split; [intros ->; rewrite Hi in E1; discriminate|].
    destruct (key_lt (key b) (key a)) eqn:E2; [|reflexivity].
    specialize (Ht _ _ _ E1 E2). rewrite Hi in Ht. discriminate.
  - right. destruct (key_lt (key b) (key a)) eqn:E2.
    + right. split; [reflexivity|]. split; [|reflexivity]. intros ->. rewrite Hi in E2. discriminate.
    + left. split; [reflexivity|]. split; [|reflexivity]. apply key_inj; [assumption..|].
      destruct (Hc (key a) (key b)) as [H|[H|H]]; congruence.
Qed.

Lemma dialect_trans a b c : defined a -> defined b -> defined c -> dlt a b -> dlt b c -> dlt a c.
Proof.
  intros Ha Hb Hc. unfold dlt. rewrite !lt_key by assumption. intros H1 H2.
  injection H1 as H1. injection H2 as H2. f_equal. destruct key_lt_total as (_ & Ht & _). eauto.
Qed.

Lemma comma_first a b : sd_delimiter a = Some [COMMA] -> sd_delimiter b <> Some [COMMA] -> dlt a b.
Proof.
  intros Ha Hb. unfold dlt, dialect_ltb. rewrite <- delim_is_eq in Ha. rewrite <- delim_is_eq in Hb.
  rewrite Ha. apply not_true_is_false in Hb. now rewrite Hb.
Qed.

Lemma semicolon_second a b : sd_delimiter a = Some [SEMI] ->
  sd_delimiter b <> Some [COMMA] -> sd_delimiter b <> Some [SEMI] -> dlt a b.
Proof.
  intros Ha Hb Hc. unfold dlt, dialect_ltb.
  assert (delim_is a COMMA = false) as -> by (unfold delim_is; now rewrite Ha).
  rewrite <- delim_is_eq in Ha, Hb, Hc.
  apply not_true_is_false in Hb. apply not_true_is_false in Hc. now rewrite Ha, Hb, Hc.
Qed.

(** ** Sorting *)
Lemma insert_ok x l : defined x -> Forall defined l -> StronglySorted (fun a b => ~ dlt b a) l ->
  exists r, insert x l = Ok r /\ Permutation r (x :: l) /\ StronglySorted (fun a b => ~ dlt b a) r.
Proof.
  intros Hx Hl Hs. induction Hs as [|y l Hs IH Hy].
  - exists [x]. repeat split; auto. constructor; constructor.
  - apply Forall_cons_iff in Hl as [Hdy Hl]. specialize (IH Hl) as (r & E & Hp & Hr).
    cbn [insert]. destruct (dialect_trichotomy y x Hdy Hx) as [(H & _ & H')|[(H & _ & H')|(H & _ & H')]].
    + rewrite H, E. cbn [bind]. exists (y :: r). split; [reflexivity|]. split.
      * rewrite Hp. apply perm_swap.
      * constructor; [exact Hr|]. apply Forall_forall. intros z Hz.
        apply (Permutation_in _ Hp) in Hz. destruct Hz as [<-|Hz].
        -- unfold dlt. rewrite H'. discriminate.
        -- rewrite Forall_forall in Hy. auto.
    + rewrite H. cbn [bind]. exists (x :: y :: l). repeat split; auto. constructor; [now constructor|].
      constructor; [unfold dlt; rewrite H; discriminate|].
      rewrite Forall_forall in *. intros z Hz Hzx. apply (Hy z Hz).
      destruct (dialect_trichotomy y x Hdy Hx) as [(K & _)|[(_ & -> & _)|(_ & _ & K)]];
        [unfold dlt in K; congruence|exact Hzx|unfold dlt in K; congruence].
    + rewrite H. cbn [bind]. exists (x :: y :: l). repeat split; auto. constructor; [now constructor|].
      constructor; [unfold dlt; rewrite H; discriminate|].
      rewrite Forall_forall in *. intros z Hz Hzx. apply (Hy z Hz).
      apply (dialect_trans z x y); auto.
Qed.

Lemma sorted_ok l : Forall defined l ->
  exists r, py_sorted l = Ok r /\ Permutation r l /\ StronglySorted (fun a b => ~ dlt b a) r.
Proof.
  induction l as [|x l IH]; intros H.
  - exists []. repeat split; constructor.
  - apply Forall_cons_iff in H as [Hx Hl]. destruct (IH Hl) as (r & E & Hp & Hs).
    cbn [py_sorted]. rewrite E. cbn [bind].
    destruct (insert_ok x r Hx) as (r' & E' & Hp' & Hs'); [|exact Hs|].
    { apply (Permutation_Forall (Permutation_sym Hp)), Hl. }
    exists r'. split; [exact E'|]. split; [|exact Hs']. rewrite Hp'. now constructor.
Qed.

Lemma sorted_unique l : forall r, Forall defined l -> Permutation r l ->
  StronglySorted (fun a b => ~ dlt b a) l -> StronglySorted (fun a b => ~ dlt b a) r -> r = l.
Proof.
  induction l as [|x l IH]; intros r Hd Hp Hl Hr.
  - apply Permutation_sym, Permutation_nil in Hp. exact Hp.
  - destruct r as [|y r]; [apply Permutation_nil in Hp; discriminate|].
    assert (Hxy : y = x).
    { inversion Hl as [|? ? Hl1 Hl2]; subst. inversion Hr as [|? ? Hr1 Hr2]; subst.
      rewrite Forall_forall in *.
      assert (Hy : In y (x :: l)) by (apply (Permutation_in _ Hp); now left).
      assert (Hx : In x (y :: r)) by (apply (Permutation_in _ (Permutation_sym Hp)); now left).
      destruct Hy as [Hy|Hy]; [now symmetry|]. destruct Hx as [Hx|Hx]; [assumption|].
      destruct (dialect_trichotomy x y) as [(H & _)|[(_ & H & _)|(_ & _ & H)]].
      - apply Hd. now left.
      - apply Hd. now right.
      - exfalso. now apply (Hr2 x Hx).
      - now symmetry.
      - exfalso. now apply (Hl2 y Hy). }
    subst y. f_equal. apply Forall_cons_iff in Hd as [_ Hd].
    apply IH; [exact Hd|now apply Permutation_cons_inv in Hp|..].
    + now inversion Hl.
    + now inversion Hr.
Qed.

Lemma sorted_perm l l' : Forall defined l -> Permutation l' l -> py_sorted l' = py_sorted l.
Proof.
  intros Hd Hp. destruct (sorted_ok l Hd) as (r & E & Hr & Hs).
  assert (Hd' : Forall defined l') by apply (Permutation_Forall (Permutation_sym Hp) Hd).
  destruct (sorted_ok l' Hd') as (r' & E' & Hr' & Hs'). rewrite E, E'. f_equal.
  apply sorted_unique; [|now rewrite Hr', Hp, Hr|assumption..].
  apply (Permutation_Forall (Permutation_sym Hr)), Hd.
Qed.

(** The result is determined by the order alone. *)
Lemma sorted_characterised l r : Forall defined l ->
  py_sorted l = Ok r <-> Permutation r l /\ StronglySorted (fun a b => ~ dlt b a) r.
Proof.
  intros Hd. destruct (sorted_ok l Hd) as (r' & E & Hp & Hs). rewrite E. split.
  - intros H. injection H as <-. auto.
  - intros [H1 H2]. f_equal. apply sorted_unique; [|now rewrite Hp, H1|assumption..].
    apply (Permutation_Forall (Permutation_sym H1)), Hd.
Qed.

Lemma derived_orders a b : defined a -> defined b ->
  dialect_leb a b = Ok (match dialect_ltb b a with Ok x => negb x | Err _ => false end) /\
  dialect_gtb a b = dialect_ltb b a /\ dialect_geb a b = dialect_leb b a.
Proof.
  intros Ha Hb. unfold dialect_leb, dialect_gtb, dialect_geb.
  destruct (dialect_trichotomy a b Ha Hb) as [(H1 & H2 & H3)|[(H1 & H2 & H3)|(H1 & H2 & H3)]];
    unfold dlt in *; rewrite ?H1, ?H3; cbn [bind negb orb andb].
  - assert (dialect_eqb b a = false) as ->
      by (apply not_true_is_false; rewrite eqb_eq; congruence). auto.
  - subst b. assert (dialect_eqb a a = true) as -> by now apply eqb_eq. auto.
  - assert (dialect_eqb a b = false) as ->
      by (apply not_true_is_false; rewrite eqb_eq; assumption). auto.
Qed.

(** ** Concrete cases *)
(** The Unicode categories of the ASCII characters. *)
Definition ascii_cat (c : N) : str :=
  s2l (if (c <? 32) || (c =? 127) then "Cc"%string
       else if (c =? 32) then "Zs"%string
       else if (48 <=? c) && (c <=? 57) then "Nd"%string
       else if (65 <=? c) && (c <=? 90) then "Lu"%string
       else if (97 <=? c) && (c <=? 122) then "Ll"%string
       else if mem_char c (s2l "!""#%&'*,./:;?@\"%string) then "Po"%string
       else if mem_char c (s2l "([{"%string) then "Ps"%string
       else if mem_char c (s2l ")]}"%string) then "Pe"%string
       else if mem_char c (s2l "+<=>|~"%string) then "Sm"%string
       else if mem_char c (s2l "^`"%string) then "Sk"%string
       else if (c =? 36) then "Sc"%string
       else if (c =? 45) then "Pd"%string
       else if (c =? 95) then "Pc"%string
       else "Cn"%string)%N.
Definition no_urls (b s : str) : option nat := None.
Definition plain_orders : orders := mk_orders (fun l => l) (fun l => l) (fun l => l) (fun _ _ l => l).
Definition back_orders : orders := mk_orders (@rev N) (@rev str) (@rev str) (fun _ _ => @rev str).

Lemma plain_orders_ok : any_orders plain_orders.
Proof. repeat split; intros; apply Permutation_refl. Qed.
Lemma back_orders_ok : any_orders back_orders.
Proof. repeat split; intros; apply Permutation_sym, Permutation_rev. Qed.

Lemma get_dialects_case :
  get_dialects ascii_cat no_urls plain_orders utf8 (s2l "a,'b\'c',1") None false =
  Ok [dialect3 [BACKSLASH] [SQ] []; dialect3 [BACKSLASH] [SQ] [BACKSLASH]; dialect3 [BACKSLASH] [] [];
      dialect3 [COMMA] [SQ] []; dialect3 [COMMA] [SQ] [BACKSLASH]; dialect3 [COMMA] [] [];
      dialect3 [] [SQ] []; dialect3 [] [SQ] [BACKSLASH]; dialect3 [] [] []].
Proof. reflexivity. Qed.

Lemma empty_candidate cat user text data : candidate cat user text data [] [] [].
Proof. repeat split; now left. Qed.

(** The URL placeholder as a delimiter. *)
Lemma url_placeholder cat url O : any_orders O -> url [] (s2l "a.io") = Some 4 ->
  exists L, get_dialects cat url O utf8 (s2l "a.io") (Some [s2l "U"]) false = Ok L /\
    In (dialect3 (s2l "U") [] []) L.
Proof.
  intros HO Hu.
  assert (Hf : filter_urls url (s2l "a.io") = [85%N]).
  { unfold filter_urls. change (s2l "a.io") with (97 :: 46 :: 105 :: [111])%N.
    cbn [sub_url]. change (97 :: 46 :: 105 :: [111])%N with (s2l "a.io"). now rewrite Hu. }
  destruct (get_dialects_utf8 cat url O (s2l "a.io") (Some [s2l "U"]) false HO) as (L & E & _ & Hi).
  { rewrite Hf. intros x [<-|[]]. reflexivity. }
  exists L. split; [exact E|]. apply Hi. exists (s2l "U"), [], []. split; [reflexivity|].
  split; [|reflexivity]. rewrite Hf. split; [|split; now left].
  right. exists 85%N. repeat split; now left.
Qed.

Lemma none_incomparable :
  dialect_ltb (mk_dialect (Some [COMMA]) None (Some []) false)
              (mk_dialect (Some [COMMA]) (Some [DQ]) (Some []) false) = Err TypeError.
Proof. reflexivity. Qed.
