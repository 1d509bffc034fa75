(** * LimitFacts: lemmas on the field size limit (C52) *)
From Verif Require Import Base Parser Dialect Limit SpecLimit.

Lemma limit_call c limit :
  (arguments c = [] /\ field_size_limit (fst c) (snd c) limit = (Ok limit, limit)) \/
  (exists z, sets c z /\ field_size_limit (fst c) (snd c) limit = (Ok limit, z)) \/
  (bad c /\ field_size_limit (fst c) (snd c) limit = (Err TypeError, limit)).
Proof.
  unfold bad, sets, field_size_limit. unfold arguments. set (l := fst c ++ map snd (snd c)).
  destruct l as [|a [|b l]]; [now left| |].
  - right. destruct a as [z|[|]|].
    1-3: left; eexists; split; [eexists; split; [reflexivity|]|]; reflexivity.
    right. split; [|reflexivity]. split; [discriminate|]. intros z (a & [= <-] & H). discriminate.
  - right; right. split; [|reflexivity]. split; [discriminate|]. intros z (x & H & _). discriminate.
Qed.
Lemma arguments_nil c z : arguments c = [] -> ~ sets c z.
Proof. unfold sets. intros -> (a & H & _). discriminate. Qed.
Lemma sets_fun c z z' : sets c z -> sets c z' -> z = z'.
Proof. unfold sets. intros (a & -> & H) (b & [= <-] & H'). congruence. Qed.

Lemma limits_cons c calls limit : field_size_limits (c :: calls) limit =
  (fst (field_size_limit (fst c) (snd c) limit) :: fst (field_size_limits calls (snd (field_size_limit (fst c) (snd c) limit))),
   snd (field_size_limits calls (snd (field_size_limit (fst c) (snd c) limit)))).
Proof.
  destruct c as [a k]. cbn [field_size_limits fst snd]. destruct (field_size_limit a k limit) as [r l]. cbn [fst snd].
  now destruct (field_size_limits calls l).
Qed.
Lemma limits_app calls : forall calls' limit,
  field_size_limits (calls ++ calls') limit =
  (fst (field_size_limits calls limit) ++ fst (field_size_limits calls' (snd (field_size_limits calls limit))),
   snd (field_size_limits calls' (snd (field_size_limits calls limit)))).
Proof.
  induction calls as [|c calls IH]; intros calls' limit; [cbn; now destruct (field_size_limits calls' limit)|].
  cbn [app]. rewrite !limits_cons, IH. reflexivity.
Qed.
Lemma limits_in_force calls : forall initial, in_force initial calls (snd (field_size_limits calls initial)).
Proof.
  induction calls as [|c calls IH] using rev_ind; intros initial.
  - right. split; [reflexivity|]. intros c z [].
  - rewrite limits_app. cbn [snd]. rewrite limits_cons. cbn [snd field_size_limits].
    specialize (IH initial). set (l := snd (field_size_limits calls initial)) in *.
    assert (K : (forall z, ~ sets c z) -> in_force initial (calls ++ [c]) l).
    { intros H. destruct IH as [(b & x & a & -> & H1 & H2)|[H1 H2]].
      - left. exists b, x, (a ++ [c]). split; [now rewrite <- app_assoc|]. split; [exact H1|].
        intros c' z Hc. apply in_app_iff in Hc as [Hc|[<-|[]]]; [apply H2, Hc|apply H].
      - right. split; [exact H1|]. intros c' z Hc. apply in_app_iff in Hc as [Hc|[<-|[]]]; [apply H2, Hc|apply H]. }
    destruct (limit_call c l) as [[H ->]|[(z & H & ->)|[[_ H] ->]]]; cbn [snd].
    + apply K. intros z. now apply arguments_nil.
    + left. exists calls, c, []. split; [reflexivity|]. split; [exact H|]. intros c' z' [].
    + apply K, H.
Qed.
Lemma limits_length calls : forall limit, length (fst (field_size_limits calls limit)) = length calls.
Proof. induction calls as [|c calls IH]; intros limit; [reflexivity|]. rewrite limits_cons. cbn. now rewrite IH. Qed.

(** Every call answers with the limit in force before it. *)
Lemma limits_history initial before c after :
  exists limit r, in_force initial before limit /\
    nth_error (fst (field_size_limits (before ++ c :: after) initial)) (length before) = Some r /\
    ((bad c /\ r = Err TypeError) \/ (~ bad c /\ r = Ok limit)).
Proof.
  exists (snd (field_size_limits before initial)), (fst (field_size_limit (fst c) (snd c) (snd (field_size_limits before initial)))).
  split; [apply limits_in_force|]. split.
  - rewrite limits_app. cbn [fst]. rewrite nth_error_app2 by (rewrite limits_length; lia).
    rewrite limits_length, Nat.sub_diag, limits_cons. reflexivity.
  - destruct (limit_call c (snd (field_size_limits before initial))) as [[H ->]|[(z & H & ->)|[H ->]]]; cbn [fst].
    + right. split; [|reflexivity]. intros [K _]. congruence.
    + right. split; [|reflexivity]. intros [_ K]. now apply (K z).
    + now left.
Qed.
(** The limit in force is determined by the history. *)
Lemma in_force_fun initial calls l l' : in_force initial calls l -> in_force initial calls l' -> l = l'.
Proof.
  intros H H'. destruct H as [(b & c & a & E & H1 & H2)|[-> H2]], H' as [(b' & c' & a' & E' & H1' & H2')|[-> H2']]; [| | |reflexivity].
  - rewrite E in E'. clear calls E. revert b' E'. induction b as [|x b IH]; intros [|x' b'] E'; injection E' as -> E'.
    + eapply sets_fun; eauto.
    + elim (H2 c' l'); [|exact H1']. rewrite E'. apply in_or_app. right. now left.
    + elim (H2' c l); [|exact H1]. rewrite <- E'. apply in_or_app. right. now left.
    + now apply (IH b').
  - elim (H2' c l); [|exact H1]. rewrite E. apply in_or_app. right. now left.
  - elim (H2 c' l'); [|exact H1']. rewrite E'. apply in_or_app. right. now left.
Qed.

(** ** Limits that do not fit *)
Lemma valid_chars D : validate D = true ->
  exists d q e, set_char (sd_delimiter D) = Ok d /\ set_char (sd_quotechar D) = Ok q /\ set_char (sd_escapechar D) = Ok e.
Proof.
  unfold validate. rewrite !andb_true_iff. intros [[H1 H2] H3].
  assert (K : forall o, field_valid o = true -> exists c, set_char o = Ok c).
  { intros [[|c [|c' s]]|]; cbn; try discriminate; eauto. }
  destruct (K _ H1) as [d ?], (K _ H2) as [q ?], (K _ H3) as [e ?]. eauto 7.
Qed.
Lemma long_fits w limit data D rq : (- 2 ^ (w - 1) <= limit < 2 ^ (w - 1))%Z ->
  parse_string_long w limit data D rq = parse_string limit data D rq.
Proof.
  intros H. unfold parse_string_long, set_long.
  replace ((- 2 ^ (w - 1) <=? limit) && (limit <? 2 ^ (w - 1)))%Z with true
    by (symmetry; apply andb_true_iff; rewrite Z.leb_le, Z.ltb_lt; lia).
  unfold parse_string, parse_data, parse_data_, make_conf. cbn [or_else].
  destruct (set_char (sd_delimiter D)); cbn [bind]; [|reflexivity].
  destruct (set_char (sd_quotechar D)); cbn [bind]; [|reflexivity].
  destruct (set_char (sd_escapechar D)); cbn [bind]; reflexivity.
Qed.
Lemma long_overflow w limit data D rq : validate D = true -> (limit < - 2 ^ (w - 1) \/ 2 ^ (w - 1) <= limit)%Z ->
  parse_string_long w limit data D rq = ([], Some OverflowError).
Proof.
  intros HV H. destruct (valid_chars D HV) as (d & q & e & E1 & E2 & E3).
  unfold parse_string_long, set_long. rewrite E1, E2, E3.
  replace ((- 2 ^ (w - 1) <=? limit) && (limit <? 2 ^ (w - 1)))%Z with false; [reflexivity|].
  symmetry. apply andb_false_iff. rewrite Z.leb_gt, Z.ltb_ge. lia.
Qed.
Lemma accepted_unusable : exists n,
  field_size_limit [LInt n] [] 131072 = (Ok 131072%Z, n) /\
  (forall data D rq, validate D = true -> parse_string_long 64 n data D rq = ([], Some OverflowError)).
Proof. exists (2 ^ 63)%Z. split; [reflexivity|]. intros data D rq H. apply long_overflow; [exact H|]. right. reflexivity. Qed.
Lemma calls_case :
  field_size_limits [([], []); ([LInt 5], []); ([], [([120%N], LBool true)]); ([LOther], []); ([LInt 1; LInt 2], []); ([], [])] 131072 =
  ([Ok 131072%Z; Ok 131072%Z; Ok 5%Z; Err TypeError; Err TypeError; Ok 1%Z], 1%Z).
Proof. reflexivity. Qed.
