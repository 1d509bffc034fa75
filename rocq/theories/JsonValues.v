(** * JsonValues: numbers, arrays and objects *)
From Coq Require Import String.
From Verif Require Import Base Parser Dialect Json SpecJson JsonFacts JsonScan SpecJsonText JsonText.

(** What can stand behind a value. *)
Definition follows (r : str) : Prop :=
  match r with [] => True | c :: _ => In c [SPACE; TAB; LF; CR; COMMA; 93; 125]%N end.
Lemma digit_iff c : is_digit c = true <-> j_digit c.
Proof. apply between. Qed.
Lemma follows_digit r : follows r -> stops is_digit r.
Proof. destruct r as [|c r]; [easy|]. cbn [follows stops]. intros H. repeat (destruct H as [<-|H]; [reflexivity|]). destruct H. Qed.

(** ** Numbers *)
Lemma digits_true s : Forall j_digit s -> Forall (fun c => is_digit c = true) s.
Proof. apply Forall_impl. intros c. apply digit_iff. Qed.
Lemma digits_prop s : Forall (fun c => is_digit c = true) s -> Forall j_digit s.
Proof. apply Forall_impl. intros c. apply digit_iff. Qed.
Definition p_sign (s : str) : str * str := match s with c :: r => if (c =? 45)%N then ([c], r) else ([], s) | [] => ([], []) end.
Definition p_int (r : str) : str * str := match r with c :: r' => if (c =? 48)%N then ([c], r') else span is_digit r | [] => ([], []) end.
Definition p_frac (r : str) : str * str :=
  match r with
  | c :: d :: r' => if ((c =? 46)%N && is_digit d) then let '(a, b) := span is_digit (d :: r') in (c :: a, b) else ([], r)
  | _ => ([], r)
  end.
Definition p_exp (r : str) : str * str :=
  match r with
  | c :: r' =>
      if ((c =? 101) || (c =? 69))%N then
        let '(sg, r'') := match r' with x :: r'' => if ((x =? 45) || (x =? 43))%N then ([x], r'') else ([], r') | [] => ([], []) end in
        match span is_digit r'' with
        | ([], _) => ([], r)
        | (ds, rest) => (c :: sg ++ ds, rest)
        end
      else ([], r)
  | [] => ([], [])
  end.
Lemma number_steps md s : scan_number md s =
  (let '(sign, r) := p_sign s in let '(int, r) := p_int r in
   match int with
   | [] => Err JSONDecodeError
   | _ => let '(frac, r) := p_frac r in let '(exp, r) := p_exp r in
          match frac ++ exp with
          | [] => if Nat.ltb md (List.length int) then Err ValueError else Ok (JNum (sign ++ int), r)
          | _ => Ok (JNum (sign ++ int ++ frac ++ exp), r)
          end
   end).
Proof. reflexivity. Qed.
Lemma sign_sound s a r : p_sign s = (a, r) -> j_sign a /\ s = a ++ r.
Proof. unfold p_sign. destruct s as [|c s]; [intros [= <- <-]; now split; [left|]|]. destruct (N.eqb_spec c 45) as [->|]; intros [= <- <-]; split; try reflexivity; [now right|now left]. Qed.
Lemma int_sound s a r : p_int s = (a, r) -> a <> [] -> j_int a /\ s = a ++ r.
Proof.
  unfold p_int. destruct s as [|c s]; [intros [= <- <-]; congruence|]. destruct (N.eqb_spec c 48) as [->|Hc]; [intros [= <- <-] _; split; [now left|reflexivity]|].
  intros E Ha. assert (E1 := span_split is_digit (c :: s)). assert (E2 := span_all is_digit (c :: s)). rewrite E in E1, E2. cbn [fst snd] in *. split; [|exact E1]. right. destruct a as [|c' ds]; [congruence|].
  injection E1 as <- ->. apply Forall_cons_iff in E2 as [H1 H2]. exists c, ds. apply digit_iff in H1. unfold j_digit in H1. split; [reflexivity|]. split; [lia|now apply digits_prop].
Qed.
Lemma frac_sound s a r : p_frac s = (a, r) -> j_frac a /\ s = a ++ r.
Proof.
  unfold p_frac. destruct s as [|c [|d s]]; try (intros [= <- <-]; split; [now left|reflexivity]). destruct (N.eqb_spec c 46) as [->|]; cbn [andb]; [|intros [= <- <-]; split; [now left|reflexivity]].
  destruct (is_digit d) eqn:Ed; [|intros [= <- <-]; split; [now left|reflexivity]].
  assert (E1 := span_split is_digit (d :: s)). assert (E2 := span_all is_digit (d :: s)). destruct (span is_digit (d :: s)) as [x y] eqn:E. cbn [fst snd] in *. intros [= <- <-]. split; [|cbn; now rewrite <- E1].
  right. destruct x as [|d' x]; [cbn in E; rewrite Ed in E; destruct (span is_digit s); discriminate E|]. exists d', x. split; [reflexivity|]. now apply digits_prop.
Qed.
Lemma exp_sound s a r : p_exp s = (a, r) -> j_exp a /\ s = a ++ r.
Proof.
  unfold p_exp. destruct s as [|c s]; [intros [= <- <-]; split; [now left|reflexivity]|]. destruct ((c =? 101) || (c =? 69))%N eqn:Ec; [|intros [= <- <-]; split; [now left|reflexivity]].
  assert (Hc : In c (s2l "eE")) by (apply orb_true_iff in Ec; rewrite !N.eqb_eq in Ec; destruct Ec as [->| ->]; [now left|right; now left]).
  assert (Hs : exists sg r'', match s with x :: r'' => if ((x =? 45) || (x =? 43))%N then ([x], r'') else ([], s) | [] => ([], []) end = (sg, r'') /\ In sg [[]; s2l "+"; s2l "-"] /\ s = sg ++ r'').
  { destruct s as [|x s]; [exists [], []; repeat split; now left|]. destruct ((x =? 45) || (x =? 43))%N eqn:Ex; [|exists [], (x :: s); repeat split; now left]. exists [x], s. repeat split.
    apply orb_true_iff in Ex. rewrite !N.eqb_eq in Ex. destruct Ex as [->| ->]; [right; right; now left|right; now left]. }
  destruct Hs as (sg & r2 & -> & Hsg & ->). assert (E1 := span_split is_digit r2). assert (E2 := span_all is_digit r2). destruct (span is_digit r2) as [x y]. cbn [fst snd] in *.
  destruct x as [|d x]; intros [= <- <-]; [split; [now left|reflexivity]|]. split; [|cbn; rewrite <- app_assoc; cbn in *; now rewrite E1]. right. exists c, sg, d, x. split; [reflexivity|]. split; [exact Hc|]. split; [exact Hsg|now apply digits_prop].
Qed.
Lemma number_sound md s v r : scan_number md s = Ok (v, r) -> exists t, v = JNum t /\ j_number md t /\ s = t ++ r.
Proof.
  rewrite number_steps. destruct (p_sign s) as [sign r1] eqn:E1. apply sign_sound in E1 as [H1 ->]. destruct (p_int r1) as [int r2] eqn:E2. destruct int as [|i int]; [discriminate|]. apply int_sound in E2 as [H2 ->]; [|discriminate].
  destruct (p_frac r2) as [frac r3] eqn:E3. apply frac_sound in E3 as [H3 ->]. destruct (p_exp r3) as [exp r4] eqn:E4. apply exp_sound in E4 as [H4 ->].
  destruct (frac ++ exp) as [|z l] eqn:EF.
  - apply app_eq_nil in EF as [-> ->]. destruct (Nat.ltb_spec md (List.length (i :: int))) as [|HL]; [discriminate|]. intros [= <- <-]. exists (sign ++ i :: int). split; [reflexivity|]. split; [|now rewrite <- app_assoc].
    exists sign, (i :: int), [], []. rewrite !app_nil_r. now repeat split.
  - intros [= <- <-]. exists (sign ++ (i :: int) ++ frac ++ exp). split; [now rewrite EF|]. split; [|now rewrite !app_assoc]. exists sign, (i :: int), frac, exp. repeat split; try assumption. intros -> ->. discriminate EF.
Qed.
Lemma int_digit int : j_int int -> exists c ds, int = c :: ds /\ j_digit c.
Proof. intros [->|(c & ds & -> & H & _)]; [exists 48%N, []|exists c, ds]; (split; [reflexivity|unfold j_digit; lia]). Qed.
Lemma int_complete int r : j_int int -> stops is_digit r -> p_int (int ++ r) = (int, r).
Proof.
  intros [->|(c & ds & -> & H & HF)] Hr; [reflexivity|]. unfold p_int. cbn [app]. destruct (N.eqb_spec c 48) as [->|_]; [lia|]. apply (span_app is_digit (c :: ds) r); [|exact Hr].
  constructor; [apply digit_iff; unfold j_digit; lia|now apply digits_true].
Qed.
Lemma exp_complete exp r : j_exp exp -> follows r -> p_exp (exp ++ r) = (exp, r).
Proof.
  intros [->|(e & sg & c & ds & -> & He & Hsg & HF)] Hr.
  - cbn [app]. unfold p_exp. destruct r as [|c r]; [reflexivity|]. cbn [follows In] in Hr. repeat (destruct Hr as [<-|Hr]; [reflexivity|]). destruct Hr.
  - assert (E : span is_digit (c :: ds ++ r) = (c :: ds, r)) by (apply (span_app is_digit (c :: ds)); [now apply digits_true|now apply follows_digit]).
    assert (Hc : ((c =? 45) || (c =? 43) = false)%N) by (apply Forall_inv in HF; unfold j_digit in HF; destruct (N.eqb_spec c 45), (N.eqb_spec c 43); try lia; reflexivity).
    unfold p_exp. cbn [app]. assert (Ee : ((e =? 101) || (e =? 69) = true)%N) by (destruct He as [<-|[<-|[]]]; reflexivity). rewrite Ee.
    destruct Hsg as [<-|[<-|[<-|[]]]]; cbn [app s2l]; [rewrite Hc| |]; try (cbn in E |- *; rewrite E; reflexivity).
Qed.
Lemma frac_complete frac exp r : j_frac frac -> j_exp exp -> follows r -> p_frac (frac ++ exp ++ r) = (frac, exp ++ r).
Proof.
  intros Hf He Hr. assert (HS : stops is_digit (exp ++ r) /\ stops (fun c => (c =? 46)%N) (exp ++ r)).
  { destruct He as [->|(e & sg & c & ds & -> & [<-|[<-|[]]] & _)]; [|now split..]. split; [now apply follows_digit|]. destruct r as [|c r]; [easy|]. cbn [follows In app stops] in *. repeat (destruct Hr as [<-|Hr]; [reflexivity|]). destruct Hr. }
  destruct Hf as [->|(c & ds & -> & HF)].
  - cbn [app]. unfold p_frac. destruct (exp ++ r) as [|c [|d s]]; try reflexivity. cbn in HS. now rewrite (proj2 HS).
  - unfold p_frac. cbn [app]. assert (E : span is_digit (c :: ds ++ exp ++ r) = (c :: ds, exp ++ r)) by (apply (span_app is_digit (c :: ds)); [now apply digits_true|apply HS]). rewrite E.
    apply Forall_inv, digit_iff in HF. now rewrite HF.
Qed.
Lemma number_complete md t r : j_number md t -> follows r -> scan_number md (t ++ r) = Ok (JNum t, r).
Proof.
  intros (sign & int & frac & exp & -> & H1 & H2 & H3 & H4 & HL) Hr. rewrite number_steps, <- !app_assoc.
  assert (E1 : p_sign (sign ++ int ++ frac ++ exp ++ r) = (sign, int ++ frac ++ exp ++ r)).
  { destruct H1 as [->| ->]; [|reflexivity]. destruct (int_digit int H2) as (c & ds & -> & Hc). cbn. destruct (N.eqb_spec c 45) as [->|]; [unfold j_digit in Hc; lia|reflexivity]. }
  rewrite E1. rewrite int_complete; [|exact H2|].
  2:{ destruct H3 as [->|(c & ds & -> & _)]; [|reflexivity]. cbn [app]. destruct H4 as [->|(e & sg & c & ds & -> & [<-|[<-|[]]] & _)]; [now apply follows_digit|reflexivity..]. }
  destruct (int_digit int H2) as (c & ds & E & _). rewrite frac_complete, exp_complete by assumption. destruct (frac ++ exp) as [|z l] eqn:EF.
  - apply app_eq_nil in EF as [-> ->]. specialize (HL eq_refl eq_refl). subst int. destruct (Nat.ltb_spec md (List.length (c :: ds))); [lia|]. now rewrite app_nil_r.
  - subst int. now rewrite <- EF.
Qed.

(** ** Dictionaries *)
Definition set_member (d : list (str * jvalue)) (m : str * jvalue) := dict_set (fst m) (snd m) d.
Lemma find_set_same {A} k (v : A) d : find (fun m => str_eqb (fst m) k) (dict_set k v d) = Some (k, v) \/ exists k', str_eqb k k' = true /\ find (fun m => str_eqb (fst m) k) (dict_set k v d) = Some (k', v).
Proof.
  induction d as [|[k' v'] d IH]; cbn [dict_set find fst]; [left; now rewrite str_eqb_refl|]. destruct (str_eqb k k') eqn:E; cbn [find fst].
  - right. exists k'. split; [exact E|]. apply str_eqb_eq in E as ->. now rewrite str_eqb_refl.
  - assert (E' : str_eqb k' k = false) by (apply str_eqb_neq; intros ->; now rewrite str_eqb_refl in E). rewrite E'. exact IH.
Qed.
Lemma find_set_other {A} k k0 (v : A) d : k <> k0 -> find (fun m => str_eqb (fst m) k0) (dict_set k v d) = find (fun m => str_eqb (fst m) k0) d.
Proof.
  intros H. induction d as [|[k' v'] d IH]; cbn [dict_set find fst]; [now rewrite (proj2 (str_eqb_neq _ _) H)|]. destruct (str_eqb k k') eqn:E; cbn [find fst].
  - apply str_eqb_eq in E as <-. now rewrite (proj2 (str_eqb_neq _ _) H).
  - now rewrite IH.
Qed.
Lemma filter_set_same {A} k (v : A) d : filter (fun m => negb (str_eqb (fst m) k)) (dict_set k v d) = filter (fun m => negb (str_eqb (fst m) k)) d.
Proof.
  induction d as [|[k' v'] d IH]; cbn [dict_set filter fst]; [now rewrite str_eqb_refl|]. destruct (str_eqb k k') eqn:E; cbn [filter fst].
  - apply str_eqb_eq in E as <-. now rewrite str_eqb_refl.
  - now rewrite IH.
Qed.
Lemma filter_set_other {A} k k0 (v : A) d : k <> k0 -> filter (fun m => negb (str_eqb (fst m) k0)) (dict_set k v d) = dict_set k v (filter (fun m => negb (str_eqb (fst m) k0)) d).
Proof.
  intros H. induction d as [|[k' v'] d IH]; cbn [dict_set filter fst]; [now rewrite (proj2 (str_eqb_neq _ _) H)|]. destruct (str_eqb k k') eqn:E; cbn [filter fst].
  - apply str_eqb_eq in E as <-. rewrite (proj2 (str_eqb_neq _ _) H). cbn [negb dict_set]. now rewrite str_eqb_refl.
  - rewrite IH. destruct (negb (str_eqb k' k0)); cbn [dict_set]; [now rewrite E|reflexivity].
Qed.
Lemma as_dict_snoc ms m : as_dict (ms ++ [m]) = set_member (as_dict ms) m.
Proof.
  destruct m as [k v]. induction ms as [|[k0 v0] r IH]; [reflexivity|]. cbn [app as_dict]. rewrite IH. unfold set_member. cbn [fst snd dict_set]. destruct (str_eqb k k0) eqn:E.
  - apply str_eqb_eq in E as ->. rewrite filter_set_same. destruct (find_set_same k0 v (as_dict r)) as [->|(k' & _ & ->)]; reflexivity.
  - apply str_eqb_neq in E. now rewrite find_set_other, filter_set_other.
Qed.
Lemma as_dict_fold ms : fold_left set_member ms [] = as_dict ms.
Proof. induction ms as [|m ms IH] using rev_ind; [reflexivity|]. rewrite fold_left_app, IH, as_dict_snoc. reflexivity. Qed.
Lemma as_dict_nodup ms : NoDup (map fst ms) -> as_dict ms = ms.
Proof.
  induction ms as [|[k v] ms IH]; [reflexivity|]. cbn [map fst]. intros H. apply NoDup_cons_iff in H as [H1 H2]. cbn [as_dict]. rewrite (IH H2).
  assert (G : forall m, In m ms -> str_eqb (fst m) k = false). { intros m Hm. apply str_eqb_neq. intros E. apply H1. rewrite <- E. now apply in_map. }
  assert (E1 : find (fun m => str_eqb (fst m) k) ms = None). { destruct (find _ ms) as [m|] eqn:E; [|reflexivity]. apply find_some in E as [Hm E]. rewrite (G m Hm) in E. discriminate E. }
  rewrite E1. f_equal. clear - G. induction ms as [|m ms IH]; [reflexivity|]. cbn. rewrite (G m) by now left. cbn. f_equal. apply IH. intros x Hx. apply G. now right.
Qed.

(** ** Containers *)
Lemma elements_ws P w vs ts : j_ws w -> j_elements P vs ts -> j_elements P vs (w ++ ts).
Proof.
  intros Hw H. destruct H as [v w1 t w2 H1 H2 H3|v vs w1 t w2 ts H1 H2 H3 H4]; rewrite app_assoc; constructor; try assumption; now apply Forall_app.
Qed.
Lemma members_ws P w ms ts : j_ws w -> j_members P ms ts -> j_members P ms (w ++ ts).
Proof.
  intros Hw H. destruct H; rewrite app_assoc; constructor; try assumption; now apply Forall_app.
Qed.
Section Containers.
Variable P : jvalue -> str -> Prop.
Variable scan : str -> res pyexc (jvalue * str).
Hypothesis sound : forall s v r, scan s = Ok (v, r) -> exists t, P v t /\ s = t ++ r.
Lemma elements_sound fuel : forall l s v r, scan_elements scan fuel l s = Ok (v, r) -> exists vs ts, j_elements P vs ts /\ v = JArr (l ++ vs) /\ s = ts ++ 93%N :: r.
Proof.
  induction fuel as [|f IH]; intros l s v r; [discriminate|]. cbn [scan_elements]. destruct (scan s) as [[x r1]|] eqn:E; cbn [bind]; [|discriminate]. apply sound in E as (t & Ht & ->).
  destruct (skip_split r1) as (w & Hw & E1). destruct (skip_ws r1) as [|c r2] eqn:E2; [discriminate|]. destruct (N.eqb_spec c 93) as [->|].
  - intros [= <- <-]. exists [x], ([] ++ t ++ w). split; [constructor; [constructor|assumption..]|]. split; [reflexivity|]. rewrite E1. cbn. now rewrite <- app_assoc.
  - destruct (N.eqb_spec c COMMA) as [->|]; [|discriminate]. intros H. apply IH in H as (vs & ts & HE & -> & Es). destruct (skip_split r2) as (w2 & Hw2 & E3).
    exists (x :: vs), ([] ++ t ++ w ++ COMMA :: w2 ++ ts). split; [constructor; try assumption; [constructor|now apply elements_ws]|]. split; [now rewrite <- app_assoc|].
    rewrite E1, E3, Es. cbn [app]. rewrite <- !app_assoc. cbn. now rewrite <- app_assoc.
Qed.
Lemma members_sound fuel : forall d s v r, scan_members scan fuel d s = Ok (v, r) -> exists ms ts, j_members P ms ts /\ v = JObj (fold_left set_member ms d) /\ s = ts ++ 125%N :: r.
Proof.
  induction fuel as [|f IH]; intros d s v r; [discriminate|]. cbn [scan_members]. destruct s as [|q s]; [discriminate|]. destruct (N.eqb_spec q DQ) as [->|]; [|discriminate].
  destruct (scan_string s) as [[k r1]|] eqn:Ek; cbn [bind]; [|discriminate]. apply string_sound in Ek as (kt & Hk & ->).
  destruct (skip_split r1) as (w2 & Hw2 & E1). destruct (skip_ws r1) as [|c r2] eqn:E2; [discriminate|]. destruct (N.eqb_spec c 58) as [->|]; [|discriminate].
  destruct (skip_split r2) as (w3 & Hw3 & E3). destruct (scan (skip_ws r2)) as [[x r3]|] eqn:Ex; cbn [bind]; [|discriminate]. apply sound in Ex as (t & Ht & E4).
  destruct (skip_split r3) as (w4 & Hw4 & E5). destruct (skip_ws r3) as [|c r4] eqn:E6; [discriminate|]. destruct (N.eqb_spec c 125) as [->|].
  - intros [= <- <-]. exists [(k, x)], ([] ++ (DQ :: kt) ++ w2 ++ 58%N :: w3 ++ t ++ w4). split; [constructor; try assumption; constructor|]. split; [reflexivity|]. rewrite E1, E3, E4, E5. cbn. rewrite <- !app_assoc. cbn. now rewrite <- !app_assoc.
  - destruct (N.eqb_spec c COMMA) as [->|]; [|discriminate]. intros H. apply IH in H as (ms & ts & HE & -> & Es). destruct (skip_split r4) as (w5 & Hw5 & E7).
    exists ((k, x) :: ms), ([] ++ (DQ :: kt) ++ w2 ++ 58%N :: w3 ++ t ++ w4 ++ COMMA :: w5 ++ ts). split; [constructor; try assumption; [constructor|now apply members_ws]|]. split; [reflexivity|].
    rewrite E1, E3, E4, E5, E7, Es. cbn. rewrite <- !app_assoc. cbn. rewrite <- !app_assoc. cbn. now rewrite <- !app_assoc.
Qed.

Hypothesis complete : forall v t r, P v t -> follows r -> scan (t ++ r) = Ok (v, r).
Hypothesis starts : forall v t, P v t -> exists c t', t = c :: t' /\ ws_char c = false /\ c <> 93%N /\ c <> 125%N.
Lemma ws_follows w c r : j_ws w -> In c [SPACE; TAB; LF; CR; COMMA; 93; 125]%N -> follows (w ++ c :: r).
Proof. intros Hw Hc. destruct w as [|x w]; [exact Hc|]. apply Forall_inv in Hw. cbn [follows app]. cbn [In] in *. tauto. Qed.
Lemma elements_complete vs ts : j_elements P vs ts -> forall fuel l r, (List.length vs <= fuel)%nat -> scan_elements scan fuel l (skip_ws (ts ++ 93%N :: r)) = Ok (JArr (l ++ vs), r).
Proof.
  induction 1 as [v w1 t w2 H1 H2 H3|v vs w1 t w2 ts H1 H2 H3 H4 IH]; intros fuel l r Hf; cbn in Hf; (destruct fuel as [|f]; [lia|]); rewrite <- !app_assoc; cbn [app].
  - rewrite skip_app; [|exact H1|destruct (starts v t H2) as (c & t' & -> & Hc & _); exact Hc]. cbn [scan_elements]. rewrite (complete v t); [|exact H2|apply ws_follows; [exact H3|cbn; tauto]]. cbn [bind]. rewrite skip_app; [reflexivity|exact H3|reflexivity].
  - rewrite skip_app; [|exact H1|destruct (starts v t H2) as (c & t' & -> & Hc & _); exact Hc]. cbn [scan_elements]. rewrite (complete v t); [|exact H2|apply ws_follows; [exact H3|cbn; tauto]]. cbn [bind]. rewrite skip_app; [|exact H3|reflexivity].
    change (COMMA =? 93)%N with false. change (COMMA =? COMMA)%N with true. cbv iota. rewrite IH by lia. now rewrite <- app_assoc.
Qed.
Lemma members_complete ms ts : j_members P ms ts -> forall fuel d r, (List.length ms <= fuel)%nat -> scan_members scan fuel d (skip_ws (ts ++ 125%N :: r)) = Ok (JObj (fold_left set_member ms d), r).
Proof.
  induction 1 as [k v w1 kt w2 w3 t w4 H1 H2 H3 H4 H5 H6|k v ms w1 kt w2 w3 t w4 ts H1 H2 H3 H4 H5 H6 H7 IH]; intros fuel d r Hf; cbn in Hf; (destruct fuel as [|f]; [lia|]); rewrite <- !app_assoc; cbn [app]; rewrite <- !app_assoc; cbn [app]; rewrite <- ?app_assoc; cbn [app].
  - destruct (string_read k kt (w2 ++ 58%N :: w3 ++ t ++ w4 ++ 125%N :: r) H2) as (b & -> & Eb). cbn [app]. rewrite skip_app; [|exact H1|reflexivity]. cbn [scan_members]. change (DQ =? DQ)%N with true. cbv iota. rewrite Eb. cbn [bind].
    rewrite skip_app; [|exact H3|reflexivity]. change (58 =? 58)%N with true. cbv iota. rewrite skip_app; [|exact H4|destruct (starts v t H5) as (c & t' & -> & Hc & _); exact Hc].
    rewrite (complete v t); [|exact H5|apply ws_follows; [exact H6|cbn; tauto]]. cbn [bind]. rewrite skip_app; [reflexivity|exact H6|reflexivity].
  - destruct (string_read k kt (w2 ++ 58%N :: w3 ++ t ++ w4 ++ COMMA :: ts ++ 125%N :: r) H2) as (b & -> & Eb). cbn [app]. rewrite skip_app; [|exact H1|reflexivity]. cbn [scan_members]. change (DQ =? DQ)%N with true. cbv iota. rewrite Eb. cbn [bind].
    rewrite skip_app; [|exact H3|reflexivity]. change (58 =? 58)%N with true. cbv iota. rewrite skip_app; [|exact H4|destruct (starts v t H5) as (c & t' & -> & Hc & _); exact Hc].
    rewrite (complete v t); [|exact H5|apply ws_follows; [exact H6|cbn; tauto]]. cbn [bind]. rewrite skip_app; [|exact H6|reflexivity]. change (COMMA =? 125)%N with false. change (COMMA =? COMMA)%N with true. cbv iota. rewrite IH by lia. reflexivity.
Qed.
Lemma elements_length vs ts : j_elements P vs ts -> (List.length vs <= List.length ts)%nat.
Proof.
  induction 1 as [v w1 t w2 H1 H2 H3|v vs w1 t w2 ts H1 H2 H3 H4 IH]; destruct (starts v t H2) as (c & t' & -> & _); rewrite !app_length; cbn; rewrite ?app_length; cbn; lia.
Qed.
Lemma members_length ms ts : j_members P ms ts -> (List.length ms <= List.length ts)%nat.
Proof. induction 1; rewrite !app_length; cbn; rewrite ?app_length; cbn; rewrite ?app_length; cbn; lia. Qed.
Lemma elements_start vs ts r : j_elements P vs ts -> exists c t', skip_ws (ts ++ r) = c :: t' /\ c <> 93%N.
Proof.
  intros H. destruct H as [v w1 t w2 H1 H2 H3|v vs w1 t w2 ts H1 H2 H3 H4]; destruct (starts v t H2) as (c & t' & -> & Hc & Hn & _); rewrite <- app_assoc; (rewrite skip_app; [|exact H1|exact Hc]); cbn; eauto.
Qed.
Lemma members_start ms ts r : j_members P ms ts -> exists t', skip_ws (ts ++ r) = DQ :: t'.
Proof.
  intros H. destruct H as [k v w1 kt w2 w3 t w4 H1 H2|k v ms w1 kt w2 w3 t w4 ts H1 H2]; destruct H2 as (ps & _ & _ & ->); rewrite <- app_assoc; (rewrite skip_app; [|exact H1|reflexivity]); cbn; eauto.
Qed.
End Containers.

(** ** Values *)
Lemma strip_prefix_iff p : forall s r, strip_prefix p s = Some r <-> s = p ++ r.
Proof.
  induction p as [|c p IH]; intros s r; cbn; [split; congruence|]. destruct s as [|d s]; [split; discriminate|]. destruct (N.eqb_spec c d) as [->|H]; [rewrite IH; split; congruence|]. split; congruence.
Qed.
Definition scan_word (md : nat) (s : str) : res pyexc (jvalue * str) :=
  match strip_prefix (s2l "null") s with Some r => Ok (JNull, r) | None =>
  match strip_prefix (s2l "true") s with Some r => Ok (JBool true, r) | None =>
  match strip_prefix (s2l "false") s with Some r => Ok (JBool false, r) | None =>
  match strip_prefix (s2l "NaN") s with Some r => Ok (JNum (s2l "NaN"), r) | None =>
  match strip_prefix (s2l "Infinity") s with Some r => Ok (JNum (s2l "Infinity"), r) | None =>
  match strip_prefix (s2l "-Infinity") s with Some r => Ok (JNum (s2l "-Infinity"), r) | None =>
  scan_number md s
  end end end end end end.
Lemma scan_once_step md depth c r : scan_once md depth (c :: r) =
  if (c =? DQ)%N then bind (scan_string r) (fun '(t, r) => Ok (JStr t, r))
  else if (c =? 123)%N then
    match depth with
    | 0%nat => Err RecursionError
    | S depth =>
        match skip_ws r with
        | c :: r' => if (c =? 125)%N then Ok (JObj [], r') else scan_members (scan_once md depth) (S (List.length r)) [] (c :: r')
        | [] => Err JSONDecodeError
        end
    end
  else if (c =? 91)%N then
    match depth with
    | 0%nat => Err RecursionError
    | S depth =>
        match skip_ws r with
        | c :: r' => if (c =? 93)%N then Ok (JArr [], r') else scan_elements (scan_once md depth) (S (List.length r)) [] (c :: r')
        | [] => Err JSONDecodeError
        end
    end
  else scan_word md (c :: r).
Proof. destruct depth; reflexivity. Qed.
Lemma word_sound md s v r : scan_word md s = Ok (v, r) -> exists t, j_scalar md v t /\ s = t ++ r.
Proof.
  unfold scan_word. unfold j_scalar, py_number.
  destruct (strip_prefix (s2l "null") s) as [r1|] eqn:E1; [apply strip_prefix_iff in E1; intros [= <- <-]; eexists; split; [|exact E1]; tauto|].
  destruct (strip_prefix (s2l "true") s) as [r1|] eqn:E2; [apply strip_prefix_iff in E2; intros [= <- <-]; eexists; split; [|exact E2]; tauto|].
  destruct (strip_prefix (s2l "false") s) as [r1|] eqn:E3; [apply strip_prefix_iff in E3; intros [= <- <-]; eexists; split; [|exact E3]; tauto|].
  destruct (strip_prefix (s2l "NaN") s) as [r1|] eqn:E4; [apply strip_prefix_iff in E4; intros [= <- <-]; eexists; split; [|exact E4]; right; right; right; left; split; [reflexivity|left; cbn; tauto]|].
  destruct (strip_prefix (s2l "Infinity") s) as [r1|] eqn:E5; [apply strip_prefix_iff in E5; intros [= <- <-]; eexists; split; [|exact E5]; right; right; right; left; split; [reflexivity|left; cbn; tauto]|].
  destruct (strip_prefix (s2l "-Infinity") s) as [r1|] eqn:E6; [apply strip_prefix_iff in E6; intros [= <- <-]; eexists; split; [|exact E6]; right; right; right; left; split; [reflexivity|left; cbn; tauto]|].
  intros H. apply number_sound in H as (t & -> & Ht & ->). exists t. split; [|reflexivity]. tauto.
Qed.
Lemma value_sound md : forall depth s v r, scan_once md depth s = Ok (v, r) -> exists t, j_value md depth v t /\ s = t ++ r.
Proof.
  induction depth as [|depth IH]; intros [|c s] v r H; try discriminate H; rewrite scan_once_step in H.
  - destruct (N.eqb_spec c DQ) as [->|].
    { destruct (scan_string s) as [[x r1]|] eqn:E; cbn [bind] in H; [|discriminate H]. injection H as <- <-. apply string_sound in E as (t & Ht & ->). exists (DQ :: t). split; [|reflexivity]. left. do 4 right. now exists x. }
    destruct (N.eqb_spec c 123) as [->|]; [discriminate H|]. destruct (N.eqb_spec c 91) as [->|]; [discriminate H|]. apply word_sound in H as (t & Ht & ->). exists t. split; [now left|reflexivity].
  - destruct (N.eqb_spec c DQ) as [->|].
    { destruct (scan_string s) as [[x r1]|] eqn:E; cbn [bind] in H; [|discriminate H]. injection H as <- <-. apply string_sound in E as (t & Ht & ->). exists (DQ :: t). split; [|reflexivity]. left. do 4 right. now exists x. }
    destruct (skip_split s) as (w & Hw & Es). destruct (N.eqb_spec c 123) as [->|]; [|destruct (N.eqb_spec c 91) as [->|]].
    + destruct (skip_ws s) as [|c s'] eqn:E; [discriminate H|]. destruct (N.eqb_spec c 125) as [->|].
      * injection H as <- <-. exists (s2l "{" ++ w ++ s2l "}"). split; [right; right; left; now exists w|]. rewrite Es. cbn. now rewrite <- app_assoc.
      * apply (members_sound (j_value md depth) _ IH) in H as (ms & ts & HM & -> & Ec). exists (s2l "{" ++ (w ++ ts) ++ s2l "}"). split; [right; do 3 right; exists ms, (w ++ ts); split; [now rewrite as_dict_fold|]; split; [reflexivity|now apply members_ws]|].
        rewrite Es, Ec. cbn. rewrite <- !app_assoc. reflexivity.
    + destruct (skip_ws s) as [|c s'] eqn:E; [discriminate H|]. destruct (N.eqb_spec c 93) as [->|].
      * injection H as <- <-. exists (s2l "[" ++ w ++ s2l "]"). split; [right; left; now exists w|]. rewrite Es. cbn. now rewrite <- app_assoc.
      * apply (elements_sound (j_value md depth) _ IH) in H as (vs & ts & HM & -> & Ec). exists (s2l "[" ++ (w ++ ts) ++ s2l "]"). split; [right; right; right; left; exists vs, (w ++ ts); split; [reflexivity|]; split; [reflexivity|now apply elements_ws]|].
        rewrite Es, Ec. cbn. rewrite <- !app_assoc. reflexivity.
    + apply word_sound in H as (t & Ht & ->). exists t. split; [now left|reflexivity].
Qed.
Lemma number_start md t : j_number md t -> (exists c t', t = c :: t' /\ j_digit c) \/ (exists c t', t = 45%N :: c :: t' /\ j_digit c).
Proof.
  intros (sign & int & frac & exp & -> & H1 & H2 & _). destruct (int_digit int H2) as (c & ds & -> & Hc). destruct H1 as [->| ->]; [left|right]; cbn; eauto.
Qed.
Lemma digit_neq c k : j_digit c -> (k < 48 \/ 57 < k)%N -> (c =? k)%N = false /\ (k =? c)%N = false.
Proof. unfold j_digit. intros H Hk. split; apply N.eqb_neq; lia. Qed.
Lemma number_word md t r : j_number md t -> scan_word md (t ++ r) = scan_number md (t ++ r).
Proof.
  intros H. unfold scan_word. destruct (number_start md t H) as [(c & t' & -> & Hc)|(c & t' & -> & Hc)].
  - assert (G : forall p l, match p with k :: _ => (k < 48 \/ 57 < k)%N | [] => False end -> strip_prefix p (c :: l) = None).
    { intros [|k p] l Hk; [destruct Hk|]. cbn [strip_prefix]. now rewrite (proj2 (digit_neq c k Hc Hk)). }
    cbn [app]. rewrite !G by (cbn; lia). reflexivity.
  - assert (E : strip_prefix (s2l "-Infinity") ((45%N :: c :: t') ++ r) = None).
    { destruct (strip_prefix _ _) eqn:E; [|reflexivity]. apply strip_prefix_iff in E. injection E as E _. subst c. unfold j_digit in Hc. lia. }
    rewrite E. reflexivity.
Qed.
Lemma scalar_complete md depth v t r : j_scalar md v t -> follows r -> scan_once md depth (t ++ r) = Ok (v, r).
Proof.
  intros H Hr. destruct H as [(-> & ->)|[(-> & ->)|[(-> & ->)|[(-> & [H|H])|(s & -> & H)]]]].
  - destruct depth; reflexivity.
  - destruct depth; reflexivity.
  - destruct depth; reflexivity.
  - destruct H as [<-|[<-|[<-|[]]]]; destruct depth; reflexivity.
  - rewrite <- (number_complete md t r H Hr), <- number_word by exact H.
    destruct (number_start md t H) as [(c & t' & -> & Hc)|(c & t' & -> & Hc)]; cbn [app]; rewrite scan_once_step; [|reflexivity].
    now rewrite (proj1 (digit_neq c DQ Hc (or_introl eq_refl))), (proj1 (digit_neq c 123 Hc ltac:(lia))), (proj1 (digit_neq c 91 Hc ltac:(lia))).
  - destruct (string_read s t r H) as (b & -> & E). cbn [app]. rewrite scan_once_step. change (DQ =? DQ)%N with true. cbv iota. now rewrite E.
Qed.
Lemma value_start md depth v t : j_value md depth v t -> exists c t', t = c :: t' /\ ws_char c = false /\ c <> 93%N /\ c <> 125%N.
Proof.
  assert (G : j_scalar md v t -> exists c t', t = c :: t' /\ ws_char c = false /\ c <> 93%N /\ c <> 125%N).
  { intros H. destruct H as [(-> & ->)|[(-> & ->)|[(-> & ->)|[(-> & [H|H])|(s & -> & (ps & _ & _ & ->))]]]]; try (eexists _, _; repeat split; discriminate).
    - destruct H as [<-|[<-|[<-|[]]]]; eexists _, _; repeat split; discriminate.
    - destruct (number_start md t H) as [(c & t' & -> & Hc)|(c & t' & -> & Hc)]; [|eexists _, _; repeat split; discriminate].
      exists c, t'. split; [reflexivity|]. split; [|unfold j_digit in Hc; lia]. unfold ws_char.
      now rewrite (proj1 (digit_neq c SPACE Hc (or_introl eq_refl))), (proj1 (digit_neq c TAB Hc (or_introl eq_refl))), (proj1 (digit_neq c LF Hc (or_introl eq_refl))), (proj1 (digit_neq c CR Hc (or_introl eq_refl))). }
  destruct depth as [|depth]; cbn [j_value]; intros [H|H]; try (now apply G).
  destruct H as [(w & _ & _ & ->)|[(w & _ & _ & ->)|[(vs & ts & _ & -> & _)|(ms & ts & _ & -> & _)]]]; eexists _, _; repeat split; discriminate.
Qed.
Lemma value_complete md : forall depth v t r, j_value md depth v t -> follows r -> scan_once md depth (t ++ r) = Ok (v, r).
Proof.
  induction depth as [|depth IH]; intros v t r [H|H] Hr; try (now apply scalar_complete).
  assert (HS := value_start md depth). destruct H as [(w & Hw & -> & ->)|[(w & Hw & -> & ->)|[(vs & ts & -> & -> & HE)|(ms & ts & -> & -> & HE)]]]; rewrite <- !app_assoc.
  - change (scan_once md (S depth) (91%N :: w ++ 93%N :: r) = Ok (JArr [], r)). rewrite scan_once_step. change (91 =? DQ)%N with false. change (91 =? 123)%N with false. change (91 =? 91)%N with true. cbv iota. now rewrite skip_app.
  - change (scan_once md (S depth) (123%N :: w ++ 125%N :: r) = Ok (JObj [], r)). rewrite scan_once_step. change (123 =? DQ)%N with false. change (123 =? 123)%N with true. cbv iota. now rewrite skip_app.
  - change (scan_once md (S depth) (91%N :: ts ++ 93%N :: r) = Ok (JArr vs, r)). rewrite scan_once_step. change (91 =? DQ)%N with false. change (91 =? 123)%N with false. change (91 =? 91)%N with true. cbv iota.
    assert (E := elements_complete _ _ IH HS vs ts HE (S (List.length (ts ++ 93%N :: r))) [] r). assert (EL := elements_length _ HS vs ts HE). rewrite app_length in *. specialize (E ltac:(lia)).
    destruct (elements_start _ HS vs ts (93%N :: r) HE) as (c & t' & Ec & Hc). rewrite Ec in *. apply N.eqb_neq in Hc. rewrite Hc. exact E.
  - change (scan_once md (S depth) (123%N :: ts ++ 125%N :: r) = Ok (JObj (as_dict ms), r)). rewrite scan_once_step. change (123 =? DQ)%N with false. change (123 =? 123)%N with true. cbv iota.
    assert (E := members_complete _ _ IH HS ms ts HE (S (List.length (ts ++ 125%N :: r))) [] r). assert (EL := members_length _ ms ts HE). rewrite app_length in *. specialize (E ltac:(lia)).
    destruct (members_start _ ms ts (125%N :: r) HE) as (t' & Ec). rewrite Ec in *. change (DQ =? 125)%N with false. cbv iota. now rewrite E, as_dict_fold.
Qed.
Lemma loads_start md depth s : (forall r, s <> 65279%N :: r) ->
  loads md depth s = bind (scan_once md depth (skip_ws s)) (fun '(v, r) => match skip_ws r with [] => Ok v | _ => Err JSONDecodeError end).
Proof.
  intros H. unfold loads. destruct s as [|c s]; [reflexivity|]. destruct (N.eq_dec c 65279) as [->|Hc]; [now elim (H s)|].
  destruct c as [|c]; [reflexivity|]. do 16 (destruct c as [c|c|]; try reflexivity). now contradiction Hc.
Qed.
Lemma loads_bom md depth s v : loads md depth (65279%N :: s) <> Ok v.
Proof. discriminate. Qed.
Lemma loads_iff md depth s v : loads md depth s = Ok v <-> j_text md depth v s.
Proof.
  assert (D : (forall r, s <> 65279%N :: r) \/ exists r, s = 65279%N :: r).
  { destruct s as [|c s]; [now left|]. destruct (N.eq_dec c 65279) as [->|H]; [right; eauto|left; congruence]. }
  destruct D as [D|[r ->]].
  - rewrite (loads_start md depth s D). split.
    + destruct (scan_once md depth (skip_ws s)) as [[v' r]|] eqn:E; cbn [bind]; [|discriminate]. apply value_sound in E as (t & Ht & Es). destruct (skip_split s) as (w1 & H1 & E1). destruct (skip_split r) as (w2 & H2 & E2).
      destruct (skip_ws r); [|discriminate]. intros [= ->]. exists w1, t, w2. rewrite app_nil_r in E2. subst r. rewrite <- Es. now repeat split.
    + intros (w1 & t & w2 & -> & H1 & Ht & H2). destruct (value_start md depth v t Ht) as (c & t' & Ec & Hc & _). rewrite skip_app; [|exact H1|subst t; exact Hc].
      rewrite (value_complete md depth v t); [|exact Ht|destruct w2 as [|x w2]; [exact I|apply Forall_inv in H2; cbn [follows]; cbn [In] in *; tauto]]. cbn [bind]. rewrite <- (app_nil_r w2). now rewrite skip_app.
  - split; [intros H; now apply loads_bom in H|]. intros (w1 & t & w2 & E & H1 & Ht & H2). exfalso. destruct w1 as [|x w1].
    + destruct (value_start md depth v t Ht) as (c & t' & -> & Hc & _). injection E as <- _.
      destruct depth as [|depth]; destruct Ht as [H|H]; try (destruct H as [(_ & [=])|[(_ & [=])|[(_ & [=])|[(_ & [[[=]|[[=]|[[=]|[]]]]|H])|(s & _ & (ps & _ & _ & [=]))]]]]; destruct (number_start md _ H) as [(c & t'' & [= <- <-] & Hd)|(c & t'' & [=] & _)]; unfold j_digit in Hd; lia); [destruct H|].
      destruct H as [(w & _ & _ & [=])|[(w & _ & _ & [=])|[(vs & ts & _ & [=] & _)|(ms & ts & _ & [=] & _)]]].
    + injection E as <- _. apply Forall_inv in H1. cbn in H1. repeat (destruct H1 as [H1|H1]; [discriminate H1|]). destruct H1.
Qed.

(** ** Writing and reading back *)
Lemma dumps_string s : code_points s -> pair_up s = s -> j_string s (dumps_str s).
Proof.
  intros H1 H2. assert (E := scan_escaped (List.length s) s [] (le_n _) H1). rewrite H2 in E. apply string_sound in E as (t & Ht & E). rewrite app_nil_r in E. unfold dumps_str. now rewrite E.
Qed.
Lemma space_ws : j_ws [SPACE].
Proof. constructor; [now left|constructor]. Qed.
Lemma dumps_elements (P : jvalue -> str -> Prop) l : l <> [] -> (forall v, In v l -> P v (dumps v)) -> j_elements P l (join (s2l ", ") (map dumps l)).
Proof.
  induction l as [|v [|u l] IH]; [congruence| |]; intros _ H.
  - change (join (s2l ", ") (map dumps [v])) with (dumps v). rewrite <- (app_nil_r (dumps v)). apply (el_last P v [] (dumps v) []); [constructor|apply H; now left|constructor].
  - change (join (s2l ", ") (map dumps (v :: u :: l))) with ([] ++ dumps v ++ [] ++ COMMA :: [SPACE] ++ join (s2l ", ") (map dumps (u :: l))). apply el_more; [constructor|apply H; now left|constructor|].
    apply elements_ws; [apply space_ws|]. apply IH; [discriminate|]. intros x Hx. apply H. now right.
Qed.
Definition member_text (m : str * jvalue) : str := let '(k, v) := m in dumps_str k ++ s2l ": " ++ dumps v.
Lemma dumps_members (P : jvalue -> str -> Prop) l : l <> [] -> (forall m, In m l -> j_string (fst m) (dumps_str (fst m)) /\ P (snd m) (dumps (snd m))) -> j_members P l (join (s2l ", ") (map member_text l)).
Proof.
  induction l as [|[k v] [|u l] IH]; [congruence| |]; intros _ H; destruct (H (k, v) (or_introl eq_refl)) as [H1 H2]; cbn [fst snd] in *.
  - replace (join (s2l ", ") (map member_text [(k, v)])) with ([] ++ dumps_str k ++ [] ++ 58%N :: [SPACE] ++ dumps v ++ []) by (rewrite app_nil_r; reflexivity). apply me_last; try assumption; try constructor; [now left|constructor].
  - replace (join (s2l ", ") (map member_text ((k, v) :: u :: l))) with ([] ++ dumps_str k ++ [] ++ 58%N :: [SPACE] ++ dumps v ++ [] ++ COMMA :: [SPACE] ++ join (s2l ", ") (map member_text (u :: l))).
    2:{ change (join (s2l ", ") (map member_text ((k, v) :: u :: l))) with ((dumps_str k ++ s2l ": " ++ dumps v) ++ s2l ", " ++ join (s2l ", ") (map member_text (u :: l))). rewrite <- !app_assoc. reflexivity. }
    apply me_more; try assumption; try constructor; [now left|constructor|]. apply members_ws; [apply space_ws|]. apply IH; [discriminate|]. intros x Hx. apply H. now right.
Qed.
Lemma dumps_value md : forall depth v, storable md depth v -> j_value md depth v (dumps v).
Proof.
  assert (G : forall v depth, match v with JArr _ | JObj _ => False | _ => True end -> storable md depth v -> j_scalar md v (dumps v)).
  { intros v depth Hv H. unfold j_scalar. destruct v as [|[|]|t|s|l|l]; try destruct Hv.
    - now left.
    - right. now left.
    - right. right. now left.
    - do 3 right. left. split; [reflexivity|]. destruct depth; exact H.
    - do 4 right. exists s. split; [reflexivity|]. cbn [dumps]. destruct depth; cbn in H; now apply dumps_string. }
  induction depth as [|depth IH]; intros v H.
  - left. apply (G v 0%nat); [|exact H]. destruct v; try exact I; exact H.
  - destruct v as [| | | |l|l]; try (left; apply (G _ (S depth)); [exact I|exact H]); right; cbn [storable] in H.
    + destruct l as [|x l]; [left; exists []; repeat split; constructor|]. right. right. left. eexists _, _. split; [reflexivity|]. split; [reflexivity|]. apply dumps_elements; [discriminate|]. intros v Hv. apply IH. now apply (proj1 (Forall_forall _ _) H).
    + destruct l as [|x l]; [right; left; exists []; repeat split; constructor|]. right. right. right. destruct H as [HN H]. exists (x :: l). eexists. split; [now rewrite as_dict_nodup|]. split; [reflexivity|].
      apply dumps_members; [discriminate|]. intros m Hm. destruct (proj1 (Forall_forall _ _) H m Hm) as [[H1 H2] H3]. split; [now apply dumps_string|now apply IH].
Qed.
Lemma dumps_loads md depth v : storable md depth v -> loads md depth (dumps v) = Ok v.
Proof.
  intros H. apply loads_iff. exists [], (dumps v), []. rewrite app_nil_r. repeat split; try constructor. now apply dumps_value.
Qed.

(** ** Dialects *)
Lemma as_dict_keys ms : NoDup (map fst (as_dict ms)).
Proof.
  induction ms as [|[k v] ms IH]; [constructor|]. cbn [as_dict map fst]. constructor.
  - rewrite in_map_iff. intros ([k' v'] & E & H). cbn in E. subst k'. apply filter_In in H as [_ H]. cbn in H. now rewrite str_eqb_refl in H.
  - clear - IH. induction (as_dict ms) as [|[k' v'] d IHd]; [constructor|]. cbn [map fst] in IH. apply NoDup_cons_iff in IH as [H1 H2]. cbn [filter fst]. destruct (negb _); [|now apply IHd]. cbn [map fst]. constructor; [|now apply IHd].
    intros H. apply H1. apply in_map_iff in H as (x & <- & Hx). apply filter_In in Hx as [Hx _]. now apply in_map.
Qed.
Lemma object_keys md depth l t : j_value md depth (JObj l) t -> NoDup (map fst l).
Proof.
  assert (G : j_scalar md (JObj l) t -> False) by (intros H; repeat (destruct H as [H|H]; [destruct H; discriminate|]); destruct H as (s & E & _); discriminate E).
  destruct depth as [|depth]; cbn [j_value]; intros [H|H]; try (now apply G in H); try (now destruct H). destruct H as [(w & _ & E & _)|[(w & _ & E & _)|[(vs & ts & E & _)|(ms & ts & E & _)]]]; try discriminate E; injection E as ->; [constructor|apply as_dict_keys].
Qed.
Lemma dict_get_iff (l : list (str * jvalue)) k v : NoDup (map fst l) -> (dict_get k l = Some v <-> In (k, v) l).
Proof.
  unfold dict_get. induction l as [|[k' v'] l IH]; intros H; [now cbn|]. cbn [map fst] in H. apply NoDup_cons_iff in H as [H1 H2]. cbn [find fst]. destruct (str_eqb k' k) eqn:E.
  - apply str_eqb_eq in E as ->. cbn. split; [intros [= ->]; now left|]. intros [[= ->]|Hin]; [reflexivity|]. elim H1. now apply (in_map fst) in Hin.
  - apply str_eqb_neq in E. rewrite (IH H2). cbn. split; [now right|]. intros [[= -> _]|Hin]; [congruence|exact Hin].
Qed.
Lemma deserialize_iff md depth s j : deserialize md depth s = Ok j <->
  exists l, j_text md depth (JObj l) s /\ In (s2l "delimiter", jd_delimiter j) l /\ In (s2l "quotechar", jd_quotechar j) l /\ In (s2l "escapechar", jd_escapechar j) l /\ In (s2l "strict", jd_strict j) l.
Proof.
  unfold deserialize. split.
  - destruct (loads md depth s) as [v|] eqn:E; cbn [bind]; [|discriminate]. apply loads_iff in E. unfold from_dict. intros H. destruct v as [| | | | |l]; try discriminate H. exists l. split; [exact E|].
    destruct E as (w1 & t & w2 & _ & _ & HV & _). assert (HK := object_keys md depth l t HV). cbn [subscript] in H.
    destruct (dict_get (s2l "delimiter") l) as [a|] eqn:Ea; cbn [bind] in H; [|discriminate H]. destruct (dict_get (s2l "quotechar") l) as [b|] eqn:Eb; cbn [bind] in H; [|discriminate H].
    destruct (dict_get (s2l "escapechar") l) as [c|] eqn:Ec; cbn [bind] in H; [|discriminate H]. destruct (dict_get (s2l "strict") l) as [d|] eqn:Ed; cbn [bind] in H; [|discriminate H]. injection H as <-. cbn [jd_delimiter jd_quotechar jd_escapechar jd_strict].
    now rewrite <- !dict_get_iff by exact HK.
  - intros (l & HT & H1 & H2 & H3 & H4). assert (E := HT). apply loads_iff in E. rewrite E. cbn [bind]. destruct HT as (w1 & t & w2 & _ & _ & HV & _). assert (HK := object_keys md depth l t HV).
    rewrite <- dict_get_iff in H1, H2, H3, H4 by exact HK. unfold from_dict, subscript. rewrite H1. cbn [bind]. rewrite H2. cbn [bind]. rewrite H3. cbn [bind]. rewrite H4. cbn [bind]. now destruct j.
Qed.
