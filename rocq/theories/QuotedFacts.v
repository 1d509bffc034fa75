(** * QuotedFacts: the scores of a table with quoted cells *)
From Coq Require Import String Permutation Reals Lra SpecFloat.
From Flocq Require Import Core.
From Verif Require Import Base Parser Dialect SpecLayout SpecParse SpecAbstraction LayoutLimit LayoutTotal LayoutMore NormalForms NormalFacts NormalParse Potential SpecPotential PotentialFacts MaskedFacts
  Floats FloatFacts Consistency SpecConsistency ScoreFacts TableScores TypeFacts DetectFacts
  Regex Types SpecTypes TypesFacts TypesText TypesAll TypesUrl TypesDetect SpecTables TablesFacts SpecQuoted QuotedScores QuotedLayout.
Open Scope N_scope.
Local Notation len := List.length.

(** ** No type describes a text that starts with a quote *)
Section Unknown.
Variable U : unidata.
Local Notation cat := (u_cat U).
Hypothesis uni : unicode_like cat.
Variable q : N.
Hypothesis Hq : a_quote q.
Hypothesis kept : quote_kept U q.

Lemma q_cat : cat q = s2l "Po".
Proof. pose proof uni as (_ & _ & _ & _ & _ & H34 & H39 & _). destruct Hq as [->| ->]; assumption. Qed.
Lemma q_not_letter : ~ a_letter cat q.
Proof. intros (t & H). rewrite q_cat in H. discriminate. Qed.
Lemma q_not_numeral : ~ a_numeral cat q.
Proof. intros (t & H). rewrite q_cat in H. discriminate. Qed.
Lemma q_not_digit : ~ digit cat q.
Proof. intros H. unfold digit in H. rewrite q_cat in H. discriminate. Qed.
Lemma q_not_ascii x : ascii_alnum x -> x <> q.
Proof. unfold ascii_alnum, lower_case, upper_case, ascii_digit. intros H ->. destruct Hq; lia. Qed.
Lemma q_not_ascii_digit : ~ ascii_digit q.
Proof. unfold ascii_digit. destruct Hq; lia. Qed.
Lemma q_not_in l : mem_char 34 l = false -> mem_char 39 l = false -> ~ In q l.
Proof. intros H1 H2 H. apply mem_char_In in H. destruct Hq as [E|E]; rewrite E in H; congruence. Qed.
Lemma q_not_path : ~ path_char cat q.
Proof. intros [H|[H|H]]; [now apply q_not_letter|now apply q_not_numeral|]. revert H. now apply q_not_in. Qed.

(** [s] starts with the quote. *)
Definition starts (s : str) : Prop := exists t, s = q :: t.
Lemma starts_app a b : starts (a ++ b) -> a = [] /\ starts b \/ starts a.
Proof. intros (t & E). destruct a as [|x a]; [left; split; [reflexivity|now exists t]|]. injection E as -> _. right. now exists a. Qed.
Lemma not_starts x s : x <> q -> ~ starts (x :: s).
Proof. intros H (t & E). congruence. Qed.
Lemma forall_starts P s : starts s -> Forall P s -> P q.
Proof. intros (t & ->) H. now inversion H. Qed.
Lemma lit_starts x s : x <> 34 -> x <> 39 -> ~ starts (x :: s).
Proof. intros H1 H2. apply not_starts. destruct Hq as [->| ->]; congruence. Qed.
Lemma head_starts s : match s with x :: _ => negb (x =? 34) && negb (x =? 39) | [] => true end = true -> ~ starts s.
Proof.
  destruct s as [|x s]; [intros _ (t & [=])|]. intros H. apply andb_true_iff in H as (H1 & H2). apply lit_starts; intros ->; discriminate.
Qed.
Ltac lit := match goal with H : starts ?s |- _ => exact (False_ind _ (head_starts s eq_refl H)) end.

Lemma sign_starts s : a_sign s -> ~ starts s.
Proof. intros [->|[->| ->]] H; [destruct H as (t & [=])|lit|lit]. Qed.
Lemma nonzero_starts x s : 49 <= x <= 57 -> ~ starts (x :: s).
Proof. intros H. apply lit_starts; lia. Qed.
Lemma number_unknown s : a_number cat s -> ~ starts s.
Proof.
  intros [(Hn & sg & w & r & -> & Hs & Hw & Hr)|H].
  - intros H. apply starts_app in H as [(-> & H)|H]; [|now apply sign_starts in H]. apply starts_app in H as [(-> & H)|H].
    + destruct Hr as [->|[(Hc & _)|[(f & x & -> & _)|(f & x & -> & _)]]]; [destruct H as (t & [=])|congruence|lit|lit].
    + destruct Hw as [->|[->|(x & t & -> & Hx & _)]]; [destruct H as (t & [=])|lit|]. revert H. now apply nonzero_starts.
  - assert (G : forall sep dec, grouped_number cat sep dec s -> ~ starts s).
    { intros sep dec (sg & x & t & gs & f & -> & Hs & Hx & _) H0. apply starts_app in H0 as [(-> & H0)|H0]; [|now apply sign_starts in H0].
      cbn [app] in H0. revert H0. now apply nonzero_starts. }
    destruct H as [H|H]; exact (G _ _ H).
Qed.
Lemma two_starts s v : two_digits s v -> ~ starts s.
Proof. intros (a & b & -> & Ha & _). apply not_starts. intros ->. now apply q_not_ascii_digit. Qed.
Lemma below_starts n s : below n s -> ~ starts s /\ s <> [].
Proof. intros (v & H & _). split; [now apply two_starts in H|]. destruct H as (a & b & -> & _). discriminate. Qed.
Lemma time_unknown s : a_time s -> ~ starts s.
Proof.
  assert (B : forall n h r, below n h -> ~ starts (h ++ r)).
  { intros n h r Hh H. destruct (below_starts n h Hh) as (H1 & H2). apply starts_app in H as [(-> & _)|H]; contradiction. }
  intros [(h & mi & -> & [(x & -> & Hx)|Hh] & _)|[(h & mi & se & -> & Hh & _)|(h & mi & se & sg & zh & zm & -> & Hh & _)]]; try (eapply B; exact Hh).
  cbn [app]. apply not_starts. intros ->. now apply q_not_ascii_digit.
Qed.
Lemma month_starts s : a_month s -> ~ starts s /\ s <> [].
Proof.
  intros [(v & H & _)|(x & -> & Hx)].
  - split; [now apply two_starts in H|]. destruct H as (a & b & -> & _). discriminate.
  - split; [now apply nonzero_starts|discriminate].
Qed.
Lemma day2_starts s : day2 cat s -> ~ starts s /\ s <> [].
Proof.
  intros [(v & H & _)|(a & b & -> & Ha & _)].
  - split; [now apply two_starts in H|]. destruct H as (a & b & -> & _). discriminate.
  - split; [|discriminate]. apply lit_starts; intros ->; cbn in Ha; intuition discriminate.
Qed.
Lemma day_starts s : a_day cat s -> ~ starts s /\ s <> [].
Proof. intros [H|(x & -> & Hx)]; [now apply day2_starts|]. split; [now apply nonzero_starts|discriminate]. Qed.
Lemma year_starts s : a_year cat s -> ~ starts s /\ s <> [].
Proof.
  intros (Hd & Hl). split; [intros H; now apply (forall_starts _ _ H), q_not_digit in Hd|].
  intros ->. destruct Hl as [Hl|(Hl & _)]; discriminate.
Qed.
Lemma date_unknown s : a_date cat s -> ~ starts s /\ s <> [].
Proof.
  assert (A : forall x r, ~ starts x /\ x <> [] -> ~ starts (x ++ r) /\ x ++ r <> []).
  { intros x r (H1 & H2). split; [intros H; apply starts_app in H as [(-> & _)|H]; contradiction|]. destruct x; [congruence|discriminate]. }
  assert (M2 : forall s, month2 s -> ~ starts s /\ s <> []) by (intros x Hx; apply month_starts; now left).
  intros [(sep & x & y & z & -> & _ & H)|[(x & y & z & -> & H)|(x & y & z & [-> | ->] & H & _)]]; apply A.
  - destruct H as [(H & _)|[(H & _)|(H & _)]]; [now apply month_starts|now apply day_starts|now apply year_starts].
  - destruct H as [(H & _)|[(H & _)|(H & _)]]; [now apply M2|now apply day2_starts|now apply year_starts].
  - now apply year_starts.
  - now apply year_starts.
Qed.
Lemma strip_starts s : starts s -> starts (strip U s).
Proof. intros (t & ->). pose proof kept as (Hsp & _). unfold strip. destruct (strip_first (u_space U) q t Hsp) as (t' & ->). now exists t'. Qed.
Lemma url_unknown s : a_url cat s -> ~ starts s.
Proof.
  intros (sch & h & p & x & -> & Hs & Hh & _) H. apply starts_app in H as [(_ & H)|H].
  - assert (Hh' : ~ starts h /\ h <> []).
    { destruct Hh as [(ls & t & -> & Hn & Hl & _)|[(r & -> & _)|(a & r & -> & (a1 & a2 & a3 & a4 & -> & Ha) & _)]].
      - destruct ls as [|l ls]; [congruence|]. inversion Hl as [|? ? (Hl1 & Hl2) _]; subst. cbn [map List.concat]. rewrite <- !app_assoc. split.
        + intros H0. apply starts_app in H0 as [(-> & _)|H0]; [congruence|]. apply (forall_starts _ _ H0) in Hl2 as [A|[A|A]].
          * now apply q_not_letter. * now apply q_not_numeral. * unfold hyphen in A. destruct Hq; congruence.
        + destruct l; [congruence|discriminate].
      - split; [intros H0; lit|discriminate].
      - inversion Ha as [|? ? (Hd & Hl & _) _]; subst. rewrite <- !app_assoc. split; [|destruct a1; [congruence|discriminate]].
        intros H0. apply starts_app in H0 as [(-> & _)|H0]; [congruence|]. now apply (forall_starts _ _ H0), q_not_digit in Hd. }
    destruct Hh' as (H1 & H2). apply starts_app in H as [(-> & _)|H]; contradiction.
  - destruct Hs as [->|(Hs & _)]; [destruct H as (t & [=])|]. destruct Hs as [<-|[<-|[<-|[]]]]; lit.
Qed.
Lemma ipv4_unknown s : an_ipv4 cat s -> ~ starts s.
Proof.
  intros (a1 & a2 & a3 & a4 & -> & Ha) H. inversion Ha as [|? ? (Hd & Hl & _) _]; subst.
  apply starts_app in H as [(-> & _)|H]; [congruence|]. now apply (forall_starts _ _ H), q_not_digit in Hd.
Qed.
Lemma email_unknown s : an_email s -> ~ starts s.
Proof.
  intros (a & b & c & -> & (Hn & Ha) & _) H. apply starts_app in H as [(-> & _)|H]; [congruence|].
  apply (forall_starts _ _ H) in Ha as [A|A]; [now apply q_not_ascii in A|]. revert A. now apply q_not_in.
Qed.
Lemma path_unknown s : a_path s -> ~ starts s.
Proof.
  intros (h & gs & e & -> & Hh & Hn & _) H. destruct gs as [|g gs]; [congruence|]. destruct Hh as [->|[->| ->]]; lit.
Qed.
Lemma quote_unknown s name P : starts s -> In (name, P) (types U false) -> ~ P s.
Proof.
  intros Hs Hi HP. unfold types, cell_types in Hi. cbn [In] in Hi.
  repeat (destruct Hi as [[= <- <-]|Hi]; [|]); [.. |destruct Hi].
  - subst s. destruct Hs as (t & [=]).
  - now apply url_unknown in HP.
  - now apply email_unknown in HP.
  - now apply ipv4_unknown in HP.
  - now apply number_unknown in HP.
  - now apply time_unknown in HP.
  - destruct HP as (p & k & -> & _ & Hn). apply starts_app in Hs as [(_ & Hs)|Hs]; [lit|]. apply number_unknown in Hn. apply Hn. now apply strip_starts.
  - destruct HP as (c & w & g & -> & Hc & _). destruct Hs as (t & [= -> _]). unfold a_currency in Hc. rewrite q_cat in Hc. discriminate.
  - now apply path_unknown in HP.
  - destruct Hs as (t & ->). pose proof kept as (_ & Hlow). assert (Hin : In q (u_lower U (q :: t))) by (apply Hlow; now left).
    unfold missing in HP. cbn [In] in HP. destruct HP as [E|[E|[E|[]]]]; rewrite <- E in Hin; revert Hin; now apply q_not_in.
  - apply date_unknown in HP as (HP & _). contradiction.
  - destruct HP as [(d & t & -> & _ & _ & Hd & _)|(d & t & -> & _ & _ & _ & Hd & _)].
    all: apply starts_app in Hs as [(-> & Hs)|Hs]; [lit|]; apply date_unknown in Hd as (Hd & _); apply Hd; now apply strip_starts.
  - destruct HP as (_ & HP). apply (forall_starts _ _ Hs) in HP as [A|[A|[A|[A|(A & _)]]]]; [now apply q_not_letter|now apply q_not_numeral| | |discriminate].
    + unfold SPACE in A. destruct Hq; congruence.
    + revert A. now apply q_not_in.
  - destruct HP as ((t & ->) & _). lit.
  - destruct HP as (((t & ->) & _) & _). lit.
Qed.
End Unknown.
