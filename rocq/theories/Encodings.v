(** * Encodings: the encoding argument of get_dialects and of the normal form *)
From Coq Require Import String Permutation.
From Verif Require Import Base Parser Dialect Potential SpecPotential PotentialFacts MaskedFacts NormalForm SpecEncoding.

Section Any.
Variable cat : N -> str.
Variable url : str -> str -> option nat.

Lemma category_lost E x : (exists c, unicode_category cat x E = Ok c) \/ exists e, unicode_category cat x E = Err e /\ lost E x e.
Proof.
  unfold unicode_category, lost. destruct (enc_trip E x) as [[|c [|c' s]]|e]; cbn [bind]; eauto.
  - right. exists TypeError. split; [reflexivity|]. right. exists []. repeat split. discriminate.
  - right. exists TypeError. split; [reflexivity|]. right. exists (c :: c' :: s). repeat split. discriminate.
Qed.
Lemma lost_category E x e : lost E x e -> unicode_category cat x E = Err e.
Proof.
  unfold unicode_category. intros [->|(s & -> & H & ->)]; [reflexivity|]. cbn [bind]. destruct s as [|c [|c' s]]; try reflexivity. now elim H.
Qed.
Lemma collect_error E user xs : forall D e, collect_delims cat E user xs D = Err e -> exists x, In x xs /\ lost E x e.
Proof.
  induction xs as [|x xs IH]; intros D e; [discriminate|]. cbn [collect_delims]. destruct (category_lost E x) as [(c & ->)|(e' & -> & Hl)]; cbn [bind].
  - intros H. destruct (IH _ _ H) as (y & Hy & K). exists y. split; [now right|exact K].
  - intros [= <-]. exists x. split; [now left|exact Hl].
Qed.
Lemma collect_fails E user xs x e : In x xs -> lost E x e -> forall D, exists e', collect_delims cat E user xs D = Err e'.
Proof.
  intros Hx Hl. induction xs as [|y xs IH]; intros D; [destruct Hx|]. cbn [collect_delims]. destruct Hx as [->|Hx].
  - rewrite (lost_category E x e Hl). now exists e.
  - destruct (unicode_category cat y E) as [c|e']; cbn [bind]; [now apply IH|now exists e'].
Qed.
Lemma loop_error E ps : forall cache m e, esc_loop cat E ps cache m = Err e -> enc_plain E = false /\ exists u v, In (u, v) ps /\ enc_trip E u = Err e.
Proof.
  induction ps as [|[u v] ps IH]; intros cache m e; [discriminate|]. cbn [esc_loop]. destruct (assoc_char u cache) as [b|]; cbn [bind].
  - intros H. destruct (IH _ _ _ H) as (K & x & y & Hi & Hx). split; [exact K|]. exists x, y. split; [now right|exact Hx].
  - unfold is_potential_escapechar. destruct (enc_plain E) eqn:EP; cbn [bind].
    + intros H. destruct (IH _ _ _ H) as (K & _). discriminate K.
    + destruct (enc_trip E u) as [s|e'] eqn:ET; cbn [bind].
      * intros H. destruct (IH _ _ _ H) as (K & x & y & Hi & Hx). split; [reflexivity|]. exists x, y. split; [now right|exact Hx].
      * intros [= <-]. split; [reflexivity|]. exists u, v. split; [now left|exact ET].
Qed.
Lemma loop_fails E ps u v e : enc_plain E = false -> In (u, v) ps -> enc_trip E u = Err e ->
  forall cache m, (forall c b, assoc_char c cache = Some b -> c <> u) -> exists e', esc_loop cat E ps cache m = Err e'.
Proof.
  intros HP Hi HT. induction ps as [|[x y] ps IH]; intros cache m HC; [destruct Hi|]. cbn [esc_loop].
  destruct (N.eq_dec x u) as [->|Hne].
  - destruct (assoc_char u cache) as [b|] eqn:EA; [now elim (HC u b EA)|]. unfold is_potential_escapechar. rewrite HP, HT. cbn [bind]. now exists e.
  - assert (Hi' : In (u, v) ps) by (destruct Hi as [[= -> ->]|Hi]; [congruence|exact Hi]).
    destruct (assoc_char x cache) as [b|] eqn:EA; cbn [bind]; [now apply IH|].
    destruct (is_potential_escapechar cat x E) as [b|e']; cbn [bind]; [|now exists e']. apply (IH Hi'). intros c b0. cbn [assoc_char].
    destruct (N.eqb_spec c x) as [->|]; [intros _; exact Hne|apply HC].
Qed.
Lemma loop_keys E ps : forall cache m m', esc_loop cat E ps cache m = Ok m' -> map fst m' = map fst m.
Proof.
  induction ps as [|[u v] ps IH]; intros cache m m'; cbn [esc_loop]; [now intros [= <-]|].
  assert (HK : map fst (esc_add u v m) = map fst m) by (unfold esc_add; rewrite map_map; apply map_ext; now intros [[d q] es]).
  destruct (assoc_char u cache) as [b|]; cbn [bind].
  - intros H. rewrite (IH _ _ _ H). now destruct b.
  - destruct (is_potential_escapechar cat u E) as [b|e]; cbn [bind]; [|discriminate]. intros H. rewrite (IH _ _ _ H). now destruct b.
Qed.
Lemma get_key (d q : str) : forall m, In (d, q) (map fst m) -> exists es, esc_get d q m = Ok es.
Proof.
  induction m as [|[[d' q'] es] m IH]; [intros []|]. cbn [map fst In esc_get]. intros H. destruct (str_eqb d d' && str_eqb q q') eqn:EB; [eauto|].
  destruct H as [[= -> ->]|H]; [|now apply IH]. assert (K : str_eqb d d && str_eqb q q = true) by (apply andb_true_iff; split; now apply str_eqb_eq). congruence.
Qed.
Lemma map_res_total {A B} (f : A -> res pyexc B) l : (forall a, In a l -> exists b, f a = Ok b) -> exists bs, map_res f l = Ok bs.
Proof.
  induction l as [|a l IH]; intros H; [now exists []|]. cbn [map_res]. destruct (H a (or_introl eq_refl)) as (b & ->). cbn [bind].
  destruct IH as (bs & ->); [intros x Hx; apply H; now right|]. cbn [bind]. eauto.
Qed.

(** ** Errors *)
Lemma in_chars O data x : any_orders O -> (In x (o_chars O (set_of data)) <-> In x data).
Proof.
  intros (Hc & _). split; intros H.
  - apply (Permutation_in _ (Hc _)) in H. now apply nodup_In in H.
  - apply (Permutation_in _ (Permutation_sym (Hc _))). now apply nodup_In.
Qed.
Theorem encoding_fails O E data user masked e : any_orders O -> encoding_error E (filter_urls url data) data e ->
  exists e', get_dialects cat url O E data user masked = Err e' /\ encoding_error E (filter_urls url data) data e'.
Proof.
  intros HO HE. unfold get_dialects, get_delimiters.
  destruct (collect_delims cat E user (o_chars O (set_of (filter_urls url data))) []) as [D|e'] eqn:ED.
  - destruct HE as [(x & Hx & Hl)|(HP & u & v & Hb & HT)].
    + exfalso. apply (in_chars O _ x HO) in Hx. destruct (collect_fails E user _ x e Hx Hl []) as (e' & K). congruence.
    + cbn [bind]. apply pairwise_before in Hb.
      match goal with |- context [esc_loop cat E ?ps [] ?m] => destruct (loop_fails E ps u v e HP Hb HT [] m) as (e' & EL); [intros c b K; discriminate K|]; rewrite EL end.
      exists e'. split; [reflexivity|]. apply loop_error in EL as (_ & u' & v' & Hi & HT'). right. split; [exact HP|]. exists u', v'. split; [now apply pairwise_before|exact HT'].
  - cbn [bind]. exists e'. split; [reflexivity|]. left. apply collect_error in ED as (x & Hx & Hl). exists x. split; [now apply (in_chars O _ x HO)|exact Hl].
Qed.
Theorem encoding_sources O E data user masked e : any_orders O -> get_dialects cat url O E data user masked = Err e -> encoding_error E (filter_urls url data) data e.
Proof.
  intros HO. unfold get_dialects, get_delimiters.
  destruct (collect_delims cat E user (o_chars O (set_of (filter_urls url data))) []) as [D|e'] eqn:ED; cbn [bind].
  - destruct (esc_loop cat E (pairwise data) [] _) as [m|e'] eqn:EL; cbn [bind].
    + intros H. exfalso. match type of H with bind (map_res ?f ?l) _ = _ => destruct (map_res_total f l) as (bs & EM) end; [|rewrite EM in H; discriminate H].
      intros [d q] Hdq. apply loop_keys in EL. unfold esc_init in EL. rewrite map_map in EL. cbn [fst] in EL. rewrite map_id in EL.
      destruct (get_key d q m) as (es & ->); [now rewrite EL|]. cbn [bind]. eauto.
    + intros [= <-]. apply loop_error in EL as (HP & u & v & Hi & HT). right. split; [exact HP|]. exists u, v. split; [now apply pairwise_before|exact HT].
  - intros [= <-]. left. apply collect_error in ED as (x & Hx & Hl). exists x. split; [now apply (in_chars O _ x HO)|exact Hl].
Qed.

(** ** Encodings that keep the characters *)
Lemma collect_same E E' user xs : (forall x, In x xs -> keeps E x /\ keeps E' x) -> forall D, collect_delims cat E user xs D = collect_delims cat E' user xs D.
Proof.
  induction xs as [|x xs IH]; intros H D; [reflexivity|]. cbn [collect_delims]. unfold unicode_category. destruct (H x (or_introl eq_refl)) as (-> & ->). cbn [bind].
  apply IH. intros y Hy. apply H. now right.
Qed.
Theorem encoding_kept O E data user masked : any_orders O ->
  (forall x, In x (filter_urls url data) -> keeps E x /\ surrogate x = false) -> (enc_plain E = true \/ forall x, In x data -> keeps E x) ->
  get_dialects cat url O E data user masked = get_dialects cat url O utf8 data user masked.
Proof.
  intros HO HK HP. unfold get_dialects, get_delimiters.
  rewrite (collect_same E utf8 user); [|intros x Hx; apply (proj1 (in_chars O _ x HO)) in Hx; destruct (HK x Hx) as (K & Hs); split; [exact K|now apply utf8_trip]].
  destruct (collect_delims _ _ _ _ _) as [D|e]; cbn [bind]; [|reflexivity].
  rewrite !esc_loop_ok; try reflexivity.
  - intros u v H. now left.
  - intros c b H. discriminate H.
  - intros u v H. destruct HP as [HP|HP]; [now left|right]. apply HP. apply pairwise_before in H as (a & b & ->). apply in_or_app. right. now left.
  - intros c b H. discriminate H.
Qed.

(** ** The normal form *)
Lemma escape_same E E' d q ps : (forall u v, In (u, v) ps -> is_potential_escapechar cat u E = is_potential_escapechar cat u E') ->
  escape_loop cat E d q ps = escape_loop cat E' d q ps.
Proof.
  induction ps as [|[u v] ps IH]; intros H; [reflexivity|]. cbn [escape_loop]. rewrite IH by (intros x y Hi; apply (H x y); now right).
  destruct (is_char v d || is_char v q); [|reflexivity]. now rewrite (H u v (or_introl eq_refl)).
Qed.
Theorem normal_kept E data user : (enc_plain E = true \/ forall x, In x data -> keeps E x) -> detect_dialect_normal cat data E user = detect_dialect_normal cat data utf8 user.
Proof.
  intros HP. assert (HI : forall u v, In (u, v) (pairwise data) -> is_potential_escapechar cat u E = is_potential_escapechar cat u utf8).
  { intros u v Hi. rewrite !is_potential_ok; [reflexivity|now left|]. destruct HP as [HP|HP]; [now left|right]. apply HP. apply pairwise_before in Hi as (a & b & ->). apply in_or_app. right. now left. }
  unfold detect_dialect_normal. set (delims := match user with None => DELIMS | Some l => l end).
  assert (EA : forall ps, any_escapechar cat data E ps = any_escapechar cat data utf8 ps).
  { induction ps as [|[d q] ps IH]; [reflexivity|]. cbn [any_escapechar]. unfold maybe_has_escapechar. rewrite (escape_same E utf8 d q (pairwise data) HI), IH. reflexivity. }
  now rewrite EA.
Qed.
End Any.

(** ** Latin-1 *)
Definition latin1_encoding : encoding := mk_encoding false (fun c => if (c <? 256)%N then Ok [c] else Err UnicodeEncodeError).
(** A codec for which one character is decoded as two. *)
Definition split_encoding : encoding := mk_encoding false (fun c => if (c =? 223)%N then Ok [115; 115] else Ok [c])%N.
Definition accented : str := ([233] ++ s2l ",'a;b',1")%N.
Lemma latin1_keeps x : In x accented -> keeps latin1_encoding x /\ surrogate x = false.
Proof.
  intros Hx. cbv [accented app s2l In] in Hx. vm_compute in Hx. repeat (destruct Hx as [<-|Hx]; [split; reflexivity|]). destruct Hx.
Qed.
Lemma accented_filtered : filter_urls no_urls accented = accented.
Proof. vm_compute. reflexivity. Qed.
(** The euro sign is no Latin-1 character. *)
Lemma latin1_fails : encoding_error latin1_encoding (s2l "a," ++ [8364]%N) (s2l "a," ++ [8364]%N) UnicodeEncodeError /\
  get_dialects ascii_cat no_urls plain_orders latin1_encoding (s2l "a," ++ [8364]%N) None false = Err UnicodeEncodeError.
Proof. split; [left; exists 8364%N; split; [cbn; auto|now left]|vm_compute; reflexivity]. Qed.
Lemma split_fails : encoding_error split_encoding [97; 223]%N [97; 223]%N TypeError /\
  get_dialects ascii_cat no_urls plain_orders split_encoding [97; 223]%N (Some [s2l ","]) false = Err TypeError.
Proof. split; [left; exists 223%N; split; [cbn; auto|right; exists [115; 115]%N; repeat split; discriminate]|vm_compute; reflexivity]. Qed.

(** ** The test for escape characters with any encoding *)
Lemma escape_any cat E c : enc_plain E = false ->
  (is_potential_escapechar cat c E = Ok true <-> exists u, enc_trip E c = Ok [u] /\ escape_like cat u) /\
  (forall e, is_potential_escapechar cat c E = Err e <-> enc_trip E c = Err e).
Proof.
  intros HE. unfold is_potential_escapechar. rewrite HE. destruct (enc_trip E c) as [s|x]; cbn [bind].
  - split; [|intros e; split; discriminate]. destruct s as [|u [|v s]].
    + split; [discriminate|]. intros (u & H & _). discriminate H.
    + pose proof (is_esc_spec cat u) as K. unfold is_esc in K. split.
      * intros [= H]. exists u. split; [reflexivity|]. now apply K.
      * intros (w & [= <-] & H). f_equal. now apply K.
    + split; [discriminate|]. intros (w & H & _). discriminate H.
  - split; [split; [discriminate|]; intros (u & H & _); discriminate H|]. intros e. split; intros [= <-]; reflexivity.
Qed.
Lemma split_escape : enc_plain split_encoding = false /\ enc_trip split_encoding 223 = Ok [115; 115]%N /\
  is_potential_escapechar ascii_cat 223 split_encoding = Ok false /\ is_potential_escapechar ascii_cat 92 split_encoding = Ok true.
Proof. repeat split. Qed.
