(** * PotentialFacts: candidates, masking and order *)
From Coq Require Import String Permutation Sorted.
From Verif Require Import Base Parser Dialect Potential SpecPotential.

(** ** Sets *)
Lemma mem_str_In s l : mem_str s l = true <-> In s l.
Proof.
  unfold mem_str. rewrite existsb_exists. split.
  - intros [x [Hx E]]. apply str_eqb_eq in E. now subst.
  - intros H. exists s. split; [assumption|apply str_eqb_refl].
Qed.

Lemma mem_str_false s l : mem_str s l = false <-> ~ In s l.
Proof.
  rewrite <- mem_str_In. destruct (mem_str s l); split; intros H; congruence.
Qed.

Lemma In_set_add x s l : In x (set_add s l) <-> x = s \/ In x l.
Proof.
  unfold set_add. destruct (mem_str s l) eqn:E.
  - apply mem_str_In in E. split; [tauto|]. intros [->|H]; assumption.
  - rewrite in_app_iff. cbn. intuition.
Qed.

Lemma NoDup_snoc {A} (x : A) l : NoDup l -> ~ In x l -> NoDup (l ++ [x]).
Proof.
  intros H Hn. induction H as [|y l Hy H IH]; cbn; [constructor; [easy|constructor]|].
  constructor.
  - rewrite in_app_iff. cbn in *. intuition.
  - apply IH. cbn in Hn. tauto.
Qed.

Lemma NoDup_set_add s l : NoDup l -> NoDup (set_add s l).
Proof.
  intros H. unfold set_add. destruct (mem_str s l) eqn:E; [assumption|].
  apply NoDup_snoc; [assumption|]. now apply mem_str_false.
Qed.

Lemma is_char_eq c s : is_char c s = true <-> s = [c].
Proof. unfold is_char. rewrite str_eqb_eq. intuition. Qed.

(** ** Delimiters *)
Section Facts.
Variable cat : N -> str.
Variable url : str -> str -> option nat.

Lemma collect_delims_ok E user xs : forall D,
  (forall x, In x xs -> enc_trip E x = Ok [x]) ->
  exists D', collect_delims cat E user xs D = Ok D' /\
    (NoDup D -> NoDup D') /\
    forall s, In s D' <-> In s D \/ exists x, s = [x] /\ In x xs /\ delimiter_ok user x (cat x) = true.
Proof.
  induction xs as [|x xs IH]; intros D HE.
  - exists D. repeat split; auto. intros [H|[x [_ [[] _]]]]; assumption.
  - cbn [collect_delims]. unfold unicode_category. rewrite (HE x (or_introl eq_refl)). cbn [bind].
    destruct (IH (if delimiter_ok user x (cat x) then set_add [x] D else D)) as (D' & E1 & Hn & Hi).
    { intros y Hy. apply HE. now right. }
    exists D'. split; [exact E1|]. split.
    + intros H. apply Hn. destruct (delimiter_ok user x (cat x)); [now apply NoDup_set_add|assumption].
    + intros s. rewrite Hi. destruct (delimiter_ok user x (cat x)) eqn:Ed.
      * rewrite In_set_add. split.
        -- intros [[->|H]|(y & -> & Hy & Ho)]; [right; exists x; cbn; auto|auto|
             right; exists y; cbn; auto].
        -- intros [H|(y & -> & [<-|Hy] & Ho)]; auto. right. exists y. auto.
      * split.
        -- intros [H|(y & -> & Hy & Ho)]; auto. right. exists y. cbn. auto.
        -- intros [H|(y & -> & [<-|Hy] & Ho)]; auto; [congruence|]. right. exists y. auto.
Qed.

Lemma delimiter_ok_spec user c : delimiter_ok user c (cat c) = true <-> wanted_delimiter cat user c.
Proof.
  destruct user as [l|]; cbn [delimiter_ok wanted_delimiter]; [apply mem_str_In|].
  unfold default_delimiter.
  rewrite orb_true_iff, andb_true_iff, N.eqb_eq, !negb_true_iff, mem_char_false, mem_str_false.
  reflexivity.
Qed.

Lemma get_delimiters_ok O E data user : any_orders O ->
  (forall x, In x data -> enc_trip E x = Ok [x]) ->
  exists D, get_delimiters cat O E data user = Ok D /\ NoDup D /\
    forall s, In s D <-> s = [] \/ exists c, s = [c] /\ In c data /\ wanted_delimiter cat user c.
Proof.
  intros (Hc & _) HE. unfold get_delimiters.
  assert (Hin : forall x, In x (o_chars O (set_of data)) <-> In x data).
  { intros x. split; intros H.
    - apply (Permutation_in _ (Hc _)) in H. now apply nodup_In in H.
    - apply (Permutation_in _ (Permutation_sym (Hc _))). now apply nodup_In. }
  destruct (collect_delims_ok E user (o_chars O (set_of data)) []) as (D & -> & Hn & Hi).
  { intros x Hx. apply HE, Hin, Hx. }
  cbn [bind]. eexists. split; [reflexivity|]. split; [apply NoDup_set_add, Hn; constructor|].
  intros s. rewrite In_set_add, Hi. split.
  - intros [->|[[]|(x & -> & Hx & Ho)]]; [now left|]. right. exists x. split; [reflexivity|].
    split; [now apply Hin|now apply delimiter_ok_spec].
  - intros [->|(c & -> & Hc' & Ho)]; [now left|]. right. right. exists c. split; [reflexivity|].
    split; [now apply Hin|now apply delimiter_ok_spec].
Qed.

(** ** Quote characters *)
Lemma get_quotechars_spec data s :
  In s (get_quotechars data) <-> s = [] \/ exists c, s = [c] /\ In c data /\ quote_like c.
Proof.
  unfold get_quotechars. rewrite In_set_add, in_map_iff. split.
  - intros [->|(c & <- & H)]; [now left|]. apply filter_In in H as [H1 H2].
    right. exists c. split; [reflexivity|]. split; [now apply mem_char_In|exact H1].
  - intros [->|(c & -> & H1 & H2)]; [now left|]. right. exists c. split; [reflexivity|].
    apply filter_In. split; [exact H2|now apply mem_char_In].
Qed.

Lemma NoDup_get_quotechars data : NoDup (get_quotechars data).
Proof.
  apply NoDup_set_add. apply FinFun.Injective_map_NoDup; [intros a b H; congruence|].
  apply NoDup_filter. unfold quote_candidates, s2l. cbn.
  repeat constructor; cbn; intuition discriminate.
Qed.

(** ** Escape characters *)
Definition is_esc (c : N) : bool := unicode_po cat [c] && negb (mem_char c default_block_chars).

Lemma is_esc_spec c : is_esc c = true <-> escape_like cat c.
Proof.
  unfold is_esc, escape_like, unicode_po.
  rewrite andb_true_iff, str_eqb_eq, negb_true_iff, mem_char_false. reflexivity.
Qed.

Lemma is_potential_ok E c : enc_plain E = true \/ enc_trip E c = Ok [c] ->
  is_potential_escapechar cat c E = Ok (is_esc c).
Proof.
  intros H. unfold is_potential_escapechar.
  destruct (enc_plain E); [reflexivity|]. destruct H as [H|H]; [discriminate|]. rewrite H. reflexivity.
Qed.

Definition esc_fold (ps : list (N * N)) (m : esc_dict) : esc_dict :=
  fold_left (fun m p => if is_esc (fst p) then esc_add (fst p) (snd p) m else m) ps m.

Lemma esc_loop_ok E ps : forall cache m,
  (forall u v, In (u, v) ps -> enc_plain E = true \/ enc_trip E u = Ok [u]) ->
  (forall c b, assoc_char c cache = Some b -> b = is_esc c) ->
  esc_loop cat E ps cache m = Ok (esc_fold ps m).
Proof.
  induction ps as [|[u v] ps IH]; intros cache m HE Hc; [reflexivity|].
  cbn [esc_loop esc_fold fold_left fst snd].
  assert (HE' : forall u v, In (u, v) ps -> enc_plain E = true \/ enc_trip E u = Ok [u]).
  { intros u' v' H'. apply (HE u' v'). now right. }
  destruct (assoc_char u cache) as [b|] eqn:Eb.
  - apply Hc in Eb as ->. cbn [bind]. apply IH; assumption.
  - rewrite is_potential_ok by (apply (HE u v); now left). cbn [bind]. apply IH; [assumption|].
    intros c b. cbn [assoc_char]. destruct (N.eqb_spec c u) as [->|Hne]; [congruence|apply Hc].
Qed.

(** What the dictionary holds for one pair. *)
Definition esc_step (d q : str) (es : list str) (p : N * N) : list str :=
  if is_esc (fst p) && (is_char (snd p) d || is_char (snd p) q) then set_add [fst p] es else es.

Lemma esc_get_add u v d q m es : esc_get d q m = Ok es ->
  esc_get d q (esc_add u v m) = Ok (if is_char v d || is_char v q then set_add [u] es else es).
Proof.
  induction m as [|[[d' q'] es'] m IH]; [discriminate|].
  cbn [esc_get esc_add map]. destruct (str_eqb d d' && str_eqb q q') eqn:E.
  - intros H. injection H as ->. apply andb_true_iff in E as [E1 E2].
    apply str_eqb_eq in E1 as ->. apply str_eqb_eq in E2 as ->. reflexivity.
  - exact IH.
Qed.

Lemma esc_get_fold d q ps : forall m es, esc_get d q m = Ok es ->
  esc_get d q (esc_fold ps m) = Ok (fold_left (esc_step d q) ps es).
Proof.
  induction ps as [|[u v] ps IH]; intros m es H; [exact H|].
  cbn [esc_fold fold_left fst snd]. apply IH. unfold esc_step. cbn [fst snd].
  destruct (is_esc u); cbn [andb]; [now apply esc_get_add|exact H].
Qed.

Lemma esc_get_init d q ds qs : In (d, q) (list_prod ds qs) ->
  esc_get d q (esc_init ds qs) = Ok [[]].
Proof.
  unfold esc_init. induction (list_prod ds qs) as [|[d' q'] l IH]; [intros []|].
  cbn [map esc_get]. intros H. destruct (str_eqb d d' && str_eqb q q') eqn:E; [reflexivity|].
  destruct H as [H|H]; [|now apply IH]. injection H as -> ->. now rewrite !str_eqb_refl in E.
Qed.

Lemma fold_esc_spec d q ps : forall es,
  (NoDup es -> NoDup (fold_left (esc_step d q) ps es)) /\
  forall s, In s (fold_left (esc_step d q) ps es) <->
    In s es \/ exists u v, s = [u] /\ In (u, v) ps /\ is_esc u = true /\ (d = [v] \/ q = [v]).
Proof.
  induction ps as [|[u v] ps IH]; intros es.
  - split; [auto|]. intros s. cbn. split; [auto|]. intros [H|(u & v & _ & [] & _)]; assumption.
  - cbn [fold_left]. destruct (IH (esc_step d q es (u, v))) as [H1 H2]. split.
    + intros H. apply H1. unfold esc_step. destruct (_ && _); [now apply NoDup_set_add|assumption].
    + intros s. rewrite H2. unfold esc_step. cbn [fst snd].
      destruct (is_esc u && (is_char v d || is_char v q)) eqn:E.
      * apply andb_true_iff in E as [Eu Ev]. rewrite orb_true_iff, !is_char_eq in Ev.
        rewrite In_set_add. split.
        -- intros [[->|H]|(u' & v' & -> & Hp & He & Hd)]; auto.
           ++ right. exists u, v. cbn. auto.
           ++ right. exists u', v'. cbn. auto.
        -- intros [H|(u' & v' & -> & [Hp|Hp] & He & Hd)]; auto.
           ++ injection Hp as <- <-. auto.
           ++ right. exists u', v'. auto.
      * split.
        -- intros [H|(u' & v' & -> & Hp & He & Hd)]; auto. right. exists u', v'. cbn. auto.
        -- intros [H|(u' & v' & -> & [Hp|Hp] & He & Hd)]; auto.
           ++ injection Hp as <- <-. exfalso. rewrite He in E. cbn [andb] in E.
              apply orb_false_iff in E as [E1 E2].
              destruct Hd as [->| ->]; [|]; unfold is_char in *; now rewrite str_eqb_refl in *.
           ++ right. exists u', v'. auto.
Qed.

Lemma pairwise_before (s : str) : forall u v, In (u, v) (pairwise s) <-> before u v s.
Proof.
  unfold pairwise. induction s as [|a [|b s] IH]; intros u v.
  - split; [intros []|]. intros (x & y & H). destruct x; discriminate.
  - split; [intros []|]. intros (x & y & H). destruct x as [|? [|? ?]]; discriminate.
  - cbn [tl zip]. cbn [tl] in IH. split.
    + intros [H|H].
      * injection H as -> ->. exists [], s. reflexivity.
      * apply IH in H as (x & y & H). exists (a :: x), y. cbn. now f_equal.
    + intros (x & y & H). destruct x as [|x0 x]; cbn in H.
      * left. congruence.
      * injection H as <- H. right. apply IH. now exists x, y.
Qed.

(** ** The candidates *)
Lemma map_res_ok {A B} (f : A -> res pyexc B) (g : A -> B) l :
  (forall a, In a l -> f a = Ok (g a)) -> map_res f l = Ok (map g l).
Proof.
  induction l as [|a l IH]; intros H; [reflexivity|].
  cbn [map_res map]. rewrite (H a (or_introl eq_refl)). cbn [bind].
  rewrite IH by (intros b Hb; apply H; now right). reflexivity.
Qed.

Lemma NoDup_app {A} (l1 l2 : list A) : NoDup l1 -> NoDup l2 ->
  (forall x, In x l1 -> ~ In x l2) -> NoDup (l1 ++ l2).
Proof.
  intros H1 H2 H. induction H1 as [|x l1 Hx H1 IH]; [exact H2|].
  cbn. constructor.
  - rewrite in_app_iff. intros [H'|H']; [tauto|]. apply (H x); [now left|assumption].
  - apply IH. intros y Hy. apply H. now right.
Qed.

Lemma NoDup_prod {A B} (l1 : list A) (l2 : list B) : NoDup l1 -> NoDup l2 -> NoDup (list_prod l1 l2).
Proof.
  intros H1 H2. induction H1 as [|x l1 Hx H1 IH]; [constructor|].
  cbn. apply NoDup_app; [|assumption|].
  - apply FinFun.Injective_map_NoDup; [intros a b H; congruence|assumption].
  - intros p Hp. apply in_map_iff in Hp as (y & <- & Hy). rewrite in_prod_iff. tauto.
Qed.

Lemma NoDup_concat_map {A B} (f : A -> list B) (key : B -> A) l :
  NoDup l -> (forall a, In a l -> NoDup (f a)) -> (forall a b, In b (f a) -> key b = a) ->
  NoDup (concat (map f l)).
Proof.
  intros Hl Hf Hk. induction Hl as [|x l Hx Hl IH]; [constructor|].
  cbn. apply NoDup_app.
  - apply Hf. now left.
  - apply IH. intros a Ha. apply Hf. now right.
  - intros b Hb Hc. apply in_concat in Hc as (bs & Hbs & Hb').
    apply in_map_iff in Hbs as (y & <- & Hy). apply Hk in Hb. apply Hk in Hb'. congruence.
Qed.

Definition str_of (o : option str) : str := match o with Some s => s | None => [] end.

Lemma get_dialects_ok O E data user masked : any_orders O ->
  (forall x, In x (filter_urls url data) -> enc_trip E x = Ok [x]) ->
  (enc_plain E = true \/ forall x, In x data -> enc_trip E x = Ok [x]) ->
  exists L, get_dialects cat url O E data user masked = Ok L /\ NoDup L /\
    forall D, In D L <-> exists d q e, D = dialect3 d q e /\
      candidate cat user (filter_urls url data) data d q e /\
      (masked && masked_by_quotechar data q e d = false).
Proof.
  intros HO HE Hp. unfold get_dialects.
  destruct (get_delimiters_ok O E (filter_urls url data) user HO HE) as (Ds & -> & HnD & HiD).
  cbn [bind]. destruct HO as (_ & Hd & Hq & He).
  set (ds := o_delims O Ds). set (qs := o_quotes O (get_quotechars (filter_urls url data))).
  assert (Hnds : NoDup ds) by (apply (Permutation_NoDup (Permutation_sym (Hd _)) HnD)).
  assert (Hnqs : NoDup qs)
    by (apply (Permutation_NoDup (Permutation_sym (Hq _)) (NoDup_get_quotechars _))).
  assert (Hids : forall s, In s ds <-> In s Ds).
  { intros s. split; apply Permutation_in; [apply Hd|apply Permutation_sym, Hd]. }
  assert (Hiqs : forall s, In s qs <-> In s (get_quotechars (filter_urls url data))).
  { intros s. split; apply Permutation_in; [apply Hq|apply Permutation_sym, Hq]. }
  rewrite esc_loop_ok; [|..].
  2:{ intros u v H. destruct Hp as [Hp|Hp]; [now left|right]. apply Hp.
      apply pairwise_before in H as (a & b & ->). apply in_or_app. right. now left. }
  2:{ intros c b H. discriminate. }
  cbn [bind]. set (final d q := fold_left (esc_step d q) (pairwise data) [[]]).
  set (g := fun p : str * str => map (fun e => dialect3 (fst p) (snd p) e)
        (filter (fun e => negb (masked && masked_by_quotechar data (snd p) e (fst p)))
           (o_escapes O (fst p) (snd p) (final (fst p) (snd p))))).
  rewrite (map_res_ok _ g).
  2:{ intros [d q] H. rewrite (esc_get_fold d q (pairwise data) _ [[]]) by now apply esc_get_init.
      reflexivity. }
  cbn [bind]. eexists. split; [reflexivity|]. split.
  - apply (NoDup_concat_map g (fun D => (str_of (sd_delimiter D), str_of (sd_quotechar D)))).
    + now apply NoDup_prod.
    + intros [d q] _. unfold g. cbn [fst snd].
      apply FinFun.Injective_map_NoDup.
      { intros a b H. unfold dialect3 in H. congruence. }
      apply NoDup_filter. apply (Permutation_NoDup (Permutation_sym (He d q _))).
      apply fold_esc_spec. constructor; [easy|constructor].
    + intros [d q] D H. unfold g in H. apply in_map_iff in H as (e & <- & _). reflexivity.
  - intros D. rewrite in_concat. split.
    + intros (l & Hl & HD). apply in_map_iff in Hl as ([d q] & <- & Hdq).
      apply in_prod_iff in Hdq as [H1 H2]. unfold g in HD. cbn [fst snd] in HD.
      apply in_map_iff in HD as (e & <- & H3). apply filter_In in H3 as [H3 H4].
      apply (Permutation_in _ (He d q _)) in H3. apply fold_esc_spec in H3.
      exists d, q, e. split; [reflexivity|]. split; [|now apply negb_true_iff in H4].
      split; [now apply HiD, Hids|]. split; [now apply get_quotechars_spec, Hiqs|].
      destruct H3 as [[<-|[]]|(u & v & -> & Hb & Hu & Hv)]; [now left|right].
      exists u, v. rewrite <- is_esc_spec, <- pairwise_before. auto.
    + intros (d & q & e & -> & (H1 & H2 & H3) & H4).
      exists (g (d, q)). split.
      * apply in_map_iff. exists (d, q). split; [reflexivity|]. apply in_prod_iff.
        split; [now apply Hids, HiD|now apply Hiqs, get_quotechars_spec].
      * unfold g. cbn [fst snd]. apply in_map_iff. exists e. split; [reflexivity|].
        apply filter_In. split; [|now rewrite H4].
        apply (Permutation_in _ (Permutation_sym (He d q _))). apply fold_esc_spec.
        destruct H3 as [->|(u & v & -> & Hb & Hu & Hv)]; [left; now left|right].
        exists u, v. rewrite is_esc_spec, pairwise_before. auto.
Qed.

(** ** Lone surrogates *)
Lemma collect_delims_err user xs : forall D,
  (exists x, In x xs /\ surrogate x = true) ->
  collect_delims cat utf8 user xs D = Err UnicodeEncodeError.
Proof.
  induction xs as [|x xs IH]; intros D (y & Hy & Hs); [destruct Hy|].
  cbn [collect_delims]. unfold unicode_category, utf8. cbn [enc_trip].
  destruct (surrogate x) eqn:E; [reflexivity|]. cbn [bind].
  apply IH. destruct Hy as [->|Hy]; [congruence|]. now exists y.
Qed.

Lemma get_dialects_surrogate O data user masked : any_orders O ->
  (exists x, In x (filter_urls url data) /\ surrogate x = true) ->
  get_dialects cat url O utf8 data user masked = Err UnicodeEncodeError.
Proof.
  intros (Hc & _) (x & Hx & Hs). unfold get_dialects, get_delimiters.
  rewrite collect_delims_err; [reflexivity|]. exists x. split; [|exact Hs].
  apply (Permutation_in _ (Permutation_sym (Hc _))). now apply nodup_In.
Qed.

Lemma utf8_trip x : surrogate x = false -> enc_trip utf8 x = Ok [x].
Proof. intros H. cbn. now rewrite H. Qed.

Lemma get_dialects_utf8 O data user masked : any_orders O ->
  (forall x, In x (filter_urls url data) -> surrogate x = false) ->
  exists L, get_dialects cat url O utf8 data user masked = Ok L /\ NoDup L /\
    forall D, In D L <-> exists d q e, D = dialect3 d q e /\
      candidate cat user (filter_urls url data) data d q e /\
      (masked && masked_by_quotechar data q e d = false).
Proof.
  intros HO Hs. apply get_dialects_ok; [assumption| |now left].
  intros x Hx. apply utf8_trip, Hs, Hx.
Qed.

(** ** URLs *)
Lemma sub_url_sub : forall s skip b,
  exists u t, s = u ++ t /\ length u = Nat.min skip (length s) /\ url_sub t (sub_url url skip b s).
Proof.
  induction s as [|c s IH]; intros skip b.
  - exists [], []. rewrite Nat.min_0_r. repeat split. constructor.
  - cbn [sub_url]. destruct skip as [|k].
    + destruct (url b (c :: s)) as [[|n]|] eqn:E.
      * exists [], (c :: s). repeat split. destruct (IH 0 (b ++ [c])) as (u & t & -> & Hu & Ht).
        destruct u; [|discriminate]. now constructor.
      * exists [], (c :: s). repeat split. destruct (IH n (b ++ [c])) as (u & t & Es & Hu & Ht).
        rewrite Es at 1. change (c :: u ++ t) with ((c :: u) ++ t). now constructor.
      * exists [], (c :: s). repeat split. destruct (IH 0 (b ++ [c])) as (u & t & -> & Hu & Ht).
        destruct u; [|discriminate]. now constructor.
    + destruct (IH k (b ++ [c])) as (u & t & Es & Hu & Ht).
      exists (c :: u), t. rewrite Es at 1. cbn [length app Nat.min]. rewrite Hu. auto.
Qed.

Lemma filter_urls_sub data : url_sub data (filter_urls url data).
Proof.
  unfold filter_urls. destruct (sub_url_sub data 0 []) as (u & t & -> & Hu & Ht).
  destruct u; [exact Ht|discriminate].
Qed.

Lemma url_sub_In s t : url_sub s t -> forall c, In c t -> In c s \/ c = 85%N.
Proof.
  induction 1 as [|c s t H IH|u s t Hu H IH]; intros x Hx; [destruct Hx|..].
  - destruct Hx as [->|Hx]; [left; now left|]. destruct (IH x Hx); [left; now right|auto].
  - destruct Hx as [<-|Hx]; [auto|]. destruct (IH x Hx); [left; apply in_or_app; auto|auto].
Qed.

Lemma candidate_occurs user data d q e :
  candidate cat user (filter_urls url data) data d q e -> cat 85%N = s2l "Lu" ->
  (forall c, q = [c] -> In c data) /\ (forall c, e = [c] -> In c data) /\
  (forall c, d = [c] -> In c data \/ (c = 85%N /\ exists l, user = Some l /\ In [85%N] l)).
Proof.
  intros (Hd & Hq & He) HU. repeat split.
  - intros c ->. destruct Hq as [Hq|(c' & Hq & Hi & Hl)]; [discriminate|]. injection Hq as <-.
    destruct (url_sub_In _ _ (filter_urls_sub data) c Hi) as [H| ->]; [exact H|].
    exfalso. unfold quote_like in Hl. cbn in Hl. intuition discriminate.
  - intros c ->. destruct He as [He|(u & v & He & (a & b & ->) & _)]; [discriminate|].
    injection He as <-. apply in_or_app. right. now left.
  - intros c ->. destruct Hd as [Hd|(c' & Hd & Hi & Hw)]; [discriminate|]. injection Hd as <-.
    destruct (url_sub_In _ _ (filter_urls_sub data) c Hi) as [H| ->]; [now left|].
    right. split; [reflexivity|]. destruct user as [l|]; [now exists l|].
    exfalso. cbn [wanted_delimiter] in Hw. destruct Hw as [Hw|[_ Hw]]; [discriminate|].
    apply Hw. rewrite HU. cbn. now left.
Qed.

End Facts.

Lemma in_surrogates (s : str) : (exists x, In x s /\ 0xD800 <= x /\ x <= 0xDFFF)%N -> exists x, In x s /\ surrogate x = true.
Proof. intros (x & Hx & H1 & H2). exists x. split; [exact Hx|]. unfold surrogate. apply andb_true_intro. now rewrite !N.leb_le. Qed.
Lemma get_dialects_lone cat url O data user masked : any_orders O -> (exists x, In x (filter_urls url data) /\ 0xD800 <= x /\ x <= 0xDFFF)%N ->
  get_dialects cat url O utf8 data user masked = Err UnicodeEncodeError.
Proof. intros HO H. apply get_dialects_surrogate; [exact HO|now apply in_surrogates]. Qed.
