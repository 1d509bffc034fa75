(** * Batch: several files on one command line *)
From Coq Require Import String.
From Verif Require Import Base Parser Dialect CsvLib Reader Writer Files Wrappers Standardize SpecLayout SpecParse SpecFiles FilesFacts StandardizeFacts TableFacts SpecBatch.

Definition job : Type := path * (option path * option str).

(** ** One file depends on its own content only *)
Lemma write_local S f g p c dl enc tr : f p = g p -> write_to_stream S f p c dl enc tr = write_to_stream S g p c dl enc tr.
Proof. intros H. unfold write_to_stream, source_rows. now rewrite H. Qed.
Lemma detect_local E f g p enc n : f p = g p -> detect_dialect E f p enc n = detect_dialect E g p enc n.
Proof. intros H. unfold detect_dialect, open_text. now rewrite H. Qed.
Lemma upd_agree f g p q b : f p = g p -> upd f q b p = upd g q b p.
Proof. intros H. unfold upd. now destruct (p =? q)%N. Qed.
Lemma in_place_local S f g p dl enc target tr ex f1 : f p = g p -> f p <> None -> f (s_mkstemp S f) = None -> g (s_mkstemp S g) = None ->
  in_place S f p dl enc target tr = (ex, f1) -> exists g1, in_place S g p dl enc target tr = (ex, g1) /\ f1 p = g1 p.
Proof.
  intros H Hp Hf Hg. unfold in_place. set (tf := s_mkstemp S f) in *. set (tg := s_mkstemp S g) in *.
  assert (Nf : p <> tf) by congruence. assert (Ng : p <> tg) by congruence. destruct (e_codec (s_env S) target) as [c|x]; [|intros [= <- <-]; eexists; split; [reflexivity|]; now rewrite !upd_other].
  assert (E1 : upd f tf (Some []) p = upd g tg (Some []) p) by now rewrite !upd_other. rewrite (write_local S _ _ p c dl enc tr E1). destruct (write_to_stream S (upd g tg (Some [])) p c dl enc tr) as [t [x|]].
  - intros [= <- <-]. eexists. split; [reflexivity|]. now rewrite !upd_other.
  - assert (E2 : upd (upd f tf (Some [])) tf (Some (content c t)) p = upd (upd g tg (Some [])) tg (Some (content c t)) p) by now rewrite !upd_other. rewrite E2.
    destruct (upd (upd g tg (Some [])) tg (Some (content c t)) p) as [old|] eqn:EO; [|intros [= <- <-]; eexists; split; [reflexivity|exact (eq_trans E2 (eq_sym EO))]]. destruct (str_eqb (s_sha1 S old) (s_sha1 S (content c t))); intros [= <- <-]; eexists; (split; [reflexivity|]).
    + rewrite !upd_other by assumption. exact H.
    + unfold upd. now rewrite (proj2 (N.eqb_neq p tf) Nf), (proj2 (N.eqb_neq p tg) Ng), N.eqb_refl.
Qed.

Section Batch.
Variables (S : senv) (A : sargs).
(** The file a job writes. *)
Definition tgt (j : job) : list path := if a_in_place A then [fst j] else match fst (snd j) with Some o => [o] | None => [] end.
Definition run (f : fs) (j : job) : exit * fs * str := handle_path S A f (fst j) (fst (snd j)) (snd (snd j)).
Definition ready (f : fs) : Prop := a_in_place A = true -> f (s_mkstemp S f) = None.

Lemma run_local f g j ex f1 t : ready f -> ready g -> f (fst j) = g (fst j) -> (forall x, In x (tgt j) -> f x = g x) ->
  run f j = (ex, f1, t) -> exists g1, run g j = (ex, g1, t) /\ forall x, In x (tgt j) -> f1 x = g1 x.
Proof.
  destruct j as [p [o e]]. unfold run, tgt, ready. cbn [fst snd]. intros Rf Rg H HT. unfold handle_path. rewrite <- H. destruct (f p) as [b|] eqn:Ep; [|intros [= <- <- <-]; eauto].
  set (enc := match or_encoding e with None => _ | _ => _ end). set (target := match or_encoding (a_target A) with None => _ | _ => _ end).
  assert (H' : f p = g p) by congruence. rewrite (detect_local _ f g p enc _ H'). destruct (detect_dialect (s_env S) g p enc (a_num_chars A)) as [[dl|]|x]; [|intros [= <- <- <-]; eauto|intros [= <- <- <-]; eauto].
  destruct (a_in_place A).
  - destruct (in_place S f p dl enc target (a_transpose A)) as [c f'] eqn:E. intros [= <- <- <-]. destruct (in_place_local S f g p dl enc target (a_transpose A) c f' H') as (g1 & E1 & E2); [congruence|now apply Rf|now apply Rg|exact E|].
    rewrite E1. exists g1. split; [reflexivity|]. now intros x [<-|[]].
  - destruct o as [o|].
    + unfold to_file, open_write. destruct (e_codec (s_env S) target) as [c|x].
      * rewrite (write_local S (upd f o (Some [])) (upd g o (Some [])) p c dl enc (a_transpose A)) by now apply upd_agree. destruct (write_to_stream S (upd g o (Some [])) p c dl enc (a_transpose A)) as [t' y]. intros [= <- <- <-]. eexists. split; [reflexivity|]. intros x [<-|[]]. now rewrite !upd_same.
      * intros [= <- <- <-]. eexists. split; [reflexivity|]. intros y [<-|[]]. now rewrite !upd_same.
    + unfold to_stdout. rewrite (write_local S f g p stringio dl enc (a_transpose A) H'). destruct (write_to_stream S g p stringio dl enc (a_transpose A)) as [t' [y|]]; intros [= <- <- <-]; (eexists; split; [reflexivity|intros x []]).
Qed.
(** What one file changes. *)
Lemma run_frame f j ex f1 t : ready f -> run f j = (ex, f1, t) ->
  match ex with
  | Code n => same_fs_but (tgt j) f1 f
  | Uncaught _ => same_fs_but (if a_in_place A then [s_mkstemp S f] else tgt j) f1 f
  end.
Proof.
  destruct j as [p [o e]]. unfold run, ready. cbn [fst snd]. intros R. assert (Refl : forall ps, same_fs_but ps f f) by (intros ps q _; reflexivity).
  destruct (a_in_place A) eqn:Hi.
  - destruct ex as [n|x]; intros E.
    + apply handle_path_in_place in E; [|exact Hi|now apply R]. unfold tgt. rewrite Hi. cbn [fst]. destruct E as [[_ K]|(_ & _ & K)]; [intros q _; apply K|exact K].
    + unfold handle_path in E. destruct (f p) as [b|] eqn:Ep; [|injection E as _ <- _; apply Refl]. destruct (detect_dialect _ _ _ _ _) as [[dl|]|y]; [|discriminate E|injection E as _ <- _; apply Refl].
      rewrite Hi in E. revert E. set (enc := match or_encoding e with None => _ | _ => _ end). set (target := match or_encoding (a_target A) with None => _ | _ => _ end). destruct (in_place S f p dl enc target (a_transpose A)) as [c f'] eqn:EI. intros [= -> <- <-].
      assert (K := in_place_effect S f p dl enc target (a_transpose A) (Uncaught x) f' (R eq_refl)). apply K; [congruence|exact EI].
  - intros E. assert (G : same_fs_but (tgt (p, (o, e))) f1 f); [|now destruct ex]. unfold tgt. rewrite Hi. cbn [fst snd]. unfold handle_path in E. destruct (f p) as [b|]; [|injection E as _ <- _; apply Refl].
    revert E. set (enc := match or_encoding e with None => _ | _ => _ end). set (target := match or_encoding (a_target A) with None => _ | _ => _ end). destruct (detect_dialect (s_env S) f p enc (a_num_chars A)) as [[dl|]|y]; [|intros [= _ <- _]; apply Refl|intros [= _ <- _]; apply Refl].
    rewrite Hi. destruct o as [o|]; [|destruct (to_stdout S f p dl enc (a_transpose A)); intros [= _ <- _]; apply Refl]. unfold to_file, open_write. destruct (e_codec (s_env S) target) as [c|x].
    + destruct (write_to_stream S (upd f o (Some [])) p c dl enc (a_transpose A)) as [t' y]. intros [= _ <- _] q Hq. assert (N : q <> o) by (intros ->; apply Hq; now left). now rewrite !upd_other.
    + intros [= _ <- _] q Hq. assert (N : q <> o) by (intros ->; apply Hq; now left). now rewrite upd_other.
Qed.
Lemma run_codes f j n f1 t : ready f -> run f j = (Code n, f1, t) -> n = 0%nat \/ n = 1%nat \/ (n = 2%nat /\ a_in_place A = true).
Proof.
  destruct j as [p [o e]]. unfold run, ready. cbn [fst snd]. intros R E. destruct (a_in_place A) eqn:Hi.
  - apply handle_path_in_place in E; [|exact Hi|now apply R]. tauto.
  - unfold handle_path in E. destruct (f p); [|discriminate E]. revert E. set (enc := match or_encoding e with None => _ | _ => _ end). set (target := match or_encoding (a_target A) with None => _ | _ => _ end).
    destruct (detect_dialect (s_env S) f p enc (a_num_chars A)) as [[dl|]|y]; [|intros [= <- _ _]; tauto|discriminate]. rewrite Hi. destruct o as [o|].
    + unfold to_file, open_write. destruct (e_codec (s_env S) target) as [c|x]; [|discriminate]. destruct (write_to_stream S (upd f o (Some [])) p c dl enc (a_transpose A)) as [t' [y|]]; [discriminate|]. intros [= <- _ _]. tauto.
    + unfold to_stdout. destruct (write_to_stream S f p stringio dl enc (a_transpose A)) as [t' [y|]]; [discriminate|]. intros [= <- _ _]. tauto.
Qed.
Lemma run_silent f j ex f1 t : run f j = (ex, f1, t) -> tgt j <> [] -> t = [].
Proof.
  destruct j as [p [o e]]. unfold run, tgt, handle_path. cbn [fst snd]. destruct (f p); [|now intros [= _ _ <-]]. set (enc := match or_encoding e with None => _ | _ => _ end). set (target := match or_encoding (a_target A) with None => _ | _ => _ end).
  destruct (detect_dialect (s_env S) f p enc (a_num_chars A)) as [[dl|]|y]; [|now intros [= _ _ <-]|now intros [= _ _ <-]]. destruct (a_in_place A).
  - destruct (in_place S f p dl enc target (a_transpose A)). now intros [= _ _ <-].
  - destruct o as [o|]; [|intros _ H; now elim H]. destruct (to_file S f p o dl enc target (a_transpose A)). now intros [= _ _ <-].
Qed.

(** ** All files *)
Definition tgts (jobs : list job) : list path := concat (map tgt jobs).
Definition fresh_for (jobs : list job) (f : fs) : Prop := a_in_place A = true -> new_names S (tgts jobs) f.
Lemma fresh_ready jobs f : fresh_for jobs f -> ready f.
Proof. intros H Hi. apply (H Hi). intros q _. reflexivity. Qed.
Lemma fresh_step j jobs f f1 : fresh_for (j :: jobs) f -> same_fs_but (tgt j) f1 f -> fresh_for jobs f1.
Proof.
  intros H H1 Hi g Hg. apply (H Hi). intros q Hq. unfold tgts in Hq. cbn [map concat] in Hq. rewrite in_app_iff in Hq. rewrite Hg by (unfold tgts; tauto). apply H1. tauto.
Qed.
Lemma but_app l1 l2 f g h : same_fs_but l1 g f -> same_fs_but l2 h g -> same_fs_but (l1 ++ l2) h f.
Proof. intros H1 H2 q Hq. rewrite in_app_iff in Hq. rewrite H2 by tauto. apply H1. tauto. Qed.
Lemma but_more l1 l2 f g : incl l1 l2 -> same_fs_but l1 g f -> same_fs_but l2 g f.
Proof. intros HI H q Hq. apply H. auto. Qed.

Lemma loop_frame jobs : forall f glob ex f' t, fresh_for jobs f -> handle_loop S A f glob jobs = (ex, f', t) ->
  match ex with
  | Code _ => same_fs_but (tgts jobs) f' f
  | Uncaught _ => if a_in_place A then exists tmp, same_fs_but (tmp :: tgts jobs) f' f /\ (~ In tmp (tgts jobs) -> f tmp = None) else same_fs_but (tgts jobs) f' f
  end.
Proof.
  induction jobs as [|[p [o e]] jobs IH]; intros f glob ex f' t HF; cbn [handle_loop]; [intros [= <- <- <-] q _; reflexivity|].
  destruct (handle_path S A f p o e) as [[ex1 f1] t1] eqn:E. assert (R := run_frame f (p, (o, e)) ex1 f1 t1 (fresh_ready _ _ HF) E). destruct ex1 as [n|x].
  - assert (HI : incl (tgt (p, (o, e))) (tgts ((p, (o, e)) :: jobs))) by (intros q Hq; unfold tgts; cbn [map concat]; apply in_or_app; now left). destruct (Nat.eqb n 1); [intros [= <- <- <-]; exact (but_more _ _ _ _ HI R)|].
    destruct (handle_loop S A f1 _ jobs) as [[c f2] t2] eqn:EL. intros [= <- <- <-]. apply IH in EL; [|exact (fresh_step _ _ _ _ HF R)]. destruct c as [r|x]; [exact (but_app _ _ _ _ _ R EL)|].
    destruct (a_in_place A); [|exact (but_app _ _ _ _ _ R EL)]. destruct EL as (tmp & E1 & E2). exists tmp. unfold tgts in *. cbn [map concat]. split.
    + intros q Hq. cbn [In] in Hq. rewrite in_app_iff in Hq. rewrite E1 by (cbn [In]; tauto). apply R. tauto.
    + rewrite in_app_iff. intros H. rewrite <- R by tauto. apply E2. tauto.
  - intros [= <- <- <-]. destruct (a_in_place A) eqn:Hi; [|exact (but_app _ _ _ _ _ R (fun q _ => eq_refl))]. exists (s_mkstemp S f). split; [|intros _; exact (fresh_ready _ _ HF Hi)]. apply (but_more [s_mkstemp S f]); [|exact R]. now intros q [<-|[]]; left.
Qed.

(** No file is written that a later job reads or writes. *)
Definition apart (j1 j2 : job) : Prop := forall x, In x (tgt j1) -> x <> fst j2 /\ ~ In x (tgt j2).
Lemma loop_alone jobs : forall f glob r f' t, fresh_for jobs f -> ForallOrdPairs apart jobs -> handle_loop S A f glob jobs = (Code r, f', t) -> r <> 1%nat ->
  exists rs : list (nat * str), Forall2 (fun j nt => fst nt <> 1%nat /\ exists fa, run f j = (Code (fst nt), fa, snd nt) /\ forall x, In x (tgt j) -> f' x = fa x) jobs rs /\
    t = concat (map snd rs) /\ r = (if Nat.eqb glob 0 then first_nonzero (map fst rs) else glob).
Proof.
  induction jobs as [|[p [o e]] jobs IH]; intros f glob r f' t HF HA; cbn [handle_loop].
  - intros [= <- <- <-] _. exists []. split; [constructor|]. split; [reflexivity|]. now destruct (Nat.eqb_spec glob 0).
  - destruct (handle_path S A f p o e) as [[[n|x] f1] t1] eqn:E; [|discriminate]. destruct (Nat.eqb_spec n 1) as [->|Hn]; [intros [= <- _ _]; now intros []|].
    assert (RD := fresh_ready _ _ HF). assert (R := run_frame f (p, (o, e)) (Code n) f1 t1 RD E). cbn beta iota in R. assert (HF1 := fresh_step _ _ _ _ HF R). inversion HA as [|? ? HA1 HA2 EA]; subst.
    destruct (handle_loop S A f1 _ jobs) as [[c f2] t2] eqn:EL. intros [= -> <- <-] Hr. assert (FR := loop_frame jobs f1 _ _ _ _ HF1 EL). cbn beta iota in FR. destruct (IH f1 _ _ _ _ HF1 HA2 EL Hr) as (rs & H1 & H2 & H3).
    exists ((n, t1) :: rs). split; [|split].
    + rewrite Forall_forall in HA1. constructor.
      * cbn [fst snd]. split; [exact Hn|]. exists f1. split; [exact E|]. intros x Hx. apply FR. unfold tgts. rewrite in_concat. intros (l & Hl & Hxl). apply in_map_iff in Hl as (j & <- & Hj). exact (proj2 (HA1 j Hj x Hx) Hxl).
      * assert (RD1 := fresh_ready _ _ HF1). clear - H1 HA1 RD RD1 R. induction H1 as [|j nt jobs rs (Hn & fa & E1 & E2) H IH]; [constructor|]. constructor.
        -- split; [exact Hn|]. destruct (run_local f1 f j (Code (fst nt)) fa (snd nt)) as (g1 & G1 & G2); [exact RD1|exact RD| | |exact E1|].
           ++ apply R. intros Hx. now destruct (HA1 j (or_introl eq_refl) (fst j) Hx).
           ++ intros x Hx. apply R. intros Hx'. now destruct (HA1 j (or_introl eq_refl) x Hx').
           ++ exists g1. split; [exact G1|]. intros x Hx. now rewrite <- G2, E2.
        -- apply IH. intros j' Hj'. apply HA1. now right.
    + cbn [map concat snd]. now rewrite H2.
    + rewrite H3. destruct (Nat.eqb_spec glob 0) as [->|Hg]; cbn.
      * destruct n as [|n]; cbn; reflexivity.
      * rewrite andb_false_r. apply Nat.eqb_neq in Hg. now rewrite Hg.
Qed.
End Batch.

(** ** The command line *)
Definition job_encoding (A : sargs) (i : nat) : option str := match given_encoding A i with [] => None | e :: _ => Some e end.
Definition job_at (A : sargs) (i : nat) (p : path) : job := (p, (nth_error (a_outputs A) i, job_encoding A i)).
Lemma zip_nth {X Y} (a : list X) (b : list Y) i : nth_error (zip a b) i = match nth_error a i, nth_error b i with Some x, Some y => Some (x, y) | _, _ => None end.
Proof. revert b i. induction a as [|x a IH]; intros [|y b] [|i]; cbn; try reflexivity; [now destruct (nth_error a i)|apply IH]. Qed.
Lemma zip_len3 {X Y Z} (a : list X) : forall (b : list Y) (c : list Z), List.length b = List.length a -> List.length c = List.length a -> List.length (zip a (zip b c)) = List.length a.
Proof. induction a as [|x a IH]; intros [|y b] [|z c]; cbn; try lia. intros Hb Hc. f_equal. apply IH; lia. Qed.
Lemma repeat_nth {X} (x : X) n i : (i < n)%nat -> nth_error (repeat x n) i = Some x.
Proof. revert i. induction n as [|n IH]; intros [|i] H; cbn; [lia|lia|reflexivity|apply IH; lia]. Qed.
Definition jobs_of (A : sargs) (outputs : list (option path)) (encs : list (option str)) : list job := zip (a_paths A) (zip outputs encs).
Lemma accepted S A f : ~ refused A -> exists jobs, handle S A f = handle_loop S A f 0 jobs /\ List.length jobs = List.length (a_paths A) /\
  forall i p, nth_error (a_paths A) i = Some p -> nth_error jobs i = Some (job_at A i p).
Proof.
  intros HR. unfold refused in HR. unfold handle. set (n := List.length (a_paths A)) in *.
  assert (E1 : a_in_place A && negb (Nat.eqb (List.length (a_outputs A)) 0) = false).
  { destruct (a_in_place A); [|reflexivity]. destruct (a_outputs A); [reflexivity|]. elim HR. left. split; [reflexivity|discriminate]. }
  rewrite E1. set (outs := match a_outputs A with [] => repeat None n | os => map Some os end).
  assert (LO : List.length outs = n).
  { unfold outs. destruct (a_outputs A) as [|o os] eqn:EO; [apply repeat_length|]. rewrite map_length. destruct (a_in_place A); [elim HR; left; split; [reflexivity|discriminate]|].
    destruct (Nat.eq_dec (List.length (o :: os)) n) as [E|E]; [exact E|]. elim HR. right. left. split; [reflexivity|]. split; [discriminate|exact E]. }
  rewrite LO, Nat.eqb_refl. cbn [negb]. rewrite andb_false_r.
  set (encs0 := match a_encodings A with [] => repeat None n | es => map Some es end).
  assert (LE : exists encs, match encs0 with [e] => Some (repeat e n) | _ => if Nat.eqb (List.length encs0) n then Some encs0 else None end = Some encs /\ List.length encs = n /\ forall i, (i < n)%nat -> nth_error encs i = Some (job_encoding A i)).
  { unfold encs0, job_encoding, given_encoding. destruct (a_encodings A) as [|e [|e' es]] eqn:EE.
    - exists (repeat None n). split; [|split; [apply repeat_length|intros i Hi; now apply repeat_nth]]. destruct n as [|[|m]]; try reflexivity. cbn [repeat List.length]. now rewrite repeat_length, Nat.eqb_refl.
    - exists (repeat (Some e) n). split; [reflexivity|]. split; [apply repeat_length|intros i Hi; now apply repeat_nth].
    - assert (L : List.length (e :: e' :: es) = n).
      { destruct (Nat.eq_dec (List.length (e :: e' :: es)) n) as [E|E]; [exact E|]. elim HR. right. right. split; [cbn; lia|exact E]. }
      exists (map Some (e :: e' :: es)). split; [|split; [rewrite map_length; exact L|]].
      + cbn [map]. replace (Nat.eqb _ n) with true; [reflexivity|]. symmetry. apply Nat.eqb_eq. rewrite <- L. cbn [List.length]. now rewrite map_length.
      + intros i Hi. rewrite nth_error_map. destruct (nth_error (e :: e' :: es) i) as [x|] eqn:EN; [reflexivity|]. apply nth_error_None in EN. lia. }
  destruct LE as (encs & -> & L & HE). exists (zip (a_paths A) (zip outs encs)). split; [reflexivity|]. assert (HN : forall i p, nth_error (a_paths A) i = Some p -> nth_error (zip (a_paths A) (zip outs encs)) i = Some (job_at A i p)).
  { intros i p Hp. assert (Hi : (i < n)%nat) by (apply nth_error_Some; congruence). rewrite !zip_nth, Hp, (HE i Hi). unfold job_at, outs. destruct (a_outputs A) as [|o os] eqn:EO.
    - rewrite repeat_nth by exact Hi. now destruct i.
    - rewrite nth_error_map. destruct (nth_error (o :: os) i) as [x|] eqn:EN; [reflexivity|]. apply nth_error_None in EN. unfold outs in LO. rewrite map_length in LO. lia. }
  split; [|exact HN]. apply zip_len3; assumption.
Qed.
Lemma alone_loop S A i p f : ~ refused A -> nth_error (a_paths A) i = Some p ->
  handle S (alone A i p) f = match run S A f (job_at A i p) with (Uncaught x, f', t) => (Uncaught x, f', t) | (Code n, f', t) => (Code n, f', if Nat.eqb n 1 then t else t ++ []) end.
Proof.
  intros HR Hp. assert (HR' : ~ refused (alone A i p)).
  { unfold refused, alone, given_output, given_encoding. cbn. intros [[H1 H2]|[(H1 & H2 & H3)|[H1 H2]]].
    - destruct (nth_error (a_outputs A) i) as [o|] eqn:EO; [|now elim H2]. apply HR. left. split; [exact H1|]. intros E. rewrite E in EO. now destruct i.
    - destruct (nth_error (a_outputs A) i); cbn in *; congruence.
    - destruct (a_encodings A) as [|e [|e' es]]; [cbn in H1; lia|cbn in H1; lia|]. destruct (nth_error (e :: e' :: es) i); cbn in H1; lia. }
  destruct (accepted S (alone A i p) f HR') as (jobs & -> & L & HJ). specialize (HJ 0%nat p eq_refl). destruct jobs as [|j [|j' jobs]]; try discriminate L. cbn in HJ. injection HJ as ->.
  unfold job_at at 1. cbn [handle_loop].
  replace (nth_error (a_outputs (alone A i p)) 0) with (nth_error (a_outputs A) i) by (unfold alone, given_output; cbn; now destruct (nth_error (a_outputs A) i)).
  replace (job_encoding (alone A i p) 0) with (job_encoding A i).
  2:{ unfold job_encoding. replace (given_encoding (alone A i p) 0) with (given_encoding A i); [reflexivity|]. unfold given_encoding at 2. cbn [alone a_encodings]. unfold given_encoding. destruct (a_encodings A) as [|e [|e' es]]; try reflexivity. now destruct (nth_error (e :: e' :: es) i). }
  change (handle_path S (alone A i p) f p (nth_error (a_outputs A) i) (job_encoding A i)) with (run S A f (job_at A i p)).
  destruct (run S A f (job_at A i p)) as [[[m|x] f1] t]; [|reflexivity]. destruct (Nat.eqb_spec m 1) as [->|Hm]; [reflexivity|]. cbn [handle_loop]. rewrite andb_true_r. now destruct m.
Qed.

Lemma jobs_tgts A jobs : List.length jobs = List.length (a_paths A) -> (forall i p, nth_error (a_paths A) i = Some p -> nth_error jobs i = Some (job_at A i p)) ->
  forall x, In x (tgts A jobs) -> if a_in_place A then In x (a_paths A) else In x (a_outputs A).
Proof.
  intros L HJ x Hx. unfold tgts in Hx. apply in_concat in Hx as (l & Hl & Hx). apply in_map_iff in Hl as (j & <- & Hj). apply In_nth_error in Hj as (i & Hi).
  assert (Li : (i < List.length (a_paths A))%nat) by (rewrite <- L; apply nth_error_Some; congruence). destruct (nth_error (a_paths A) i) as [p|] eqn:Ep; [|apply nth_error_None in Ep; lia].
  rewrite (HJ i p Ep) in Hi. injection Hi as <-. unfold tgt, job_at in Hx. destruct (a_in_place A); cbn [fst snd] in Hx; [destruct Hx as [<-|[]]; exact (nth_error_In _ _ Ep)|].
  destruct (nth_error (a_outputs A) i) as [o|] eqn:Eo; [|destruct Hx]. destruct Hx as [<-|[]]. exact (nth_error_In _ _ Eo).
Qed.
Lemma refused_result S A f : refused A -> handle S A f = (Code 1, f, []).
Proof.
  intros [[H1 H2]|[(H1 & H2 & H3)|[H1 H2]]].
  - exact (handle_in_place_output S A f H1 H2).
  - exact (handle_output_count S A f H1 H2 H3).
  - destruct (a_encodings A) as [|e1 [|e2 es]] eqn:E; cbn in H1; try lia. apply (handle_encoding_count S A f e1 e2 es E). now rewrite E.
Qed.
Lemma refused_dec A : refused A \/ ~ refused A.
Proof.
  unfold refused. destruct (a_in_place A), (a_outputs A) as [|o os], (Nat.eq_dec (List.length (a_encodings A)) (List.length (a_paths A))) as [E|E], (le_dec 2 (List.length (a_encodings A))) as [H|H];
  try (destruct (Nat.eq_dec (List.length (o :: os)) (List.length (a_paths A)))); try (left; left; split; [reflexivity|discriminate]); try (left; right; right; now split); try (left; right; left; split; [reflexivity|split; [discriminate|assumption]]); right; intros [[? ?]|[(? & ? & ?)|[? ?]]]; congruence.
Qed.

Lemma touched_files S A f ex f' t : (a_in_place A = true -> new_names S (a_paths A) f) -> handle S A f = (ex, f', t) ->
  if a_in_place A then match ex with Code _ => same_fs_but (a_paths A) f' f | Uncaught _ => exists tmp, same_fs_but (tmp :: a_paths A) f' f /\ (~ In tmp (a_paths A) -> f tmp = None) end
  else same_fs_but (a_outputs A) f' f.
Proof.
  intros HF. destruct (refused_dec A) as [HR|HR].
  - rewrite (refused_result S A f HR). intros [= <- <- <-]. destruct (a_in_place A); intros q _; reflexivity.
  - destruct (accepted S A f HR) as (jobs & -> & L & HJ). intros E. assert (HT := jobs_tgts A jobs L HJ). assert (HF' : fresh_for S A jobs f).
    { intros Hi g Hg. rewrite Hi in HT. apply (HF Hi). intros q Hq. apply Hg. intros Hx. exact (Hq (HT q Hx)). }
    apply loop_frame in E; [|exact HF']. destruct (a_in_place A).
    + destruct ex as [r|x]; [exact (but_more _ _ _ _ HT E)|]. destruct E as (tmp & E1 & E2). exists tmp. split; [|intros H; apply E2; intros Hx; exact (H (HT _ Hx))]. apply (but_more (tmp :: tgts A jobs)); [|exact E1]. intros q [<-|Hq]; [now left|right; now apply HT].
    + destruct ex as [r|x]; exact (but_more _ _ _ _ HT E).
Qed.

(** ** Every file as if it were alone *)
Lemma ordered_pairs {X} (P : X -> X -> Prop) l : (forall i j x y, (i < j)%nat -> nth_error l i = Some x -> nth_error l j = Some y -> P x y) -> ForallOrdPairs P l.
Proof.
  induction l as [|x l IH]; intros H; constructor.
  - apply Forall_forall. intros y Hy. apply In_nth_error in Hy as (j & Hj). now apply (H 0%nat (Datatypes.S j)); [lia| |].
  - apply IH. intros i j a b Hij Ha Hb. apply (H (Datatypes.S i) (Datatypes.S j)); [lia|exact Ha|exact Hb].
Qed.
Lemma Forall2_nth {X Y} (P : X -> Y -> Prop) a b i x : Forall2 P a b -> nth_error a i = Some x -> exists y, nth_error b i = Some y /\ P x y.
Proof. intros H. revert i. induction H as [|u v a b Huv H IH]; intros [|i]; cbn; try discriminate; [intros [= ->]; eauto|apply IH]. Qed.
Lemma Forall2_len {X Y} (P : X -> Y -> Prop) a b : Forall2 P a b -> List.length a = List.length b.
Proof. induction 1; cbn; congruence. Qed.
Lemma Forall2_snd {X Y} (P : X -> Y -> Prop) a b y : Forall2 P a b -> In y b -> exists x, In x a /\ P x y.
Proof. induction 1 as [|u v a b Huv H IH]; [intros []|]. intros [<-|Hy]; [exists u; split; [now left|exact Huv]|]. destruct (IH Hy) as (x & Hx & Px). exists x. split; [now right|exact Px]. Qed.

Lemma batch_alone S A f r f' t : (a_in_place A = true -> new_names S (a_paths A) f /\ NoDup (a_paths A)) ->
  (a_in_place A = false -> NoDup (a_outputs A) /\ forall o, In o (a_outputs A) -> ~ In o (a_paths A)) ->
  handle S A f = (Code r, f', t) -> r <> 1%nat ->
  exists ns ts, List.length ns = List.length (a_paths A) /\ List.length ts = List.length (a_paths A) /\ r = first_nonzero ns /\ t = concat ts /\
    forall i p, nth_error (a_paths A) i = Some p -> exists n u fa, nth_error ns i = Some n /\ nth_error ts i = Some u /\ handle S (alone A i p) f = (Code n, fa, u) /\
      (n = 0%nat \/ n = 2%nat /\ a_in_place A = true) /\ (a_in_place A = true \/ nth_error (a_outputs A) i <> None -> u = []) /\
      forall x, (if a_in_place A then x = p else nth_error (a_outputs A) i = Some x) -> f' x = fa x.
Proof.
  intros HI HO E Hr. destruct (refused_dec A) as [HR|HR]; [rewrite (refused_result S A f HR) in E; injection E as <- _ _; now elim Hr|].
  destruct (accepted S A f HR) as (jobs & E0 & L & HJ). rewrite E0 in E. clear E0. assert (HT := jobs_tgts A jobs L HJ). assert (HF : fresh_for S A jobs f).
  { intros Hi g Hg. rewrite Hi in HT. apply (proj1 (HI Hi)). intros q Hq. apply Hg. intros Hx. exact (Hq (HT q Hx)). }
  assert (HP : forall i j, nth_error jobs i = Some j -> exists p, nth_error (a_paths A) i = Some p /\ j = job_at A i p).
  { intros i j Hi. assert (Li : (i < List.length (a_paths A))%nat) by (rewrite <- L; apply nth_error_Some; congruence). destruct (nth_error (a_paths A) i) as [p|] eqn:Ep; [|apply nth_error_None in Ep; lia]. exists p. split; [reflexivity|]. specialize (HJ i p Ep). congruence. }
  assert (HA : ForallOrdPairs (apart A) jobs).
  { apply ordered_pairs. intros i j x y Hij Hx Hy. apply HP in Hx as (p & Hp & ->). apply HP in Hy as (q & Hq & ->). unfold apart, tgt, job_at. intros z. destruct (a_in_place A) eqn:Hi; cbn [fst snd].
    - intros [<-|[]]. destruct (HI eq_refl) as [_ ND]. assert (N : p <> q). { intros ->. assert (D : i = j); [|lia]. apply (proj1 (NoDup_nth_error _) ND); [apply nth_error_Some; congruence|congruence]. } split; [exact N|]. intros [E1|[]]. congruence.
    - destruct (HO eq_refl) as [ND HD]. destruct (nth_error (a_outputs A) i) as [o|] eqn:Eo; [|intros []]. intros [<-|[]]. split; [intros E1; apply (HD o); [exact (nth_error_In _ _ Eo)|rewrite E1; exact (nth_error_In _ _ Hq)]|].
      destruct (nth_error (a_outputs A) j) as [o'|] eqn:Eo'; [|intros []]. intros [E1|[]]. assert (D : i = j); [|lia]. apply (proj1 (NoDup_nth_error _) ND); [apply nth_error_Some; congruence|congruence]. }
  destruct (loop_alone S A jobs f 0 r f' t HF HA E Hr) as (rs & H1 & H2 & H3). assert (LR := Forall2_len _ _ _ H1). exists (map fst rs), (map snd rs).
  split; [rewrite map_length; exact (eq_trans (eq_sym LR) L)|]. split; [rewrite map_length; exact (eq_trans (eq_sym LR) L)|]. split; [exact H3|]. split; [exact H2|]. intros i p Hp.
  destruct (Forall2_nth _ _ _ i _ H1 (HJ i p Hp)) as ([n u] & Hi & Hn & fa & E1 & E2). cbn [fst snd] in *. exists n, u, fa. split; [rewrite nth_error_map, Hi; reflexivity|]. split; [rewrite nth_error_map, Hi; reflexivity|]. split.
  - rewrite (alone_loop S A i p f HR Hp), E1. destruct (Nat.eqb n 1); [reflexivity|]. now rewrite app_nil_r.
  - split; [destruct (run_codes S A f _ _ _ _ (fresh_ready S A jobs f HF) E1) as [H|[H|H]]; [now left|now elim Hn|now right]|]. split.
    { intros H. apply (run_silent S A _ _ _ _ _ E1). unfold tgt, job_at. cbn [fst snd]. destruct (a_in_place A); [discriminate|]. destruct H as [H|H]; [discriminate H|]. destruct (nth_error (a_outputs A) i); [discriminate|now elim H]. }
    intros x Hx. apply E2. unfold tgt, job_at. destruct (a_in_place A); cbn [fst snd]; [left; now symmetry|]. rewrite Hx. now left.
Qed.

Lemma all_zero ns : (forall i n, nth_error ns i = Some n -> n = 0%nat) -> first_nonzero ns = 0%nat.
Proof. induction ns as [|n ns IH]; intros H; [reflexivity|]. rewrite (H 0%nat n eq_refl). cbn. apply IH. intros i m Hm. exact (H (Datatypes.S i) m Hm). Qed.
Lemma all_nil (ts : list str) : (forall i u, nth_error ts i = Some u -> u = []) -> concat ts = [].
Proof. induction ts as [|u ts IH]; intros H; [reflexivity|]. rewrite (H 0%nat u eq_refl). cbn. apply IH. intros i v Hv. exact (H (Datatypes.S i) v Hv). Qed.
Lemma nth_same {X Y} (a : list X) (b : list Y) i y : List.length b = List.length a -> nth_error b i = Some y -> exists x, nth_error a i = Some x.
Proof. intros L H. destruct (nth_error a i) as [x|] eqn:E; [eauto|]. apply nth_error_None in E. assert (i < List.length b)%nat by (apply nth_error_Some; congruence). lia. Qed.

Lemma in_place_each S A f r f' t : a_in_place A = true -> NoDup (a_paths A) -> new_names S (a_paths A) f -> handle S A f = (Code r, f', t) -> r <> 1%nat ->
  exists ns, List.length ns = List.length (a_paths A) /\ r = first_nonzero ns /\ t = [] /\ same_fs_but (a_paths A) f' f /\
    forall i p, nth_error (a_paths A) i = Some p -> exists n fa, nth_error ns i = Some n /\ handle S (alone A i p) f = (Code n, fa, []) /\ f' p = fa p.
Proof.
  intros Hi ND HF E Hr. assert (T := touched_files S A f _ f' t (fun _ => HF) E). rewrite Hi in T. destruct (batch_alone S A f r f' t (fun _ => conj HF ND)) as (ns & ts & L1 & L2 & E1 & E2 & H); [congruence|exact E|exact Hr|].
  exists ns. split; [exact L1|]. split; [exact E1|]. split; [|split; [exact T|]].
  - rewrite E2. apply all_nil. intros i u Hu. destruct (nth_same (a_paths A) ts i u L2 Hu) as (p & Hp). destruct (H i p Hp) as (n & u' & fa & _ & Hu' & _ & _ & HS & _). assert (EU := eq_trans (eq_sym Hu) Hu'). injection EU as ->. apply HS. now left.
  - intros i p Hp. destruct (H i p Hp) as (n & u & fa & Hn & Hu & EA & _ & HS & HX). exists n, fa. split; [exact Hn|]. rewrite (HS (or_introl Hi)) in EA. split; [exact EA|]. apply HX. now rewrite Hi.
Qed.
Lemma outputs_each S A f r f' t : a_in_place A = false -> a_outputs A <> [] -> NoDup (a_outputs A) -> (forall o, In o (a_outputs A) -> ~ In o (a_paths A)) -> handle S A f = (Code r, f', t) -> r <> 1%nat ->
  r = 0%nat /\ t = [] /\ same_fs_but (a_outputs A) f' f /\
    forall i p o, nth_error (a_paths A) i = Some p -> nth_error (a_outputs A) i = Some o -> exists fa, handle S (alone A i p) f = (Code 0, fa, []) /\ f' o = fa o.
Proof.
  intros Hi HN ND HD E Hr. assert (T := touched_files S A f _ f' t ltac:(congruence) E). rewrite Hi in T. destruct (batch_alone S A f r f' t ltac:(congruence) (fun _ => conj ND HD) E Hr) as (ns & ts & L1 & L2 & E1 & E2 & H).
  assert (LO : List.length (a_outputs A) = List.length (a_paths A)).
  { destruct (Nat.eq_dec (List.length (a_outputs A)) (List.length (a_paths A))) as [e|n]; [exact e|]. assert (R : refused A) by (right; left; now repeat split). rewrite (refused_result S A f R) in E. injection E as <- _ _. now elim Hr. }
  split; [|split; [|split; [exact T|]]].
  - rewrite E1. apply all_zero. intros i n Hn. destruct (nth_same (a_paths A) ns i n L1 Hn) as (p & Hp). destruct (H i p Hp) as (n' & u & fa & Hn' & _ & _ & HC & _). rewrite Hn in Hn'. injection Hn' as ->. destruct HC as [HC|[_ HC]]; [exact HC|congruence].
  - rewrite E2. apply all_nil. intros i u Hu. destruct (nth_same (a_paths A) ts i u L2 Hu) as (p & Hp). destruct (H i p Hp) as (n & u' & fa & _ & Hu' & _ & _ & HS & _). assert (EU := eq_trans (eq_sym Hu) Hu'). injection EU as ->. apply HS. right.
    destruct (nth_same (a_outputs A) (a_paths A) i p (eq_sym LO) Hp) as (o & ->). discriminate.
  - intros i p o Hp Ho. destruct (H i p Hp) as (n & u & fa & _ & _ & EA & HC & HS & HX). exists fa. destruct HC as [->|[_ HC]]; [|congruence]. assert (NO : nth_error (a_outputs A) i <> None) by (intros EN; assert (EX := eq_trans (eq_sym Ho) EN); discriminate EX). rewrite (HS (or_intror NO)) in EA. split; [exact EA|]. apply HX. now rewrite Hi.
Qed.
Lemma stdout_each S A f ex f' t : a_in_place A = false -> a_outputs A = [] -> handle S A f = (ex, f', t) ->
  same_fs f' f /\ forall r, ex = Code r -> r <> 1%nat -> r = 0%nat /\ exists ts, List.length ts = List.length (a_paths A) /\ t = concat ts /\
    forall i p, nth_error (a_paths A) i = Some p -> exists u fa, nth_error ts i = Some u /\ handle S (alone A i p) f = (Code 0, fa, u).
Proof.
  intros Hi HO E. assert (T := touched_files S A f ex f' t ltac:(congruence) E). rewrite Hi, HO in T. split; [intros q; apply T; intros []|]. intros r -> Hr.
  destruct (batch_alone S A f r f' t ltac:(congruence) ltac:(intros _; rewrite HO; split; [constructor|intros o []]) E Hr) as (ns & ts & L1 & L2 & E1 & E2 & H). split.
  - rewrite E1. apply all_zero. intros i n Hn. destruct (nth_same (a_paths A) ns i n L1 Hn) as (p & Hp). destruct (H i p Hp) as (n' & u & fa & Hn' & _ & _ & HC & _). rewrite Hn in Hn'. injection Hn' as ->. destruct HC as [HC|[_ HC]]; [exact HC|congruence].
  - exists ts. split; [exact L2|]. split; [exact E2|]. intros i p Hp. destruct (H i p Hp) as (n & u & fa & _ & Hu & EA & HC & _). exists u, fa. split; [exact Hu|]. destruct HC as [->|[_ HC]]; [exact EA|congruence].
Qed.

(** ** Counterexamples *)
Definition semi_senv : senv := demo_senv (fun _ => Ok (Some (simple (mk_chars (Some SEMI) None None) false))).
Definition two_files : fs := upd (one_file (s2l "a;b")) 2%N (Some (s2l "c;d")).
(** [standardize -o 2 -o 3 1 2] *)
Definition chain : sargs := mk_sargs [1; 2]%N [] None false None [2; 3]%N false.
Lemma chain_differs : exists f' fa, handle semi_senv chain two_files = (Code 0, f', []) /\ handle semi_senv (alone chain 1 2%N) two_files = (Code 0, fa, []) /\
  NoDup (a_outputs chain) /\ f' 3%N = Some (s2l """a,b""" ++ [CR; LF]) /\ fa 3%N = Some (s2l "c,d" ++ [CR; LF]).
Proof.
  eexists _, _. split; [vm_compute; reflexivity|]. split; [vm_compute; reflexivity|]. split; [|split; reflexivity]. constructor; [intros [H|[]]; discriminate H|]. constructor; [intros []|constructor].
Qed.
(** A file with a NUL character, in place. *)
Lemma left_behind : exists f', handle semi_senv (mk_sargs [1%N] [] None true None [] false) (one_file (s2l "a;b" ++ [LF; NUL])) = (Uncaught (CleverError ENull), f', []) /\
  one_file (s2l "a;b" ++ [LF; NUL]) 99%N = None /\ f' 99%N = Some (s2l "a,b" ++ [CR; LF]) /\ f' 1%N = one_file (s2l "a;b" ++ [LF; NUL]) 1%N.
Proof. eexists. split; [vm_compute; reflexivity|]. repeat split. Qed.
Lemma chain_refutes : exists S A f f' fa, NoDup (a_outputs A) /\ NoDup (a_paths A) /\ a_in_place A = false /\
  handle S A f = (Code 0, f', []) /\ handle S (alone A 1 2%N) f = (Code 0, fa, []) /\ nth_error (a_outputs A) 1 = Some 3%N /\ f' 3%N <> fa 3%N.
Proof.
  destruct chain_differs as (f' & fa & E1 & E2 & ND & H1 & H2). exists semi_senv, chain, two_files, f', fa. split; [exact ND|]. split; [constructor; [intros [H|[]]; discriminate H|constructor; [intros []|constructor]]|].
  split; [reflexivity|]. split; [exact E1|]. split; [exact E2|]. split; [reflexivity|]. rewrite H1, H2. discriminate.
Qed.
Lemma leftover_refutes : exists S A f x f' tmp content, a_in_place A = true /\ handle S A f = (Uncaught x, f', []) /\
  f tmp = None /\ f' tmp = Some content /\ content <> [].
Proof.
  destruct left_behind as (f' & E & H1 & H2 & _). eexists semi_senv, _, _, _, f', 99%N, _. split; [|split; [exact E|]; split; [exact H1|]; split; [exact H2|discriminate]]. reflexivity.
Qed.
