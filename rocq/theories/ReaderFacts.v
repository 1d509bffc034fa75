(** * ReaderFacts *)
From Coq Require Import String.
From Verif Require Import Base Parser Dialect CsvLib Reader SpecLayout SpecParse SpecHistory ParserFacts.

Lemma rcall_line_num c r x r' : rcall_run c r = (x, r') ->
  r_line_num r' = (r_line_num r + if is_row x then 1 else 0)%nat.
Proof.
  assert (HI : forall limit h r r', reader_iter limit h r = Ok r' -> r_line_num r' = r_line_num r).
  { intros limit h r0 r1. unfold reader_iter. destruct (make_conf _ _ _ _ _ _); cbn; [|discriminate].
    now intros [= <-]. }
  destruct c as [limit h|limit h]; cbn [rcall_run].
  - unfold reader_next.
    destruct (match r_parser r with Some _ => Ok r | None => reader_iter limit h r end) as [r0|y] eqn:E.
    + assert (E0 : r_line_num r0 = r_line_num r).
      { destruct (r_parser r); [now injection E as <-|now apply HI in E]. }
      rewrite <- E0. destruct (r_parser r0) as [[cf o]|]; [|intros [= <- <-]; cbn; lia].
      destruct (iternext mem_ops cf o (r_rest r0)) as [[out o'] rest].
      destruct out as [row| |e]; [| |destruct e]; intros [= <- <-]; cbn; lia.
    + intros [= <- <-]. cbn. lia.
  - destruct (reader_iter limit h r) as [r0|y] eqn:E; intros [= <- <-]; cbn; [|lia].
    apply HI in E. lia.
Qed.

Lemma line_num_run cs : forall r xs r', run_calls cs r = (xs, r') ->
  r_line_num r' = (r_line_num r + length (filter is_row xs))%nat.
Proof.
  induction cs as [|c cs IH]; intros r xs r'; cbn [run_calls]; [intros [= <- <-]; cbn; lia|].
  destruct (rcall_run c r) as [x r1] eqn:E1. destruct (run_calls cs r1) as [ys r2] eqn:E2.
  intros [= <- <-]. apply rcall_line_num in E1. apply IH in E2. cbn [filter].
  destruct (is_row x); cbn [length] in *; lia.
Qed.

Theorem line_num_counts_rows reg h seq file dialect params r h' cs :
  new_reader reg h seq file dialect params = (Ok r, h') ->
  r_line_num (snd (run_calls cs r)) = length (filter is_row (fst (run_calls cs r))).
Proof.
  unfold new_reader. destruct (make_simple_dialect _ _ _ _) as [[a|y] h1]; [|discriminate].
  intros [= <- <-]. destruct (run_calls cs _) as [xs r'] eqn:E. apply line_num_run in E. exact E.
Qed.

Lemma next_seen limit h s items a n cf o :
  reader_next limit h (mk_reader s items a n (Some (cf, o))) =
  let '(out, o', rest) := iternext mem_ops cf o items in
  (seen out, mk_reader s rest a (n + match out with Row _ => 1 | _ => 0 end)%nat (Some (cf, o'))).
Proof.
  unfold reader_next. cbn [r_parser r_rest r_seq r_dialect r_line_num].
  destruct (iternext mem_ops cf o items) as [[out o'] rest].
  destruct out as [row| |e]; [| |destruct e]; cbn [seen]; rewrite ?Nat.add_0_r; try reflexivity.
  now replace (n + 1)%nat with (S n) by lia.
Qed.

Lemma nexts_seen cs : forall s items a n cf o,
  fst (run_calls (map (fun c => CallNext (fst c) (snd c)) cs) (mk_reader s items a n (Some (cf, o)))) =
  map seen (nexts_results mem_ops (length cs) cf o items).
Proof.
  induction cs as [|[l h] cs IH]; intros s items a n cf o; [reflexivity|].
  cbn [map run_calls rcall_run fst snd length]. rewrite next_seen. unfold nexts_results. cbn [nexts].
  destruct (iternext mem_ops cf o items) as [[out o'] rest].
  specialize (IH s rest a (n + match out with Row _ => 1 | _ => 0 end)%nat cf o').
  destruct (run_calls _ _) as [xs r2]. cbn [fst] in IH. subst xs. unfold nexts_results.
  destruct (nexts mem_ops (length cs) cf o' rest) as [[rs o''] rest']. reflexivity.
Qed.

(** The rows are those of one parser created at the first call, whatever
    happens to the limit and the dialect objects later. *)
Theorem reader_follows_parser reg h seq file dialect params r h' limit h1 later cf :
  new_reader reg h seq file dialect params = (Ok r, h') ->
  (let sd := deref h1 (r_dialect r) in
   make_conf limit (sd_delimiter sd) (sd_quotechar sd) (sd_escapechar sd) (sd_strict sd) false) = Ok cf ->
  fst (run_calls (CallNext limit h1 :: map (fun c => CallNext (fst c) (snd c)) later) r) =
  map seen (nexts_results mem_ops (S (length later)) cf new_parser file).
Proof.
  unfold new_reader. destruct (make_simple_dialect _ _ _ _) as [[a|y] h2]; [|discriminate].
  intros [= <- <-] Hcf. cbn [r_dialect] in Hcf. cbn zeta in Hcf.
  pose proof (nexts_seen ((limit, h1) :: later) (if seq then Some file else None) file a 0 cf new_parser) as H.
  cbn [length] in H. rewrite <- H. cbn [map fst snd run_calls rcall_run].
  assert (E : reader_next limit h1 (mk_reader (if seq then Some file else None) file a 0 None) =
              reader_next limit h1 (mk_reader (if seq then Some file else None) file a 0 (Some (cf, new_parser)))).
  { unfold reader_next at 1. cbn [r_parser]. unfold reader_iter. cbn [r_dialect r_seq r_rest r_line_num].
    rewrite Hcf. cbn [bind]. now destruct seq. }
  now rewrite E.
Qed.

Lemma drain_seen fuel : forall limit h s items a n cf o,
  reader_drain fuel limit h (mk_reader s items a n (Some (cf, o))) =
  let '(rows, e) := drain mem_ops fuel cf o items in (rows, py_ending e).
Proof.
  induction fuel as [|f IH]; intros; [reflexivity|]. cbn [reader_drain drain]. rewrite next_seen.
  destruct (iternext mem_ops cf o items) as [[out o'] rest].
  destruct out as [row| |e]; [| |destruct e]; cbn [seen]; try reflexivity.
  rewrite IH. now destruct (drain mem_ops f cf o' rest).
Qed.

Theorem reader_rows_parse_data reg h seq file dialect params r h' limit h1 :
  new_reader reg h seq file dialect params = (Ok r, h') ->
  reader_rows limit h1 r =
  parse_data limit file (Some (deref h1 (r_dialect r))) None None None None false.
Proof.
  unfold new_reader. destruct (make_simple_dialect _ _ _ _) as [[a|y] h2]; [|discriminate].
  intros [= <- <-]. unfold reader_rows, reader_iter, parse_data, parse_data_. cbn [r_dialect or_else].
  destruct (make_conf _ _ _ _ _ _) as [cf|]; cbn [bind]; [|reflexivity].
  cbn [r_seq r_rest r_line_num]. replace (match (if seq then Some file else None) with Some items => items | None => file end)
    with file by now destruct seq.
  now rewrite drain_seen.
Qed.

(** ** C14 *)
Lemma store_other h a b sd : a <> b -> deref (store h a sd) b = deref h b.
Proof.
  unfold deref. revert a b. induction h as [|x h IH]; intros [|a] [|b] H; cbn; auto; try congruence.
Qed.
Lemma store_same h a sd : (a < length h)%nat -> deref (store h a sd) a = sd.
Proof.
  unfold deref. revert a. induction h as [|x h IH]; intros [|a] H; cbn in *; try lia; auto.
  apply IH. lia.
Qed.
Lemma store_length h a sd : length (store h a sd) = length h.
Proof. revert a. induction h; intros [|a0]; cbn; auto. Qed.
Lemma store_id h a : store h a (deref h a) = h.
Proof.
  unfold deref. revert a. induction h as [|x h IH]; intros [|a]; cbn; auto. now rewrite IH.
Qed.
Lemma store_app h x sd : store (h ++ [x]) (length h) sd = h ++ [sd].
Proof. induction h; cbn; auto. now rewrite IHh. Qed.

Theorem simple_argument_is_updated reg h a params res h' : (a < length h)%nat ->
  make_simple_dialect reg h (DSimple a) params = (res, h') ->
  deref h' a = fold_left set_param params (deref h a) /\
  (forall b, b <> a -> deref h' b = deref h b) /\
  res = (if validate (fold_left set_param params (deref h a)) then Ok a else Err ValueError).
Proof.
  intros Ha. unfold make_simple_dialect. cbn [fst snd].
  destruct (validate _) eqn:E; intros [= <- <-]; (split; [now apply store_same|]; split; auto;
    intros b Hb; apply store_other; congruence).
Qed.

Theorem other_arguments_leave_objects reg h dialect params res h' :
  (forall a, dialect <> DSimple a) ->
  make_simple_dialect reg h dialect params = (res, h') ->
  forall b, (b < length h)%nat -> deref h' b = deref h b.
Proof.
  intros Hd. unfold make_simple_dialect.
  assert (G : forall sd, forall b, (b < length h)%nat ->
     deref (store (h ++ [sd]) (length h) (fold_left set_param params (deref (h ++ [sd]) (length h)))) b = deref h b).
  { intros sd b Hb. rewrite store_other by lia. unfold deref. now rewrite app_nth1. }
  assert (K : forall d, (let '(start, h1) :=
      match from_csv_dialect d with Err x => (Err x, h) | Ok sd => (Ok (length h), h ++ [sd]) end in
    match start with
    | Err x => (Err x, h1)
    | Ok a => let sd := fold_left set_param params (deref h1 a) in
        let h2 := store h1 a sd in if validate sd then (Ok a, h2) else (Err ValueError, h2)
    end) = (res, h') -> forall b, (b < length h)%nat -> deref h' b = deref h b).
  { intros d. destruct (from_csv_dialect d) as [sd|x]; cbn zeta.
    - destruct (validate _); intros [= <- <-]; apply G.
    - intros [= <- <-]. auto. }
  destruct dialect; try (intros [= <- <-]; now auto); try congruence; auto.
  - destruct (reg name) as [d|]; [apply K|intros [= <- <-]; auto].
  - apply K.
  - exfalso. now apply (Hd a).
Qed.

Theorem no_params_no_change reg h a h' res :
  make_simple_dialect reg h (DSimple a) [] = (res, h') -> h' = h.
Proof.
  unfold make_simple_dialect. cbn. rewrite store_id. destruct (validate _); now intros [= <- <-].
Qed.

Theorem instance_without_strict reg h d params : cv_strict d = None ->
  make_simple_dialect reg h (DInstance d) params = (Err AttributeError, h).
Proof. intros H. unfold make_simple_dialect, from_csv_dialect. now rewrite H. Qed.

Definition shared_file := [ILine (s2l "a;b,c")].
Theorem shared_object_changes :
  exists (h : heap) (a : addr) (p : fmtparam) r1 r2 h1 h2,
    new_reader std_registry h false shared_file (DSimple a) [] = (Ok r1, h1) /\
    new_reader std_registry h1 false shared_file (DSimple a) [p] = (Ok r2, h2) /\
    deref h2 a <> deref h a /\
    reader_rows 100 h1 r1 = ([[CStr (s2l "a;b"); CStr (s2l "c")]], None) /\
    reader_rows 100 h2 r1 = ([[CStr (s2l "a"); CStr (s2l "b,c")]], None).
Proof.
  exists [dialect3 [COMMA] [DQ] []], 0%nat, (KDelimiter (Some [SEMI])). do 4 eexists.
  split; [reflexivity|]. split; [reflexivity|]. split; [|split; vm_compute; reflexivity].
  cbn. discriminate.
Qed.
