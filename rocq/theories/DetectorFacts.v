(** * DetectorFacts: has_header (C49) *)
From Coq Require Import Permutation.
From Verif Require Import Base Parser Dialect CsvLib Reader SpecLayout SpecParse SpecHistory ParserFacts ParserProps ReaderFacts
  Potential SpecPotential NormalForm Consistency SpecConsistency Detect SpecDetect.

Definition strs (row : list str) : list cell := map CStr row.

Section Loop.
Variable cast : pytype -> str -> option pyexc.

(** The loop over a list of rows without the limit. *)
Fixpoint check_all (columns : nat) (rows : list (list cell)) (m : coltypes) : res pyexc coltypes :=
  match rows with
  | [] => Ok m
  | row :: rows' =>
      if negb (Nat.eqb (List.length row) columns) then check_all columns rows' m
      else bind (check_row cast row m) (check_all columns rows')
  end.

Lemma check_rows_drain limit h s a max columns fuel : forall items n cf o checked m rows e,
  drain mem_ops fuel cf o items = (rows, e) -> e <> OutOfFuel ->
  check_rows cast fuel limit h (mk_reader s items a n (Some (cf, o))) max checked columns m =
  let k := Z.to_nat (max + 1 - checked) in
  bind (check_all columns (firstn k rows) m) (fun m =>
  if Nat.ltb k (List.length rows) then Ok m
  else match py_ending e with None => Ok m | Some x => Err x end).
Proof.
  induction fuel as [|f IH]; intros items n cf o checked m rows e HD HE; cbn [drain] in HD.
  { injection HD as _ <-. congruence. }
  cbn [check_rows]. rewrite next_seen.
  destruct (iternext mem_ops cf o items) as [[out o'] rest].
  destruct out as [row| |x].
  - destruct (drain mem_ops f cf o' rest) as [rows' e'] eqn:E. injection HD as <- <-. cbn [seen].
    destruct (max <? checked)%Z eqn:L.
    + apply Z.ltb_lt in L. replace (Z.to_nat (max + 1 - checked)) with 0%nat by lia. reflexivity.
    + apply Z.ltb_ge in L. replace (Z.to_nat (max + 1 - checked)) with (S (Z.to_nat (max + 1 - (checked + 1)))) by lia.
      cbn zeta. cbn [firstn check_all List.length].
      change (Nat.ltb (S (Z.to_nat (max + 1 - (checked + 1)))) (S (List.length rows')))
        with (Nat.ltb (Z.to_nat (max + 1 - (checked + 1))) (List.length rows')).
      destruct (negb _).
      * now rewrite (IH _ _ _ _ _ _ _ _ E HE).
      * destruct (check_row cast row m) as [m'|x]; cbn [bind]; [|reflexivity].
        now rewrite (IH _ _ _ _ _ _ _ _ E HE).
  - injection HD as <- <-. cbn [seen]. rewrite firstn_nil. cbn zeta. reflexivity.
  - injection HD as <- <-. rewrite firstn_nil. destruct x; reflexivity.
Qed.
End Loop.

(** ** Counting *)
Section Count.
Variable accepts : pytype -> str -> bool.
Local Notation cast := (cast_of accepts).

Lemma this_type_kind s : this_type cast [TInt; TFloat; TComplex] s = Ok (kind accepts s).
Proof. unfold kind. cbn. unfold cast_of. destruct (accepts TInt s), (accepts TFloat s), (accepts TComplex s); reflexivity. Qed.

(** What is stored for a column: nothing ([None]) after it was deleted. *)
Definition cstep (i : nat) (st : option (option coltype)) (row : list str) : option (option coltype) :=
  match st with
  | None => None
  | Some None => Some (Some (kind accepts (nth i row [])))
  | Some (Some t) => if coltype_eqb (kind accepts (nth i row [])) t then st else None
  end.
Definition entries (st : nat -> option (option coltype)) (l : list nat) : coltypes :=
  flat_map (fun i => match st i with Some x => [(i, x)] | None => [] end) l.

Lemma check_row_entries row st : forall l, (forall i, In i l -> (i < List.length row)%nat) ->
  check_row cast (strs row) (entries st l) = Ok (entries (fun i => cstep i (st i) row) l).
Proof.
  induction l as [|i l IH]; intros H; [reflexivity|].
  unfold entries in *. cbn [flat_map]. specialize (IH (fun j Hj => H j (or_intror Hj))).
  assert (Hi := H i (or_introl eq_refl)).
  destruct (st i) as [x|]; cbn [app]; [|exact IH].
  cbn [check_row]. unfold strs. rewrite nth_error_map, (nth_error_nth' row [] Hi). cbn [option_map cell_text].
  rewrite this_type_kind. cbn [bind]. fold (strs row). rewrite IH. cbn [bind cstep].
  destruct x as [t|]; [|reflexivity]. now destruct (coltype_eqb _ t).
Qed.

Definition regular (n : nat) (rows : list (list str)) := filter (fun r => Nat.eqb (List.length r) n) rows.

Lemma check_all_entries n rows : forall st,
  check_all cast n (map strs rows) (entries st (seq 0 n)) =
  Ok (entries (fun i => fold_left (cstep i) (regular n rows) (st i)) (seq 0 n)).
Proof.
  induction rows as [|row rows IH]; intros st; [reflexivity|].
  cbn [map check_all regular filter]. unfold strs at 1. rewrite map_length.
  destruct (Nat.eqb (List.length row) n) eqn:E; cbn [negb]; [|apply IH].
  apply Nat.eqb_eq in E. rewrite check_row_entries.
  - cbn [bind]. rewrite IH. reflexivity.
  - intros i Hi. apply in_seq in Hi. lia.
Qed.

(** The vote for a stored entry. *)
Definition ovote (header : list str) (i : nat) (st : option (option coltype)) : Z :=
  match st with
  | None => 0
  | Some None => 1
  | Some (Some (TLen n)) => if Nat.eqb (List.length (nth i header [])) n then -1 else 1
  | Some (Some (TType t)) => if accepts t (nth i header []) then -1 else 1
  end%Z.
Lemma count_votes_entries header st : forall l v, (forall i, In i l -> (i < List.length header)%nat) ->
  count_votes cast (strs header) (entries st l) v =
  Ok (v + fold_right Z.add 0 (map (fun i => ovote header i (st i)) l))%Z.
Proof.
  induction l as [|i l IH]; intros v H; [cbn; f_equal; lia|].
  specialize (fun v => IH v (fun j Hj => H j (or_intror Hj))).
  assert (Hi := H i (or_introl eq_refl)). unfold entries in *. cbn [flat_map map fold_right].
  destruct (st i) as [x|]; cbn [app].
  - cbn [count_votes]. unfold strs. rewrite nth_error_map, (nth_error_nth' header [] Hi). cbn [option_map cell_text].
    fold (strs header). destruct x as [[t|n]|]; cbn [ovote].
    + unfold cast_of. destruct (accepts t _); rewrite IH; f_equal; lia.
    + rewrite IH. destruct (Nat.eqb _ n); f_equal; lia.
    + rewrite IH. f_equal. lia.
  - rewrite IH. cbn [ovote]. f_equal.
Qed.

(** *** The votes are those of the specification *)
Lemma coltype_eqb_iff a b : coltype_eqb a b = true <-> a = b.
Proof.
  destruct a as [[]|n], b as [[]|m]; cbn; try (split; congruence).
  rewrite Nat.eqb_eq. split; congruence.
Qed.
Lemma fold_deleted i rows : fold_left (cstep i) rows None = None.
Proof. induction rows; auto. Qed.
Lemma fold_kind i t rows : 
  (fold_left (cstep i) rows (Some (Some t)) = Some (Some t) /\ forall r, In r rows -> kind accepts (nth i r []) = t) \/
  (fold_left (cstep i) rows (Some (Some t)) = None /\ exists r, In r rows /\ kind accepts (nth i r []) <> t).
Proof.
  induction rows as [|r rows IH]; [left; split; [reflexivity|intros ? []]|]. cbn [fold_left cstep].
  destruct (coltype_eqb (kind accepts (nth i r [])) t) eqn:E.
  - apply coltype_eqb_iff in E. destruct IH as [[-> H]|[-> (r' & H & H')]].
    + left. split; [reflexivity|]. intros r' [<-|Hr]; auto.
    + right. split; [reflexivity|]. exists r'. split; [now right|auto].
  - right. rewrite fold_deleted. split; [reflexivity|]. exists r. split; [now left|].
    intros E'. apply coltype_eqb_iff in E'. congruence.
Qed.
Lemma ovote_vote header i rows :
  vote accepts header rows i (ovote header i (fold_left (cstep i) rows (Some None))).
Proof.
  destruct rows as [|r rows]; [now left|]. right. cbn [fold_left cstep].
  destruct (fold_kind i (kind accepts (nth i r [])) rows) as [[-> H]|[-> (r' & H & H')]].
  - left. exists (kind accepts (nth i r [])). split; [discriminate|]. split; [intros r' [<-|Hr]; auto|].
    destruct (kind accepts (nth i r [])) as [t|n]; cbn [ovote fits].
    + destruct (accepts t _); [now left|right; now split].
    + destruct (Nat.eqb _ n) eqn:E; [apply Nat.eqb_eq in E; now left|apply Nat.eqb_neq in E; now right].
  - right. exists r', r. cbn. repeat split; auto.
Qed.

Lemma check_and_count header rows :
  exists m v b, check_all cast (List.length header) (map strs rows) (map (fun i => (i, None)) (seq 0 (List.length header))) = Ok m /\
    count_votes cast (strs header) m 0 = Ok v /\ b = (0 <? v)%Z /\ header_vote accepts header rows b.
Proof.
  set (n := List.length header).
  replace (map (fun i => (i, None)) (seq 0 n)) with (entries (fun _ => Some None) (seq 0 n)).
  2:{ unfold entries. induction (seq 0 n); cbn; congruence. }
  rewrite check_all_entries. eexists _, _, _. split; [reflexivity|].
  rewrite count_votes_entries by (intros i Hi; apply in_seq in Hi; fold n; lia).
  split; [reflexivity|]. split; [reflexivity|]. cbn zeta.
  eexists. split; [|rewrite Z.ltb_lt, Z.add_0_l; reflexivity].
  fold n. fold (regular n rows). induction (seq 0 n); cbn [map]; constructor; auto. apply ovote_vote.
Qed.
End Count.
