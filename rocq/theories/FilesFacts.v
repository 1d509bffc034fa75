(** * FilesFacts *)
From Verif Require Import Base Parser Dialect CsvLib Reader Writer Files Wrappers Standardize
  SpecLayout SpecParse SpecFiles.

(** ** Chunked reading *)
Lemma sha_loop_chunks {H} (update : H -> bytes -> H) blk : (0 < blk)%nat ->
  forall fuel h rest, (length rest < fuel)%nat ->
  exists chunks, sha_loop update blk fuel h rest = Some (fold_left update chunks h) /\
    concat chunks = rest /\ Forall (fun c => c <> []) chunks.
Proof.
  intros Hb. induction fuel as [|f IH]; intros h rest Hl; [lia|]. cbn.
  destruct (firstn blk rest) as [|x buf] eqn:E.
  - exists []. split; [reflexivity|]. split; [|constructor]. destruct rest; [reflexivity|].
    destruct blk; [lia|]. discriminate.
  - assert (Hr : rest <> []) by (intros ->; now rewrite firstn_nil in E).
    destruct (IH (update h (x :: buf)) (skipn blk rest)) as (cs & H1 & H2 & H3).
    { rewrite skipn_length. assert (0 < length rest)%nat by (destruct rest; [congruence|cbn; lia]). lia. }
    exists ((x :: buf) :: cs). split; [exact H1|]. split; [|now constructor].
    cbn [concat]. rewrite H2, <- E. apply firstn_skipn.
Qed.

Theorem sha1sum_whole_file {H} (update : H -> bytes -> H) h0 digest file :
  (forall h a b, update (update h a) b = update h (a ++ b)) -> (forall h, update h [] = h) ->
  sha1sum update h0 digest file = Some (digest (update h0 file)).
Proof.
  intros H1 H2. unfold sha1sum.
  destruct (sha_loop_chunks update block_size) with (fuel := S (length file)) (h := h0) (rest := file)
    as (cs & E & Hc & _).
  { unfold block_size. lia. } { lia. }
  rewrite E. cbn. do 2 f_equal. subst file. clear E. revert h0.
  induction cs as [|c cs IH]; intros h0; cbn; [now rewrite H2|]. now rewrite IH, H1.
Qed.

Lemma enc_loop_chunks {D} (feed : D -> bytes -> D) done blk : (0 < blk)%nat ->
  forall fuel d rest, (length rest < fuel)%nat ->
  exists chunks later, enc_loop feed done blk fuel d rest = Some (fold_left feed chunks d) /\
    rest = concat chunks ++ later /\
    (later = [] \/ done (fold_left feed chunks d) = true) /\
    (forall a b, chunks = a ++ b -> b <> [] -> done (fold_left feed a d) = false) /\
    (forall c, In c chunks -> (length c <= blk)%nat).
Proof.
  intros Hb. induction fuel as [|f IH]; intros d rest Hl; [lia|]. cbn [enc_loop].
  destruct (done d) eqn:Ed.
  { exists [], rest. repeat split; auto. - intros [|] [|]; try discriminate. congruence. - intros c []. }
  destruct (Nat.ltb_spec (length (firstn blk rest)) blk) as [Hlt|Hge].
  - exists [firstn blk rest], []. rewrite firstn_length in Hlt.
    cbn [concat fold_left]. rewrite !app_nil_r.
    split; [reflexivity|]. split; [now rewrite firstn_all2 by lia|]. split; [now left|]. split.
    + intros [|x a] b E Hn; [exact Ed|]. injection E as <- E. destruct a, b; try discriminate. congruence.
    + intros c [<-|[]]. rewrite firstn_length. lia.
  - rewrite firstn_length in Hge.
    destruct (IH (feed d (firstn blk rest)) (skipn blk rest)) as (cs & later & H1 & H2 & H3 & H4 & H5).
    { rewrite skipn_length. lia. }
    exists (firstn blk rest :: cs), later. split; [exact H1|].
    split. { cbn [concat]. rewrite <- app_assoc, <- H2. symmetry. apply firstn_skipn. }
    split; [exact H3|]. split.
    + intros [|x a] b E Hn; [exact Ed|]. injection E as <- E. exact (H4 a b E Hn).
    + intros c [<-|Hc]; [rewrite firstn_length; lia|auto].
Qed.

Theorem get_encoding_chunks {D} (feed : D -> bytes -> D) done d0 result file :
  exists chunks later,
    get_encoding feed done d0 result file = result (fold_left feed chunks d0) /\
    file = concat chunks ++ later /\
    (later = [] \/ done (fold_left feed chunks d0) = true) /\
    (forall a b, chunks = a ++ b -> b <> [] -> done (fold_left feed a d0) = false).
Proof.
  unfold get_encoding.
  destruct (enc_loop_chunks feed done block_size) with (fuel := S (length file)) (d := d0) (rest := file)
    as (cs & later & H1 & H2 & H3 & H4 & _).
  { unfold block_size. lia. } { lia. }
  exists cs, later. rewrite H1. auto.
Qed.

(** ** Transposition *)
Section Zip.
  Context {A : Type}.
  Lemma zip_length {B} (a : list A) (b : list B) : length (zip a b) = Nat.min (length a) (length b).
  Proof. revert b. induction a as [|x a IH]; intros [|y b]; cbn; auto. Qed.
  Lemma nth_zip {B} (a : list A) (b : list B) j :
    nth_error (zip a b) j =
    match nth_error a j, nth_error b j with Some x, Some y => Some (x, y) | _, _ => None end.
  Proof.
    revert b j. induction a as [|x a IH]; intros [|y b] [|j]; cbn; auto.
    now destruct (nth_error a j).
  Qed.

  (** Column [j] exists exactly if every row has a cell [j], and then it is
      made of these cells. *)
  Lemma zip_star_col (rows : list (list A)) : rows <> [] -> forall j col,
    nth_error (zip_star rows) j = Some col <->
    map (fun r => nth_error r j) rows = map Some col.
  Proof.
    induction rows as [|r rows IH]; intros Hn j col; [congruence|]. destruct rows as [|r2 rows].
    - cbn [zip_star map]. rewrite nth_error_map. destruct (nth_error r j) as [x|] eqn:E; cbn.
      + split; [intros [= <-]; reflexivity|]. destruct col as [|y [|]]; cbn; congruence.
      + split; [discriminate|]. destruct col; cbn; congruence.
    - change (zip_star (r :: r2 :: rows))
        with (map (fun '(x, col) => x :: col) (zip r (zip_star (r2 :: rows)))).
      rewrite nth_error_map, nth_zip.
      specialize (IH ltac:(discriminate) j). cbn [map]. cbn [map] in IH.
      revert IH. generalize (zip_star (r2 :: rows)). intros z IH.
      generalize dependent (nth_error r2 j :: map (fun r => nth_error r j) rows). intros m IH.
      destruct (nth_error r j) as [x|]; destruct (nth_error z j) as [c|]; cbn [option_map]; split; intros H;
        try discriminate.
      + injection H as <-. cbn [map]. f_equal. now apply IH.
      + destruct col as [|y col]; [discriminate|]. cbn [map] in H. injection H as -> H.
        apply IH in H. congruence.
      + destruct col as [|y col]; [discriminate|]. cbn [map] in H. injection H as -> H.
        apply IH in H. congruence.
      + destruct col; discriminate.
      + destruct col; discriminate.
  Qed.

  Theorem zip_star_cell (n : nat) (t : list (list A)) i j : t <> [] -> rectangular n t ->
    cell_at (zip_star t) j i = cell_at t i j.
  Proof.
    intros Hn Hr. unfold cell_at.
    destruct (nth_error (zip_star t) j) as [col|] eqn:E.
    - apply zip_star_col in E; [|exact Hn].
      assert (H : nth_error (map (fun r => nth_error r j) t) i = nth_error (map Some col) i) by now rewrite E.
      rewrite !nth_error_map in H. destruct (nth_error t i), (nth_error col i); cbn in H; congruence.
    - destruct (nth_error t i) as [r|] eqn:E2; [|reflexivity].
      apply nth_error_In in E2 as Hin. symmetry. destruct (nth_error r j) as [x|] eqn:E3; [|reflexivity].
      exfalso. assert (Hj : (j < n)%nat).
      { rewrite <- (Hr r Hin). apply nth_error_Some. congruence. }
      assert (HC : exists col, map (fun r => nth_error r j) t = map Some col).
      { clear -Hr Hj. induction t as [|a t IH]; [now exists []|].
        destruct IH as [col Hc]; [intros r H; apply Hr; now right|].
        destruct (nth_error a j) as [y|] eqn:Ey.
        - exists (y :: col). cbn. now rewrite Ey, Hc.
        - apply nth_error_None in Ey. rewrite (Hr a (or_introl eq_refl)) in Ey. lia. }
      destruct HC as [col Hc]. apply zip_star_col in Hc; [congruence|exact Hn].
  Qed.

  Lemma zip_star_length (n : nat) (t : list (list A)) : t <> [] -> rectangular n t ->
    length (zip_star t) = n.
  Proof.
    induction t as [|r t IH]; intros Hn Hr; [congruence|]. destruct t as [|r2 t].
    - cbn. rewrite map_length. apply Hr. now left.
    - change (zip_star (r :: r2 :: t))
        with (map (fun '(x, col) => x :: col) (zip r (zip_star (r2 :: t)))).
      rewrite map_length, zip_length, IH; [|discriminate|intros x Hx; apply Hr; now right].
      rewrite (Hr r (or_introl eq_refl)). lia.
  Qed.
  Lemma zip_star_rect (t : list (list A)) : rectangular (length t) (zip_star t).
  Proof.
    intros col Hc. apply In_nth_error in Hc as [j Hj].
    destruct t as [|r t]; [now destruct j|].
    apply zip_star_col in Hj; [|discriminate]. rewrite <- (map_length Some col), <- Hj. apply map_length.
  Qed.

  Lemma nth_error_same {B} (s : list B) : forall t, (forall i, nth_error s i = nth_error t i) -> s = t.
  Proof.
    induction s as [|x s IH]; intros [|y t] H; auto.
    - specialize (H 0%nat). discriminate.
    - specialize (H 0%nat). discriminate.
    - pose proof (H 0%nat) as H0. cbn in H0. injection H0 as <-. f_equal. apply IH. intros i. exact (H (S i)).
  Qed.
  Lemma cell_at_ext (s t : list (list A)) m n : rectangular n s -> rectangular n t ->
    length s = m -> length t = m -> (forall i j, cell_at s i j = cell_at t i j) -> s = t.
  Proof.
    intros Hs Ht Ls Lt H. apply nth_error_same. intros i.
    destruct (nth_error s i) as [r|] eqn:E1, (nth_error t i) as [r'|] eqn:E2; auto.
    - f_equal. apply nth_error_same. intros j. specialize (H i j). unfold cell_at in H. now rewrite E1, E2 in H.
    - apply nth_error_None in E2. assert (i < length s)%nat by (apply nth_error_Some; congruence). lia.
    - apply nth_error_None in E1. assert (i < length t)%nat by (apply nth_error_Some; congruence). lia.
  Qed.

  Theorem zip_star_twice (n : nat) (t : list (list A)) : t <> [] -> (0 < n)%nat -> rectangular n t ->
    zip_star (zip_star t) = t.
  Proof.
    intros Hn Hp Hr. pose proof (zip_star_length n t Hn Hr) as HL.
    assert (Hn2 : zip_star t <> []) by (intros E; rewrite E in HL; cbn in HL; lia).
    apply (cell_at_ext _ _ (length t) n).
    - intros c Hc. rewrite (zip_star_rect (zip_star t) c Hc). exact HL.
    - exact Hr.
    - apply zip_star_length; [exact Hn2|apply zip_star_rect].
    - reflexivity.
    - intros i j. rewrite (zip_star_cell (length t)); [|exact Hn2|apply zip_star_rect].
      now apply (zip_star_cell n).
  Qed.

  (** With rows of different lengths the number of columns is the length of the
      shortest row; everything beyond is dropped. *)
  Theorem zip_star_shortest (t : list (list A)) r : In r t ->
    (length (zip_star t) <= length r)%nat.
  Proof.
    induction t as [|a t IH]; intros H; [destruct H|]. destruct t as [|b t].
    - destruct H as [<-|[]]. cbn. now rewrite map_length.
    - change (zip_star (a :: b :: t))
        with (map (fun '(x, col) => x :: col) (zip a (zip_star (b :: t)))).
      rewrite map_length, zip_length. destruct H as [<-|H]; [lia|].
      specialize (IH H). lia.
  Qed.
End Zip.
