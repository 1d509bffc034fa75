(** * NormalParse: parsing files in normal form (C41, C42) *)
From Coq Require Import String.
From Verif Require Import Base Parser Dialect SpecLayout SpecParse Potential SpecPotential PotentialFacts MaskedFacts SpecTies TieRules
  LayoutFacts ParserLift SpecText LayoutMore NormalForm SpecNormal NormalFacts NormalRows NormalForms.

(** ** Terminators at the end *)
Definition terms (a b : nat) : list eol :=
  match a, b with
  | S a', S b' => repeat ECR a' ++ ECRLF :: repeat ELF b'
  | _, 0 => repeat ECR a
  | 0, _ => repeat ELF b
  end.
Lemma repeat_snoc {A} (x : A) n r : repeat x n ++ x :: r = x :: repeat x n ++ r.
Proof. induction n as [|n IH]; [reflexivity|]. cbn. now rewrite IH. Qed.
Lemma terms_text a b : List.concat (map render_eol (terms a b)) = repeat CR a ++ repeat LF b.
Proof.
  assert (H1 : forall n, List.concat (map render_eol (repeat ECR n)) = repeat CR n)
    by (induction n as [|n IH]; [reflexivity|cbn; now rewrite IH]).
  assert (H2 : forall n, List.concat (map render_eol (repeat ELF n)) = repeat LF n)
    by (induction n as [|n IH]; [reflexivity|cbn; now rewrite IH]).
  destruct a as [|a], b as [|b].
  - reflexivity.
  - apply H2.
  - unfold terms. rewrite H1. now rewrite app_nil_r.
  - unfold terms. rewrite map_app, concat_app, H1. cbn [map List.concat render_eol]. rewrite H2. cbn [repeat app].
    apply repeat_snoc.
Qed.
(** No CR directly before LF. *)
Fixpoint terms_ok (l : list eol) : bool :=
  match l with
  | ECR :: (ELF :: _) => false
  | _ :: l' => terms_ok l'
  | [] => true
  end.
Lemma terms_ok_terms a b : terms_ok (terms a b) = true.
Proof.
  assert (H1 : forall n, terms_ok (repeat ECR n) = true) by (induction n as [|[|n] IH]; [reflexivity|reflexivity|exact IH]).
  assert (H2 : forall n, terms_ok (repeat ELF n) = true) by (induction n as [|n IH]; [reflexivity|exact IH]).
  destruct a as [|a], b as [|b]; [reflexivity|apply H2|apply (H1 (S a))|].
  unfold terms. induction a as [|a IH]; [apply H2|]. destruct a as [|a]; exact IH.
Qed.
Lemma wf_blank D ts : terms_ok ts = true -> wf_records D (map (fun t => ([], t)) ts) = true.
Proof.
  induction ts as [|t ts IH]; intros H; [reflexivity|]. cbn [map wf_records wf_row forallb andb].
  assert (H' : terms_ok ts = true).
  { destruct t; cbn in H; try exact H. destruct ts as [|[| |] ts]; [reflexivity|discriminate|exact H|exact H]. }
  rewrite (IH H'), andb_true_r. destruct t; try reflexivity. destruct ts as [|[| |] ts]; [reflexivity|discriminate|reflexivity|reflexivity].
Qed.

Lemma join_snoc sep pre x : join sep (pre ++ [x]) = List.concat (map (fun l => l ++ sep) pre) ++ x.
Proof.
  induction pre as [|y pre IH]; [reflexivity|]. cbn [app map List.concat].
  rewrite join_cons by (destruct pre; discriminate). now rewrite IH, <- !app_assoc.
Qed.
Lemma no_esc_nl D ps : ce D = None -> forallb (wf_piece D) ps = true -> after_esc_nl false ps = false.
Proof.
  intros He. induction ps as [|p ps IH]; [reflexivity|]. cbn [forallb]. intros H. apply andb_true_iff in H as [H1 H2].
  destruct p; cbn [after_esc_nl]; auto. cbn in H1. rewrite He in H1. discriminate.
Qed.

(** ** A file whose lines are rows *)
Definition line_row (D : chars) (l : str) (cells : list (list piece)) : Prop :=
  l = render_row D cells /\ wf_row D cells = true /\ (l = [] -> cells = []).

Lemma lines_rows D lines rows : Forall2 (line_row D) lines rows ->
  lines = map (render_row D) rows /\ forallb (wf_row D) rows = true.
Proof.
  intros H. induction H as [|l r lines rows (H1 & H2 & _) HF IH]; [split; reflexivity|].
  destruct IH as [-> IH]. cbn. rewrite H1, H2, IH. split; reflexivity.
Qed.
Lemma map_records D e pre : List.concat (map (render_record D) (map (fun c => (c, e)) pre)) =
  List.concat (map (fun l => l ++ render_eol e) (map (render_row D) pre)).
Proof. induction pre as [|c pre IH]; [reflexivity|]. cbn. now rewrite IH. Qed.
Lemma wf_app_records D e pre rest : forallb (wf_row D) pre = true -> wf_records D rest = true ->
  (e = ECR -> match rest with ([], ELF) :: _ => False | _ => True end) ->
  wf_records D (map (fun c => (c, e)) pre ++ rest) = true.
Proof.
  induction pre as [|c pre IH]; intros H1 H2 H3; [exact H2|]. cbn [forallb] in H1. apply andb_true_iff in H1 as [H0 H1].
  cbn [map app wf_records]. rewrite H0, (IH H1 H2 H3). cbn [andb]. rewrite andb_true_r.
  destruct e; try reflexivity. destruct pre as [|c' pre]; cbn [map app].
  - specialize (H3 eq_refl). destruct rest as [|[[|] [| |]] rest]; try reflexivity. destruct H3.
  - now destruct c'.
Qed.

Lemma file_parse D data lines rows limit rq : wf_chars D = true -> ce D = None ->
  file_lines data lines -> lines <> [[]] -> Forall2 (line_row D) lines rows ->
  (Z.of_nat (List.length data) < limit)%Z ->
  exists k, parse_string limit data (simple D false) rq = (mk_rows rq (map (row_value D) rows ++ repeat [] k), None).
Proof.
  intros HD He (s & a & b & eol & Hdata & Hcr & Hlf & Hne & Hs & _ & Heol) Hnb HF HL.
  assert (Hrne : rows <> []) by (intros ->; inversion HF; subst; congruence).
  destruct (exists_last Hrne) as (pre & r & ->). apply Forall2_app_inv_r in HF as (pre_l & l1 & HF1 & HF2 & ->).
  inversion HF2 as [|l r' l0 rs (Hl & Hw & Hb) HF0]; subst. inversion HF0; subst. clear HF2 HF0.
  destruct (lines_rows D pre_l pre HF1) as [-> Hpw].
  assert (Ke : exists e, eol = render_eol e) by (destruct Heol as [(-> & _)|[(-> & _)|(-> & _)]]; [exists ECRLF|exists ELF|exists ECR]; reflexivity).
  destruct Ke as [e ->]. rewrite join_snoc in *.
  (* a blank last line *)
  assert (Kb : r = [] -> e <> ECR /\ terms a b <> []).
  { intros ->. cbn [render_row map join] in *. rewrite app_nil_r in *.
    destruct pre as [|c pre _] using rev_ind; [now elim Hnb|].
    rewrite !map_app, concat_app in *. cbn [map List.concat] in *. rewrite app_nil_r, app_assoc in *. split.
    - intros ->. eapply Hcr. reflexivity.
    - destruct a; [|destruct b; [discriminate|destruct a; discriminate]]. exfalso.
      destruct e; cbn [render_eol] in *.
      + eapply (Hlf eq_refl). reflexivity.
      + eapply Hcr. reflexivity.
      + eapply (Hlf eq_refl). change [CR; LF] with ([CR] ++ [LF]). rewrite app_assoc. reflexivity. }
  set (d := match terms a b with
            | [] => mk_doc (map (fun c => (c, e)) pre) (TRow r)
            | t :: ts => mk_doc (map (fun c => (c, e)) pre ++ (r, t) :: map (fun t => ([], t)) ts) TEnd
            end).
  assert (Hr : render D d = (List.concat (map (fun l => l ++ render_eol e) (map (render_row D) pre)) ++ render_row D r) ++
                            repeat CR a ++ repeat LF b).
  { rewrite <- terms_text. unfold d. destruct (terms a b) as [|t ts]; unfold render; cbn [records last render_tail].
    - rewrite map_records. cbn [map List.concat]. now rewrite app_nil_r.
    - rewrite map_app, concat_app, map_records. cbn [map List.concat]. rewrite app_nil_r.
      unfold render_record at 1. cbn [fst snd]. rewrite <- !app_assoc. do 3 f_equal.
      clear. induction ts as [|t ts IH]; [reflexivity|]. cbn. now rewrite IH. }
  assert (Hwf : wf_doc D d = true).
  { unfold d. pose proof (terms_ok_terms a b) as Ht. destruct (terms a b) as [|t ts]; unfold wf_doc; cbn [records last wf_tail].
    - assert (Hx : r <> []) by (intros Hr0; now apply Kb in Hr0 as [_ Hx]).
      rewrite Hw. destruct r; [congruence|]. cbn [andb]. rewrite andb_true_r.
      rewrite <- (app_nil_r (map _ pre)). now apply wf_app_records.
    - rewrite andb_true_r. apply wf_app_records; [exact Hpw| |].
      + cbn [wf_records]. rewrite Hw. cbn [andb].
        assert (Hts : terms_ok ts = true).
        { destruct t; cbn in Ht; try exact Ht. destruct ts as [|[| |] ts]; [reflexivity|discriminate|exact Ht|exact Ht]. }
        rewrite (wf_blank D ts Hts), andb_true_r. destruct t; try reflexivity.
        destruct ts as [|[| |] ts]; [reflexivity|discriminate|reflexivity|reflexivity].
      + intros ->. destruct r as [|]; [|exact I]. destruct (Kb eq_refl) as [Kx _]. congruence. }
  rewrite <- Hr.
  assert (Hfit : Forall (fun s => Z.of_nat (List.length s) <= limit)%Z (raw_cells D d)).
  { apply Forall_forall. intros x Hx. apply raw_cells_bound in Hx. rewrite <- Hr in HL. lia. }
  exists (match terms a b with [] => 0 | t :: ts => List.length ts end).
  rewrite (parse_string_layout D d limit rq HD Hwf Hfit). f_equal. f_equal.
  unfold d, denote. destruct (terms a b) as [|t ts]; cbn [records last].
  - rewrite map_map. cbn [fst]. cbn [repeat]. rewrite app_nil_r, map_app. f_equal. cbn [map tail_value].
    assert (Hx : r <> []) by (intros Hr0; now apply Kb in Hr0 as [_ Hx]).
    destruct (exists_last Hx) as (r0 & ps & ->). rewrite removelast_last, last_last.
    unfold row_value. rewrite map_app. cbn [map]. rewrite (no_esc_nl D ps He); [reflexivity|].
    unfold wf_row in Hw. apply andb_true_iff in Hw as [Hw _]. rewrite forallb_app in Hw. apply andb_true_iff in Hw as [_ Hw].
    cbn in Hw. rewrite andb_true_r in Hw. unfold wf_cell in Hw. now apply andb_true_iff in Hw as [Hw _].
  - cbn [tail_value]. rewrite app_nil_r, !map_app, map_map. cbn [map fst]. rewrite <- app_assoc. cbn [app].
    apply (f_equal2 (@app _)); [reflexivity|]. apply (f_equal2 (@cons _)); [reflexivity|].
    clear. induction ts as [|t ts IH]; [reflexivity|]. cbn [map List.length repeat]. rewrite IH. reflexivity.
Qed.

(** ** Form 2 *)
Lemma elementary_ok c : In c elementary -> (c =? NUL)%N = false /\ is_nl c = false.
Proof.
  assert (H : forallb (fun c => negb (c =? NUL)%N && negb (is_nl c)) elementary = true) by (vm_compute; reflexivity).
  rewrite forallb_forall in H. intros Hc. specialize (H c Hc). apply andb_true_iff in H as [H1 H2].
  now rewrite negb_true_iff in H1, H2.
Qed.
Lemma render_plain D s : render_cell D (map PChar s) = s.
Proof. unfold render_cell. induction s as [|c s IH]; [reflexivity|]. cbn in *. now rewrite IH. Qed.
Lemma wf_plain D s : Forall (fun c => (c =? NUL)%N = false /\ is_nl c = false /\ special D c = false) s ->
  wf_cell D (map PChar s) = true.
Proof.
  intros H. unfold wf_cell. induction H as [|c s (H1 & H2 & H3) HF IH]; [reflexivity|].
  cbn [map forallb wf_piece no_adjacent]. rewrite H1, H2, H3. cbn [negb andb]. exact IH.
Qed.
Lemma over_plain D s : over elementary s -> Forall (fun c => special D c = false) s -> wf_cell D (map PChar s) = true.
Proof.
  intros H1 H2. apply wf_plain. unfold over in H1. rewrite Forall_forall in *. intros c Hc.
  destruct (elementary_ok c (H1 c Hc)) as [E1 E2]. auto.
Qed.
Lemma render_quoted D q s : cq D = Some q -> render_cell D [PQuoted (map QChar s)] = quoted q s.
Proof.
  intros H. unfold render_cell. cbn [map List.concat render_piece]. rewrite H. cbn [opt_str app]. rewrite app_nil_r.
  unfold quoted. do 2 f_equal. unfold render_qitems. induction s as [|c s IH]; [reflexivity|]. cbn in *. now rewrite IH.
Qed.
Lemma wf_quoted D q s : cq D = Some q -> ce D = None -> ~ In q s -> ~ In NUL s ->
  wf_cell D [PQuoted (map QChar s)] = true.
Proof.
  intros Hq He H1 H2. unfold wf_cell. cbn [forallb wf_piece no_adjacent]. rewrite Hq. cbn [is_set andb].
  rewrite !andb_true_r. apply forallb_forall. intros i Hi. apply in_map_iff in Hi as (c & <- & Hc). cbn [wf_qitem].
  rewrite Hq, He. cbn [is_opt]. rewrite (proj2 (N.eqb_neq c NUL)) by (intros ->; auto).
  rewrite (proj2 (N.eqb_neq c q)) by (intros ->; auto). reflexivity.
Qed.
Lemma quoted_value D q s : cq D = Some q -> cell_value D [PQuoted (map QChar s)] = (s, true).
Proof.
  intros H. rewrite cell_value_quoted by now rewrite H. f_equal. unfold qitems_value.
  induction s as [|c s IH]; [reflexivity|]. cbn in *. now rewrite IH.
Qed.
Lemma join_nonempty (d : N) (cells : list str) : 2 <= List.length cells -> join [d] cells <> [].
Proof.
  destruct cells as [|x [|y cells]]; cbn [List.length]; [lia|lia|]. intros _. rewrite join_cons by discriminate.
  destruct x; discriminate.
Qed.
Lemma map_eq_id {A B} (f : A -> B) (g : A -> B) l : (forall x, In x l -> f x = g x) -> map f l = map g l.
Proof. apply map_ext_in. Qed.

Lemma form2_table d lines : form2 d lines -> exists n table, 2 <= n /\ lines = map (join [d]) table /\
  Forall (fun r => List.length r = n) table /\ Forall (Forall (fun c => over elementary c /\ ~ In d c)) table.
Proof.
  intros (_ & n & Hn & H). exists n. induction H as [|l lines (cells & H1 & H2 & H3) HF IH].
  - exists []. repeat split; auto.
  - destruct IH as (table & _ & -> & I2 & I3). exists (cells :: table). repeat split; auto. cbn. now rewrite H2.
Qed.
Lemma parse_form2 d data lines limit rq : char_ok (Some d) = true -> file_lines data lines -> form2 d lines ->
  (Z.of_nat (List.length data) < limit)%Z ->
  exists n table k, 2 <= n /\ lines = map (join [d]) table /\ Forall (fun r => List.length r = n) table /\
    parse_string limit data (dialect3 [d] [] []) rq =
    (mk_rows rq (map (map (fun s => (s, false))) table ++ repeat [] k), None).
Proof.
  intros Hd Hl H HL. pose proof H as (Hne & _). destruct (form2_table d lines H) as (n & table & Hn & -> & Hlen & Hc). clear H.
  set (D := mk_chars (Some d) None None).
  assert (Hsp : forall s, ~ In d s -> Forall (fun c => special D c = false) s).
  { intros s Hs. apply Forall_forall. intros c Hc'. unfold special, D. cbn. rewrite !orb_false_r.
    apply N.eqb_neq. intros ->. auto. }
  destruct (file_parse D data (map (join [d]) table) (map (map (map PChar)) table) limit rq) as [k Hk].
  - unfold wf_chars, D. cbn [cd cq ce]. rewrite Hd. reflexivity.
  - reflexivity.
  - exact Hl.
  - destruct table as [|r [|r' table]]; [now elim Hne| |discriminate]. intros E. injection E as E.
    apply Forall_inv in Hlen. revert E. apply join_nonempty. lia.
  - clear - Hd Hlen Hc Hn Hsp. induction Hlen as [|r table H1 HF IH]; [constructor|]. inversion Hc; subst.
    constructor; [|now apply IH]. split; [|split].
    + unfold render_row. cbn [cd D opt_str]. rewrite map_map. f_equal. rewrite <- (map_id r) at 1. apply map_ext.
      intros s. now rewrite render_plain.
    + unfold wf_row. apply andb_true_iff. split.
      * apply forallb_forall. intros ps Hps. apply in_map_iff in Hps as (s & <- & Hs). rewrite Forall_forall in H2.
        destruct (H2 s Hs) as [K1 K2]. apply over_plain; auto.
      * destruct r as [|x [|y r]]; cbn in Hn; [lia|lia|]. cbn. now destruct (map PChar x).
    + intros E. revert E. intros E. exfalso. revert E. apply join_nonempty. exact Hn.
  - exact HL.
  - exists n, table, k. repeat split; auto. change (dialect3 [d] [] []) with (simple D false). rewrite Hk. do 3 f_equal.
    rewrite map_map. apply map_ext_in. intros r Hr. unfold row_value. rewrite map_map. apply map_ext_in. intros s Hs.
    apply cell_value_plain. apply Hsp. rewrite Forall_forall in Hc. specialize (Hc r Hr). rewrite Forall_forall in Hc. now apply Hc.
Qed.
