(** * ArgLoop: the loop of the argument parser without its fuel *)
From Coq Require Import String Lia.
From Verif Require Import Base Json ArgParse.
Open Scope nat_scope.

Section Loop.
Variables (digit : N -> bool) (int_of : str -> option Z) (P : parser).

Lemma prefix_length_le p l : prefix_length p l <= List.length l.
Proof. induction l as [|x l IH]; simpl; [lia|destruct (p x); lia]. Qed.
Lemma path_length_pos many ws n : path_length many ws = Some n -> 0 < n /\ n <= List.length ws.
Proof.
  unfold path_length. intros H. set (k := prefix_length is_dashes ws) in *.
  destruct (skipn k ws) as [|wm rest] eqn:E; [discriminate|]. destruct (is_arg wm); [|discriminate].
  injection H as <-. pose proof (prefix_length_le (fun x => many && is_arg x || is_dashes x)%bool rest).
  pose proof (f_equal (@List.length _) E) as HL. rewrite skipn_length in HL. simpl in HL. lia.
Qed.
Lemma consume_path_shorter st ws st' rest : consume_path P st ws = Some (st', rest) -> List.length rest < List.length ws.
Proof.
  unfold consume_path. destruct (st_path st); [discriminate|]. destruct (path_length _ ws) as [n|] eqn:E; [|discriminate].
  intros H. injection H as _ <-. destruct (path_length_pos _ _ _ E). rewrite skipn_length. lia.
Qed.
Lemma following_shorter o rest args rest' : following o rest = Some (args, rest') ->
  List.length rest' <= List.length rest /\ List.length args = arity o.
Proof.
  unfold following. destruct (arity o) as [|[|n]] eqn:E.
  - intros H. injection H as <- <-. split; [lia|reflexivity].
  - destruct rest as [|[w []] rest0]; try discriminate. intros H. injection H as <- <-. simpl. lia.
  - unfold arity in E. destruct (o_kind o); discriminate E.
Qed.
Definition fits (oa : opt * list str) : Prop := List.length (snd oa) = arity (fst oa).
Lemma chain_shorter e : forall o name sep rest acts x rest', chain P o name sep e rest = Some (acts, x, rest') ->
  List.length rest' <= List.length rest /\ Forall fits acts.
Proof.
  assert (A1 : forall o e0, arity o <> 0 -> fits (o, [e0])).
  { intros o e0 H. unfold fits; simpl. unfold arity in *. destruct (o_kind o); try reflexivity; now destruct H. }
  assert (H : forall n e, List.length e < n -> forall o name sep rest acts x rest', chain P o name sep e rest = Some (acts, x, rest') ->
    List.length rest' <= List.length rest /\ Forall fits acts).
  { induction n as [|n IH]; [intros ? Hn; lia|]. clear e. intros e Hn o name sep rest acts x rest' H.
    destruct (arity o) as [|k] eqn:E.
    2:{ destruct e; simpl in H; rewrite E in H; injection H as <- <- <-; (split; [lia|constructor; [apply A1; lia|constructor]]). }
    destruct e as [|c e']; simpl in H; rewrite E in H; [discriminate|].
    destruct name as [|n0 [|d name]]; try discriminate. destruct (N.eqb d DASH); [discriminate|].
    destruct (sep || N.eqb c DASH)%bool; [discriminate|]. 
    assert (F0 : fits (o, [])) by (unfold fits; simpl; now rewrite E).
    destruct (dict_get [DASH; c] (option_map_of P)) as [o'|].
    2:{ injection H as <- <- <-. split; [lia|now repeat constructor]. }
    match type of H with match ?T with _ => _ end = _ => destruct T as [[[acts0 x0] rest0]|] eqn:ET; [|discriminate] end.
    injection H as <- <- <-.
    enough (HH : List.length rest0 <= List.length rest /\ Forall fits acts0) by (destruct HH; split; [assumption|now constructor]).
    destruct e' as [|s e''].
    - destruct (following o' rest) as [[args r]|] eqn:EF; [|discriminate]. injection ET as <- <- <-.
      destruct (following_shorter _ _ _ _ EF). split; [assumption|constructor; [assumption|constructor]].
    - simpl in Hn. destruct (N.eqb s EQUALS).
      + eapply IH; [|exact ET]. lia.
      + eapply IH; [|exact ET]. simpl. lia. }
  intros. eapply H; [|eassumption]. apply Nat.lt_succ_diag_r.
Qed.
(** what [consume_optional] does with a recognised option *)
Definition actions (h : hit) (rest : list (str * mark)) : option (list (opt * list str) * bool * list (str * mark)) :=
  match h_explicit h with
  | Some (sep, e) => chain P (h_opt h) (h_name h) sep e rest
  | None => match following (h_opt h) rest with
            | Some (args, rest') => Some ([(h_opt h, args)], false, rest')
            | None => None
            end
  end.
Lemma actions_shorter h rest acts x rest' : actions h rest = Some (acts, x, rest') ->
  List.length rest' <= List.length rest /\ Forall fits acts.
Proof.
  unfold actions. destruct (h_explicit h) as [[sep e]|]; [apply chain_shorter|].
  destruct (following (h_opt h) rest) as [[args r]|] eqn:E; [|discriminate]. intros H. injection H as <- <- <-.
  destruct (following_shorter _ _ _ _ E). split; [assumption|constructor; [assumption|constructor]].
Qed.
Lemma consume_optional_eq st h rest : consume_optional int_of P st h rest =
  match h with
  | None => inr (extra st, rest)
  | Some h => match actions h rest with
              | None => inl Usage
              | Some (acts, x, rest') => match take_options int_of P (if x then extra st else st) acts with
                                         | inl r => inl r
                                         | inr st' => inr (st', rest')
                                         end
              end
  end.
Proof. reflexivity. Qed.
Lemma consume_optional_shorter st h rest st' rest' : consume_optional int_of P st h rest = inr (st', rest') ->
  List.length rest' <= List.length rest.
Proof.
  rewrite consume_optional_eq. destruct h as [h|].
  - destruct (actions h rest) as [[[acts x] r]|] eqn:E; [|discriminate]. destruct (take_options _ _ _ _); [discriminate|].
    intros H. injection H as _ <-. now destruct (actions_shorter _ _ _ _ _ E).
  - intros H. injection H as _ <-. lia.
Qed.

Lemma loop_fuel a : forall b st ws, List.length ws < a -> List.length ws < b ->
  loop int_of P a st ws = loop int_of P b st ws.
Proof.
  induction a as [|a IH]; intros [|b] st ws Ha Hb; try lia. simpl.
  destruct (existsb is_opt ws); [|reflexivity].
  set (n := prefix_length _ ws).
  destruct (if Nat.eqb n 0 then None else consume_path P st ws) as [[st' rest]|] eqn:E.
  - destruct (Nat.eqb n 0); [discriminate|]. pose proof (consume_path_shorter _ _ _ _ E). apply IH; lia.
  - destruct (skipn n ws) as [|[w [| |h]] rest] eqn:ES; try reflexivity.
    destruct (consume_optional _ _ _ h rest) as [r|[st' rest']] eqn:EC; [reflexivity|].
    pose proof (consume_optional_shorter _ _ _ _ _ EC). pose proof (f_equal (@List.length _) ES) as HL.
    rewrite skipn_length in HL. simpl in HL. apply IH; lia.
Qed.

Definition run (st : state) (ws : list (str * mark)) : parsed := loop int_of P (S (List.length ws)) st ws.
Lemma run_eq st ws : run st ws =
  if existsb is_opt ws then
    let n := prefix_length (fun x => negb (is_opt x)) ws in
    match (if Nat.eqb n 0 then None else consume_path P st ws) with
    | Some (st', rest) => run st' rest
    | None =>
        let st := if Nat.eqb n 0 then st else extra st in
        match skipn n ws with
        | (_, MOption h) :: rest =>
            match consume_optional int_of P st h rest with
            | inl r => r
            | inr (st', rest') => run st' rest'
            end
        | _ => Stuck
        end
    end
  else conclude P st ws.
Proof.
  unfold run at 1. simpl. destruct (existsb is_opt ws); [|reflexivity].
  set (n := prefix_length _ ws).
  destruct (if Nat.eqb n 0 then None else consume_path P st ws) as [[st' rest]|] eqn:E.
  - destruct (Nat.eqb n 0); [discriminate|]. pose proof (consume_path_shorter _ _ _ _ E). apply loop_fuel; lia.
  - destruct (skipn n ws) as [|[w [| |h]] rest] eqn:ES; try reflexivity.
    destruct (consume_optional _ _ _ h rest) as [r|[st' rest']] eqn:EC; [reflexivity|].
    pose proof (consume_optional_shorter _ _ _ _ _ EC). pose proof (f_equal (@List.length _) ES) as HL.
    rewrite skipn_length in HL. simpl in HL. apply loop_fuel; lia.
Qed.
Lemma mark_words_length ws l : mark_words digit P ws = Some l -> List.length l = List.length ws.
Proof.
  revert l. induction ws as [|w ws IH]; intros l H; simpl in H; [now injection H as <-|].
  destruct (str_eqb w _); [injection H as <-; simpl; now rewrite map_length|].
  destruct (mark_word digit P w); [|discriminate]. destruct (mark_words digit P ws) as [l'|]; [|discriminate].
  injection H as <-. simpl. f_equal. now apply IH.
Qed.
Definition start : state := mk_state (initial P) false false [].
Lemma parse_args_eq ws : parse_args digit int_of P ws =
  match mark_words digit P ws with None => Usage | Some l => run start l end.
Proof.
  unfold parse_args. destruct (mark_words digit P ws) as [l|] eqn:E; [|reflexivity].
  unfold run. now rewrite (mark_words_length _ _ E).
Qed.
Lemma skip_to_option ws : existsb is_opt ws = true ->
  exists w h rest, skipn (prefix_length (fun x => negb (is_opt x)) ws) ws = (w, MOption h) :: rest.
Proof.
  induction ws as [|[w m] ws IH]; simpl; [discriminate|].
  destruct m as [| |h]; simpl; try exact IH. intros _. now exists w, h, ws.
Qed.

(** An induction over the loop: a property of the states that the actions keep. *)
Lemma run_keeps (Q : state -> list (str * mark) -> Prop) (R : parsed -> Prop) :
  (forall st ws st' rest, Q st ws -> consume_path P st ws = Some (st', rest) -> Q st' rest) ->
  (forall st ws, Q st ws -> Q (extra st) ws) ->
  (forall st ws n w h rest, Q st ws -> skipn n ws = (w, MOption h) :: rest -> Q st ((w, MOption h) :: rest)) ->
  (forall st w rest, Q st ((w, MOption None) :: rest) -> Q st rest) ->
  (forall st w h rest acts x rest', Q st ((w, MOption (Some h)) :: rest) -> actions h rest = Some (acts, x, rest') -> Forall fits acts ->
     match take_options int_of P (if x then extra st else st) acts with inl r => R r | inr st' => Q st' rest' end) ->
  R Usage -> (forall st ws, Q st ws -> R (finish st)) ->
  forall st ws, Q st ws -> R (run st ws).
Proof.
  intros HP HE HS HN HO HU HF.
  assert (H : forall n st ws, List.length ws < n -> Q st ws -> R (run st ws)).
  { induction n as [|n IH]; intros st ws Hn HQ; [lia|]. rewrite run_eq. destruct (existsb is_opt ws) eqn:EO.
    - cbv zeta. set (k := prefix_length _ ws).
      destruct (if Nat.eqb k 0 then None else consume_path P st ws) as [[st' rest]|] eqn:E.
      + destruct (Nat.eqb k 0); [discriminate|]. pose proof (consume_path_shorter _ _ _ _ E). apply IH; [lia|]. now apply (HP st ws).
      + destruct (skip_to_option ws EO) as (w & h & rest & ES). fold k in ES. rewrite ES.
        pose proof (f_equal (@List.length _) ES) as HL. rewrite skipn_length in HL. simpl in HL.
        assert (HQ' : Q (if Nat.eqb k 0 then st else extra st) ((w, MOption h) :: rest)).
        { apply (HS _ ws k); [|exact ES]. destruct (Nat.eqb k 0); [exact HQ|now apply HE]. }
        rewrite consume_optional_eq. destruct h as [h|].
        * destruct (actions h rest) as [[[acts x] r]|] eqn:EA; [|exact HU].
          destruct (actions_shorter _ _ _ _ _ EA) as [HA1 HA2].
          pose proof (HO _ _ _ _ _ _ _ HQ' EA HA2) as HO'.
          destruct (take_options _ _ _ acts) as [r'|st'']; [exact HO'|]. apply IH; [lia|exact HO'].
        * apply IH; [lia|]. apply HE. now apply (HN _ w).
    - unfold conclude. destruct (consume_path P st ws) as [[st' rest]|] eqn:E.
      + pose proof (HP _ _ _ _ HQ E) as HQ'. destruct (is_nil rest); [now apply (HF _ rest)|]. apply (HF _ rest). now apply HE.
      + destruct (is_nil ws); [now apply (HF _ ws)|]. apply (HF _ ws). now apply HE. }
  intros st ws. apply (H (S (List.length ws))). lia.
Qed.

(** The answer is never [Stuck]. *)
Lemma take_option_stuck st o args : List.length args = arity o -> take_option int_of P st o args <> inl Stuck.
Proof.
  intros H. unfold take_option. destruct (_ && _)%bool; [discriminate|].
  unfold arity in H. destruct (o_kind o); destruct args as [|w [|]]; try discriminate H; try discriminate.
  destruct (int_of w); discriminate.
Qed.
Lemma take_options_stuck acts : forall st, Forall fits acts -> take_options int_of P st acts <> inl Stuck.
Proof.
  induction acts as [|[o args] acts IH]; intros st H; simpl; [discriminate|]. inversion H; subst.
  pose proof (take_option_stuck st o args H2) as HN. destruct (take_option _ _ st o args) as [r|st']; [congruence|now apply IH].
Qed.
Theorem never_stuck ws : parse_args digit int_of P ws <> Stuck.
Proof.
  rewrite parse_args_eq. destruct (mark_words digit P ws) as [l|]; [|discriminate].
  apply (run_keeps (fun _ _ => True) (fun r => r <> Stuck)); try easy.
  - intros st w h rest acts x rest' _ _ HF. pose proof (take_options_stuck acts (if x then extra st else st) HF).
    destruct (take_options _ _ _ acts) as [r|st'']; [congruence|exact I].
  - intros st ws0 _. unfold finish. destruct (st_path st), (st_extras st); discriminate.
Qed.
End Loop.
