(** * SpecJsonText: the grammar of JSON texts and what they mean *)
From Coq Require Import String.
From Verif Require Import Base Parser Dialect Json SpecJson.

Definition j_ws (s : str) : Prop := Forall (fun c => In c [SPACE; TAB; LF; CR]) s.
Definition j_digit (c : N) : Prop := (48 <= c <= 57)%N.

(** ** Numbers *)
Definition j_sign (s : str) : Prop := s = [] \/ s = s2l "-".
Definition j_int (s : str) : Prop := s = s2l "0" \/ exists c ds, s = c :: ds /\ (49 <= c <= 57)%N /\ Forall j_digit ds.
Definition j_frac (s : str) : Prop := s = [] \/ exists c ds, s = 46%N :: c :: ds /\ Forall j_digit (c :: ds).
Definition j_exp (s : str) : Prop :=
  s = [] \/ exists e sg c ds, s = e :: sg ++ c :: ds /\ In e (s2l "eE") /\ In sg [[]; s2l "+"; s2l "-"] /\ Forall j_digit (c :: ds).
(** Integers have at most [md] digits. *)
Definition j_number (md : nat) (t : str) : Prop :=
  exists sign int frac exp, t = sign ++ int ++ frac ++ exp /\ j_sign sign /\ j_int int /\ j_frac frac /\ j_exp exp /\
    (frac = [] -> exp = [] -> List.length int <= md).
(** Three words that are no JSON are numbers for Python. *)
Definition py_number (t : str) : Prop := In t [s2l "NaN"; s2l "Infinity"; s2l "-Infinity"].

(** ** Strings *)
Definition j_short : list (N * N) :=
  [(DQ, DQ); (BACKSLASH, BACKSLASH); (47, 47); (98, 8); (102, 12); (110, LF); (114, CR); (116, TAB)]%N.
Definition j_hex (c v : N) : Prop :=
  nth_error (s2l "0123456789abcdef") (N.to_nat v) = Some c \/ nth_error (s2l "0123456789ABCDEF") (N.to_nat v) = Some c.
Inductive piece :=
| PPlain (c : N)
| PShort (e c : N)
| PHex (a b c d : N) (n : N).
Definition piece_ok (p : piece) : Prop :=
  match p with
  | PPlain c => (31 < c)%N /\ c <> DQ /\ c <> BACKSLASH
  | PShort e c => In (e, c) j_short
  | PHex a b c d n => exists va vb vc vd, j_hex a va /\ j_hex b vb /\ j_hex c vc /\ j_hex d vd /\ n = (4096 * va + 256 * vb + 16 * vc + vd)%N
  end.
Definition piece_text (p : piece) : str :=
  match p with
  | PPlain c => [c]
  | PShort e _ => [BACKSLASH; e]
  | PHex a b c d _ => [BACKSLASH; 117%N; a; b; c; d]
  end.
Definition piece_char (p : piece) : N := match p with PPlain c => c | PShort _ c => c | PHex _ _ _ _ n => n end.
(** Two neighbouring escapes that make up a surrogate pair are one character. *)
Fixpoint meaning (ps : list piece) : str :=
  match ps with
  | [] => []
  | PHex a b c d h :: ((PHex _ _ _ _ l :: r) as ps') =>
      if ((55296 <=? h) && (h <=? 56319) && (56320 <=? l) && (l <=? 57343))%N
      then (65536 + (h - 55296) * 1024 + (l - 56320))%N :: meaning r
      else h :: meaning ps'
  | p :: r => piece_char p :: meaning r
  end.
Definition j_string (s t : str) : Prop :=
  exists ps, Forall piece_ok ps /\ s = meaning ps /\ t = DQ :: List.concat (map piece_text ps) ++ [DQ].

(** ** Values *)
(** The members of an object as a dictionary: a repeated key keeps its first
    place and gets its last value. *)
Fixpoint as_dict (ms : list (str * jvalue)) : list (str * jvalue) :=
  match ms with
  | [] => []
  | (k, v) :: r =>
      let d := as_dict r in
      (k, match find (fun m => str_eqb (fst m) k) d with Some (_, v') => v' | None => v end) ::
      filter (fun m => negb (str_eqb (fst m) k)) d
  end.
Section Lists.
Variable P : jvalue -> str -> Prop.
Inductive j_elements : list jvalue -> str -> Prop :=
| el_last v w1 t w2 : j_ws w1 -> P v t -> j_ws w2 -> j_elements [v] (w1 ++ t ++ w2)
| el_more v vs w1 t w2 ts : j_ws w1 -> P v t -> j_ws w2 -> j_elements vs ts -> j_elements (v :: vs) (w1 ++ t ++ w2 ++ COMMA :: ts).
Inductive j_members : list (str * jvalue) -> str -> Prop :=
| me_last k v w1 kt w2 w3 t w4 : j_ws w1 -> j_string k kt -> j_ws w2 -> j_ws w3 -> P v t -> j_ws w4 ->
    j_members [(k, v)] (w1 ++ kt ++ w2 ++ 58%N :: w3 ++ t ++ w4)
| me_more k v ms w1 kt w2 w3 t w4 ts : j_ws w1 -> j_string k kt -> j_ws w2 -> j_ws w3 -> P v t -> j_ws w4 -> j_members ms ts ->
    j_members ((k, v) :: ms) (w1 ++ kt ++ w2 ++ 58%N :: w3 ++ t ++ w4 ++ COMMA :: ts).
End Lists.
Definition j_scalar (md : nat) (v : jvalue) (t : str) : Prop :=
  (v = JNull /\ t = s2l "null") \/ (v = JBool true /\ t = s2l "true") \/ (v = JBool false /\ t = s2l "false") \/
  (v = JNum t /\ (py_number t \/ j_number md t)) \/
  (exists s, v = JStr s /\ j_string s t).
(** [t] is a JSON text without surrounding white space that means [v], with at
    most [depth] containers around any part of it. *)
Fixpoint j_value (md depth : nat) (v : jvalue) (t : str) : Prop :=
  j_scalar md v t \/
  match depth with
  | 0%nat => False
  | S depth =>
      (exists w, j_ws w /\ v = JArr [] /\ t = s2l "[" ++ w ++ s2l "]") \/
      (exists w, j_ws w /\ v = JObj [] /\ t = s2l "{" ++ w ++ s2l "}") \/
      (exists vs ts, v = JArr vs /\ t = s2l "[" ++ ts ++ s2l "]" /\ j_elements (j_value md depth) vs ts) \/
      (exists ms ts, v = JObj (as_dict ms) /\ t = s2l "{" ++ ts ++ s2l "}" /\ j_members (j_value md depth) ms ts)
  end.
Definition j_text (md depth : nat) (v : jvalue) (s : str) : Prop :=
  exists w1 t w2, s = w1 ++ t ++ w2 /\ j_ws w1 /\ j_value md depth v t /\ j_ws w2.

(** Values that survive being written and read. *)
Fixpoint storable (md depth : nat) (v : jvalue) : Prop :=
  let plain s := code_points s /\ pair_up s = s in
  match v, depth with
  | JNull, _ | JBool _, _ => True
  | JNum t, _ => py_number t \/ j_number md t
  | JStr s, _ => plain s
  | JArr l, S d => Forall (storable md d) l
  | JObj l, S d => NoDup (map fst l) /\ Forall (fun m => plain (fst m) /\ storable md d (snd m)) l
  | _, _ => False
  end.
