(** * Regex: backtracking regular expressions

    The part of the [regex] module (and of [re]) that clevercsv/_regexes.py
    uses, as a list of successes: [m r st] are the states in which a match of
    [r] from the state [st] can end, in the order in which backtracking tries
    them.  It belongs to the trusted base. *)
From Verif Require Import Base.

Inductive re :=
| Chr (p : N -> bool)                          (* one character of a class *)
| Eps
| Seq (a b : re)
| Alt (a b : re)
| Rep (lo : nat) (hi : option nat) (r : re)    (* greedy; the body consumes *)
| Look (r : re)                                (* (?=...) *)
| NotLook (r : re)                             (* (?!...) *)
| Behind (p : N -> bool)                       (* (?<=.) for one character *)
| Bol                                          (* ^ *)
| Eol                                          (* $ *)
| Grp (name : nat) (r : re)                    (* a group that is referred to *)
| Back (name : nat)                            (* (?P=name) *)
| IfGrp (name : nat) (yes no : re).            (* (?(name)yes|no) *)

(** What was read (last character first), what is left, and the groups. *)
Definition mstate := (str * str * list (nat * str))%type.
Definition group (e : list (nat * str)) (n : nat) : option str :=
  option_map snd (find (fun x => Nat.eqb (fst x) n) e).

Fixpoint reps (f : mstate -> list mstate) (fuel lo : nat) (hi : option nat) (st : mstate) : list mstate :=
  (match hi, fuel with
   | Some 0%nat, _ | _, 0%nat => []
   | _, S k =>
       flat_map (fun st' => if Nat.ltb (length (snd (fst st'))) (length (snd (fst st)))
                            then reps f k (pred lo) (option_map pred hi) st' else []) (f st)
   end) ++ (if Nat.eqb lo 0 then [st] else []).

Fixpoint m (r : re) (st : mstate) {struct r} : list mstate :=
  let '(b, s, e) := st in
  match r with
  | Chr p => match s with c :: s' => if p c then [(c :: b, s', e)] else [] | [] => [] end
  | Eps => [st]
  | Seq x y => flat_map (m y) (m x st)
  | Alt x y => m x st ++ m y st
  | Rep lo hi x => reps (m x) (length s) lo hi st
  | Look x => match m x st with [] => [] | _ => [st] end
  | NotLook x => match m x st with [] => [st] | _ => [] end
  | Behind p => match b with c :: _ => if p c then [st] else [] | [] => [] end
  | Bol => match b with [] => [st] | _ => [] end
  | Eol => match s with [] => [st] | [c] => if (c =? LF)%N then [st] else [] | _ => [] end
  | Grp n x => map (fun '(b', s', e') => (b', s', (n, firstn (length s - length s') s) :: e')) (m x st)
  | Back n => match group e n with
              | Some w => if starts_with w s then [(rev w ++ b, skipn (length w) s, e)] else []
              | None => []
              end
  | IfGrp n x y => match group e n with Some _ => m x st | None => m y st end
  end.

(** [pattern.fullmatch(s)]: the first success that reads everything. *)
Definition fullmatch (r : re) (s : str) : option mstate :=
  find (fun st => match snd (fst st) with [] => true | _ => false end) (m r ([], s, [])).
Definition fullmatches (r : re) (s : str) : bool :=
  match fullmatch r s with Some _ => true | None => false end.

(** [pattern.match(s, pos)], where [b] is the text before the position (last
    character first): the length of the first success. *)
Definition match_at (r : re) (b s : str) : option nat :=
  match m r (b, s, []) with
  | (_, s', _) :: _ => Some (length s - length s')%nat
  | [] => None
  end.

(** ** Notation *)
Definition opt (r : re) : re := Rep 0 (Some 1%nat) r.
Definition star (r : re) : re := Rep 0 None r.
Definition plus (r : re) : re := Rep 1 None r.
Definition is (c : N) : re := Chr (N.eqb c).
Definition any_of (s : str) : re := Chr (fun c => existsb (N.eqb c) s).
Definition in_range (a b c : N) : bool := ((a <=? c) && (c <=? b))%N.
Definition range (a b : N) : re := Chr (in_range a b).
Fixpoint seqs (l : list re) : re := match l with [] => Eps | [r] => r | r :: l' => Seq r (seqs l') end.
Fixpoint alts (l : list re) : re := match l with [] => Eps | [r] => r | r :: l' => Alt r (alts l') end.
Definition lit (s : str) : re := seqs (map is s).
