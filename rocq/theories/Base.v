(** * Base: characters, strings and results

    Shared vocabulary of the model.  A Python [str] is a list of code points
    ([N]); nothing in this file models a particular function of the code base
    except where a comment cites it.  The functions below are the Python string
    operations the code uses, written as total functions. *)
From Coq Require Export List NArith ZArith Bool Lia.
From Coq Require Import String Ascii.
Export ListNotations.
Open Scope list_scope.

Definition char := N.
Definition str := list N.

(** Literal helper: ["abc"%string] as a list of code points. *)
Definition s2l (s : String.string) : str :=
  map N_of_ascii (list_ascii_of_string s).

Definition NUL : N := 0%N.
Definition LF : N := 10%N.
Definition CR : N := 13%N.
Definition TAB : N := 9%N.
Definition SPACE : N := 32%N.
Definition DQ : N := 34%N.      (* double quote *)
Definition SQ : N := 39%N.      (* single quote *)
Definition COMMA : N := 44%N.
Definition SEMI : N := 59%N.
Definition PIPE : N := 124%N.
Definition BACKSLASH : N := 92%N.

Definition is_nl (c : N) : bool := (c =? CR)%N || (c =? LF)%N.

(** ** Results: exceptions as values *)
Inductive res (E A : Type) : Type :=
| Ok (a : A)
| Err (e : E).
Arguments Ok {E A} _.
Arguments Err {E A} _.

Definition bind {E A B} (x : res E A) (f : A -> res E B) : res E B :=
  match x with Ok a => f a | Err e => Err e end.

(** ** Equality tests *)
Fixpoint list_eqb {A} (eqb : A -> A -> bool) (l1 l2 : list A) : bool :=
  match l1, l2 with
  | [], [] => true
  | a :: l1', b :: l2' => eqb a b && list_eqb eqb l1' l2'
  | _, _ => false
  end.

Definition str_eqb : str -> str -> bool := list_eqb N.eqb.
Definition rows_eqb : list (list str) -> list (list str) -> bool :=
  list_eqb (list_eqb str_eqb).

Lemma list_eqb_spec {A} (eqb : A -> A -> bool) :
  (forall a b, eqb a b = true <-> a = b) ->
  forall l1 l2, list_eqb eqb l1 l2 = true <-> l1 = l2.
Proof.
  intros H; induction l1 as [|a l1 IH]; intros [|b l2]; cbn; split; intros E;
    try discriminate; try reflexivity.
  - apply andb_true_iff in E as [E1 E2]. apply H in E1. apply IH in E2.
    congruence.
  - injection E as -> ->. apply andb_true_iff; split; [now apply H|now apply IH].
Qed.

Lemma str_eqb_eq s t : str_eqb s t = true <-> s = t.
Proof. apply list_eqb_spec, N.eqb_eq. Qed.

Lemma str_eqb_refl s : str_eqb s s = true.
Proof. now apply str_eqb_eq. Qed.

Lemma str_eqb_neq s t : str_eqb s t = false <-> s <> t.
Proof.
  split; intros H.
  - intros ->. now rewrite str_eqb_refl in H.
  - destruct (str_eqb s t) eqn:E; [|reflexivity]. now apply str_eqb_eq in E.
Qed.

Lemma rows_eqb_eq s t : rows_eqb s t = true <-> s = t.
Proof. apply list_eqb_spec, list_eqb_spec, str_eqb_eq. Qed.

Lemma str_eq_dec (s t : str) : {s = t} + {s <> t}.
Proof. apply list_eq_dec, N.eq_dec. Defined.

(** ** Python string operations *)

(** [x in s] for a one-character string [x]. *)
Definition mem_char (c : N) (s : str) : bool := existsb (N.eqb c) s.

(** [s.startswith(p)]. *)
Fixpoint starts_with (p s : str) : bool :=
  match p, s with
  | [], _ => true
  | a :: p', b :: s' => (a =? b)%N && starts_with p' s'
  | _ :: _, [] => false
  end.

(** [s.endswith(p)]. *)
Definition ends_with (p s : str) : bool := starts_with (rev p) (rev s).

(** [p in s] for strings. *)
Fixpoint contains (p s : str) : bool :=
  starts_with p s || match s with [] => false | _ :: s' => contains p s' end.

(** [s.split(sep)] for a non-empty [sep]: leftmost, non-overlapping. *)
Fixpoint py_split_aux (sep : str) (skip : nat) (cur : str) (s : str) : list str :=
  match s with
  | [] => [cur]
  | c :: s' =>
      match skip with
      | S k => py_split_aux sep k cur s'
      | O => if starts_with sep s
             then cur :: py_split_aux sep (List.length sep - 1) [] s'
             else py_split_aux sep 0 (cur ++ [c]) s'
      end
  end.
Definition py_split (sep s : str) : list str := py_split_aux sep 0 [] s.

(** [s.replace(old, new)] for a non-empty [old]. *)
Fixpoint py_replace_aux (old new : str) (skip : nat) (s : str) : str :=
  match s with
  | [] => []
  | c :: s' =>
      match skip with
      | S k => py_replace_aux old new k s'
      | O => if starts_with old s
             then new ++ py_replace_aux old new (List.length old - 1) s'
             else c :: py_replace_aux old new 0 s'
      end
  end.
Definition py_replace (old new s : str) : str := py_replace_aux old new 0 s.

(** [s.rstrip(c)] for one character [c]; [s.lstrip] / [s.strip] for a class. *)
Fixpoint lstrip_by (f : N -> bool) (s : str) : str :=
  match s with
  | [] => []
  | c :: s' => if f c then lstrip_by f s' else s
  end.
Definition rstrip_by (f : N -> bool) (s : str) : str := rev (lstrip_by f (rev s)).
Definition strip_by (f : N -> bool) (s : str) : str := rstrip_by f (lstrip_by f s).

(** [zip(a, b)] *)
Fixpoint zip {A B} (a : list A) (b : list B) : list (A * B) :=
  match a, b with
  | x :: a', y :: b' => (x, y) :: zip a' b'
  | _, _ => []
  end.

(** [clevercsv/utils.py:22-27] pairwise, for a re-iterable argument (every call
    site passes a [str] or a [list]): two independent iterators, the second
    advanced by one, zipped. *)
Definition pairwise {A} (s : list A) : list (A * A) := zip s (tl s).

(** Joining with a separator, [sep.join(l)]. *)
Fixpoint join (sep : str) (l : list str) : str :=
  match l with
  | [] => []
  | [x] => x
  | x :: l' => x ++ sep ++ join sep l'
  end.

(** ** Small facts *)
Lemma mem_char_In c s : mem_char c s = true <-> In c s.
Proof.
  unfold mem_char. rewrite existsb_exists. split.
  - intros [x [Hx E]]. apply N.eqb_eq in E. now subst.
  - intros H. exists c. split; [assumption|apply N.eqb_refl].
Qed.

Lemma mem_char_false c s : mem_char c s = false <-> ~ In c s.
Proof.
  split; intros H.
  - intros Hi. apply mem_char_In in Hi. congruence.
  - destruct (mem_char c s) eqn:E; [|reflexivity]. apply mem_char_In in E. tauto.
Qed.

Lemma is_nl_spec c : is_nl c = true <-> c = CR \/ c = LF.
Proof. unfold is_nl. rewrite orb_true_iff, !N.eqb_eq. tauto. Qed.

Lemma is_nl_false c : is_nl c = false <-> c <> CR /\ c <> LF.
Proof. unfold is_nl. rewrite orb_false_iff, !N.eqb_neq. tauto. Qed.

Lemma skipn_add {A} (a b : nat) (l : list A) : skipn a (skipn b l) = skipn (a + b) l.
Proof.
  revert l. induction b as [|b IH]; intros l; [now rewrite Nat.add_0_r|].
  rewrite Nat.add_succ_r. destruct l; [now rewrite !skipn_nil|]. cbn. apply IH.
Qed.
