(** * SpecParse: dialects and results in specification terms *)
From Verif Require Import Base Parser Dialect SpecLayout.

(** The parser configuration of a specification dialect. *)
Definition opt_n (o : option N) : N := match o with Some c => c | None => 0%N end.
Definition conf (D : chars) (limit : Z) (strict rq : bool) : pconf :=
  mk_pconf (opt_n (cd D)) (opt_n (cq D)) (opt_n (ce D)) limit strict rq.

(** The SimpleDialect with these characters ("" for an unset one). *)
Definition simple (D : chars) (strict : bool) : SimpleDialect :=
  mk_dialect (Some (opt_str (cd D))) (Some (opt_str (cq D))) (Some (opt_str (ce D))) strict.

(** A (value, is_quoted) pair as the parser returns it. *)
Definition mk_cell (rq : bool) (v : str * bool) : cell :=
  if rq then CTuple (fst v) (snd v) else CStr (fst v).
Definition mk_rows (rq : bool) (rows : list (list (str * bool))) : list (list cell) :=
  map (map (mk_cell rq)) rows.

(** The string of a returned cell. *)
Definition cell_str (c : cell) : str := match c with CStr s => s | CTuple s _ => s end.

Definition no_nul (t : str) : Prop := ~ In NUL t.

Definition py_result (x : list (list cell) * ending) : list (list cell) * option pyexc :=
  (fst x, py_ending (snd x)).

Lemma parse_string_conf limit t D strict rq :
  parse_string limit t (simple D strict) rq = py_result (parse_text (conf D limit strict rq) t).
Proof.
  unfold parse_string, parse_data, parse_data_.
  cbn [or_else simple sd_delimiter sd_quotechar sd_escapechar sd_strict].
  assert (H : forall o, set_char (Some (opt_str o)) = Ok (opt_n o)) by (intros [c|]; reflexivity).
  unfold make_conf. rewrite !H. cbn [bind]. unfold parse_text, conf, py_result.
  destruct (parse_items _ _); reflexivity.
Qed.

(** Every validated dialect is of this form (for all [set_char] can see). *)
Lemma simple_of_valid dl : validate dl = true ->
  exists D, dl = simple D (sd_strict dl).
Proof.
  destruct dl as [d q e s]. unfold validate. cbn.
  assert (H : forall f, field_valid f = true -> exists o, f = Some (opt_str o)).
  { intros [[|c [|? ?]]|]; cbn; try discriminate; intros _.
    - now exists None.
    - now exists (Some c). }
  rewrite !andb_true_iff. intros [[Hd Hq] He].
  destruct (H _ Hd) as [d' ->]. destruct (H _ Hq) as [q' ->]. destruct (H _ He) as [e' ->].
  now exists (mk_chars d' q' e').
Qed.

(** ** Histories of calls *)

(** The results of [n] calls of [next(parser)], continuing after errors. *)
Fixpoint nexts {B} (ops : bufops B) (n : nat) (cf : pconf) (o : pobj B) (input : list item)
  : list outcome * pobj B * list item :=
  match n with
  | O => ([], o, input)
  | S n' =>
      let '(r, o', rest) := iternext ops cf o input in
      let '(rs, o'', rest') := nexts ops n' cf o' rest in
      (r :: rs, o'', rest')
  end.

Definition nexts_results {B} (ops : bufops B) n cf o input := fst (fst (@nexts B ops n cf o input)).
Definition nexts_rest {B} (ops : bufops B) n cf o input := snd (@nexts B ops n cf o input).
