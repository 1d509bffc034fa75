(** * ParserLift: parser facts at the level of parse_string *)
From Verif Require Import Base Parser Dialect SpecLayout SpecParse ParserFacts LayoutFacts
  LayoutTotal ParserProps.

Theorem parse_string_layout D d limit rq :
  wf_chars D = true -> wf_doc D d = true ->
  Forall (fun s => Z.of_nat (length s) <= limit)%Z (raw_cells D d) ->
  parse_string limit (render D d) (simple D false) rq = (mk_rows rq (denote D d), None).
Proof.
  intros HD Hd HL. rewrite parse_string_conf, parse_layout; auto.
Qed.

Theorem parse_string_total limit t dl rq :
  validate dl = true -> sd_strict dl = false -> (Z.of_nat (length t) <= limit)%Z ->
  (In NUL t -> snd (parse_string limit t dl rq) = Some (CleverError ENull)) /\
  (~ In NUL t -> snd (parse_string limit t dl rq) = None).
Proof.
  intros Hv Hs HL. destruct (simple_of_valid dl Hv) as [D ->]. cbn in Hs. rewrite Hs.
  rewrite parse_string_conf. unfold py_result. cbn [snd].
  rewrite parse_text_total by (auto; exact HL).
  destruct (mem_char NUL t) eqn:E; [apply mem_char_In in E|apply mem_char_false in E];
    split; tauto.
Qed.
