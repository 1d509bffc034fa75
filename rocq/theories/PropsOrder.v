(** * PropsOrder: detection and the order of the lines (C102)

    [column_text rows final] is the text of the lines [column_of rows final].
    The two texts have the same lines in any two orders, and any line ends. *)
From Coq Require Import String Permutation.
From Verif Require Import Base Parser Dialect SpecLayout Potential SpecPotential MaskedFacts NormalForm Consistency Detect Types SpecTypes TypesUrl TypesCases FilesCases
  SpecColumn SpecLines SpecOrder LineOrder OrderNormal OrderCases.
Local Notation len := List.length.

(** ** C102 *)
(** The consistency measure, if for every potential dialect the orders show the
    row lengths alike, or there are two row lengths at most. *)
Theorem C102_consistency cat url known user o_set rows1 final1 rows2 final2 O1 O2 capacity skip old :
  line_matcher url -> control_ends cat -> usual_delimiters user -> (forall l, Permutation (o_set l) l) ->
  Permutation (column_of rows1 final1) (column_of rows2 final2) -> column_of rows1 final1 <> [] ->
  (forall l, In l (column_of rows1 final1) -> balanced_line cat user l /\ l <> []) ->
  clear_ends rows1 final1 -> clear_ends rows2 final2 ->
  (forall l s b, In l (column_of rows1 final1) -> incl s l -> exists r, known s b = Ok r) ->
  (forall O L d, any_orders O -> get_dialects cat url O utf8 (column_text rows1 final1) user false = Ok L -> In d L ->
     shapes_agree d (column_of rows1 final1) (column_of rows2 final2)) ->
  any_orders O1 -> any_orders O2 ->
  fst (detect cat url known O1 o_set capacity skip (column_text rows1 final1) user old) =
  fst (detect cat url known O2 o_set capacity skip (column_text rows2 final2) user old).
Proof.
  exact (fun HU HK HS Ho HP HN HB C1 C2 HT HA H1 H2 => detect_order_lines cat url known user HU HK HS o_set Ho rows1 rows2 final1 final2 HP HB C1 C2 HT HA O1 O2 capacity skip old H1 H2 HN).
Qed.
Print Assumptions C102_consistency.
(** The normal forms, for lines that are not blank. *)
Theorem C102_normal cat user e1 e2 rows1 final1 rows2 final2 : control_ends cat ->
  Permutation (column_of rows1 final1) (column_of rows2 final2) -> column_of rows1 final1 <> [] ->
  (forall r, In r rows1 -> snd r = e1) -> (forall r, In r rows2 -> snd r = e2) ->
  (forall s, In s (column_of rows1 final1) -> s <> [] /\ ~ In CR s /\ ~ In LF s) ->
  (forall ds c, user = Some ds -> In c [CR; LF] -> ~ In [c] ds) ->
  detect_dialect_normal cat (column_text rows1 final1) utf8 user = detect_dialect_normal cat (column_text rows2 final2) utf8 user.
Proof. exact (fun HK => normal_order cat HK user e1 e2 rows1 final1 rows2 final2). Qed.
Print Assumptions C102_normal.
(** The detector as shipped, with any method. *)
Theorem C102_detector U user o_set : sane_categories (u_cat U) -> (forall c, digit (u_cat U) c -> u_isdigit U c = true) ->
  control_ends (u_cat U) -> usual_delimiters user -> (forall l, Permutation (o_set l) l) ->
  forall O1 O2 method skip s e1 e2 rows1 final1 rows2 final2, any_orders O1 -> any_orders O2 ->
  Permutation (column_of rows1 final1) (column_of rows2 final2) ->
  (forall r, In r rows1 -> snd r = e1) -> (forall r, In r rows2 -> snd r = e2) ->
  (forall l, In l (column_of rows1 final1) -> balanced_line (u_cat U) user l /\ l <> [] /\ ~ In 123%N l) ->
  (forall O L d, any_orders O -> get_dialects (u_cat U) (shipped_url U) O utf8 (column_text rows1 final1) user false = Ok L -> In d L ->
     shapes_agree d (column_of rows1 final1) (column_of rows2 final2)) ->
  fst (detector_detect (u_cat U) (shipped_url U) (is_known_type U) O1 o_set (column_text rows1 final1) user method skip s) =
  fst (detector_detect (u_cat U) (shipped_url U) (is_known_type U) O2 o_set (column_text rows2 final2) user method skip s).
Proof. exact (shipped_order U user o_set). Qed.
Print Assumptions C102_detector.
(** Lines that repeat earlier ones can come in any order. *)
Theorem C102_repeated U user o_set : sane_categories (u_cat U) -> (forall c, digit (u_cat U) c -> u_isdigit U c = true) ->
  control_ends (u_cat U) -> usual_delimiters user -> (forall l, Permutation (o_set l) l) ->
  forall O1 O2 method skip s e h r1 r2, any_orders O1 -> any_orders O2 ->
  Permutation r1 r2 -> incl r1 h -> (forall l, In l h -> balanced_line (u_cat U) user l /\ l <> [] /\ ~ In 123%N l) ->
  fst (detector_detect (u_cat U) (shipped_url U) (is_known_type U) O1 o_set (column_text (map (fun l => (l, e)) (h ++ r1)) None) user method skip s) =
  fst (detector_detect (u_cat U) (shipped_url U) (is_known_type U) O2 o_set (column_text (map (fun l => (l, e)) (h ++ r2)) None) user method skip s).
Proof. exact (shipped_repeated U user o_set). Qed.
Print Assumptions C102_repeated.
Example C102_case : let t := column_text (with_end ELF ragged) None in
  column_of (with_end ELF ragged) None = ragged /\ column_of (with_end ECRLF (rev ragged)) None = rev ragged /\ Permutation ragged (rev ragged) /\
  (forall l, In l ragged -> balanced_line ascii_cat None l /\ l <> [] /\ ~ In 123%N l) /\
  (forall O L d, any_orders O -> get_dialects ascii_cat (shipped_url ascii_data) O utf8 t None false = Ok L -> In d L ->
     shapes_agree d ragged (rev ragged)) /\
  map (line_cells (dialect3 [SEMI] [] [])) ragged = [2; 1; 1; 2] /\
  exists L, get_dialects ascii_cat (shipped_url ascii_data) plain_orders utf8 t None false = Ok L /\ In (dialect3 [SEMI] [] []) L.
Proof. exact ragged_case. Qed.
(** In general the order of the lines matters: the scores of the kinds of rows
    are added in the order in which the kinds appear, and rounded. *)
Theorem C102_any_order_refuted : exists ls1 ls2, Permutation ls1 ls2 /\ (forall l, In l ls1 -> balanced_line ascii_cat None l /\ l <> [] /\ ~ In 123%N l) /\
  shipped_detect (mk_state None 131072) (column_text (map (fun l => (l, ELF)) ls1) None) = Ok (Some (dialect3 [COMMA] [] [])) /\
  shipped_detect (mk_state None 131072) (column_text (map (fun l => (l, ELF)) ls2) None) = Ok (Some (dialect3 [SEMI] [] [])).
Proof. exact order_refuted. Qed.
Print Assumptions C102_any_order_refuted.
