(** * Properties: characters matter by their role only (C93) *)
From Coq Require Import String.
From Verif Require Import Base Parser Dialect CsvLib CsvReader Potential Abstraction Floats Ties Consistency SpecRename ShapeFacts Rename RenameTies.

Theorem C93_parse_data f limit input dl d q e st rq : renaming f ->
  parse_data limit (map (ren_item f) input) (option_map (ren_dialect f) dl) (option_map (ren f) d) (option_map (ren f) q) (option_map (ren f) e) st rq =
  ren_rows f (parse_data limit input dl d q e st rq).
Proof. intros F. exact (data_ren f F limit input dl d q e st rq). Qed.
Print Assumptions C93_parse_data.
Theorem C93_parse f limit t dl rq : renaming f ->
  parse_string limit (ren f t) (ren_dialect f dl) rq = ren_rows f (parse_string limit t dl rq).
Proof. intros F. exact (string_ren f F limit t dl rq). Qed.
Print Assumptions C93_parse.
Example C93_parse_case :
  let f := swapped COMMA 97 in let dl := mk_dialect (Some [COMMA]) (Some [DQ]) (Some []) false in
  renaming f /\
  parse_string 100 (s2l "a,""x,a"",z") dl true = ([[CTuple (s2l "a") false; CTuple (s2l "x,a") true; CTuple (s2l "z") false]], None) /\
  ren f (s2l "a,""x,a"",z") = s2l ",a""xa,""az" /\
  parse_string 100 (s2l ",a""xa,""az") (mk_dialect (Some [97%N]) (Some [DQ]) (Some []) false) true =
    ([[CTuple (s2l ",") false; CTuple (s2l "xa,") true; CTuple (s2l "z") false]], None).
Proof. split; [apply swapped_renaming; discriminate|]. vm_compute. repeat split. Qed.

Theorem C93_abstraction f t dl : renaming f -> make_abstraction (ren f t) (ren_dialect f dl) = make_abstraction t dl.
Proof. intros F. exact (abstraction_ren f F t dl). Qed.
Print Assumptions C93_abstraction.
Theorem C93_pattern_score f t dl : renaming f -> pattern_score (ren f t) (ren_dialect f dl) = pattern_score t dl.
Proof. intros F. exact (pattern_ren f F t dl). Qed.
Print Assumptions C93_pattern_score.
Theorem C93_type_score f known known' limit t dl : renaming f -> (forall s q, known' (ren f s) q = known s q) ->
  type_score known' limit (ren f t) (ren_dialect f dl) = type_score known limit t dl.
Proof. intros F H. exact (type_ren f F known known' limit t dl H). Qed.
Print Assumptions C93_type_score.
Example C93_abstraction_case :
  let f := swapped COMMA 59 in let dl c := mk_dialect (Some [c]) (Some [DQ]) (Some []) false in
  renaming f /\ ren f (s2l "a,""b;c""") = s2l "a;""b,c""" /\
  make_abstraction (s2l "a,""b;c""") (dl COMMA) = Ok (s2l "CDC") /\ make_abstraction (s2l "a;""b,c""") (dl 59%N) = Ok (s2l "CDC") /\
  make_abstraction (s2l "a;""b,c""") (dl COMMA) = Ok (s2l "C").
Proof.
  cbv zeta. split; [apply swapped_renaming; discriminate|]. split; [vm_compute; reflexivity|].
  split; [|split].
  - rewrite (make_abstraction_dq _ _ COMMA DQ NUL); [vm_compute; reflexivity|reflexivity..].
  - rewrite (make_abstraction_dq _ _ 59%N DQ NUL); [vm_compute; reflexivity|reflexivity..].
  - rewrite (make_abstraction_dq _ _ COMMA DQ NUL); [vm_compute; reflexivity|reflexivity..].
Qed.
(** Whether a cell is a number does not change when separators are exchanged. *)
Example C93_type_score_case :
  let f := swapped COMMA 59 in let known s (q : bool) : res pyexc bool := Ok (forallb (fun c => (48 <=? c) && (c <=? 57))%N s) in
  renaming f /\ (forall s q, known (ren f s) q = known s q).
Proof.
  split; [apply swapped_renaming; discriminate|]. intros s _. f_equal. induction s as [|c s IH]; [reflexivity|]. cbn [ren map forallb]. fold (ren (swapped COMMA 59) s). rewrite IH. f_equal.
  unfold swapped. destruct (N.eqb_spec c COMMA) as [->|]; [reflexivity|]. now destruct (N.eqb_spec c 59) as [->|].
Qed.
Theorem C93_masked f t q e d : renaming f -> masked_by_quotechar (ren f t) (ren f q) (ren f e) (ren f d) = masked_by_quotechar t q e d.
Proof. intros F. exact (masked_ren f F t q e d). Qed.
Print Assumptions C93_masked.
Example C93_masked_case :
  masked_by_quotechar (s2l "a'b,c'd") (s2l "'") [] (s2l ",") = true /\ masked_by_quotechar (s2l "a'b;c'd") (s2l "'") [] (s2l ";") = true /\
  masked_by_quotechar (s2l "a'b;c'd") (s2l "'") [] (s2l "d") = false.
Proof. vm_compute. repeat split. Qed.

Theorem C93_tie_breaker f limit t o_set o_set' ds :
  renaming f -> f COMMA = COMMA -> f SPACE = SPACE -> f 45%N = 45%N ->
  (forall l, o_set' (map (ren_dialect f) l) = map (ren_dialect f) (o_set l)) ->
  tie_breaker limit (ren f t) o_set' (map (ren_dialect f) ds) =
  match tie_breaker limit t o_set ds with Ok o => Ok (option_map (ren_dialect f) o) | Err x => Err x end.
Proof. intros F H1 H2 H3 HO. exact (tie_ren f F H1 H2 H3 limit t o_set o_set' HO ds). Qed.
Print Assumptions C93_tie_breaker.
Example C93_tie_breaker_case :
  let f := swapped DQ 39 in let t := s2l "a,""b,c""" in let dl q := mk_dialect (Some [COMMA]) (Some q) (Some []) false in
  renaming f /\ f COMMA = COMMA /\ f SPACE = SPACE /\ f 45%N = 45%N /\
  tie_breaker 100 t (fun l => l) [dl []; dl [DQ]] = Ok (Some (dl [DQ])) /\
  tie_breaker 100 (ren f t) (fun l => l) [dl []; dl [39%N]] = Ok (Some (dl [39%N])).
Proof. split; [apply swapped_renaming; discriminate|]. vm_compute. repeat split. Qed.
(** The rule that prefers the comma to the space is not about roles. *)
Theorem C93_tie_breaker_all_refuted : exists f limit t ds, renaming f /\
  tie_breaker limit (ren f t) (fun l => l) (map (ren_dialect f) ds) <>
  match tie_breaker limit t (fun l => l) ds with Ok o => Ok (option_map (ren_dialect f) o) | Err x => Err x end.
Proof.
  exists (swapped COMMA SPACE), 100%Z, (s2l "a, b"), [mk_dialect (Some [COMMA]) (Some []) (Some []) false; mk_dialect (Some [SPACE]) (Some []) (Some []) false].
  split; [apply swapped_renaming; discriminate|]. vm_compute. discriminate.
Qed.
Print Assumptions C93_tie_breaker_all_refuted.

Theorem C93_writer f w rows : renaming f -> wd_skipspace w = false \/ f SPACE = SPACE ->
  csv_writerows (ren_csv f w) (map (map (ren_value f)) rows) = (ren f (fst (csv_writerows w rows)), snd (csv_writerows w rows)).
Proof. intros F HS. exact (writerows_ren f F w HS rows). Qed.
Print Assumptions C93_writer.
Theorem C93_csv_reader f w strict limit t : renaming f -> wd_skipspace w = false \/ f SPACE = SPACE ->
  csv_reader (ren_csv f w) strict limit (ren f t) = (map (map (ren f)) (fst (csv_reader w strict limit t)), snd (csv_reader w strict limit t)).
Proof. intros F HS. exact (csv_reader_ren f F w strict limit HS t). Qed.
Print Assumptions C93_csv_reader.
Example C93_writer_case :
  let f := swapped COMMA 59 in let w := mk_wdialect COMMA (Some DQ) None true false [LF] QUOTE_MINIMAL in
  let rows := [[VStr (s2l "a,b"); VStr (s2l "c;d"); VNone]] in
  renaming f /\ csv_writerows w rows = (s2l """a,b"",c;d," ++ [LF], None) /\
  csv_writerows (ren_csv f w) (map (map (ren_value f)) rows) = (s2l """a;b"";c,d;" ++ [LF], None) /\
  csv_reader (ren_csv f w) false 100 (s2l """a;b"";c,d;" ++ [LF]) = ([[s2l "a;b"; s2l "c,d"; []]], None).
Proof. split; [apply swapped_renaming; discriminate|]. vm_compute. repeat split. Qed.
