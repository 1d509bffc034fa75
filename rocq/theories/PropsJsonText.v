(** * Properties: JSON texts (C94) *)
From Coq Require Import String.
From Verif Require Import Base Parser Dialect Json SpecJson SpecJsonText JsonText JsonValues Types SpecTypes TypesAll JsonCells.

Theorem C94_loads md depth s v : loads md depth s = Ok v <-> j_text md depth v s.
Proof. exact (loads_iff md depth s v). Qed.
Print Assumptions C94_loads.
Definition sample : str := s2l " {""a"": [1, -2.5e+3 ,""\u00AB\ud83d\uDE00""], ""b"":{ },""a"" : null} ".
Example C94_loads_case :
  loads 4 2 sample = Ok (JObj [(s2l "a", JNull); (s2l "b", JObj [])]) /\
  loads 4 2 (s2l "[1, -2.5e+3 ,""\u00AB\ud83d\uDE00""]") = Ok (JArr [JNum (s2l "1"); JNum (s2l "-2.5e+3"); JStr [171; 128512]%N]) /\
  loads 4 2 (s2l "[01]") = Err JSONDecodeError /\ loads 4 2 (s2l "[1,]") = Err JSONDecodeError /\
  loads 4 1 sample = Err RecursionError /\ loads 4 2 (s2l "12345") = Err ValueError /\ loads 4 2 (s2l "1234.5") = Ok (JNum (s2l "1234.5")).
Proof. vm_compute. repeat split. Qed.

(** The type test for JSON objects. *)
Theorem C94_json_cell U s : is_json_obj U s = Ok true <-> in_braces s /\ exists v, j_text (u_maxdigits U) (u_depth U) v s.
Proof. exact (json_cell_iff U s). Qed.
Print Assumptions C94_json_cell.

Theorem C94_dumps md depth v : storable md depth v -> loads md depth (dumps v) = Ok v.
Proof. exact (dumps_loads md depth v). Qed.
Print Assumptions C94_dumps.
Example C94_dumps_case :
  let v := JObj [(s2l "x", JArr [JNum (s2l "-10"); JStr [233; 128512]%N]); (s2l "y", JBool true)] in
  storable 4 2 v /\ dumps v = s2l "{""x"": [-10, ""\u00e9\ud83d\ude00""], ""y"": true}".
Proof.
  cbv zeta. split; [|reflexivity].
  assert (N : py_number (s2l "-10") \/ j_number 4 (s2l "-10")).
  { right. exists (s2l "-"), (s2l "10"), [], []. repeat split; try (now left); [now right| |intros _ _; cbn; lia]. right. exists 49%N, [48%N]. repeat split; try lia. constructor; [unfold j_digit; lia|constructor]. }
  split.
  - constructor; [intros [[=]|[]]|]. constructor; [intros []|constructor].
  - constructor; [|constructor; [|constructor]].
    + split; [split; [repeat constructor|reflexivity]|]. constructor; [exact N|]. constructor; [|constructor]. split; [repeat constructor|reflexivity].
    + split; [split; [repeat constructor|reflexivity]|exact I].
Qed.

(** Dialects can be read from every JSON object with the four attributes,
    whatever their order, the layout and further members. *)
Theorem C94_deserialize md depth s j : deserialize md depth s = Ok j <->
  exists l, j_text md depth (JObj l) s /\ In (s2l "delimiter", jd_delimiter j) l /\ In (s2l "quotechar", jd_quotechar j) l /\
    In (s2l "escapechar", jd_escapechar j) l /\ In (s2l "strict", jd_strict j) l.
Proof. exact (deserialize_iff md depth s j). Qed.
Print Assumptions C94_deserialize.
Example C94_deserialize_case :
  deserialize 4 1 (s2l "{""strict"":false,""x"":1,""quotechar"":"""",""delimiter"":"";"", ""escapechar"":null}") =
  Ok (mk_jdialect (JStr (s2l ";")) (JStr []) JNull (JBool false)) /\
  deserialize 4 1 (s2l "{""strict"":false}") = Err KeyError.
Proof. vm_compute. split; reflexivity. Qed.
