(** * AutoCases: concrete tables in all detection methods *)
From Coq Require Import String Permutation.
From Verif Require Import Base Dialect SpecLayout Potential SpecPotential MaskedFacts Consistency DetectCases Detect NormalForm
  Types SpecTypes TypesAll TypesUrl TypesCases SpecTables TablesFacts TablesCases.
Open Scope N_scope.

Lemma ascii_ascii : ascii_like ascii_cat.
Proof.
  split.
  - intros x (H1 & H2). exists (s2l "u"). assert (H := ascii_table (fun c s => negb ((65 <=? c) && (c <=? 90)) || str_eqb s (s2l "Lu"))%bool).
    assert (K : forall c, 128 <= c -> (negb ((65 <=? c) && (c <=? 90)) || str_eqb (s2l "Cn") (s2l "Lu"))%bool = true).
    { intros c Hc. assert (E : (c <=? 90) = false) by (apply N.leb_gt; lia). rewrite E. now rewrite andb_false_r. }
    apply N.leb_le in H1, H2. specialize (H K ltac:(reflexivity) x). cbv beta in H. rewrite H1, H2 in H. cbn [andb negb orb] in H. now apply str_eqb_eq in H.
  - repeat apply Forall_cons; try apply Forall_nil; try (now left); right; split; cbn; intuition discriminate.
Qed.
Lemma case_common d m : In d common_delimiters -> d <> SEMI -> (1 <= m)%nat -> ~ Forall (eq m) (per_row d (table_of case_rows case_final)).
Proof.
  intros Hd Hn Hm HF. apply Forall_inv in HF. cbn in Hd.
  destruct Hd as [<-|[<-|[<-|[<-|[]]]]]; [|congruence| |]; cbn in HF; lia.
Qed.
(** A comma in the numbers of a table delimited by spaces *)
Definition thousands : option (list str) := Some [s2l "a"; s2l "b"; s2l "1,234"].
Lemma thousands_found : detect ascii_cat (shipped_url ascii_data) (is_known_type ascii_data) plain_orders (fun l => l) 100000 true
   (table_text 32 [] thousands) None 131072 = (Ok (Some (dialect3 [32] [] [])), 131072%Z).
Proof. rewrite small_detect_ok. vm_compute. reflexivity. Qed.
Lemma thousands_lost known O o_set skip s : detector_detect ascii_cat (shipped_url ascii_data) known O o_set
   (table_text 32 [] thousands) None (MStr (s2l "auto")) skip s = (Ok (Some (dialect3 [COMMA] [] [])), mk_state (Some NORMAL) (st_limit s)).
Proof.
  unfold detector_detect.
  assert (E : detect_dialect_normal ascii_cat (table_text 32 [] thousands) utf8 None = Ok (Some (dialect3 [COMMA] [] []))) by (vm_compute; reflexivity).
  rewrite E. reflexivity.
Qed.
Lemma dashes_lost known O o_set skip s : detector_detect ascii_cat (shipped_url ascii_data) known O o_set
   (table_text 45 [([s2l "a"; s2l "b"], ELF)] (Some [s2l "c"; s2l "d"])) None (MStr (s2l "auto")) skip s = (Ok (Some (dialect3 [] [] [])), mk_state (Some NORMAL) (st_limit s)).
Proof.
  unfold detector_detect.
  assert (E : detect_dialect_normal ascii_cat (table_text 45 [([s2l "a"; s2l "b"], ELF)] (Some [s2l "c"; s2l "d"])) utf8 None = Ok (Some (dialect3 [] [] []))) by (vm_compute; reflexivity).
  rewrite E. reflexivity.
Qed.
Lemma methods_disagree : exists rows final O o_set,
  grid 3 (cell_char 32) (table_of rows final) /\ any_orders O /\ (forall l, Permutation (o_set l) l) /\
  detect ascii_cat (shipped_url ascii_data) (is_known_type ascii_data) O o_set 100000 true (table_text 32 rows final) None 131072 =
    (Ok (Some (dialect3 [32] [] [])), 131072%Z) /\
  detector_detect ascii_cat (shipped_url ascii_data) (is_known_type ascii_data) O o_set (table_text 32 rows final) None
    (MStr (s2l "auto")) true (mk_state None 131072) = (Ok (Some (dialect3 [COMMA] [] [])), mk_state (Some NORMAL) 131072).
Proof.
  exists [], thousands, plain_orders, (fun l => l). split; [|split; [exact plain_orders_any|split; [intros l; apply Permutation_refl|]]].
  - split; [discriminate|]. split; [lia|]. cbn [table_of map fst app thousands]. each; (split; [reflexivity|]); each;
      (split; [discriminate|split; [cbn; intuition discriminate|split; [unfold quote_like; cbn; intuition discriminate|reflexivity]]]).
  - split; [exact thousands_found|]. apply thousands_lost.
Qed.
