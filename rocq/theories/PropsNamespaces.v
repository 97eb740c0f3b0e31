(** Property theorems proved in [Namespaces.v]; generated by tools/genprops.py. *)
From Coq Require Import NArith String List Bool Lia PeanoNat.
Import ListNotations.
From Verif Require Import Base IndexMap Oxide SourceCov Hints Ast Visitor VisitorEx Erase Counting CountingRoot Json CovJson DataObject Template Runtime.
Open Scope N_scope.
From Verif Require Import Namespaces.

Theorem C55_namespace_second_record_refuted : exists t t' sc inner,
  instrument plain_env 40 "f.ts" None t = Ok (t', sc) /\ templates t' = [sc_fc sc; inner] /\
  fc_path inner = fc_path (sc_fc sc) /\
  im_keys (fc_s (sc_fc sc)) = [0; 1; 2] /\ im_keys (fc_s inner) = [0; 1].
Proof. exact (@namespace_second_record_refuted). Qed.
Print Assumptions C55_namespace_second_record_refuted.

Theorem C55_second_record_replaces_first : forall evs f fc g gc n0 n1, valid evs -> loaded evs = [f; g] ->
  output_of f fc -> output_of g gc -> file_key f = file_key g ->
  first_use 0 evs = Some n0 -> first_use 1 evs = Some n1 -> (n0 < n1)%nat ->
  exists st a j, run evs rt0 = Some st /\ published (rheap st) (em_gcv f) (em_path f) = Some a /\ data_at (rheap st) a = Some j /\
    forall c, count c j = option_map (fun n => n + hits 1 c evs) (recorded gc c).
Proof. exact (@second_record_replaces_first). Qed.
Print Assumptions C55_second_record_replaces_first.

Theorem C55_namespace_loses_counts_refuted : exists fc inner evs st a j,
  (exists t t' sc, instrument plain_env 40 "f.ts" None t = Ok (t', sc) /\ templates t' = [fc; inner] /\ fc = sc_fc sc) /\
  valid evs /\ loaded evs = [emitted_for "__coverage__" "f.ts" fc; emitted_for "__coverage__" "f.ts" inner] /\
  (forall k, In k [CS 0; CS 1; CS 2] -> recorded fc k = Some 0 /\ hits 0 k evs + hits 1 k evs = 1) /\
  run evs rt0 = Some st /\ published (rheap st) "__coverage__" "f.ts" = Some a /\ data_at (rheap st) a = Some j /\
  count (CS 0) j = Some 0 /\ count (CS 1) j = Some 1 /\ count (CS 2) j = None.
Proof. exact (@namespace_loses_counts_refuted). Qed.
Print Assumptions C55_namespace_loses_counts_refuted.

Theorem C55_one_record_partial : forall e n path ism t items t' sc,
  program_items t = Some items -> forallb (good false) items = true -> clean t = true ->
  should_ignore_file (e_word e) (e_comments e) (nspan t) = false ->
  instrument e n path ism t = Ok (t', sc) -> templates t' = [sc_fc sc].
Proof. exact (@one_record_partial). Qed.
Print Assumptions C55_one_record_partial.

Theorem C55_one_record_ex : exists t' sc, instrument plain_env 40 "f.ts" None
  (module_ 1 40 [T 1 5 KExprStmt [X 1 4 (KOther 0) [var 1 2 "f"]]; T 31 35 KExprStmt [X 31 34 (KOther 0) [var 31 32 "h"]]]) = Ok (t', sc) /\
  templates t' = [sc_fc sc] /\ im_keys (fc_s (sc_fc sc)) = [0; 1].
Proof. exact (@one_record_ex). Qed.
Print Assumptions C55_one_record_ex.

