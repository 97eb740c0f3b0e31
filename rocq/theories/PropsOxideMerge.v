(** Property theorems proved in [OxideMerge.v]; generated by tools/genprops.py. *)
From Coq Require Import PeanoNat NArith String Ascii List Bool Lia Permutation.
Import ListNotations.
From Verif Require Import Base IndexMap Decimal Oxide OxideSpec OxideMergeProofs.
Open Scope N_scope.
From Verif Require Import OxideMerge.

Theorem C01_merge_adds_hits : forall a b r, fc_all a = false -> fc_all b = false ->
  locs_unique a -> fc_merge Debug a b = Ok r ->
  (forall l, stmt_hits r l = stmt_hits a l + stmt_hits b l) /\
  (forall l, fn_hits r l = fn_hits a l + fn_hits b l) /\
  (forall l j, path_hits r l j = path_hits a l j + path_hits b l j).
Proof. exact (@merge_adds_hits). Qed.
Print Assumptions C01_merge_adds_hits.

Theorem C01_merge_adds_hits_release : forall a b r, fc_all a = false -> fc_all b = false ->
  locs_unique a -> fc_merge Release a b = Ok r ->
  (forall l, cong32 (stmt_hits r l) (stmt_hits a l + stmt_hits b l)) /\
  (forall l, cong32 (fn_hits r l) (fn_hits a l + fn_hits b l)) /\
  (forall l j, cong32 (path_hits r l j) (path_hits a l j + path_hits b l j)).
Proof. exact (@merge_adds_hits_release). Qed.
Print Assumptions C01_merge_adds_hits_release.

Theorem C01_merge_shape : forall m a b, fc_all a = false -> fc_all b = false ->
  tables_ok a -> tables_ok b -> locs_unique a -> locs_unique b -> merge_fits a b ->
  fc_b_t a = None \/ fc_b_t b = None ->
  fc_merge m a b = Ok (spec_merge a b (fc_b_t a)).
Proof. exact (@merge_shape). Qed.
Print Assumptions C01_merge_shape.

Theorem C01_merge_comm_nonvacuous :
  exists r1 r2, fc_merge Debug plain_first plain_second = Ok r1 /\
    fc_merge Debug plain_second plain_first = Ok r2 /\ same_hits r1 r2 /\
    stmt_hits r1 (range_new 1 1 1 100) = 1 /\ path_hits r1 (range_new 2 1 2 20) 1 = 2.
Proof. exact (@merge_comm_nonvacuous). Qed.
Print Assumptions C01_merge_comm_nonvacuous.

Theorem C02_merge_ok_tables : forall m a b r, fc_all a = false -> fc_all b = false ->
  fc_merge m a b = Ok r -> tables_ok a /\ tables_ok b.
Proof. exact (@merge_ok_tables). Qed.
Print Assumptions C02_merge_ok_tables.

Theorem C02_merge_shape : forall m a b, fc_all a = false -> fc_all b = false ->
  tables_ok a -> tables_ok b -> locs_unique a -> locs_unique b -> merge_fits a b ->
  fc_b_t a = None \/ fc_b_t b = None ->
  fc_merge m a b = Ok (spec_merge a b (fc_b_t a)).
Proof. exact (@merge_shape). Qed.
Print Assumptions C02_merge_shape.

Theorem C02_merge_total_release : forall a b, fc_all a = false -> fc_all b = false ->
  tables_ok a -> tables_ok b -> fc_b_t a = None \/ fc_b_t b = None ->
  exists r, fc_merge Release a b = Ok r.
Proof. exact (@merge_total_release). Qed.
Print Assumptions C02_merge_total_release.

Theorem C02_spec_merge_wf : forall a b bt, locs_unique a -> locs_unique b ->
  tables_ok (spec_merge a b bt) /\ locs_unique (spec_merge a b bt).
Proof. exact (@spec_merge_wf). Qed.
Print Assumptions C02_spec_merge_wf.

Theorem C02_spec_merge_dense : forall a b bt,
  let r := spec_merge a b bt in
  im_keys (fc_s r) = im_keys (fc_statement_map r) /\
  im_keys (fc_f r) = im_keys (fc_fn_map r) /\
  im_keys (fc_b r) = im_keys (fc_branch_map r) /\
  im_keys (fc_s r) = map N.of_nat (seq 0 (length (fc_s r))) /\
  im_keys (fc_f r) = map N.of_nat (seq 0 (length (fc_f r))) /\
  im_keys (fc_b r) = map N.of_nat (seq 0 (length (fc_b r))).
Proof. exact (@spec_merge_dense). Qed.
Print Assumptions C02_spec_merge_dense.

Theorem C02_plain_first_ok : plain plain_first.
Proof. exact (@plain_first_ok). Qed.
Print Assumptions C02_plain_first_ok.

Theorem C03_merge_comm : forall m a b, plain a -> plain b -> merge_fits a b ->
  exists r1 r2, fc_merge m a b = Ok r1 /\ fc_merge m b a = Ok r2 /\ same_hits r1 r2.
Proof. exact (@merge_comm). Qed.
Print Assumptions C03_merge_comm.

Theorem C03_merge_assoc : forall m a b c, plain a -> plain b -> plain c -> merge_fits3 a b c ->
  exists r1 r2,
    (let* x := fc_merge m a b in fc_merge m x c) = Ok r1 /\
    (let* y := fc_merge m b c in fc_merge m a y) = Ok r2 /\ same_hits r1 r2.
Proof. exact (@merge_assoc). Qed.
Print Assumptions C03_merge_assoc.

Theorem C03_merge_zeroed_identity : forall m a, plain a -> hits_u32 a ->
  exists r, fc_merge m a (reset_hits a) = Ok r /\ same_hits r a.
Proof. exact (@merge_zeroed_identity). Qed.
Print Assumptions C03_merge_zeroed_identity.

Theorem C03_merge_comm_nonvacuous :
  exists r1 r2, fc_merge Debug plain_first plain_second = Ok r1 /\
    fc_merge Debug plain_second plain_first = Ok r2 /\ same_hits r1 r2 /\
    stmt_hits r1 (range_new 1 1 1 100) = 1 /\ path_hits r1 (range_new 2 1 2 20) 1 = 2.
Proof. exact (@merge_comm_nonvacuous). Qed.
Print Assumptions C03_merge_comm_nonvacuous.

Theorem C04_merge_never_loses_hits_refuted :
  exists a b r, tables_ok a /\ tables_ok b /\ fc_all a = false /\ fc_all b = false /\
    fc_merge Debug a b = Ok r /\ total_hits r <> total_hits a + total_hits b.
Proof. exact (@merge_never_loses_hits_refuted). Qed.
Print Assumptions C04_merge_never_loses_hits_refuted.

Theorem C04_merge_comm_refuted_with_duplicates :
  exists a b r1 r2 l, fc_merge Debug a b = Ok r1 /\ fc_merge Debug b a = Ok r2 /\
    stmt_hits r1 l <> stmt_hits r2 l.
Proof. exact (@merge_comm_refuted_with_duplicates). Qed.
Print Assumptions C04_merge_comm_refuted_with_duplicates.

Theorem C04_merge_exact : forall a b r, fc_all a = false -> fc_all b = false ->
  fc_merge Debug a b = Ok r ->
  (forall l, stmt_hits r l = stmt_last a l + stmt_hits b l) /\
  (forall l, fn_hits r l = fn_last a l + fn_hits b l) /\
  (forall l j, path_hits r l j = path_last a l j + path_hits b l j).
Proof. exact (@merge_exact). Qed.
Print Assumptions C04_merge_exact.

Theorem C04_merge_exact_release : forall a b r, fc_all a = false -> fc_all b = false ->
  fc_merge Release a b = Ok r ->
  (forall l, cong32 (stmt_hits r l) (stmt_last a l + stmt_hits b l)) /\
  (forall l, cong32 (fn_hits r l) (fn_last a l + fn_hits b l)) /\
  (forall l j, cong32 (path_hits r l j) (path_last a l j + path_hits b l j)).
Proof. exact (@merge_exact_release). Qed.
Print Assumptions C04_merge_exact_release.

Theorem C05_merge_truthiness_refuted :
  exists a b r l j, locs_unique a /\ locs_unique b /\ tables_ok a /\ tables_ok b /\
    fc_merge Debug a b = Ok r /\ truth_hits r l j <> truth_hits a l j + truth_hits b l j.
Proof. exact (@merge_truthiness_refuted). Qed.
Print Assumptions C05_merge_truthiness_refuted.

Theorem C05_merge_truthiness_panics_refuted :
  exists a b, locs_unique a /\ locs_unique b /\ tables_ok a /\ tables_ok b /\
    table_ok br_loc (match fc_b_t a with Some x => x | None => [] end) (fc_branch_map a) /\
    fc_merge Debug a b = Panic RMapValueMissing.
Proof. exact (@merge_truthiness_panics_refuted). Qed.
Print Assumptions C05_merge_truthiness_panics_refuted.

Theorem C05_merge_truthiness_partial : forall m a b bta btb,
  fc_all a = false -> fc_all b = false ->
  tables_ok a -> tables_ok b -> locs_unique a -> locs_unique b -> merge_fits a b ->
  dense_branches a -> full_truth a bta -> full_truth b btb ->
  (forall l j, truth_hits a l j + truth_hits b l j < u32_mod) ->
  exists r bt, fc_merge m a b = Ok r /\ fc_b_t r = Some bt /\
    im_keys bt = im_keys (fc_b r) /\
    (forall l j, truth_hits r l j = truth_hits a l j + truth_hits b l j).
Proof. exact (@merge_truthiness_partial). Qed.
Print Assumptions C05_merge_truthiness_partial.

Theorem C05_truth_nonvacuous :
  exists r bt, fc_merge Debug (truth_fc 3) (truth_fc 4) = Ok r /\ fc_b_t r = Some bt /\
    im_keys bt = im_keys (fc_b r) /\
    (forall l j, truth_hits r l j = truth_hits (truth_fc 3) l j + truth_hits (truth_fc 4) l j).
Proof. exact (@truth_nonvacuous). Qed.
Print Assumptions C05_truth_nonvacuous.

Theorem C06_merge_placeholder_ignored : forall m a b, fc_all b = true -> fc_merge m a b = Ok a.
Proof. exact (@merge_placeholder_ignored). Qed.
Print Assumptions C06_merge_placeholder_ignored.

Theorem C06_merge_placeholder_replaced : forall m a b, fc_all a = true -> fc_all b = false ->
  fc_merge m a b = Ok b.
Proof. exact (@merge_placeholder_replaced). Qed.
Print Assumptions C06_merge_placeholder_replaced.

Theorem C06_merge_keeps_identity : forall m a b r, fc_all a = false -> fc_all b = false ->
  fc_merge m a b = Ok r ->
  fc_all r = false /\ fc_path r = fc_path a /\ fc_input_source_map r = fc_input_source_map a.
Proof. exact (@merge_keeps_identity). Qed.
Print Assumptions C06_merge_keeps_identity.

