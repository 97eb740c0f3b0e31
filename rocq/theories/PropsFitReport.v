(** Property theorems proved in [FitReport.v]; generated by tools/genprops.py. *)
From Coq Require Import NArith String List Bool Lia PeanoNat Permutation.
Import ListNotations.
From Verif Require Import Base IndexMap Decimal Oxide OxideSpec OxideMergeProofs OxideMerge OxideViews SourceCov SourceCovProofs
  Hints Ast Visitor VisitorRel VisitorEx Erase Counting CountingRoot Json CovJson DataObject Template Runtime Produced Report
  Sem SemShape SemErase SemVisit SemProps Account Slots Sites AccountVisit Accurate EndToEnd Runs Project Ledger Consistent.
From Verif Require Import FitReport.

Theorem C62_loop_body_refuted : exists h n t x v sp c u b,
  NoDup (events t) /\ block_bodies t = true /\ part (Node KWhile sp [c; u]) t /\ nowhere sp = false /\ opens b u /\ leads b u /\
  (times (evs h (snd (run_program h n t x v))) (EStmt sp) < times (evs h (snd (run_program h n t x v))) b)%nat.
Proof. exact (@loop_body_refuted). Qed.
Print Assumptions C62_loop_body_refuted.

Theorem C62_record_coherent_partial : forall e n path ism t items t' sc gcv,
  program_items t = Some items -> clean t = true -> forallb (good true) items = true ->
  forallb item items = true -> forallb exact items = true -> NoDup (map fst (flat_map sites items)) ->
  covered_program (e_report_logic e) t = true -> Forall DataObject.plain (idents t) ->
  instrument e n path ism t = Ok (t', sc) ->
  forall h, (e_report_logic e = true -> pure_tests h) -> forall fuel x w,
  let log := evs h (snd (run_program h fuel t x w)) in
  forall hist i, valid hist -> NoDup (map file_key (loaded hist)) ->
  Forall (fun f => exists fc, output_of f fc) (loaded hist) ->
  nth_error (loaded hist) i = Some (emitted_for gcv path (sc_fc sc)) -> touched i hist = true ->
  Permutation (incs i hist) (cnt h (snd (run_program h fuel t' x w))) ->
  exists st a j r, Runtime.run hist rt0 = Some st /\ published (rheap st) gcv path = Some a /\ data_at (rheap st) a = Some j /\
    read_fc j = Some r /\ (forall c, seen c = true -> slot_exists (sc_fc sc) c = true -> exists ev, tells e items log r c ev) /\
    coherent e t items log r.
Proof. exact (@record_coherent_partial). Qed.
Print Assumptions C62_record_coherent_partial.

Theorem C62_merged_coherent_partial : forall e n path ism t items t' sc gcv,
  program_items t = Some items -> clean t = true -> forallb (good true) items = true ->
  forallb item items = true -> forallb exact items = true -> NoDup (map fst (flat_map sites items)) ->
  covered_program (e_report_logic e) t = true -> Forall DataObject.plain (idents t) ->
  instrument e n path ism t = Ok (t', sc) -> e_report_logic e = false -> locs_unique (sc_fc sc) ->
  forall m log0 r0 logs rs, ran t t' sc gcv path log0 r0 -> Forall2 (ran t t' sc gcv path) logs rs ->
  (forall ev, N.of_nat (count_occ event_dec (concat (log0 :: logs)) ev) < u32_mod) ->
  exists R, fold_res (fc_merge m) r0 rs = Ok R /\
    (forall c, seen c = true -> slot_exists R c = true -> exists ev, tells e items (concat (log0 :: logs)) R c ev) /\
    coherent e t items (concat (log0 :: logs)) R.
Proof. exact (@merged_coherent_partial). Qed.
Print Assumptions C62_merged_coherent_partial.

Theorem C62_project_coherent_partial : forall m l gcv hs rss logs, NoDup (map p_path l) -> Forall modelled l ->
  Forall2 (process (project l) gcv) hs rss -> (forall P, In P l -> Forall2 (acted gcv P) hs (logs P)) ->
  (forall P ev, In P l -> N.of_nat (count_occ event_dec (concat (logs P)) ev) < u32_mod) ->
  exists M, merge_maps m rss = Ok M /\
    forall P R, In P l -> cm_get_coverage_for_file M (p_path P) = Some R ->
      (forall c, seen c = true -> slot_exists R c = true -> exists ev, tells (p_env P) (p_items P) (concat (logs P)) R c ev) /\
      coherent (p_env P) (p_tree P) (p_items P) (concat (logs P)) R.
Proof. exact (@project_coherent_partial). Qed.
Print Assumptions C62_project_coherent_partial.

Theorem C62_follows_ex :
  (exists u, part u ex_count /\ follows (EStmt (mkSpan 22 80)) (EFn (mkSpan 1 100)) u) /\
  (exists u, part u ex_count /\ follows (EStmt (mkSpan 81 99)) (EStmt (mkSpan 20 80)) u) /\
  (exists u, part u ex_count /\ follows (EOper (mkSpan 88 98) true) (EStmt (mkSpan 81 99)) u) /\
  (exists u, part u ex_count /\ follows (EStmt (mkSpan 111 120)) (EStmt (mkSpan 101 110)) u) /\
  NoDup (events ex_count) /\ block_bodies ex_count = true /\
  map (times (count_log 9)) [EFn (mkSpan 1 100); EStmt (mkSpan 22 80); EStmt (mkSpan 20 80); EStmt (mkSpan 81 99);
    EOper (mkSpan 88 98) true; EStmt (mkSpan 101 110); EStmt (mkSpan 111 120)] = [2; 2; 2; 2; 0; 1; 1]%nat.
Proof. exact (@follows_ex). Qed.
Print Assumptions C62_follows_ex.

Theorem C62_coherent_ex : forall t' sc, instrument line_env 60 "f.js" None ex_count = Ok (t', sc) ->
  exists r0 r1 R items, ran ex_count t' sc "__coverage__" "f.js" (count_log 9) r0 /\
    ran ex_count t' sc "__coverage__" "f.js" (count_log 1) r1 /\ fold_res (fc_merge Debug) r0 [r1] = Ok R /\
    program_items ex_count = Some items /\ coherent line_env ex_count items (count_log 9 ++ count_log 1) R.
Proof. exact (@coherent_ex). Qed.
Print Assumptions C62_coherent_ex.

Theorem C62_ways_ex : fits ex_calls (evs pure_toy (snd (run_program pure_toy 9 ex_calls tt w0))) /\
  (exists x y z, part (Node KIf (mkSpan 17 33) [x; y; z]) ex_calls) /\
  map (times (evs pure_toy (snd (run_program pure_toy 9 ex_calls tt w0))))
    [EArm (mkSpan 17 33) false; EArm (mkSpan 17 33) true; EStmt (mkSpan 17 33)] = [1; 1; 2]%nat.
Proof. exact (@ways_ex). Qed.
Print Assumptions C62_ways_ex.

