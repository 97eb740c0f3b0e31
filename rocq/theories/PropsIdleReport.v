(** Property theorems proved in [IdleReport.v]; generated by tools/genprops.py. *)
From Coq Require Import NArith String List Bool Lia PeanoNat Permutation.
Import ListNotations.
From Verif Require Import Base IndexMap Decimal Oxide OxideSpec OxideMergeProofs OxideMerge OxideViews SourceCov SourceCovProofs
  Hints Ast Visitor VisitorRel VisitorEx Erase Counting CountingRoot Json CovJson DataObject Template Runtime Produced Report
  Sem SemShape SemErase SemVisit SemProps Account Slots Sites AccountVisit Accurate EndToEnd Runs Project Ledger Consistent FitReport
  Keeps Unreached.
From Verif Require Import IdleReport.

Theorem C63_declared_function_refuted : exists h n t x v k sp pre a post y b g,
  NoDup (events t) /\ block_bodies t = true /\ part (Node k sp (pre ++ a :: post)) t /\ stmts_kind k = true /\ opens g a /\
  In y post /\ In b (events y) /\
  times (evs h (snd (run_program h n t x v))) g = 0%nat /\ times (evs h (snd (run_program h n t x v))) b = 1%nat.
Proof. exact (@declared_function_refuted). Qed.
Print Assumptions C63_declared_function_refuted.

Theorem C63_record_unreached_partial : forall e n path ism t items t' sc gcv,
  program_items t = Some items -> clean t = true -> forallb (good true) items = true ->
  forallb item items = true -> forallb exact items = true -> NoDup (map fst (flat_map sites items)) ->
  covered_program (e_report_logic e) t = true -> Forall DataObject.plain (idents t) ->
  instrument e n path ism t = Ok (t', sc) ->
  forall h, (e_report_logic e = true -> pure_tests h) -> forall fuel x w,
  let log := evs h (snd (run_program h fuel t x w)) in
  forall hist i, valid hist -> NoDup (map file_key (loaded hist)) ->
  Forall (fun f => exists fc, output_of f fc) (loaded hist) ->
  nth_error (loaded hist) i = Some (emitted_for gcv path (sc_fc sc)) -> touched i hist = true ->
  Permutation (incs i hist) (cnt h (snd (run_program h fuel t' x w))) ->
  exists st a j r, Runtime.run hist rt0 = Some st /\ published (rheap st) gcv path = Some a /\ data_at (rheap st) a = Some j /\
    read_fc j = Some r /\ (forall c, seen c = true -> slot_exists (sc_fc sc) c = true -> exists ev, tells e items log r c ev) /\
    unreached e t items log r.
Proof. exact (@record_unreached_partial). Qed.
Print Assumptions C63_record_unreached_partial.

Theorem C63_merged_unreached_partial : forall e n path ism t items t' sc gcv,
  program_items t = Some items -> clean t = true -> forallb (good true) items = true ->
  forallb item items = true -> forallb exact items = true -> NoDup (map fst (flat_map sites items)) ->
  covered_program (e_report_logic e) t = true -> Forall DataObject.plain (idents t) ->
  instrument e n path ism t = Ok (t', sc) -> e_report_logic e = false -> locs_unique (sc_fc sc) ->
  forall m log0 r0 logs rs, ran t t' sc gcv path log0 r0 -> Forall2 (ran t t' sc gcv path) logs rs ->
  (forall ev, N.of_nat (count_occ event_dec (concat (log0 :: logs)) ev) < u32_mod) ->
  exists R, fold_res (fc_merge m) r0 rs = Ok R /\
    (forall c, seen c = true -> slot_exists R c = true -> exists ev, tells e items (concat (log0 :: logs)) R c ev) /\
    unreached e t items (concat (log0 :: logs)) R.
Proof. exact (@merged_unreached_partial). Qed.
Print Assumptions C63_merged_unreached_partial.

Theorem C63_project_unreached_partial : forall m l gcv hs rss logs, NoDup (map p_path l) -> Forall modelled l ->
  Forall2 (process (project l) gcv) hs rss -> (forall P, In P l -> Forall2 (acted gcv P) hs (logs P)) ->
  (forall P ev, In P l -> N.of_nat (count_occ event_dec (concat (logs P)) ev) < u32_mod) ->
  exists M, merge_maps m rss = Ok M /\
    forall P R, In P l -> cm_get_coverage_for_file M (p_path P) = Some R ->
      (forall c, seen c = true -> slot_exists R c = true -> exists ev, tells (p_env P) (p_items P) (concat (logs P)) R c ev) /\
      unreached (p_env P) (p_tree P) (p_items P) (concat (logs P)) R.
Proof. exact (@project_unreached_partial). Qed.
Print Assumptions C63_project_unreached_partial.

Theorem C63_guards_ex :
  (exists u, part u ex_idle /\ guards (EStmt (mkSpan 18 27)) (EFn (mkSpan 1 30)) u) /\
  (exists u, part u ex_idle /\ guards (EStmt (mkSpan 41 48)) (EArm (mkSpan 31 50) false) u) /\
  (exists u, part u ex_idle /\ guards (EStmt (mkSpan 71 80)) (EStmt (mkSpan 61 70)) u) /\
  NoDup (events ex_idle) /\ block_bodies ex_idle = true /\
  map (times idle_log) [EFn (mkSpan 1 30); EStmt (mkSpan 18 27); EArm (mkSpan 31 50) false; EStmt (mkSpan 41 48);
    EStmt (mkSpan 61 70); EStmt (mkSpan 71 80); EStmt (mkSpan 31 50); EStmt (mkSpan 51 60)] = [0; 0; 0; 0; 0; 0; 1; 1]%nat.
Proof. exact (@guards_ex). Qed.
Print Assumptions C63_guards_ex.

Theorem C63_unreached_ex : forall t' sc, instrument line_env 60 "f.js" None ex_count = Ok (t', sc) ->
  exists r0 r1 R items, ran ex_count t' sc "__coverage__" "f.js" (count_log 9) r0 /\
    ran ex_count t' sc "__coverage__" "f.js" (count_log 1) r1 /\ fold_res (fc_merge Debug) r0 [r1] = Ok R /\
    program_items ex_count = Some items /\ unreached line_env ex_count items (count_log 9 ++ count_log 1) R.
Proof. exact (@unreached_ex). Qed.
Print Assumptions C63_unreached_ex.

