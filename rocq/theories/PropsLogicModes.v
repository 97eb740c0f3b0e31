(** Property theorems proved in [LogicModes.v]; generated by tools/genprops.py. *)
From Coq Require Import NArith String List Bool Lia PeanoNat Permutation.
Import ListNotations.
From Verif Require Import Base IndexMap Decimal Oxide OxideSpec OxideMergeProofs OxideMerge OxideViews SourceCov SourceCovProofs
  Hints Ast Visitor VisitorRel VisitorEx Erase Counting CountingRoot Json CovJson DataObject Template Runtime Produced Report
  Sem SemShape SemErase SemVisit SemProps Account Slots Sites AccountVisit Accurate EndToEnd Runs Project LogicReport.
From Verif Require Import LogicModes.

Theorem C71_logic_modes_partial : forall m l gcv hs rss logs, NoDup (map p_path l) -> Forall modelled_logic l -> small l ->
  (forall P, In P l -> no_gaps (p_record P)) ->
  Forall2 (process (project l) gcv) hs rss -> (forall P, In P l -> Forall2 (acted_logic gcv P) hs (logs P)) ->
  (forall P ev, In P l -> N.of_nat (count_occ event_dec (concat (logs P)) ev) < u32_mod) ->
  sumN (map truth_weight (concat rss)) < u32_mod ->
  exists M s parts, merge_maps m rss = Ok M /\ cm_get_coverage_summary m M = Ok s /\
    map (fun x => p_path (r_prog x)) parts = cm_get_files M /\
    Permutation (map r_prog parts) (filter (fun P => ran_once gcv (p_path P) hs) l) /\
    Forall (part_of logs M) parts /\
    adds_up logs r_stmts parts (cs_statements s) /\ adds_up logs r_fns parts (cs_functions s) /\
    adds_up logs r_paths parts (cs_branches s).
Proof. exact (@logic_modes_partial). Qed.
Print Assumptions C71_logic_modes_partial.

Theorem C71_logic_debug_ex : forall t' sc, instrument logic_env 40 "f.js" None ex_calls = Ok (t', sc) ->
  let P := calls_program t' sc in
  let hs := [one_file (calls_emitted P) (calls_incs 20 P); one_file (calls_emitted P) (calls_incs 1 P)] in
  exists rss M s, fc_b_t (sc_fc sc) <> None /\ Forall2 (process (project [P]) "__coverage__") hs rss /\ merge_maps Debug rss = Ok M /\
    cm_get_coverage_summary Debug M = Ok s /\ cm_get_files M = ["f.js"] /\
    t_total (cs_statements s) = 5 /\ t_total (cs_functions s) = 1 /\ t_total (cs_branches s) = 4.
Proof. exact (@logic_debug_ex). Qed.
Print Assumptions C71_logic_debug_ex.

