(** Property theorems proved in [LogicReport.v]; generated by tools/genprops.py. *)
From Coq Require Import NArith String List Bool Lia PeanoNat Permutation.
Import ListNotations.
From Verif Require Import Base IndexMap Decimal Oxide OxideSpec OxideMergeProofs OxideMerge OxideViews SourceCov SourceCovProofs
  Hints Ast Visitor VisitorRel VisitorEx Erase Counting CountingRoot Json CovJson DataObject Template Runtime Produced Report
  Sem SemShape SemErase SemVisit SemProps Account Slots Sites AccountVisit Accurate EndToEnd Runs Project.
From Verif Require Import LogicReport.

Theorem C71_truth_bystander : forall m rss M, merge_maps m rss = Ok M ->
  merge_maps m (map (map without) rss) = Ok (all_without M) /\
  forall s, cm_get_coverage_summary m M = Ok s -> cm_get_coverage_summary m (all_without M) = Ok (no_truth s).
Proof. exact (@truth_bystander). Qed.
Print Assumptions C71_truth_bystander.

Theorem C71_logic_tells_partial : forall m l gcv hs rss logs M, NoDup (map p_path l) -> Forall modelled_logic l ->
  Forall2 (process (project l) gcv) hs rss -> (forall P, In P l -> Forall2 (acted_logic gcv P) hs (logs P)) ->
  (forall P ev, In P l -> N.of_nat (count_occ event_dec (concat (logs P)) ev) < u32_mod) ->
  merge_maps m rss = Ok M ->
  cm_ok M /\ (forall p, In p (cm_get_files M) <-> exists P, In P l /\ p_path P = p /\ ran_once gcv p hs = true) /\
  forall P R, In P l -> cm_get_coverage_for_file M (p_path P) = Some R ->
    readable logs P (without R) /\
    forall c, seen c = true -> slot_exists R c = true -> exists ev, tells (p_env P) (p_items P) (concat (logs P)) R c ev.
Proof. exact (@logic_tells_partial). Qed.
Print Assumptions C71_logic_tells_partial.

Theorem C71_logic_report_partial : forall m l gcv hs rss logs M s, NoDup (map p_path l) -> Forall modelled_logic l -> small l ->
  Forall2 (process (project l) gcv) hs rss -> (forall P, In P l -> Forall2 (acted_logic gcv P) hs (logs P)) ->
  (forall P ev, In P l -> N.of_nat (count_occ event_dec (concat (logs P)) ev) < u32_mod) ->
  merge_maps m rss = Ok M -> cm_get_coverage_summary m M = Ok s ->
  exists parts, map (fun x => p_path (r_prog x)) parts = cm_get_files M /\
    Permutation (map r_prog parts) (filter (fun P => ran_once gcv (p_path P) hs) l) /\
    Forall (part_of logs M) parts /\
    adds_up logs r_stmts parts (cs_statements s) /\ adds_up logs r_fns parts (cs_functions s) /\
    adds_up logs r_paths parts (cs_branches s).
Proof. exact (@logic_report_partial). Qed.
Print Assumptions C71_logic_report_partial.

Theorem C71_logic_release_partial : forall l gcv hs rss logs, NoDup (map p_path l) -> Forall modelled_logic l -> small l ->
  (forall P, In P l -> no_gaps (p_record P)) ->
  Forall2 (process (project l) gcv) hs rss -> (forall P, In P l -> Forall2 (acted_logic gcv P) hs (logs P)) ->
  (forall P ev, In P l -> N.of_nat (count_occ event_dec (concat (logs P)) ev) < u32_mod) ->
  exists M s parts, merge_maps Release rss = Ok M /\ cm_get_coverage_summary Release M = Ok s /\
    map (fun x => p_path (r_prog x)) parts = cm_get_files M /\
    Permutation (map r_prog parts) (filter (fun P => ran_once gcv (p_path P) hs) l) /\
    Forall (part_of logs M) parts /\
    adds_up logs r_stmts parts (cs_statements s) /\ adds_up logs r_fns parts (cs_functions s) /\
    adds_up logs r_paths parts (cs_branches s).
Proof. exact (@logic_release_partial). Qed.
Print Assumptions C71_logic_release_partial.

Theorem C71_logic_report_ex : forall t' sc, instrument logic_env 40 "f.js" None ex_calls = Ok (t', sc) ->
  let P := calls_program t' sc in
  let hs := [one_file (calls_emitted P) (calls_incs 20 P); one_file (calls_emitted P) (calls_incs 1 P)] in
  exists rss M s R, Forall2 (process (project [P]) "__coverage__") hs rss /\ merge_maps Release rss = Ok M /\
    cm_get_coverage_summary Release M = Ok s /\ cm_get_files M = ["f.js"] /\ cm_get_coverage_for_file M "f.js" = Some R /\
    t_total (cs_statements s) = 5 /\ t_total (cs_functions s) = 1 /\ t_total (cs_branches s) = 4 /\
    (forall c, seen c = true -> slot_exists R c = true -> exists ev, tells logic_env (p_items P) (concat [calls_log 20; calls_log 1]) R c ev).
Proof. exact (@logic_report_ex). Qed.
Print Assumptions C71_logic_report_ex.

Theorem C71_logic_numbers_ex :
  match instrument logic_env 40 "f.js" None ex_calls with
  | Ok (t, sc) =>
      let r := after (cnt pure_toy (snd (run_program pure_toy 20 t tt w0))) (sc_fc sc) in
      match merge_maps Release [[r]; [r]; [r]] with
      | Ok M => match cm_get_coverage_summary Release M with
          | Ok s => (cm_get_files M, short (cs_statements s), short (cs_functions s), short (cs_branches s), option_map short (cs_branches_true s)) =
                      (["f.js"], (5, 5), (1, 1), (4, 4), Some (4, 2)) /\
                    fc_b_t r = Some [(1, [0; 1])] /\ map (fun kv => fc_b_t (snd kv)) M = [Some [(0, [0; 2]); (1, [0; 1])]]
          | _ => False
          end
      | _ => False
      end
  | _ => False
  end.
Proof. exact (@logic_numbers_ex). Qed.
Print Assumptions C71_logic_numbers_ex.

Theorem C71_logic_totals_refuted : exists e t t' sc r M s0 s, instrument e 40 "f.js" None t = Ok (t', sc) /\ no_gaps (sc_fc sc) /\
  same_tables (sc_fc sc) r /\ to_summary Release r = Ok s0 /\ merge_maps Release [[r]; [r]; [r]] = Ok M /\ cm_get_coverage_summary Release M = Ok s /\
  option_map t_total (cs_branches_true s0) = Some 2 /\ option_map t_total (cs_branches_true s) = Some 4.
Proof. exact (@logic_totals_refuted). Qed.
Print Assumptions C71_logic_totals_refuted.

