(** Property theorems proved in [LogicWhole.v]; generated by tools/genprops.py. *)
From Coq Require Import Reals.
From Coq Require Import NArith String List Bool Lia PeanoNat Permutation.
Import ListNotations.
From Verif Require Import Base IndexMap Decimal Oxide OxideSpec OxideMergeProofs OxideMerge OxideViews SourceCov SourceCovProofs
  Hints Ast Visitor VisitorRel VisitorEx Erase Counting CountingRoot Json CovJson DataObject Template Runtime Produced Report
  Sem SemShape SemErase SemVisit SemProps Account Slots Sites AccountVisit Accurate EndToEnd Runs Project LogicReport LogicModes Threshold Placeholders.
From Verif Require Import LogicWhole.

Theorem C72_logic_coherent_partial : forall m l gcv hs rss logs M, NoDup (map p_path l) -> Forall modelled_logic l ->
  Forall2 (process (project l) gcv) hs rss -> (forall P, In P l -> Forall2 (acted_logic gcv P) hs (logs P)) ->
  (forall P ev, In P l -> N.of_nat (count_occ event_dec (concat (logs P)) ev) < u32_mod) ->
  merge_maps m rss = Ok M ->
  forall P R, In P l -> cm_get_coverage_for_file M (p_path P) = Some R ->
    (forall c, seen c = true -> slot_exists R c = true -> exists ev, tells (p_env P) (p_items P) (concat (logs P)) R c ev) /\
    FitReport.coherent (p_env P) (p_tree P) (p_items P) (concat (logs P)) R /\
    IdleReport.unreached (p_env P) (p_tree P) (p_items P) (concat (logs P)) R.
Proof. exact (@logic_coherent_partial). Qed.
Print Assumptions C72_logic_coherent_partial.

Theorem C72_logic_threshold_partial : forall m l gcv hs rss logs M s, NoDup (map p_path l) -> Forall modelled_logic l -> small l ->
  Forall2 (process (project l) gcv) hs rss -> (forall P, In P l -> Forall2 (acted_logic gcv P) hs (logs P)) ->
  (forall P ev, In P l -> N.of_nat (count_occ event_dec (concat (logs P)) ev) < u32_mod) ->
  (exists P, In P l /\ ran_once gcv (p_path P) hs = true) ->
  merge_maps m rss = Ok M -> cm_get_coverage_summary m M = Ok s ->
  exists parts lss, map (fun x => p_path (r_prog x)) parts = cm_get_files M /\
    Permutation (map r_prog parts) (filter (fun P => ran_once gcv (p_path P) hs) l) /\
    Forall (part_of logs M) parts /\ totals_of (filter (fun P => ran_once gcv (p_path P) hs) l) s /\
    says_all logs s parts /\ lines_add M s lss.
Proof. exact (@logic_threshold_partial). Qed.
Print Assumptions C72_logic_threshold_partial.

Theorem C72_logic_complete_partial : forall m l gcv hs rss maps logs M0, l <> [] -> NoDup (map p_path l) -> Forall modelled_logic l -> small l ->
  Forall2 (process (project l) gcv) hs rss -> (forall P, In P l -> Forall2 (acted_logic gcv P) hs (logs P)) ->
  (forall P ev, In P l -> N.of_nat (count_occ event_dec (concat (logs P)) ev) < u32_mod) ->
  completed l rss maps -> merge_maps m rss = Ok M0 ->
  exists M, merge_maps m maps = Ok M /\
    (m = Release \/ sumN (map truth_weight (concat maps)) < u32_mod -> exists s, cm_get_coverage_summary m M = Ok s) /\
    forall s, cm_get_coverage_summary m M = Ok s ->
    exists parts lss, map (fun x => p_path (r_prog x)) parts = cm_get_files M /\ Permutation (map r_prog parts) l /\
      Forall (part_of logs M) parts /\ totals_of l s /\ says_all logs s parts /\ lines_add M s lss.
Proof. exact (@logic_complete_partial). Qed.
Print Assumptions C72_logic_complete_partial.

Theorem C72_logic_whole_partial : forall l gcv hs rss maps logs, l <> [] -> NoDup (map p_path l) -> Forall modelled_logic l -> small l ->
  (forall P, In P l -> no_gaps (p_record P)) ->
  Forall2 (process (project l) gcv) hs rss -> (forall P, In P l -> Forall2 (acted_logic gcv P) hs (logs P)) ->
  (forall P ev, In P l -> N.of_nat (count_occ event_dec (concat (logs P)) ev) < u32_mod) ->
  completed l rss maps ->
  exists M s parts lss, merge_maps Release maps = Ok M /\ cm_get_coverage_summary Release M = Ok s /\
    map (fun x => p_path (r_prog x)) parts = cm_get_files M /\ Permutation (map r_prog parts) l /\
    Forall (part_of logs M) parts /\ totals_of l s /\ says_all logs s parts /\ lines_add M s lss.
Proof. exact (@logic_whole_partial). Qed.
Print Assumptions C72_logic_whole_partial.

Theorem C72_logic_whole_ex : forall tf cf tg cg, instrument logic_env 40 "f.js" None ex_calls = Ok (tf, cf) ->
  instrument line_env 60 "g.js" None ex_count = Ok (tg, cg) ->
  let F := calls_program tf cf in let G := count_program "g.js" tg cg in let l := [F; G] in
  let hs := [one_file (calls_emitted F) (calls_incs 20 F)] in
  exists rss M s, Forall2 (process (project l) "__coverage__") hs rss /\
    merge_maps Release (rss ++ [[placeholder (p_record F); placeholder (p_record G)]]) = Ok M /\
    cm_get_coverage_summary Release M = Ok s /\ Permutation (cm_get_files M) ["f.js"; "g.js"] /\
    fc_b_t (p_record F) <> None /\
    t_total (cs_statements s) = 15 /\ t_total (cs_functions s) = 3 /\ t_total (cs_branches s) = 10.
Proof. exact (@logic_whole_ex). Qed.
Print Assumptions C72_logic_whole_ex.

Theorem C72_logic_whole_modes_partial : forall m l gcv hs rss maps logs, l <> [] -> NoDup (map p_path l) -> Forall modelled_logic l -> small l ->
  (forall P, In P l -> no_gaps (p_record P)) ->
  Forall2 (process (project l) gcv) hs rss -> (forall P, In P l -> Forall2 (acted_logic gcv P) hs (logs P)) ->
  (forall P ev, In P l -> N.of_nat (count_occ event_dec (concat (logs P)) ev) < u32_mod) ->
  completed l rss maps -> sumN (map truth_weight (concat maps)) < u32_mod ->
  exists M s parts lss, merge_maps m maps = Ok M /\ cm_get_coverage_summary m M = Ok s /\
    map (fun x => p_path (r_prog x)) parts = cm_get_files M /\ Permutation (map r_prog parts) l /\
    Forall (part_of logs M) parts /\ totals_of l s /\ says_all logs s parts /\ lines_add M s lss.
Proof. exact (@logic_whole_modes_partial). Qed.
Print Assumptions C72_logic_whole_modes_partial.

