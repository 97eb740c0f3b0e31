(** Property theorems proved in [Placeholders.v]; generated by tools/genprops.py. *)
From Coq Require Import NArith ZArith Reals.
From Coq Require Import String List Bool Lia PeanoNat Permutation.
Import ListNotations.
From Verif Require Import Base IndexMap Decimal Oxide OxideSpec OxideMergeProofs OxideMerge OxideViews SourceCov SourceCovProofs
  Hints Ast Visitor VisitorRel VisitorEx Erase Counting CountingRoot Json CovJson DataObject Template Runtime Produced Report
  Sem SemShape SemErase SemVisit SemProps Account Slots Sites AccountVisit Accurate EndToEnd Runs Project Threshold.
From Verif Require Import Placeholders.

Theorem C70_placeholders_fill : forall m l,
  match cm_from_iter m (filter real_record l) with
  | Ok M => exists M', cm_from_iter m l = Ok M' /\
      forall p, cm_get_coverage_for_file M' p =
        match cm_get_coverage_for_file M p with Some R => Some R | None => placeholder_for p l end
  | Panic r => cm_from_iter m l = Panic r
  | OutOfFuel => cm_from_iter m l = OutOfFuel
  end.
Proof. exact (@placeholders_fill). Qed.
Print Assumptions C70_placeholders_fill.

Theorem C70_project_complete_partial : forall m l gcv hs rss maps logs, l <> [] -> NoDup (map p_path l) -> Forall modelled l -> small l ->
  Forall2 (process (project l) gcv) hs rss -> (forall P, In P l -> Forall2 (acted gcv P) hs (logs P)) ->
  (forall P ev, In P l -> N.of_nat (count_occ event_dec (concat (logs P)) ev) < u32_mod) ->
  completed l rss maps ->
  exists M s parts lss, merge_maps m maps = Ok M /\ cm_get_coverage_summary m M = Ok s /\
    map (fun x => p_path (r_prog x)) parts = cm_get_files M /\ Permutation (map r_prog parts) l /\
    Forall (part_of logs M) parts /\
    t_total (cs_statements s) = sum_over (fun P => length (fc_statement_map (p_record P))) l /\
    t_total (cs_functions s) = sum_over (fun P => length (fc_fn_map (p_record P))) l /\
    t_total (cs_branches s) = sum_over (fun P => length (paths_of P)) l /\
    says_all logs s parts /\ lines_add M s lss.
Proof. exact (@project_complete_partial). Qed.
Print Assumptions C70_project_complete_partial.

Theorem C70_complete_ex : forall tf cf tg cg, instrument line_env 60 "f.js" None ex_count = Ok (tf, cf) ->
  instrument line_env 60 "g.js" None ex_count = Ok (tg, cg) ->
  let F := count_program "f.js" tf cf in let G := count_program "g.js" tg cg in let l := [F; G] in
  let hs := [one_file (count_emitted F) (count_incs 1 F)] in
  exists rss M s, Forall2 (process (project l) "__coverage__") hs rss /\
    merge_maps Debug (rss ++ [[placeholder (p_record F); placeholder (p_record G)]]) = Ok M /\
    cm_get_coverage_summary Debug M = Ok s /\ Permutation (cm_get_files M) ["f.js"; "g.js"] /\
    t_total (cs_statements s) = 20 /\ t_total (cs_functions s) = 4 /\ t_total (cs_branches s) = 12.
Proof. exact (@complete_ex). Qed.
Print Assumptions C70_complete_ex.

