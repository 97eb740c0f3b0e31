(** Property theorems proved in [GrowthRuns.v]; generated by tools/genprops.py. *)
From Coq Require Import Reals.
From Coq Require Import NArith String List Bool Lia PeanoNat Permutation.
Import ListNotations.
From Verif Require Import FloatR Percent.
From Verif Require Import Base IndexMap Decimal Oxide OxideSpec OxideMergeProofs OxideMerge OxideViews SourceCov SourceCovProofs
  Hints Ast Visitor VisitorEx CountingRoot Json CovJson DataObject Template Runtime Produced Report Sem SemProps Accurate EndToEnd Runs Growth.
From Verif Require Import GrowthRuns.

Theorem C61_one_more_run : forall e n path ism t items t' sc, program_items t = Some items ->
  instrument e n path ism t = Ok (t', sc) -> e_report_logic e = false -> locs_unique (sc_fc sc) -> few_paths (sc_fc sc) ->
  forall m l0 ls l r0 rs r, same_data r0 (after l0 (sc_fc sc)) -> Forall2 (fun l r => same_data r (after l (sc_fc sc))) ls rs ->
  same_data r (after l (sc_fc sc)) ->
  (forall c v, recorded (after (concat (l0 :: ls) ++ l) (sc_fc sc)) c = Some v -> v < u32_mod) ->
  exists R R' s s', fold_res (fc_merge m) r0 rs = Ok R /\ fold_res (fc_merge m) r0 (rs ++ [r]) = Ok R' /\
  to_summary m R = Ok s /\ to_summary m R' = Ok s' /\
  forall f, In f figures -> t_total (f s') = t_total (f s) /\ t_covered (f s) <= t_covered (f s') /\
  exists x y, t_pct (f s) = PValue x /\ t_pct (f s') = PValue y /\ (val32 x <= val32 y)%R.
Proof. exact (@one_more_run). Qed.
Print Assumptions C61_one_more_run.

Theorem C61_one_more_ex : forall t' sc, instrument line_env 60 "f.js" None ex_count = Ok (t', sc) ->
  exists R s s', fold_res (fc_merge Debug) (after (count_increments 1 t') (sc_fc sc)) [after (count_increments 9 t') (sc_fc sc)] = Ok R /\
  to_summary Debug (after (count_increments 1 t') (sc_fc sc)) = Ok s /\ to_summary Debug R = Ok s' /\
  shares s = [(1, 9); (1, 10); (0, 2); (0, 6)] /\ shares s' = [(8, 9); (9, 10); (1, 2); (4, 6)] /\
  forall f, In f figures -> exists x y, t_pct (f s) = PValue x /\ t_pct (f s') = PValue y /\ (val32 x <= val32 y)%R.
Proof. exact (@one_more_ex). Qed.
Print Assumptions C61_one_more_ex.

