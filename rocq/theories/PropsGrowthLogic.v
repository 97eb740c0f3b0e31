(** Property theorems proved in [GrowthLogic.v]; generated by tools/genprops.py. *)
From Coq Require Import Reals.
From Coq Require Import NArith String List Bool Lia PeanoNat Permutation.
Import ListNotations.
From Verif Require Import FloatR Percent.
From Verif Require Import Base IndexMap Decimal Oxide OxideSpec OxideMergeProofs OxideMerge OxideViews SourceCov SourceCovProofs
  Hints Ast Visitor VisitorEx CountingRoot Json CovJson DataObject Template Runtime Produced Report Sem SemProps Account Accurate EndToEnd Runs
  Project LogicReport LogicModes Growth GrowthRuns.
From Verif Require Import GrowthLogic.

Theorem C61_logic_merge_never_lowers : forall m a b r sa sb sr, OxideMerge.plain (without a) -> OxideMerge.plain (without b) ->
  merge_fits (without a) (without b) -> fc_merge m a b = Ok r -> few_paths r ->
  to_summary m a = Ok sa -> to_summary m b = Ok sb -> to_summary m r = Ok sr ->
  forall f, In f figures ->
    t_covered (f sa) <= t_covered (f sr) /\ t_covered (f sb) <= t_covered (f sr) /\
    t_covered (f sr) <= t_covered (f sa) + t_covered (f sb) /\
    t_total (f sa) <= t_total (f sr) /\ t_total (f sb) <= t_total (f sr) /\ t_total (f sr) <= t_total (f sa) + t_total (f sb).
Proof. exact (@logic_merge_never_lowers). Qed.
Print Assumptions C61_logic_merge_never_lowers.

Theorem C61_logic_merge_percentages : forall m a b r sa sr, OxideMerge.plain (without a) -> OxideMerge.plain (without b) ->
  merge_fits (without a) (without b) -> known a b -> fc_merge m a b = Ok r -> few_paths r -> to_summary m a = Ok sa -> to_summary m r = Ok sr ->
  forall f, In f figures -> t_total (f sr) = t_total (f sa) /\ t_covered (f sa) <= t_covered (f sr) /\
  exists x y, t_pct (f sa) = PValue x /\ t_pct (f sr) = PValue y /\ (val32 x <= val32 y)%R.
Proof. exact (@logic_merge_percentages). Qed.
Print Assumptions C61_logic_merge_percentages.

Theorem C61_logic_one_more_run : forall e n path ism t items t' sc, program_items t = Some items ->
  instrument e n path ism t = Ok (t', sc) -> locs_unique (sc_fc sc) -> few_paths (sc_fc sc) ->
  forall m l0 ls l r0 rs r, same_data r0 (after l0 (sc_fc sc)) -> Forall2 (fun l r => same_data r (after l (sc_fc sc))) ls rs ->
  same_data r (after l (sc_fc sc)) ->
  (forall c v, seen c = true -> recorded (after (concat (l0 :: ls) ++ l) (sc_fc sc)) c = Some v -> v < u32_mod) ->
  forall R R' s s', fold_res (fc_merge m) r0 rs = Ok R -> fold_res (fc_merge m) r0 (rs ++ [r]) = Ok R' ->
  to_summary m R = Ok s -> to_summary m R' = Ok s' ->
  forall f, In f figures -> t_total (f s') = t_total (f s) /\ t_covered (f s) <= t_covered (f s') /\
  exists x y, t_pct (f s) = PValue x /\ t_pct (f s') = PValue y /\ (val32 x <= val32 y)%R.
Proof. exact (@logic_one_more_run). Qed.
Print Assumptions C61_logic_one_more_run.

Theorem C61_logic_one_more_release : forall e n path ism t items t' sc, program_items t = Some items ->
  instrument e n path ism t = Ok (t', sc) -> locs_unique (sc_fc sc) -> few_paths (sc_fc sc) -> no_gaps (sc_fc sc) ->
  forall l0 ls l r0 rs r, same_data r0 (after l0 (sc_fc sc)) -> Forall2 (fun l r => same_data r (after l (sc_fc sc))) ls rs ->
  same_data r (after l (sc_fc sc)) ->
  (forall c v, seen c = true -> recorded (after (concat (l0 :: ls) ++ l) (sc_fc sc)) c = Some v -> v < u32_mod) ->
  exists R R' s s', fold_res (fc_merge Release) r0 rs = Ok R /\ fold_res (fc_merge Release) r0 (rs ++ [r]) = Ok R' /\
  to_summary Release R = Ok s /\ to_summary Release R' = Ok s' /\
  forall f, In f figures -> t_total (f s') = t_total (f s) /\ t_covered (f s) <= t_covered (f s') /\
  exists x y, t_pct (f s) = PValue x /\ t_pct (f s') = PValue y /\ (val32 x <= val32 y)%R.
Proof. exact (@logic_one_more_release). Qed.
Print Assumptions C61_logic_one_more_release.

Theorem C61_logic_one_more_modes : forall e n path ism t items t' sc, program_items t = Some items ->
  instrument e n path ism t = Ok (t', sc) -> locs_unique (sc_fc sc) -> few_paths (sc_fc sc) -> no_gaps (sc_fc sc) ->
  forall m l0 ls l r0 rs r, same_data r0 (after l0 (sc_fc sc)) -> Forall2 (fun l r => same_data r (after l (sc_fc sc))) ls rs ->
  same_data r (after l (sc_fc sc)) ->
  (forall c v, seen c = true -> recorded (after (concat (l0 :: ls) ++ l) (sc_fc sc)) c = Some v -> v < u32_mod) ->
  truth_weight r0 + sumN (map truth_weight (rs ++ [r])) < u32_mod ->
  exists R R' s s', fold_res (fc_merge m) r0 rs = Ok R /\ fold_res (fc_merge m) r0 (rs ++ [r]) = Ok R' /\
  to_summary m R = Ok s /\ to_summary m R' = Ok s' /\
  forall f, In f figures -> t_total (f s') = t_total (f s) /\ t_covered (f s) <= t_covered (f s') /\
  exists x y, t_pct (f s) = PValue x /\ t_pct (f s') = PValue y /\ (val32 x <= val32 y)%R.
Proof. exact (@logic_one_more_modes). Qed.
Print Assumptions C61_logic_one_more_modes.

Theorem C61_logic_more_ex : forall t' sc, instrument logic_env 40 "f.js" None ex_calls = Ok (t', sc) ->
  let r i := after (calls_incs i (calls_program t' sc)) (sc_fc sc) in
  exists R s s', fc_b_t (sc_fc sc) <> None /\ fold_res (fc_merge Release) (r 1%nat) [r 20%nat] = Ok R /\
  to_summary Release (r 1%nat) = Ok s /\ to_summary Release R = Ok s' /\
  shares s = [(1, 1); (1, 5); (0, 1); (0, 4)] /\ shares s' = [(1, 1); (5, 5); (1, 1); (4, 4)] /\
  forall f, In f figures -> exists x y, t_pct (f s) = PValue x /\ t_pct (f s') = PValue y /\ (val32 x <= val32 y)%R.
Proof. exact (@logic_more_ex). Qed.
Print Assumptions C61_logic_more_ex.

