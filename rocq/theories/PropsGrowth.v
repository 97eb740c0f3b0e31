(** Property theorems proved in [Growth.v]; generated by tools/genprops.py. *)
From Coq Require Import Reals.
From Coq Require Import NArith String List Bool Lia PeanoNat Permutation.
Import ListNotations.
From Verif Require Import FloatR Percent.
From Verif Require Import Base IndexMap Oxide OxideSpec OxideMergeProofs OxideMerge OxideViews.
From Verif Require Import Growth.

Theorem C61_merge_never_lowers : forall m a b r, OxideMerge.plain a -> OxideMerge.plain b -> merge_fits a b ->
  fc_merge m a b = Ok r -> few_paths r ->
  exists sa sb sr, to_summary m a = Ok sa /\ to_summary m b = Ok sb /\ to_summary m r = Ok sr /\
  forall f, In f figures ->
    t_covered (f sa) <= t_covered (f sr) /\ t_covered (f sb) <= t_covered (f sr) /\
    t_covered (f sr) <= t_covered (f sa) + t_covered (f sb) /\
    t_total (f sa) <= t_total (f sr) /\ t_total (f sb) <= t_total (f sr) /\ t_total (f sr) <= t_total (f sa) + t_total (f sb).
Proof. exact (@merge_never_lowers). Qed.
Print Assumptions C61_merge_never_lowers.

Theorem C61_merge_uncovered : forall m a b r la lb, OxideMerge.plain a -> OxideMerge.plain b -> merge_fits a b ->
  fc_merge m a b = Ok r -> get_uncovered_lines a = Ok la -> get_uncovered_lines b = Ok lb ->
  exists lr, get_uncovered_lines r = Ok lr /\ NoDup lr /\
  forall l, In l lr <-> (In l la /\ In l lb) \/ (In l la /\ ~ line_of b l) \/ (~ line_of a l /\ In l lb).
Proof. exact (@merge_uncovered). Qed.
Print Assumptions C61_merge_uncovered.

Theorem C61_merge_percentages : forall m a b r sa sr, OxideMerge.plain a -> OxideMerge.plain b -> merge_fits a b -> known a b ->
  fc_merge m a b = Ok r -> few_paths r -> to_summary m a = Ok sa -> to_summary m r = Ok sr ->
  forall f, In f figures -> t_total (f sr) = t_total (f sa) /\ t_covered (f sa) <= t_covered (f sr) /\
  exists x y, t_pct (f sa) = PValue x /\ t_pct (f sr) = PValue y /\ (val32 x <= val32 y)%R.
Proof. exact (@merge_percentages). Qed.
Print Assumptions C61_merge_percentages.

Theorem C61_growth_ex : known (side 2 0) (side 0 1) /\
  exists r sa sr, fc_merge Debug (side 2 0) (side 0 1) = Ok r /\ few_paths r /\
  to_summary Debug (side 2 0) = Ok sa /\ to_summary Debug r = Ok sr /\
  map (fun f => (t_covered (f sa), t_total (f sa))) figures = [(2, 3); (2, 3); (0, 0); (1, 2)] /\
  map (fun f => (t_covered (f sr), t_total (f sr))) figures = [(3, 3); (3, 3); (0, 0); (2, 2)] /\
  get_uncovered_lines (side 2 0) = Ok [3] /\ get_uncovered_lines r = Ok [].
Proof. exact (@growth_ex). Qed.
Print Assumptions C61_growth_ex.

Theorem C61_percentage_lowered_refuted : exists a b r sa sr, OxideMerge.plain a /\ OxideMerge.plain b /\ merge_fits a b /\
  fc_merge Debug a b = Ok r /\ few_paths r /\ to_summary Debug a = Ok sa /\ to_summary Debug r = Ok sr /\
  exists x y, t_pct (cs_statements sa) = PValue x /\ t_pct (cs_statements sr) = PValue y /\ (val32 y < val32 x)%R.
Proof. exact (@percentage_lowered_refuted). Qed.
Print Assumptions C61_percentage_lowered_refuted.

