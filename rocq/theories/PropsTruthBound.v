(** Property theorems proved in [TruthBound.v]; generated by tools/genprops.py. *)
From Coq Require Import NArith String List Bool Lia PeanoNat Permutation.
Import ListNotations.
From Verif Require Import Base IndexMap Decimal Oxide OxideSpec OxideMergeProofs OxideMerge OxideViews SourceCov SourceCovProofs
  Hints Ast Visitor VisitorRel VisitorEx Erase Counting CountingRoot Json CovJson DataObject Template Runtime Produced Report
  Sem SemShape SemErase SemVisit SemProps Account Slots Sites AccountVisit Accurate EndToEnd Runs Project LogicReport Truths.
From Verif Require Import TruthBound.

Theorem C73_run_truths_partial : forall e n path ism t items t' sc, program_items t = Some items -> clean t = true ->
  (e_report_logic e = true -> once t = true) -> instrument e n path ism t = Ok (t', sc) ->
  forall h fuel x w l r, Permutation l (cnt h (snd (run_program h fuel t' x w))) -> same_data r (after l (sc_fc sc)) -> truths_below r.
Proof. exact (@run_truths_partial). Qed.
Print Assumptions C73_run_truths_partial.

Theorem C73_process_truths_partial : forall l gcv hist rs,
  Forall (fun P => program_items (p_tree P) = Some (p_items P) /\ clean (p_tree P) = true /\
    (e_report_logic (p_env P) = true -> once (p_tree P) = true) /\
    instrument (p_env P) (p_fuel P) (p_path P) (p_ism P) (p_tree P) = Ok (p_out P, p_cov P)) l ->
  (forall P, In P l -> used gcv (p_path P) hist = true -> exists h fuel x w,
     Permutation (done gcv (p_path P) hist) (cnt h (snd (run_program h fuel (p_out P) x w)))) ->
  process (project l) gcv hist rs ->
  Forall (fun r => truths_below r /\
    forall m s t, N.of_nat (length (concat (im_values (fc_b r)))) < u32_mod -> to_summary m r = Ok s -> cs_branches_true s = Some t ->
      t_total t <= t_total (cs_branches s) /\ t_covered t <= t_covered (cs_branches s)) rs.
Proof. exact (@process_truths_partial). Qed.
Print Assumptions C73_process_truths_partial.

Theorem C73_summary_truths : forall m r s t, truths_below r -> match fc_b_t r with Some bt => NoDup (im_keys bt) | None => True end ->
  N.of_nat (length (concat (im_values (fc_b r)))) < u32_mod ->
  to_summary m r = Ok s -> cs_branches_true s = Some t ->
  t_total t <= t_total (cs_branches s) /\ t_covered t <= t_covered (cs_branches s).
Proof. exact (@summary_truths). Qed.
Print Assumptions C73_summary_truths.

Theorem C73_truth_bound_ex :
  program_items ex_if_or <> None /\ clean ex_if_or && once ex_if_or = true /\
  match instrument logic_env 40 "f.js" None ex_if_or with
  | Ok (t', c) =>
      let l := cnt pure_toy (snd (run_program pure_toy 9 t' tt w0)) in
      fc_b (after l (sc_fc c)) = [(0, [1; 0]); (1, [1; 1])] /\ fc_b_t (after l (sc_fc c)) = Some [(1, [0; 1])]
  | _ => False
  end.
Proof. exact (@truth_bound_ex). Qed.
Print Assumptions C73_truth_bound_ex.

Theorem C73_merged_truths_refuted : exists e t t' c h fuel x w, clean t = true /\ once t = true /\
  instrument e 40 "f.js" None t = Ok (t', c) /\
  let r := after (cnt h (snd (run_program h fuel t' x w))) (sc_fc c) in
  truths_below r /\ forall m, exists q, fc_merge m r r = Ok q /\
    fc_b q = [(0, [2; 0]); (1, [2; 2])] /\ fc_b_t q = Some [(0, [0; 2])] /\ ~ truths_below q.
Proof. exact (@merged_truths_refuted). Qed.
Print Assumptions C73_merged_truths_refuted.

Theorem C73_merged_truths_partial : forall a b bta btb, fc_all a = false -> fc_all b = false ->
  tables_ok a -> tables_ok b -> locs_unique a -> locs_unique b -> merge_fits a b ->
  dense_branches a -> full_truth a bta -> full_truth b btb ->
  (forall l j, truth_hits a l j <= path_hits a l j) -> (forall l j, truth_hits b l j <= path_hits b l j) ->
  exists r bt, fc_merge Debug a b = Ok r /\ full_truth r bt /\ forall l j, truth_hits r l j <= path_hits r l j.
Proof. exact (@merged_truths_partial). Qed.
Print Assumptions C73_merged_truths_partial.

Theorem C73_merged_truths_ex : exists r bt, fc_merge Debug (truth_fc 3) (truth_fc 4) = Ok r /\ full_truth r bt /\
  forall l j, truth_hits r l j <= path_hits r l j.
Proof. exact (@merged_truths_ex). Qed.
Print Assumptions C73_merged_truths_ex.

