(** Property theorems proved in [Runs.v]; generated by tools/genprops.py. *)
From Coq Require Import NArith String List Bool Lia PeanoNat Permutation.
Import ListNotations.
From Verif Require Import Base IndexMap Decimal Oxide OxideSpec OxideMergeProofs OxideMerge OxideViews SourceCov SourceCovProofs
  Hints Ast Visitor VisitorRel VisitorEx Erase Counting CountingRoot Json CovJson DataObject Template Runtime Produced Report
  Sem SemShape SemErase SemVisit SemProps Account Slots Sites AccountVisit Accurate EndToEnd.
From Verif Require Import Runs.

Theorem C52_merge_runs : forall m fc, OxideMerge.plain fc -> unique_keys fc -> zeroed fc ->
  forall l0 ls r0 rs, same_data r0 (after l0 fc) -> Forall2 (fun l r => same_data r (after l fc)) ls rs ->
  (forall c v, recorded (after (concat (l0 :: ls)) fc) c = Some v -> v < u32_mod) ->
  exists R, fold_res (fc_merge m) r0 rs = Ok R /\ same_rows R (after (concat (l0 :: ls)) fc) /\
    OxideMerge.plain R /\ unique_keys R.
Proof. exact (@merge_runs). Qed.
Print Assumptions C52_merge_runs.

Theorem C52_merged_runs_tell_partial : forall e n path ism t items t' sc gcv,
  program_items t = Some items -> clean t = true -> forallb (good true) items = true ->
  forallb item items = true -> forallb exact items = true -> NoDup (map fst (flat_map sites items)) ->
  covered_program (e_report_logic e) t = true -> Forall DataObject.plain (idents t) ->
  instrument e n path ism t = Ok (t', sc) -> e_report_logic e = false -> locs_unique (sc_fc sc) ->
  forall m log0 r0 logs rs, ran t t' sc gcv path log0 r0 -> Forall2 (ran t t' sc gcv path) logs rs ->
  (forall ev, N.of_nat (count_occ event_dec (concat (log0 :: logs)) ev) < u32_mod) ->
  exists R, fold_res (fc_merge m) r0 rs = Ok R /\ locs_unique R /\ unique_keys R /\ tables_ok R /\
    length (fc_s R) = length (fc_statement_map (sc_fc sc)) /\ length (fc_f R) = length (fc_fn_map (sc_fc sc)) /\
    length (concat (im_values (fc_b R))) = length (concat (im_values (fc_b (sc_fc sc)))) /\
    forall c, seen c = true -> slot_exists R c = true -> exists ev, tells e items (concat (log0 :: logs)) R c ev.
Proof. exact (@merged_runs_tell_partial). Qed.
Print Assumptions C52_merged_runs_tell_partial.

Theorem C52_merged_report_partial : forall e n path ism t items t' sc gcv,
  program_items t = Some items -> clean t = true -> forallb (good true) items = true ->
  forallb item items = true -> forallb exact items = true -> NoDup (map fst (flat_map sites items)) ->
  covered_program (e_report_logic e) t = true -> Forall DataObject.plain (idents t) ->
  instrument e n path ism t = Ok (t', sc) -> e_report_logic e = false -> locs_unique (sc_fc sc) ->
  N.of_nat (length (concat (im_values (fc_b (sc_fc sc))))) < u32_mod ->
  forall m log0 r0 logs rs, ran t t' sc gcv path log0 r0 -> Forall2 (ran t t' sc gcv path) logs rs ->
  let log := concat (log0 :: logs) in
  (forall ev, N.of_nat (count_occ event_dec log ev) < u32_mod) ->
  exists R s ls evS evF evB,
    fold_res (fc_merge m) r0 rs = Ok R /\ to_summary m R = Ok s /\ get_uncovered_lines R = Ok ls /\
    length evS = length (fc_statement_map (sc_fc sc)) /\ length evF = length (fc_fn_map (sc_fc sc)) /\
    length evB = length (concat (im_values (fc_b (sc_fc sc)))) /\
    Forall2 (fun p ev => tells e items log R (fst p) ev) (stmts_of R) evS /\
    Forall2 (fun p ev => tells e items log R (fst p) ev) (fns_of R) evF /\
    Forall2 (fun p ev => tells e items log R (fst p) ev) (paths (fc_b R)) evB /\
    cs_statements s = spec_totals (N.of_nat (length evS)) (reached log evS) /\
    cs_functions s = spec_totals (N.of_nat (length evF)) (reached log evF) /\
    cs_branches s = spec_totals (N.of_nat (length evB)) (reached log evB) /\
    (forall l, In l ls <->
       (exists k rg, im_get k (fc_statement_map R) = Some rg /\ im_get k (fc_s R) <> None /\ line (rstart rg) = l) /\
       (forall k rg ev, im_get k (fc_statement_map R) = Some rg -> line (rstart rg) = l ->
          tells e items log R (CS k) ev -> happened log ev = false)).
Proof. exact (@merged_report_partial). Qed.
Print Assumptions C52_merged_report_partial.

Theorem C52_merged_ex : forall t' sc, instrument line_env 60 "f.js" None ex_count = Ok (t', sc) ->
  exists r0 r1 R, ran ex_count t' sc "__coverage__" "f.js" (count_log 9) r0 /\
    ran ex_count t' sc "__coverage__" "f.js" (count_log 1) r1 /\ fold_res (fc_merge Debug) r0 [r1] = Ok R /\
    forall c, seen c = true -> slot_exists R c = true ->
      exists items ev, program_items ex_count = Some items /\ tells line_env items (count_log 9 ++ count_log 1) R c ev.
Proof. exact (@merged_ex). Qed.
Print Assumptions C52_merged_ex.

Theorem C52_merged_numbers_ex :
  match instrument line_env 60 "f.js" None ex_count with
  | Ok (t', sc) =>
      match fc_merge Debug (count_after 9 t' sc) (count_after 1 t' sc) with
      | Ok R => im_values (fc_s R) = [2; 2; 2; 2; 2; 2; 2; 1; 1; 0] /\
          match to_summary Debug R with
          | Ok s => (short (cs_statements s), short (cs_functions s), short (cs_branches s)) = ((10, 9), (2, 1), (6, 4))
          | _ => False
          end
      | _ => False
      end
  | _ => False
  end.
Proof. exact (@merged_numbers_ex). Qed.
Print Assumptions C52_merged_numbers_ex.

Theorem C52_merged_runs_refuted : exists e t t' sc l R loc,
  instrument e 20 "f.js" None t = Ok (t', sc) /\ Forall (fun c => In c (counters t')) l /\ e_report_logic e = false /\
  fc_merge Debug (after l (sc_fc sc)) (after l (sc_fc sc)) = Ok R /\
  fn_hits R loc <> fn_hits (after l (sc_fc sc)) loc + fn_hits (after l (sc_fc sc)) loc.
Proof. exact (@merged_runs_refuted). Qed.
Print Assumptions C52_merged_runs_refuted.

Theorem C52_merged_logic_refuted : exists e t t' sc l R loc,
  instrument e 40 "f.js" None t = Ok (t', sc) /\ Forall (fun c => In c (counters t')) l /\ locs_unique (sc_fc sc) /\
  fc_merge Debug (after l (sc_fc sc)) (after l (sc_fc sc)) = Ok R /\
  truth_hits R loc 0 <> truth_hits (after l (sc_fc sc)) loc 0 + truth_hits (after l (sc_fc sc)) loc 0.
Proof. exact (@merged_logic_refuted). Qed.
Print Assumptions C52_merged_logic_refuted.

