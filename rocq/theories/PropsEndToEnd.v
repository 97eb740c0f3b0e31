(** Property theorems proved in [EndToEnd.v]; generated by tools/genprops.py. *)
From Coq Require Import NArith String List Bool Lia PeanoNat Permutation.
Import ListNotations.
From Verif Require Import Base IndexMap Decimal Oxide OxideSpec OxideViews SourceCov SourceCovProofs Hints Ast Visitor VisitorRel
  VisitorEx Erase Counting CountingRoot Json CovJson DataObject Template Runtime Produced Report
  Sem SemShape SemErase SemVisit SemProps Account Slots Sites AccountVisit Accurate.
From Verif Require Import EndToEnd.

Theorem C47_record_tells_original_partial : forall e n path ism t items t' sc gcv,
  program_items t = Some items -> clean t = true -> forallb (good true) items = true ->
  forallb item items = true -> forallb exact items = true -> NoDup (map fst (flat_map sites items)) ->
  covered_program (e_report_logic e) t = true -> Forall DataObject.plain (idents t) ->
  instrument e n path ism t = Ok (t', sc) ->
  forall h, (e_report_logic e = true -> pure_tests h) -> forall fuel x w,
  let log := evs h (snd (run_program h fuel t x w)) in
  forall hist i, valid hist -> NoDup (map file_key (loaded hist)) ->
  Forall (fun f => exists fc, output_of f fc) (loaded hist) ->
  nth_error (loaded hist) i = Some (emitted_for gcv path (sc_fc sc)) -> touched i hist = true ->
  Permutation (incs i hist) (cnt h (snd (run_program h fuel t' x w))) ->
  exists st a j r, Runtime.run hist rt0 = Some st /\ published (rheap st) gcv path = Some a /\ data_at (rheap st) a = Some j /\
    read_fc j = Some r /\ same_data r (FixtureRun.after (incs i hist) (sc_fc sc)) /\
    forall c, seen c = true -> slot_exists (sc_fc sc) c = true -> exists ev, tells e items log r c ev.
Proof. exact (@record_tells_original_partial). Qed.
Print Assumptions C47_record_tells_original_partial.

Theorem C47_report_tells_original_partial : forall e n path ism t items t' sc gcv,
  program_items t = Some items -> clean t = true -> forallb (good true) items = true ->
  forallb item items = true -> forallb exact items = true -> NoDup (map fst (flat_map sites items)) ->
  covered_program (e_report_logic e) t = true -> Forall DataObject.plain (idents t) ->
  instrument e n path ism t = Ok (t', sc) ->
  N.of_nat (length (concat (im_values (fc_b (sc_fc sc))))) < u32_mod ->
  (forall bt, fc_b_t (sc_fc sc) = Some bt -> N.of_nat (length (concat (im_values bt))) < u32_mod) ->
  forall h, (e_report_logic e = true -> pure_tests h) -> forall fuel x w,
  let log := evs h (snd (run_program h fuel t x w)) in
  forall hist i, valid hist -> NoDup (map file_key (loaded hist)) ->
  Forall (fun f => exists fc, output_of f fc) (loaded hist) ->
  nth_error (loaded hist) i = Some (emitted_for gcv path (sc_fc sc)) -> touched i hist = true ->
  Permutation (incs i hist) (cnt h (snd (run_program h fuel t' x w))) ->
  exists st a j r, Runtime.run hist rt0 = Some st /\ published (rheap st) gcv path = Some a /\
    data_at (rheap st) a = Some j /\ read_fc j = Some r /\
  forall m, exists s ls evS evF evB,
    to_summary m r = Ok s /\ get_uncovered_lines r = Ok ls /\
    length evS = length (fc_statement_map (sc_fc sc)) /\ length evF = length (fc_fn_map (sc_fc sc)) /\
    length evB = length (concat (im_values (fc_b (sc_fc sc)))) /\
    Forall2 (fun p ev => tells e items log r (fst p) ev) (stmts_of r) evS /\
    Forall2 (fun p ev => tells e items log r (fst p) ev) (fns_of r) evF /\
    Forall2 (fun p ev => tells e items log r (fst p) ev) (paths (fc_b r)) evB /\
    cs_statements s = spec_totals (N.of_nat (length evS)) (reached log evS) /\
    cs_functions s = spec_totals (N.of_nat (length evF)) (reached log evF) /\
    cs_branches s = spec_totals (N.of_nat (length evB)) (reached log evB) /\
    (forall l, In l ls <->
       (exists k rg, im_get k (fc_statement_map r) = Some rg /\ im_get k (fc_s r) <> None /\ line (rstart rg) = l) /\
       (forall k rg ev, im_get k (fc_statement_map r) = Some rg -> line (rstart rg) = l ->
          tells e items log r (CS k) ev -> happened log ev = false)).
Proof. exact (@report_tells_original_partial). Qed.
Print Assumptions C47_report_tells_original_partial.

Theorem C47_report_ex :
  match instrument line_env 60 "f.js" None ex_count with
  | Ok (t', sc) =>
      let l := cnt _ (snd (run_program pure_toy 9 t' tt w0)) in
      let log := evs _ (snd (run_program pure_toy 9 ex_count tt w0)) in
      (exists st a j r, Runtime.run (one_file (emitted_for "__coverage__" "f.js" (sc_fc sc)) l) rt0 = Some st /\
         published (rheap st) "__coverage__" "f.js" = Some a /\ data_at (rheap st) a = Some j /\ read_fc j = Some r /\
         same_data r (FixtureRun.after l (sc_fc sc)) /\
         forall c, seen c = true -> slot_exists (sc_fc sc) c = true ->
           exists items ev, program_items ex_count = Some items /\ tells line_env items log r c ev) /\
      match to_summary Debug (FixtureRun.after l (sc_fc sc)), get_uncovered_lines (FixtureRun.after l (sc_fc sc)) with
      | Ok s, Ok ls => (short (cs_statements s), short (cs_functions s), short (cs_branches s), short (cs_lines s), ls)
          = ((10, 9), (2, 1), (6, 4), (9, 8), [28])
      | _, _ => False
      end
  | _ => False
  end.
Proof. exact (@report_ex). Qed.
Print Assumptions C47_report_ex.

