(** Property theorems proved in [Produced.v]; generated by tools/genprops.py. *)
From Coq Require Import NArith String List Bool Lia PeanoNat.
Import ListNotations.
From Verif Require Import Base IndexMap Decimal Oxide OxideSpec SourceCov SourceCovProofs Hints Ast Visitor VisitorRel
  VisitorEx Slots CountingRoot OxideMerge OxideViews Json CovJson DataObject Template Runtime.
From Verif Require Import Produced.

Theorem C04_produced_merge_loses_hits_refuted : exists e t items t' sc r q, program_items t = Some items /\
  instrument e 40 "f.js" None t = Ok (t', sc) /\ same_tables (sc_fc sc) r /\
  fc_merge Debug r r = Ok q /\ total_hits q < total_hits r + total_hits r.
Proof. exact (@produced_merge_loses_hits_refuted). Qed.
Print Assumptions C04_produced_merge_loses_hits_refuted.

Theorem C05_produced_merge_panics_refuted : exists e t items t' sc, program_items t = Some items /\
  instrument e 40 "f.js" None t = Ok (t', sc) /\
  forall m, fc_merge m (sc_fc sc) (sc_fc sc) = Panic RMapValueMissing.
Proof. exact (@produced_merge_panics_refuted). Qed.
Print Assumptions C05_produced_merge_panics_refuted.

Theorem C20_produced_literal : forall e n path ism t items t' sc, program_items t = Some items ->
  instrument e n path ism t = Ok (t', sc) -> Forall DataObject.plain (idents t) ->
  (forall gcv, output_of (emitted_for gcv path (sc_fc sc)) (sc_fc sc)) /\
  exists v fc', eval (snd (coverage_data_object (sc_fc sc))) = Some (JObj v) /\
    read_fc (JObj v) = Some fc' /\ same_data fc' (sc_fc sc).
Proof. exact (@produced_literal). Qed.
Print Assumptions C20_produced_literal.

Theorem C46_produced_record : forall e n path ism t items t' sc, program_items t = Some items ->
  instrument e n path ism t = Ok (t', sc) ->
  let fc := sc_fc sc in
  let zeros := fun br => repeat 0 (length (b_locations br)) in
  fc_all fc = false /\ fc_path fc = path /\ fc_input_source_map fc = ism /\
  im_keys (fc_statement_map fc) = map N.of_nat (seq 0 (length (fc_statement_map fc))) /\
  im_keys (fc_fn_map fc) = map N.of_nat (seq 0 (length (fc_fn_map fc))) /\
  fc_s fc = map (fun kv => (fst kv, 0)) (fc_statement_map fc) /\
  fc_f fc = map (fun kv => (fst kv, 0)) (fc_fn_map fc) /\
  (forall k f, In (k, f) (fc_fn_map fc) -> f_line f = line (rstart (f_loc f))) /\
  NoDup (im_keys (fc_branch_map fc)) /\ NoDup (im_keys (fc_b fc)) /\
  (forall k br, im_get k (fc_branch_map fc) = Some br ->
     b_locations br <> [] /\ exists r, b_loc br = Some r /\ b_line br = Some (line (rstart r))) /\
  (forall k, im_get k (fc_b fc) = option_map zeros (im_get k (fc_branch_map fc))) /\
  match fc_b_t fc with
  | Some bt => e_report_logic e = true /\ NoDup (im_keys bt) /\
      forall k v, im_get k bt = Some v <->
        exists br, im_get k (fc_branch_map fc) = Some br /\ b_type br = BinaryExpr /\ v = zeros br
  | None => e_report_logic e = false
  end.
Proof. exact (@produced_record). Qed.
Print Assumptions C46_produced_record.

Theorem C46_function_names : forall e n path ism t items t' sc k f, program_items t = Some items ->
  instrument e n path ism t = Ok (t', sc) -> In (k, f) (fc_fn_map (sc_fc sc)) ->
  f_name f = ("(anonymous_" ++ dec k ++ ")")%string \/ f_name f = "anonymous" \/ In (f_name f) (idents t).
Proof. exact (@function_names). Qed.
Print Assumptions C46_function_names.

Theorem C46_reports_never_panic : forall e n path ism t items t' sc r, program_items t = Some items ->
  instrument e n path ism t = Ok (t', sc) -> same_tables (sc_fc sc) r ->
  (exists l, get_line_coverage r = Ok l) /\ (exists l, get_uncovered_lines r = Ok l) /\
  (exists l, get_branch_coverage_by_line r = Ok l) /\
  (forall m, N.of_nat (length (concat (im_values (fc_b r)))) < u32_mod ->
     (forall bt, fc_b_t r = Some bt -> N.of_nat (length (concat (im_values bt))) < u32_mod) ->
     exists s, to_summary m r = Ok s) /\
  (e_report_logic e = false -> forall r2, same_tables (sc_fc sc) r2 -> exists q, fc_merge Release r r2 = Ok q).
Proof. exact (@reports_never_panic). Qed.
Print Assumptions C46_reports_never_panic.

Theorem C46_produced_ex :
  match instrument logic_env 60 "f.js" None ex_function with
  | Ok (_, sc) =>
      idents ex_function = ["f"; "a"; "a"; "a"] /\ map (fun kf => f_name (snd kf)) (fc_fn_map (sc_fc sc)) = ["f"] /\
      fc_s (sc_fc sc) = [(0, 0); (1, 0); (2, 0)] /\ fc_b (sc_fc sc) = [(0, [0; 0]); (1, [0; 0])] /\
      fc_b_t (sc_fc sc) = Some [(1, [0; 0])]
  | _ => False
  end.
Proof. exact (@produced_ex). Qed.
Print Assumptions C46_produced_ex.

