(** Property theorems proved in [OxideViews.v]; generated by tools/genprops.py. *)
From Coq Require Import PeanoNat NArith String List Bool Lia Permutation.
Import ListNotations.
From Verif Require Import Base IndexMap Oxide OxideSpec OxideMerge.
Open Scope N_scope.
From Verif Require Import OxideViews.

Theorem C08_line_coverage_spec : forall fc,
  table_ok stmt_loc (fc_s fc) (fc_statement_map fc) ->
  get_line_coverage fc = Ok (spec_line_coverage fc).
Proof. exact (@line_coverage_spec). Qed.
Print Assumptions C08_line_coverage_spec.

Theorem C08_line_coverage_panics_iff : forall fc,
  (exists why, get_line_coverage fc = Panic why) <->
  exists k, In k (im_keys (fc_s fc)) /\ im_get k (fc_statement_map fc) = None.
Proof. exact (@line_coverage_panics_iff). Qed.
Print Assumptions C08_line_coverage_panics_iff.

Theorem C08_line_coverage_value : forall fc lc l h,
  get_line_coverage fc = Ok lc -> table_ok stmt_loc (fc_s fc) (fc_statement_map fc) ->
  im_get l lc = Some h ->
  (exists r, In r (stmt_rows fc) /\ line (rstart (fst r)) = l /\ fst (snd r) = h) /\
  (forall r, In r (stmt_rows fc) -> line (rstart (fst r)) = l -> fst (snd r) <= h).
Proof. exact (@line_coverage_value). Qed.
Print Assumptions C08_line_coverage_value.

Theorem C08_line_cov_example :
  get_line_coverage (mkFC false "x" [(0, range_new 3 0 3 4); (1, range_new 1 0 1 2); (2, range_new 3 5 3 9)] [] []
     [(0, 1); (1, 0); (2, 7)] [] [] None None) = Ok [(3, 7); (1, 0)].
Proof. exact (@line_cov_example). Qed.
Print Assumptions C08_line_cov_example.

Theorem C09_uncovered_spec : forall fc,
  table_ok stmt_loc (fc_s fc) (fc_statement_map fc) ->
  get_uncovered_lines fc =
  Ok (filter (fun l => maxN (vals_of l (line_rows fc)) =? 0) (first_occ (map fst (line_rows fc)))).
Proof. exact (@uncovered_spec). Qed.
Print Assumptions C09_uncovered_spec.

Theorem C09_uncovered_iff : forall fc ls,
  table_ok stmt_loc (fc_s fc) (fc_statement_map fc) ->
  get_uncovered_lines fc = Ok ls ->
  NoDup ls /\
  forall l, In l ls <->
    (exists r, In r (stmt_rows fc) /\ line (rstart (fst r)) = l) /\
    (forall r, In r (stmt_rows fc) -> line (rstart (fst r)) = l -> fst (snd r) = 0).
Proof. exact (@uncovered_iff). Qed.
Print Assumptions C09_uncovered_iff.

Theorem C10_branch_by_line_spec : forall fc, branches_ok fc ->
  get_branch_coverage_by_line fc =
  Ok (tab (fun l => coverage_of (path_counters fc l)) (first_occ (map fst (branch_line_rows fc)))).
Proof. exact (@branch_by_line_spec). Qed.
Print Assumptions C10_branch_by_line_spec.

Theorem C10_branch_by_line_counts : forall fc r l c, branches_ok fc ->
  get_branch_coverage_by_line fc = Ok r -> im_get l r = Some c ->
  c_total c = N.of_nat (length (path_counters fc l)) /\
  c_covered c = N.of_nat (length (filter (fun x => negb (x =? 0)) (path_counters fc l))) /\
  c_covered c <= c_total c.
Proof. exact (@branch_by_line_counts). Qed.
Print Assumptions C10_branch_by_line_counts.

Theorem C11_to_summary_spec : forall m fc,
  table_ok stmt_loc (fc_s fc) (fc_statement_map fc) ->
  N.of_nat (length (concat (im_values (fc_b fc)))) < u32_mod ->
  (forall bt, fc_b_t fc = Some bt -> N.of_nat (length (concat (im_values bt))) < u32_mod) ->
  let lines := first_occ (map fst (line_rows fc)) in
  to_summary m fc = Ok (mkSummary
    (spec_totals (N.of_nat (length lines))
       (N.of_nat (length (filter (fun l => negb (maxN (vals_of l (line_rows fc)) =? 0)) lines))))
    (spec_totals (N.of_nat (length (fc_s fc))) (covered_count (im_values (fc_s fc))))
    (spec_totals (N.of_nat (length (fc_f fc))) (covered_count (im_values (fc_f fc))))
    (spec_totals (N.of_nat (length (concat (im_values (fc_b fc))))) (covered_count (concat (im_values (fc_b fc)))))
    (option_map (fun bt => spec_totals (N.of_nat (length (concat (im_values bt)))) (covered_count (concat (im_values bt))))
       (fc_b_t fc))).
Proof. exact (@to_summary_spec). Qed.
Print Assumptions C11_to_summary_spec.

Theorem C11_to_summary_sane : forall m fc s,
  table_ok stmt_loc (fc_s fc) (fc_statement_map fc) ->
  N.of_nat (length (concat (im_values (fc_b fc)))) < u32_mod ->
  (forall bt, fc_b_t fc = Some bt -> N.of_nat (length (concat (im_values bt))) < u32_mod) ->
  to_summary m fc = Ok s ->
  totals_sane (cs_lines s) /\ totals_sane (cs_statements s) /\ totals_sane (cs_functions s) /\
  totals_sane (cs_branches s) /\ (forall t, cs_branches_true s = Some t -> totals_sane t).
Proof. exact (@to_summary_sane). Qed.
Print Assumptions C11_to_summary_sane.

Theorem C13_summary_merge_spec : forall m a b, summary_fit a b -> summary_merge m a b = Ok (summary_plus a b).
Proof. exact (@summary_merge_spec). Qed.
Print Assumptions C13_summary_merge_spec.

Theorem C13_summary_merge_comm : forall m a b, summary_fit a b ->
  exists r1 r2, summary_merge m a b = Ok r1 /\ summary_merge m b a = Ok r2 /\
  summary_nums r1 = summary_nums r2 /\
  cs_lines r1 = cs_lines r2 /\ cs_statements r1 = cs_statements r2 /\
  cs_functions r1 = cs_functions r2 /\ cs_branches r1 = cs_branches r2.
Proof. exact (@summary_merge_comm). Qed.
Print Assumptions C13_summary_merge_comm.

Theorem C13_map_summary_is_sum : forall m cm ss,
  map_res (to_summary m) (im_values cm) = Ok ss -> all_fit ss ->
  exists r, cm_get_coverage_summary m cm = Ok r /\
  (forall f g, In f [cs_lines; cs_statements; cs_functions; cs_branches; bt_of] ->
              In g [t_total; t_covered; t_skipped] -> g (f r) = sum_nums f g ss) /\
  (forall f, In f [cs_lines; cs_statements; cs_functions; cs_branches] -> t_pct (f r) =
     match ss with [] => PUnknown | _ => PValue (percent (t_covered (f r)) (t_total (f r))) end) /\
  (cs_branches_true r = None <-> Forall (fun s => cs_branches_true s = None) ss) /\
  (forall t, cs_branches_true r = Some t -> t_pct t = PValue (percent (t_covered t) (t_total t))).
Proof. exact (@map_summary_is_sum). Qed.
Print Assumptions C13_map_summary_is_sum.

Theorem C13_summary_is_empty_spec : forall s, summary_is_empty s = true <-> t_total (cs_lines s) = 0.
Proof. exact (@summary_is_empty_spec). Qed.
Print Assumptions C13_summary_is_empty_spec.

Theorem C14_reset_hits_spec : forall fc,
  let r := reset_hits fc in
  fc_all r = fc_all fc /\ fc_path r = fc_path fc /\ fc_statement_map r = fc_statement_map fc /\
  fc_fn_map r = fc_fn_map fc /\ fc_branch_map r = fc_branch_map fc /\
  fc_input_source_map r = fc_input_source_map fc /\
  fc_s r = tab (fun _ => 0) (im_keys (fc_s fc)) /\
  fc_f r = tab (fun _ => 0) (im_keys (fc_f fc)) /\
  im_keys (fc_b r) = im_keys (fc_b fc) /\
  Forall2 (fun x y => y = repeat 0 (length x)) (im_values (fc_b fc)) (im_values (fc_b r)) /\
  (fc_b_t r = None <-> fc_b_t fc = None) /\
  (forall bt bt', fc_b_t fc = Some bt -> fc_b_t r = Some bt' ->
     im_keys bt' = im_keys bt /\
     Forall2 (fun x y => y = repeat 0 (length x)) (im_values bt) (im_values bt')).
Proof. exact (@reset_hits_spec). Qed.
Print Assumptions C14_reset_hits_spec.

Theorem C14_reset_hits_idempotent : forall fc, reset_hits (reset_hits fc) = reset_hits fc.
Proof. exact (@reset_hits_idempotent). Qed.
Print Assumptions C14_reset_hits_idempotent.

Theorem C14_reset_summary : forall m fc s,
  table_ok stmt_loc (fc_s fc) (fc_statement_map fc) ->
  N.of_nat (length (concat (im_values (fc_b fc)))) < u32_mod -> fc_b_t fc = None ->
  to_summary m fc = Ok s ->
  exists s', to_summary m (reset_hits fc) = Ok s' /\
  t_total (cs_statements s') = t_total (cs_statements s) /\ t_covered (cs_statements s') = 0 /\
  t_total (cs_functions s') = t_total (cs_functions s) /\ t_covered (cs_functions s') = 0 /\
  t_total (cs_branches s') = t_total (cs_branches s) /\ t_covered (cs_branches s') = 0 /\
  t_total (cs_lines s') = t_total (cs_lines s) /\ t_covered (cs_lines s') = 0.
Proof. exact (@reset_summary). Qed.
Print Assumptions C14_reset_summary.

Theorem C15_add_coverage_effect : forall m cm fc cm', cm_ok cm ->
  add_coverage_for_file m cm fc = Ok cm' ->
  cm_ok cm' /\
  (forall p, p <> fc_path fc ->
     cm_get_coverage_for_file cm' p = cm_get_coverage_for_file cm p) /\
  match cm_get_coverage_for_file cm (fc_path fc) with
  | Some old => exists r, fc_merge m old fc = Ok r /\
       cm_get_coverage_for_file cm' (fc_path fc) = Some r /\ cm_get_files cm' = cm_get_files cm
  | None => cm_get_coverage_for_file cm' (fc_path fc) = Some fc /\
       cm_get_files cm' = (cm_get_files cm ++ [fc_path fc])%list
  end.
Proof. exact (@add_coverage_effect). Qed.
Print Assumptions C15_add_coverage_effect.

Theorem C15_from_iter_spec : forall m l cm, cm_from_iter m l = Ok cm ->
  cm_ok cm /\
  (forall p, merge_all m None (of_path p l) = Ok (cm_get_coverage_for_file cm p)) /\
  cm_get_files cm = first_occ (map fc_path l).
Proof. exact (@from_iter_spec). Qed.
Print Assumptions C15_from_iter_spec.

Theorem C15_map_merge_spec : forall m a b r, cm_ok a -> cm_ok b -> cm_merge m a b = Ok r ->
  cm_ok r /\
  (forall p, match cm_get_coverage_for_file a p, cm_get_coverage_for_file b p with
             | Some x, Some y => exists z, fc_merge m x y = Ok z /\ cm_get_coverage_for_file r p = Some z
             | Some x, None => cm_get_coverage_for_file r p = Some x
             | None, o => cm_get_coverage_for_file r p = o
             end) /\
  cm_get_files r = first_occ (cm_get_files a ++ cm_get_files b).
Proof. exact (@map_merge_spec). Qed.
Print Assumptions C15_map_merge_spec.

Theorem C15_reachable_ok : forall m cm, cm_reach m cm -> cm_ok cm.
Proof. exact (@reachable_ok). Qed.
Print Assumptions C15_reachable_ok.

Theorem C15_map_example :
  exists cm, cm_from_iter Debug [fc_empty "foo.js" false; fc_empty "bar.js" false; fc_empty "foo.js" false] = Ok cm /\
    cm_get_files cm = ["foo.js"; "bar.js"]%string.
Proof. exact (@map_example). Qed.
Print Assumptions C15_map_example.

Theorem C16_filter_spec : forall p cm, cm_ok cm ->
  cm_ok (cm_filter p cm) /\
  (forall q, cm_get_coverage_for_file (cm_filter p cm) q =
     match cm_get_coverage_for_file cm q with Some r => if p r then Some r else None | None => None end) /\
  cm_filter p cm = filter (fun kv => p (snd kv)) cm.
Proof. exact (@filter_spec). Qed.
Print Assumptions C16_filter_spec.

Theorem C16_reachable_ok : forall m cm, cm_reach m cm -> cm_ok cm.
Proof. exact (@reachable_ok). Qed.
Print Assumptions C16_reachable_ok.

