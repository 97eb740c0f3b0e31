(** Property theorems proved in [Threshold.v]; generated by tools/genprops.py. *)
From Coq Require Import NArith ZArith Reals.
From Coq Require Import Floats.SpecFloat.
From Flocq Require Import Core.Core.
From Coq Require Import String List Bool Lia Lra PeanoNat Permutation.
Import ListNotations.
From Verif Require Import Base IndexMap Decimal Float FloatR Percent Oxide OxideSpec OxideMergeProofs OxideMerge OxideViews Growth SourceCov
  SourceCovProofs Hints Ast Visitor VisitorEx Template Runtime Produced Report Sem SemShape SemErase SemVisit SemProps Account Accurate EndToEnd Runs Project.
From Verif Require Import Threshold.

Theorem C69_percent_hundredths : forall c t j, c <= t -> j <= 10000 -> ((mark j <= val32 (percent c t))%R <-> j * t <= 10000 * c).
Proof. exact (@percent_hundredths). Qed.
Print Assumptions C69_percent_hundredths.

Theorem C69_percent_threshold : forall c t k, c <= t -> k <= 100 -> ((IZR (Z.of_N k) <= val32 (percent c t))%R <-> k * t <= 100 * c).
Proof. exact (@percent_threshold). Qed.
Print Assumptions C69_percent_threshold.

Theorem C69_percent_is_100 : forall c t, c <= t -> (percent c t = f32_of_Z 100 <-> c = t).
Proof. exact (@percent_is_100). Qed.
Print Assumptions C69_percent_is_100.

Theorem C69_percent_is_0 : forall c t, c <= t -> 0 < t -> (val32 (percent c t) = 0%R <-> 10000 * c < t).
Proof. exact (@percent_is_0). Qed.
Print Assumptions C69_percent_is_0.

Theorem C69_zero_percent_refuted : exists c t, 0 < c /\ c <= t /\ percent c t = percent 0 t.
Proof. exact (@zero_percent_refuted). Qed.
Print Assumptions C69_zero_percent_refuted.

Theorem C69_summary_full : forall m fc s,
  table_ok stmt_loc (fc_s fc) (fc_statement_map fc) ->
  N.of_nat (length (concat (im_values (fc_b fc)))) < u32_mod ->
  (forall bt, fc_b_t fc = Some bt -> N.of_nat (length (concat (im_values bt))) < u32_mod) ->
  to_summary m fc = Ok s ->
  (full (cs_statements s) <-> forall k h, In (k, h) (fc_s fc) -> h <> 0) /\
  (full (cs_functions s) <-> forall k h, In (k, h) (fc_f fc) -> h <> 0) /\
  (full (cs_branches s) <-> forall k l h, In (k, l) (fc_b fc) -> In h l -> h <> 0) /\
  (forall t bt, cs_branches_true s = Some t -> fc_b_t fc = Some bt -> (full t <-> forall k l h, In (k, l) bt -> In h l -> h <> 0)) /\
  (full (cs_lines s) <-> forall k h rg, In (k, h) (fc_s fc) -> im_get k (fc_statement_map fc) = Some rg ->
     exists k' h' rg', In (k', h') (fc_s fc) /\ im_get k' (fc_statement_map fc) = Some rg' /\
       line (rstart rg') = line (rstart rg) /\ h' <> 0).
Proof. exact (@summary_full). Qed.
Print Assumptions C69_summary_full.

Theorem C69_statements_then_lines : forall m fc s,
  table_ok stmt_loc (fc_s fc) (fc_statement_map fc) ->
  N.of_nat (length (concat (im_values (fc_b fc)))) < u32_mod ->
  (forall bt, fc_b_t fc = Some bt -> N.of_nat (length (concat (im_values bt))) < u32_mod) ->
  to_summary m fc = Ok s -> full (cs_statements s) -> full (cs_lines s).
Proof. exact (@statements_then_lines). Qed.
Print Assumptions C69_statements_then_lines.

Theorem C69_lines_then_statements_refuted : exists m fc s, table_ok stmt_loc (fc_s fc) (fc_statement_map fc) /\
  to_summary m fc = Ok s /\ full (cs_lines s) /\ ~ full (cs_statements s).
Proof. exact (@lines_then_statements_refuted). Qed.
Print Assumptions C69_lines_then_statements_refuted.

Theorem C69_lines_and_uncovered : forall m fc s ls,
  table_ok stmt_loc (fc_s fc) (fc_statement_map fc) ->
  N.of_nat (length (concat (im_values (fc_b fc)))) < u32_mod ->
  (forall bt, fc_b_t fc = Some bt -> N.of_nat (length (concat (im_values bt))) < u32_mod) ->
  to_summary m fc = Ok s -> get_uncovered_lines fc = Ok ls ->
  t_total (cs_lines s) = N.of_nat (length (start_lines fc)) /\
  t_covered (cs_lines s) + N.of_nat (length ls) = t_total (cs_lines s) /\
  incl ls (start_lines fc) /\ NoDup ls /\ (full (cs_lines s) <-> ls = []).
Proof. exact (@lines_and_uncovered). Qed.
Print Assumptions C69_lines_and_uncovered.

Theorem C69_project_threshold_partial : forall m l gcv hs rss logs, NoDup (map p_path l) -> Forall modelled l -> small l ->
  Forall2 (process (project l) gcv) hs rss -> (forall P, In P l -> Forall2 (acted gcv P) hs (logs P)) ->
  (forall P ev, In P l -> N.of_nat (count_occ event_dec (concat (logs P)) ev) < u32_mod) ->
  (exists P, In P l /\ ran_once gcv (p_path P) hs = true) ->
  exists M s parts lss, merge_maps m rss = Ok M /\ cm_get_coverage_summary m M = Ok s /\
    map (fun x => p_path (r_prog x)) parts = cm_get_files M /\
    Permutation (map r_prog parts) (filter (fun P => ran_once gcv (p_path P) hs) l) /\
    Forall (part_of logs M) parts /\ says_all logs s parts /\ lines_add M s lss.
Proof. exact (@project_threshold_partial). Qed.
Print Assumptions C69_project_threshold_partial.

Theorem C69_threshold_ex : forall tf cf tg cg, instrument line_env 60 "f.js" None ex_count = Ok (tf, cf) ->
  instrument line_env 60 "g.js" None ex_count = Ok (tg, cg) ->
  let F := count_program "f.js" tf cf in let l := [F; count_program "g.js" tg cg] in
  let hs := [one_file (count_emitted F) (count_incs 1 F)] in
  let logs := fun P => if String.eqb (p_path P) "f.js" then [count_log 1] else [[]] in
  exists rss, NoDup (map p_path l) /\ Forall modelled l /\ small l /\ Forall2 (process (project l) "__coverage__") hs rss /\
    (forall P, In P l -> Forall2 (acted "__coverage__" P) hs (logs P)) /\
    (forall P ev, In P l -> N.of_nat (count_occ event_dec (concat (logs P)) ev) < u32_mod) /\
    exists P, In P l /\ ran_once "__coverage__" (p_path P) hs = true.
Proof. exact (@threshold_ex). Qed.
Print Assumptions C69_threshold_ex.

Theorem C69_threshold_numbers_ex : meets 50 (spec_totals 20 10) /\ ~ meets 51 (spec_totals 20 10) /\ ~ full (spec_totals 20 10) /\
  ~ meets 100 (spec_totals 4000000000 3999999999).
Proof. exact (@threshold_numbers_ex). Qed.
Print Assumptions C69_threshold_numbers_ex.

Theorem C69_lines_ex : start_lines (one_line 0) = [1] /\ get_uncovered_lines (one_line 0) = Ok [].
Proof. exact (@lines_ex). Qed.
Print Assumptions C69_lines_ex.

