(** Property theorems proved in [ReadInitial.v]; generated by tools/genprops.py. *)
From Coq Require Import NArith String Ascii List Bool Lia PeanoNat Permutation.
Import ListNotations.
From Verif Require Import Base IndexMap Decimal Oxide SipHash SourceCov Hints Ast Visitor VisitorEx Erase Counting CountingRoot
  Json CovJson DataObject Template Runtime Options Plugin Produced DebugComment Emitted.
Open Scope string_scope.
From Verif Require Import ReadInitial.

Theorem C58_initial_loses_null_refuted : exists m n t out p' fc init,
  process no_ext m n t (mkProc (Some "cov_1") (Some "cov_1_temp") false) = Ok (out, p') /\
  templates (out_program out) = [fc] /\ read_initial (functions (options_of m) "a.js" out) = Some init /\ ~ deep (in_data init) (fc_json fc).
Proof. exact (@initial_loses_null_refuted). Qed.
Print Assumptions C58_initial_loses_null_refuted.

Theorem C58_initial_of_program_partial : forall x m n t p out p' items,
  program_items t = Some items -> forallb (good false) items = true -> clean t = true -> Forall plain (idents t) ->
  process x m n t p = Ok (out, p') ->
  excluded x (options_of m) (file_name m) = false ->
  should_ignore_file (m_word m) (m_comments m) (nspan t) = false ->
  let o := options_of m in
  exists fc v, templates (out_program out) = [fc] /\
    read_initial (functions o (file_name m) out) =
      Some (mkInitial (JStr (file_name m)) (JStr (dec (hash_str (print (fc_json fc))))) (JStr (o_variable o)) v) /\
    (exists fc', read_fc v = Some fc' /\ same_data fc' (with_dense fc)) /\
    (deep v (fc_json fc) <-> no_nulls (o_source_map o)).
Proof. exact (@initial_of_program_partial). Qed.
Print Assumptions C58_initial_of_program_partial.

Theorem C58_initial_read_back : forall gcv name file fc dbg fns, fc_names_plain fc ->
  read_initial (fns ++ [create_coverage_fn_decl gcv name file fc dbg]) =
  Some (mkInitial (JStr file) (JStr (dec (hash_str (print (fc_json fc))))) (JStr gcv) (JObj (fc_read fc))).
Proof. exact (@initial_read_back). Qed.
Print Assumptions C58_initial_read_back.

Theorem C58_initial_is_record : forall fc, unique_keys fc ->
  exists fc', read_fc (JObj (fc_read fc)) = Some fc' /\ same_data fc' (with_dense fc).
Proof. exact (@initial_is_record). Qed.
Print Assumptions C58_initial_is_record.

Theorem C58_matches_comment_iff : forall fc, unique_keys fc ->
  deep (JObj (fc_read fc)) (fc_json fc) <-> Forall (fun kv => complete (snd kv)) (fc_branch_map fc) /\ no_nulls (fc_input_source_map fc).
Proof. exact (@matches_comment_iff). Qed.
Print Assumptions C58_matches_comment_iff.

Theorem C58_initial_read_ex : exists out p' fc init,
  process no_ext (read_meta """x""") 20 read_module (mkProc (Some "cov_1") (Some "cov_1_temp") false) = Ok (out, p') /\
  templates (out_program out) = [fc] /\ im_keys (fc_s fc) = [0%N] /\ read_initial (functions (options_of (read_meta """x""")) "a.js" out) = Some init /\
  in_path init = JStr "a.js" /\ in_gcv init = JStr "__cov__" /\ deep (in_data init) (fc_json fc).
Proof. exact (@initial_read_ex). Qed.
Print Assumptions C58_initial_read_ex.

