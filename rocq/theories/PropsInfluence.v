(** Property theorems proved in [Influence.v]; generated by tools/genprops.py. *)
From Coq Require Import NArith String List Bool Lia PeanoNat.
Import ListNotations.
From Verif Require Import Base IndexMap Oxide SourceCov Hints Ast Visitor VisitorRel VisitorEx Erase.
Open Scope N_scope.
From Verif Require Import Influence.

Theorem C38_preceding_statement_influences_refuted : exists x y,
  run_counters plain_env (module_ 1 90 [y]) = Some [CS 0; CF 0; CS 1] /\
  run_counters plain_env (module_ 1 90 [x; y]) =
    Some ([CS 0; CB 0 0; CB 0 1] ++ [CF 0; CS 1])%list.
Proof. exact (@preceding_statement_influences_refuted). Qed.
Print Assumptions C38_preceding_statement_influences_refuted.

Theorem C38_block_statements_context : forall e n xs ys s out s',
  insert_stmts_counter e (visit e n) (xs ++ ys) s = Ok (out, s') ->
  exists out1 out2 s1,
    insert_stmts_counter e (visit e n) xs s = Ok (out1, s1) /\
    context s1 = context s /\ before s1 = before s /\
    insert_stmts_counter e (visit e n) ys s1 = Ok (out2, s') /\ out = (out1 ++ out2)%list.
Proof. exact (@block_statements_context). Qed.
Print Assumptions C38_block_statements_context.

Theorem C38_module_items_context_partial : forall e n xs ys s out s',
  visit_items e (visit e n) (xs ++ ys) s = Ok (out, s') ->
  forallb (quiet_item_ (e_report_logic e)) xs = true ->
  exists out1 out2 s1,
    visit_items e (visit e n) xs s = Ok (out1, s1) /\ context s1 = context s /\
    visit_items e (visit e n) ys s1 = Ok (out2, s') /\ out = (out1 ++ out2)%list.
Proof. exact (@module_items_context_partial). Qed.
Print Assumptions C38_module_items_context_partial.

Theorem C38_script_items_context_partial : forall e n xs ys s out s',
  visit_script_items (visit e n) (xs ++ ys) s = Ok (out, s') ->
  forallb (quiet_item_ (e_report_logic e)) xs = true ->
  exists out1 out2 s1,
    visit_script_items (visit e n) xs s = Ok (out1, s1) /\ context s1 = context s /\
    visit_script_items (visit e n) ys s1 = Ok (out2, s') /\ out = (out1 ++ out2)%list.
Proof. exact (@script_items_context_partial). Qed.
Print Assumptions C38_script_items_context_partial.

Theorem C38_influence_ex :
  forallb (quiet_item_ false) [T 30 37 KExprStmt [var 30 36 "a"]; ex_arrow_const] = true /\
  run_counters plain_env (module_ 1 90 [T 30 37 KExprStmt [var 30 36 "a"]; ex_arrow_const]) =
    Some [CS 0; CS 1; CF 0; CS 2].
Proof. exact (@influence_ex). Qed.
Print Assumptions C38_influence_ex.

