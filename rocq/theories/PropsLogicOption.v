(** Property theorems proved in [LogicOption.v]; generated by tools/genprops.py. *)
From Coq Require Import NArith String List Bool Lia PeanoNat.
Import ListNotations.
From Verif Require Import Base IndexMap Decimal Oxide SourceCov Hints Ast Visitor VisitorEx.
Open Scope N_scope.
From Verif Require Import LogicOption.

Theorem C54_logic_loses_function_refuted : exists t,
  run_counters (with_logic false plain_env) t = Some [CS 0; CB 0 0; CB 0 1; CF 0; CS 1] /\
  run_counters (with_logic true plain_env) t = Some [CS 0; CB 0 0; CT 0 0; CB 0 1; CT 0 1].
Proof. exact (@logic_loses_function_refuted). Qed.
Print Assumptions C54_logic_loses_function_refuted.

Theorem C54_logic_only_adds_partial : forall e n path ism t, plain_operands t = true ->
  match instrument (with_logic false e) n path ism t with
  | Ok (a, c) => exists b d, instrument (with_logic true e) n path ism t = Ok (b, d) /\ extends a b /\ c = cov_without_bt d
  | Panic r => instrument (with_logic true e) n path ism t = Panic r
  | OutOfFuel => True
  end.
Proof. exact (@logic_only_adds_partial). Qed.
Print Assumptions C54_logic_only_adds_partial.

Theorem C54_logic_keeps_counters_partial : forall e n path ism t a c b d, plain_operands t = true ->
  instrument (with_logic false e) n path ism t = Ok (a, c) -> instrument (with_logic true e) n path ism t = Ok (b, d) ->
  filter (fun c => negb (is_truth c)) (counters a) = filter (fun c => negb (is_truth c)) (counters b).
Proof. exact (@logic_keeps_counters_partial). Qed.
Print Assumptions C54_logic_keeps_counters_partial.

Theorem C54_ex_function_plain : plain_operands ex_function = true.
Proof. exact (@ex_function_plain). Qed.
Print Assumptions C54_ex_function_plain.

Theorem C54_logic_only_adds_ex :
  run_counters (with_logic false plain_env) ex_function = Some [CF 0; CS 0; CB 0 0; CS 1; CB 0 1; CS 2; CB 1 0; CB 1 1] /\
  run_counters (with_logic true plain_env) ex_function = Some [CF 0; CS 0; CB 0 0; CS 1; CB 0 1; CS 2; CB 1 0; CT 1 0; CB 1 1; CT 1 1].
Proof. exact (@logic_only_adds_ex). Qed.
Print Assumptions C54_logic_only_adds_ex.

