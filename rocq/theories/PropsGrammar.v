(** Property theorems proved in [Grammar.v]; generated by tools/genprops.py. *)
From Coq Require Import NArith String List Bool Lia PeanoNat.
Import ListNotations.
From Verif Require Import Base IndexMap Oxide SourceCov Hints Ast Visitor VisitorRel VisitorEx Erase OneEntry FixtureRun Fixtures.
Open Scope N_scope.
From Verif Require Import Grammar.

Theorem C67_output_grammatical : forall e n path ism t t' c,
  instrument e n path ism t = Ok (t', c) -> grammatical t = true -> grammatical t' = true.
Proof. exact (@output_grammatical). Qed.
Print Assumptions C67_output_grammatical.

Theorem C67_grammar_ex :
  (forall x o ts, In (x, o, ts) suites -> grammatical (fx_tree x) = true) /\
  (forall x ts, In (x, ts) generators -> grammatical (fx_tree x) = true) /\
  (forall x, In x generate_only -> grammatical (fx_tree x) = true) /\
  grammatical (script_ 1 20 [T 1 20 KIf [var 1 2 "a"; let_ 3 9 VLet [declarator 3 8 "b" (num 7 8)]; none]]) = false /\
  grammatical (script_ 1 20 [T 1 20 KWhile [var 1 2 "a"; var 3 4 "b"]]) = false /\
  grammatical (script_ 1 20 [T 1 20 KExprStmt [X 1 9 (KBin OpOr) [var 1 2 "a"; T 3 4 KBreak []]]]) = false.
Proof. exact (@grammar_ex). Qed.
Print Assumptions C67_grammar_ex.

