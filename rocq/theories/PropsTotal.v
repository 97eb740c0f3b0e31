(** Property theorems proved in [Total.v]; generated by tools/genprops.py. *)
From Coq Require Import NArith String List Bool Lia PeanoNat Wf_nat.
Import ListNotations.
From Verif Require Import Base IndexMap Oxide SourceCov Hints Ast Visitor VisitorRel Erase VisitorEx.
Open Scope N_scope.
From Verif Require Import Total.

Theorem C41_instrumentation_finishes : forall e path ism t, shaped_program true t = true ->
  exists N t' sc, forall n, (N <= n)%nat -> instrument e n path ism t = Ok (t', sc).
Proof. exact (@instrumentation_finishes). Qed.
Print Assumptions C41_instrumentation_finishes.

Theorem C41_panics_only_without_body : forall e path ism t, shaped_program false t = true ->
  exists N r, (forall n, (N <= n)%nat -> instrument e n path ism t = r) /\
    ((exists t' sc, r = Ok (t', sc)) \/ (r = Panic RUnimplemented /\ shaped_program true t = false)).
Proof. exact (@panics_only_without_body). Qed.
Print Assumptions C41_panics_only_without_body.

Theorem C41_finishes_ex : shaped_program true ex_deep = true /\
  (exists t' sc, instrument plain_env 60 "a.js" None ex_deep = Ok (t', sc)) /\
  instrument plain_env 10 "a.js" None ex_deep = OutOfFuel.
Proof. exact (@finishes_ex). Qed.
Print Assumptions C41_finishes_ex.

Theorem C41_no_body_panics_ex : shaped_program false ex_overload = true /\ shaped_program true ex_overload = false /\
  (forall n, (10 <= n)%nat -> instrument plain_env n "a.js" None ex_overload = Panic RUnimplemented).
Proof. exact (@no_body_panics_ex). Qed.
Print Assumptions C41_no_body_panics_ex.

