(** Property theorems proved in [Linear.v]; generated by tools/genprops.py. *)
From Coq Require Import NArith String List Bool Lia PeanoNat.
Import ListNotations.
From Verif Require Import Base IndexMap Decimal Oxide SourceCov SourceCovProofs Hints Ast Visitor VisitorRel VisitorEx Erase OneEntry.
Open Scope N_scope.
From Verif Require Import Linear.

Theorem C66_growth_is_linear_partial : forall e n path ism t t' c,
  instrument e n path ism t = Ok (t', c) -> no_tagged_init t = true ->
  (size t' + rows (sc_fc c) <= 84 * size t)%nat.
Proof. exact (@growth_is_linear_partial). Qed.
Print Assumptions C66_growth_is_linear_partial.

Theorem C66_tagged_init_doubles : forall d, exists n t t' c,
  instrument plain_env n "f.js" None t = Ok (t', c) /\ size t = (13 + 16 * d)%nat /\
  length (fc_statement_map (sc_fc c)) = (6 * 2 ^ d - 3)%nat.
Proof. exact (@tagged_init_doubles). Qed.
Print Assumptions C66_tagged_init_doubles.

Theorem C66_growth_unbounded : forall factor : nat, exists e n path ism t t' c,
  instrument e n path ism t = Ok (t', c) /\ (factor * size t < rows (sc_fc c))%nat.
Proof. exact (@growth_unbounded). Qed.
Print Assumptions C66_growth_unbounded.

Theorem C66_growth_is_linear_refuted : exists e n path ism t t' c,
  instrument e n path ism t = Ok (t', c) /\ (84 * size t < size t' + rows (sc_fc c))%nat.
Proof. exact (@growth_is_linear_refuted). Qed.
Print Assumptions C66_growth_is_linear_refuted.

Theorem C66_linear_ex : exists t' c, instrument plain_env 40 "f.js" None ex_function = Ok (t', c) /\
  no_tagged_init ex_function = true /\ (size ex_function, size t', rows (sc_fc c)) = (29, 74, 10)%nat.
Proof. exact (@linear_ex). Qed.
Print Assumptions C66_linear_ex.

