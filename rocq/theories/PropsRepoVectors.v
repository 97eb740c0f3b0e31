(** Property theorems proved in [RepoVectors.v]; generated by tools/genprops.py. *)
From Coq Require Import NArith String List Bool.
Import ListNotations.
From Verif Require Import Base IndexMap Oxide SipHash Json CovJson DataObject SourceCov.
Open Scope string_scope.
From Verif Require Import RepoVectors.

Theorem C21_vector_statement_2 : hash_of (fst (new_statement (range_new 4 9 3 6) statement_1)) = "8495704048820686839".
Proof. exact (@vector_statement_2). Qed.
Print Assumptions C21_vector_statement_2.

Theorem C21_vector_fn_2 : hash_of (fst (new_function None (range_new 4 9 4 25) (range_new 4 9 3 6) fn_1)) = "8413193639409683826".
Proof. exact (@vector_fn_2). Qed.
Print Assumptions C21_vector_fn_2.

Theorem C21_vector_branch_2 : hash_of (fst (new_branch BinaryExpr (range_new 6 4 2 8) true branch_1)) = "394046461779423801".
Proof. exact (@vector_branch_2). Qed.
Print Assumptions C21_vector_branch_2.

Theorem C21_vector_path_2 : path_2 = Ok "5849348874565150566".
Proof. exact (@vector_path_2). Qed.
Print Assumptions C21_vector_path_2.

