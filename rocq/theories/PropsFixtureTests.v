(** Property theorems proved in [FixtureTests.v]; generated by tools/genprops.py. *)
From Coq Require Import NArith ZArith String List Bool.
Import ListNotations.
From Verif Require Import Base Oxide SourceCov Hints Ast Visitor VisitorEx JsHost FixtureRun Fixtures.
From Verif Require Import FixtureTests.

Theorem C27_repository_ignores : forall x, In x ignored_files ->
  exists sc, instrument (env_of x) 200 "fixture.js" None (fx_tree x) = Ok (fx_tree x, sc).
Proof. exact (@repository_ignores). Qed.
Print Assumptions C27_repository_ignores.

Theorem C41_repository_generates : forall x, In x generate_only ->
  exists t' sc, instrument (env_of x) 200 "fixture.js" None (fx_tree x) = Ok (t', sc).
Proof. exact (@repository_generates). Qed.
Print Assumptions C41_repository_generates.

Theorem C43_repository_fixtures_pass : forall x check_out tests u,
  In (x, check_out, tests) suites -> In u tests -> run_test x check_out u = Passed.
Proof. exact (@repository_fixtures_pass). Qed.
Print Assumptions C43_repository_fixtures_pass.

Theorem C43_repository_tables_agree_partial : forall x tests u,
  In (x, tests) generators -> In u tests -> tables x u = true.
Proof. exact (@repository_tables_agree_partial). Qed.
Print Assumptions C43_repository_tables_agree_partial.

