(** The model agrees with the repository's own tests of the instrumenter. *)
From Coq Require Import NArith ZArith String List Bool.
Import ListNotations.
From Verif Require Import Base Oxide SourceCov Hints Ast Visitor VisitorEx JsHost FixtureRun Fixtures.
Open Scope string_scope. Open Scope list_scope. Open Scope N_scope.

(** spec/fixture.spec.ts: in every test of every fixture the instrumented program runs to its end, gives
    the expected output, and leaves exactly the expected line, statement, function, branch and
    truthiness counts, incrementing no counter without a slot. *)
Theorem repository_fixtures_pass : forall x check_out tests u,
  In (x, check_out, tests) suites -> In u tests -> run_test x check_out u = Passed.
Proof.
  assert (H : forallb (fun p => forallb (fun u => match run_test (fst (fst p)) (snd (fst p)) u with
                                                  | Passed => true | _ => false end) (snd p)) suites = true)
    by (vm_compute; reflexivity).
  intros x o ts u Hx Hu. rewrite forallb_forall in H. specialize (H _ Hx). cbn [fst snd] in H.
  rewrite forallb_forall in H. specialize (H _ Hu). now destruct (run_test x o u).
Qed.

(** The fixtures with generators: the tables are the expected ones. *)
Theorem repository_tables_agree_partial : forall x tests u,
  In (x, tests) generators -> In u tests -> tables x u = true.
Proof.
  assert (H : forallb (fun p => forallb (tables (fst p)) (snd p)) generators = true) by (vm_compute; reflexivity).
  intros x ts u Hx Hu. rewrite forallb_forall in H. specialize (H _ Hx). cbn [fst snd] in H.
  rewrite forallb_forall in H. auto.
Qed.

(** Fixtures with [generateOnly]: the instrumenter finishes. *)
Theorem repository_generates : forall x, In x generate_only ->
  exists t' sc, instrument (env_of x) 200 "fixture.js" None (fx_tree x) = Ok (t', sc).
Proof.
  assert (H : forallb (fun x => match instrument (env_of x) 200 "fixture.js" None (fx_tree x) with
                                | Ok _ => true | _ => false end) generate_only = true) by (vm_compute; reflexivity).
  intros x Hx. rewrite forallb_forall in H. specialize (H _ Hx).
  destruct (instrument _ _ _ _ _) as [[t' sc]| |]; try discriminate. eauto.
Qed.

(** Fixtures with [noCoverage]: the program is left as it is. *)
Theorem repository_ignores : forall x, In x ignored_files ->
  exists sc, instrument (env_of x) 200 "fixture.js" None (fx_tree x) = Ok (fx_tree x, sc).
Proof. intros x [<-|[]]. eexists. vm_compute. reflexivity. Qed.

(** The tests are there. *)
Example suites_size : (length suites, length (flat_map snd suites), length generate_only) = (117%nat, 193%nat, 4%nat).
Proof. vm_compute. reflexivity. Qed.
