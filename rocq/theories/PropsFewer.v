(** Property theorems proved in [Fewer.v]; generated by tools/genprops.py. *)
From Coq Require Import NArith String List Bool Lia PeanoNat.
Import ListNotations.
From Verif Require Import Base IndexMap Decimal Oxide SourceCov Hints Ast Visitor VisitorEx Erase Influence Layout Registered Positions.
Open Scope N_scope.
From Verif Require Import Fewer.

Theorem C65_ignoring_only_removes_partial : forall e1 e2 n1 n2 path ism t t1 t2 c1 c2,
  e_lookup e2 = e_lookup e1 -> more_hints (hint e1) (hint e2) -> (e_report_logic e1 = true -> e_report_logic e2 = true) ->
  incl (e_ignore_methods e1) (e_ignore_methods e2) ->
  next (hint e2) dummy_span = false -> should_ignore_file (e_word e1) (e_comments e1) (nspan t) = false -> proper_program t = true ->
  instrument e1 n1 path ism t = Ok (t1, c1) -> instrument e2 n2 path ism t = Ok (t2, c2) ->
  part_of_record (sc_fc c2) (sc_fc c1).
Proof. exact (@ignoring_only_removes_partial). Qed.
Print Assumptions C65_ignoring_only_removes_partial.

Theorem C65_hints_only_remove_partial : forall e n1 n2 path ism t t1 t2 c1 c2,
  next (hint e) dummy_span = false -> proper_program t = true ->
  instrument (bare e) n1 path ism t = Ok (t1, c1) -> instrument e n2 path ism t = Ok (t2, c2) -> part_of_record (sc_fc c2) (sc_fc c1).
Proof. exact (@hints_only_remove_partial). Qed.
Print Assumptions C65_hints_only_remove_partial.

Theorem C65_ignoring_adds_refuted : exists t e, e_lookup e = e_lookup plain_env /\ e_report_logic e = false /\ e_ignore_methods e = [] /\
  next (hint e) dummy_span = false /\
  ranges_of (instrument plain_env 40 "f.js" None t) = [(30, 37); (57, 58)] /\
  ranges_of (instrument e 40 "f.js" None t) = [(50, 58); (57, 58)].
Proof. exact (@ignoring_adds_refuted). Qed.
Print Assumptions C65_ignoring_adds_refuted.

Theorem C65_program_fewer : forall H1 H2 rl1 rl2 M1 M2 t,
  more_hints H1 H2 -> (rl1 = true -> rl2 = true) -> incl M1 M2 -> fewer (program_regs H2 rl2 M2 t) (program_regs H1 rl1 M1 t).
Proof. exact (@program_fewer). Qed.
Print Assumptions C65_program_fewer.

Theorem C65_fewer_ex :
  let e := comment_env 90 "istanbul ignore next" in
  bare e = plain_env /\ proper_program ex_registered = true /\ next (hint e) dummy_span = false /\
  ranges_of (instrument plain_env 40 "f.js" None ex_registered) =
    [(1, 30); (18, 29); (51, 67); (58, 67); (90, 104); (100, 104); (105, 128); (131, 160); (153, 155); (171, 189); (179, 186)] /\
  ranges_of (instrument e 40 "f.js" None ex_registered) =
    [(1, 30); (18, 29); (51, 67); (58, 67); (105, 128); (131, 160); (153, 155); (171, 189); (179, 186)].
Proof. exact (@fewer_ex). Qed.
Print Assumptions C65_fewer_ex.

