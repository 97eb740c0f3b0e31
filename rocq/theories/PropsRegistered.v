(** Property theorems proved in [Registered.v]; generated by tools/genprops.py. *)
From Coq Require Import NArith String List Bool Lia PeanoNat.
Import ListNotations.
From Verif Require Import Base IndexMap Decimal Oxide SourceCov SourceCovProofs Hints Ast Visitor VisitorRel
  VisitorEx Erase Counting CountingRoot Suppress Influence.
Open Scope N_scope.
From Verif Require Import Registered.

Theorem C45_record_is_exact : forall e n path ism t t' sc,
  next (hint e) dummy_span = false ->
  should_ignore_file (e_word e) (e_comments e) (nspan t) = false ->
  proper_program t = true -> instrument e n path ism t = Ok (t', sc) ->
  let R := program_regs (hint e) (e_report_logic e) (e_ignore_methods e) t in
  fc_statement_map (sc_fc sc) = number_from 0 (reg_stmts e R) /\
  fc_fn_map (sc_fc sc) = map (fun x => (fst x, fn_row (fst x) (snd x))) (number_from 0 (reg_fns e R)) /\
  fc_branch_map (sc_fc sc) =
    map (fun x => (fst x, branch_row (snd x)))
      (filter (fun x => match snd (snd x) with [] => false | _ => true end) (number_from 0 (reg_branches e R))).
Proof. exact (@record_is_exact). Qed.
Print Assumptions C45_record_is_exact.

Theorem C45_registered_ex :
  let e := comment_env 90 "istanbul ignore next" in
  next (hint e) dummy_span = false /\
  should_ignore_file (e_word e) (e_comments e) (nspan ex_registered) = false /\
  proper_program ex_registered = true /\ is_ok (instrument e 40 "f.js" None ex_registered) = true /\
  program_regs (hint e) false [] ex_registered =
    [RStmt (sp 1 30); RStmt (sp 18 29); RBranch CondExpr (sp 18 29) [sp 22 23; sp 26 27];
     RFn (Some "f"%string) (sp 40 41) (sp 49 130); RBranch DefaultArg (sp 42 47) [sp 46 47];
     RStmt (sp 51 67); RBranch BIf (sp 51 67) [sp 51 67; sp 51 67]; RStmt (sp 58 67);
     RStmt (sp 105 128); RBranch BinaryExpr (sp 112 127) [sp 112 113; sp 117 118; sp 122 123];
     RStmt (sp 131 160); RBranch BSwitch (sp 131 160) [sp 145 152; sp 156 159]; RStmt (sp 153 155);
     RStmt (sp 171 189); RFn (Some "m"%string) (sp 173 174) (sp 177 187); RStmt (sp 179 186)] /\
  (* without the hint the loop and its body are counted, too *)
  firstn 3 (skipn 8 (program_regs (hint plain_env) false [] ex_registered)) =
    [RStmt (sp 90 104); RStmt (sp 100 104); RStmt (sp 105 128)].
Proof. exact (@registered_ex). Qed.
Print Assumptions C45_registered_ex.

Theorem C45_initialised_variable_counted_refuted : exists d,
  proper_program (module_ 1 100 [d]) = true /\ proper_program (module_ 1 100 [ex_wrapped d]) = true /\
  stmts_of (module_ 1 100 [d]) = Some (reg_stmts plain_env [RStmt (sp 60 68); RStmt (sp 67 68)]) /\
  stmts_of (module_ 1 100 [ex_wrapped d]) = Some (reg_stmts plain_env [RStmt (sp 67 68)]).
Proof. exact (@initialised_variable_counted_refuted). Qed.
Print Assumptions C45_initialised_variable_counted_refuted.

Theorem C45_lost_ex :
  program_regs (hint plain_env) false [] (module_ 1 100 [ex_const 2; ex_wrapped (ex_const 50)]) =
    [RStmt (sp 12 20); RFn None (sp 12 20) (sp 19 20); RStmt (sp 19 20); RFn (Some "g"%string) (sp 40 41) (sp 49 80);
     RFn None (sp 60 68) (sp 67 68); RStmt (sp 67 68)] /\
  proper_program (module_ 1 100 [ex_const 2; ex_wrapped (ex_const 50)]) = true.
Proof. exact (@lost_ex). Qed.
Print Assumptions C45_lost_ex.

