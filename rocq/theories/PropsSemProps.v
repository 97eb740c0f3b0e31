(** Property theorems proved in [SemProps.v]; generated by tools/genprops.py. *)
From Coq Require Import NArith String List Bool Lia PeanoNat.
Import ListNotations.
From Verif Require Import Base IndexMap Oxide SourceCov Hints Ast Visitor VisitorRel VisitorEx Erase Sem SemShape SemErase SemVisit.
Open Scope N_scope.
From Verif Require Import SemProps.

Theorem C34_same_behaviour : forall e n path ism t t' c,
  clean t = true -> covered_program (e_report_logic e) t = true -> instrument e n path ism t = Ok (t', c) ->
  forall h, (e_report_logic e = true -> pure_tests h) ->
  forall fuel x w,
  fst (run_program h fuel t' x w) = fst (run_program h fuel t x w) /\
  hs h (snd (run_program h fuel t' x w)) = hs h (snd (run_program h fuel t x w)) /\
  evs h (snd (run_program h fuel t' x w)) = evs h (snd (run_program h fuel t x w)).
Proof. exact (@same_behaviour). Qed.
Print Assumptions C34_same_behaviour.

Theorem C34_same_behaviour_ex :
  covered_program false ex_calls = true /\ clean ex_calls = true /\
  match instrument plain_env 40 "f.js" None ex_calls with
  | Ok (t', _) =>
      show (run_program pure_toy 9 ex_calls tt w0) = (CNorm (RVal 0), mkWorld [("a"%string, 0); ("a"%string, 7)] [7; 7] []) /\
      show (run_program pure_toy 9 t' tt w0) = show (run_program pure_toy 9 ex_calls tt w0) /\
      rev (cnt _ (snd (run_program pure_toy 9 t' tt w0))) =
        [CS 3; CF 0; CS 0; CB 0 0; CS 1; CS 4; CF 0; CS 0; CB 0 1; CS 2; CB 1 0; CB 1 1] /\
      cnt _ (snd (run_program pure_toy 9 ex_calls tt w0)) = []
  | _ => False
  end.
Proof. exact (@same_behaviour_ex). Qed.
Print Assumptions C34_same_behaviour_ex.

Theorem C34_same_behaviour_logic_ex :
  covered_program true ex_calls = true /\
  match instrument logic_env 40 "f.js" None ex_calls with
  | Ok (t', _) =>
      show (run_program pure_toy 9 t' tt w0) = show (run_program pure_toy 9 ex_calls tt w0) /\
      In (CT 1 1) (cnt _ (snd (run_program pure_toy 9 t' tt w0)))
  | _ => False
  end.
Proof. exact (@same_behaviour_logic_ex). Qed.
Print Assumptions C34_same_behaviour_logic_ex.

Theorem C34_same_behaviour_directives_refuted :
  exists e t t' c h fuel x w,
    clean t = true /\ e_report_logic e = false /\ instrument e 40 "f.js" None t = Ok (t', c) /\
    hs h (snd (run_program h fuel t' x w)) <> hs h (snd (run_program h fuel t x w)).
Proof. exact (@same_behaviour_directives_refuted). Qed.
Print Assumptions C34_same_behaviour_directives_refuted.

Theorem C34_same_behaviour_script_refuted :
  exists e t t' c h fuel x w,
    clean t = true /\ e_report_logic e = false /\ instrument e 40 "f.js" None t = Ok (t', c) /\
    hs h (snd (run_program h fuel t' x w)) <> hs h (snd (run_program h fuel t x w)).
Proof. exact (@same_behaviour_script_refuted). Qed.
Print Assumptions C34_same_behaviour_script_refuted.

Theorem C34_same_behaviour_tests_refuted :
  exists e t t' c h fuel x w,
    clean t = true /\ covered_program true t = true /\ e_report_logic e = true /\
    instrument e 40 "f.js" None t = Ok (t', c) /\
    hs h (snd (run_program h fuel t' x w)) <> hs h (snd (run_program h fuel t x w)).
Proof. exact (@same_behaviour_tests_refuted). Qed.
Print Assumptions C34_same_behaviour_tests_refuted.

