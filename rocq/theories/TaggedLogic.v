(** C34: with [reportLogic], a logical expression inside of a tagged template that initialises a variable changes its value.

    Such an initialiser is visited twice (macros/instrumentation_counter_helper.rs:238-249, instrumentation_visitor.rs:605-623).  The first
    visit wraps an operand [x] as [counter, (temp = x, test(temp) ? counter : null, temp)]
    (instrument/create_increase_true_expr.rs:11-59).  The test is made of logical expressions (61-189), so the second visit
    wraps their operands in the same way, and these use the same [temp]: when it is read at the end, it holds the result of the
    test instead of [x]. *)
From Coq Require Import NArith String List Bool Lia PeanoNat.
Import ListNotations.
From Verif Require Import Base IndexMap Oxide SourceCov Hints Ast Visitor VisitorRel VisitorEx Erase Sem SemShape SemErase SemVisit SemProps LogicOption.
Open Scope string_scope. Open Scope list_scope. Open Scope N_scope.

(** The environment of SemProps.v, in which a tagged template evaluates its template and all tests succeed (with the value 1) *)
Definition tag_start (k : kind) (ns : list bool) (m : mode) (ls : list string) (x : unit) (v : N) (w : world)
  : action N string unit N * world :=
  match k with KTaggedTpl => (AEval 2 MRead tt 0 3, w) | _ => toy_start k ns m ls x v w end.
Definition tag_toy : host :=
  mkHost N string unit world N 0 (N.eqb 0) (fun v => negb (v =? 0)) (N.eqb 0) N.eqb
    tag_start toy_resume
    (fun r w => (ADone (CNorm (RVal (lookup r w))), w))
    (fun ds _ x w => (x, match ds with [] => w | _ => mkWorld (vars w) (out w) (ds :: dirs w) end))
    (fun x w => (x, w))
    (fun _ _ _ w => w)
    (fun _ x w => (inr x, w))
    (fun _ _ _ w => (ADone (CNorm (RVal 1)), w)).
Lemma tag_toy_pure : pure_tests tag_toy.
Proof. intros n v x w. exists 1. reflexivity. Qed.

(** [const y = tag`${print(a || 7)}`] *)
Definition tagged_or : node :=
  X 11 50 KTaggedTpl [var 11 14 "tag"; none; at_ 15 50 (KOther 1) [X 18 40 (KBin OpOr) [var 18 19 "a"; num 21 22]]].
Definition ex_tagged_or : node := module_ 1 60 [let_ 1 60 VConst [declarator 7 50 "y" tagged_or]].
(** The same template as a statement *)
Definition ex_tagged_stmt : node := module_ 1 60 [T 1 60 KExprStmt [tagged_or]].

(** The original prints 7, the instrumented program prints the result of the test.  As a statement, or without [reportLogic],
    the template behaves. *)
Example tagged_or_ex :
  hs tag_toy (snd (run_program tag_toy 40 ex_tagged_or tt w0)) = mkWorld [("y", 0)] [7] [] /\
  match instrument logic_env 60 "f.js" None ex_tagged_or with
  | Ok (t', _) => hs tag_toy (snd (run_program tag_toy 40 t' tt w0)) = mkWorld [("y", 0)] [1] []
  | _ => False
  end /\
  match instrument plain_env 60 "f.js" None ex_tagged_or with
  | Ok (t', _) => hs tag_toy (snd (run_program tag_toy 40 t' tt w0)) = mkWorld [("y", 0)] [7] []
  | _ => False
  end /\
  match instrument logic_env 60 "f.js" None ex_tagged_stmt with
  | Ok (t', _) => hs tag_toy (snd (run_program tag_toy 40 t' tt w0)) = mkWorld [] [7] []
  | _ => False
  end.
Proof. vm_compute. repeat split. Qed.

Theorem same_behaviour_tagged_refuted :
  exists e t t' c h fuel x w,
    clean t = true /\ covered_program false t = true /\ e_report_logic e = true /\ pure_tests h /\
    instrument e 60 "f.js" None t = Ok (t', c) /\
    hs h (snd (run_program h fuel t' x w)) <> hs h (snd (run_program h fuel t x w)).
Proof.
  exists logic_env, ex_tagged_or.
  destruct (instrument logic_env 60 "f.js" None ex_tagged_or) as [[t' c]| |] eqn:H; [|vm_compute in H; discriminate..].
  exists t', c, tag_toy, 40%nat, tt, w0. split; [reflexivity|]. split; [reflexivity|]. split; [reflexivity|].
  split; [exact tag_toy_pure|]. split; [reflexivity|]. vm_compute in H. injection H as <- _. vm_compute. discriminate.
Qed.

(** ** The record *)
(** Without the option, the two visits leave two branches with two paths each.  With it, the second visit also registers the
    operands of the tests as paths of the second branch, at no location. *)
Theorem tagged_adds_paths_refuted : exists t,
  match instrument (with_logic false logic_env) 60 "f.js" None t, instrument (with_logic true logic_env) 60 "f.js" None t with
  | Ok (_, c), Ok (_, d) =>
      fc_b (sc_fc c) = [(0, [0; 0]); (1, [0; 0])] /\
      fc_b (sc_fc d) = [(0, [0; 0]); (1, repeat 0 10)] /\
      fc_b_t (sc_fc d) = Some (fc_b (sc_fc d)) /\
      option_map b_locations (im_get 1 (fc_branch_map (sc_fc d))) = Some (repeat (mkRange (mkLoc 0 0) (mkLoc 0 0)) 10)
  | _, _ => False
  end.
Proof. exists ex_tagged_or. vm_compute. repeat split. Qed.
