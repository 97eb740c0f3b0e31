(** Property theorems proved in [Truths.v]; generated by tools/genprops.py. *)
From Coq Require Import NArith ZArith String List Bool Lia PeanoNat.
Import ListNotations.
From Verif Require Import Base IndexMap Oxide SourceCov Hints Ast Visitor VisitorRel VisitorEx Erase Counting
  Sem SemErase SemProps Account Accurate.
Open Scope N_scope.
From Verif Require Import Truths.

Theorem C51_truths_in_operands : forall e n path ism t t' c,
  clean t = true -> once t = true -> instrument e n path ism t = Ok (t', c) -> Tame t'.
Proof. exact (@truths_in_operands). Qed.
Print Assumptions C51_truths_in_operands.

Theorem C51_truths_at_most_passes : forall e n path ism t t' c,
  clean t = true -> once t = true -> instrument e n path ism t = Ok (t', c) ->
  forall h fuel x w b i,
    (count_occ counter_dec (cnt h (snd (run_program h fuel t' x w))) (CT b i) <=
     count_occ counter_dec (cnt h (snd (run_program h fuel t' x w))) (CB b i))%nat.
Proof. exact (@truths_at_most_passes). Qed.
Print Assumptions C51_truths_at_most_passes.

Theorem C51_operand_counts : forall h call fuel b i x cx s c s1,
  valued h call fuel (ev h call fuel x) cx (tick h (CB b i) s) = (c, s1) ->
  match c with
  | CNorm (RVal v) =>
      forall test : N -> hV h,
      (forall n, n < 4 -> h_test h n v (cx_sc h cx) (hs h s1) = (ADone (CNorm (RVal (test n))), hs h s1)) ->
      ev h call fuel (operand b i x) cx s =
      (CNorm (RVal v),
       if h_truthy h v && (h_truthy h (test 0) || h_truthy h (test 1)) && (h_truthy h (test 2) || h_truthy h (test 3))
       then tick h (CT b i) (set_tmp h v s1) else set_tmp h v s1)
  | CNorm (RRef _) => False
  | c => ev h call fuel (operand b i x) cx s = (c, s1)
  end.
Proof. exact (@operand_counts). Qed.
Print Assumptions C51_operand_counts.

Theorem C51_truths_ex :
  clean ex_calls && once ex_calls = true /\
  match instrument logic_env 40 "f.js" None ex_calls with
  | Ok (t', _) =>
      map (count_occ counter_dec (cnt _ (snd (run_program pure_toy 9 t' tt w0)))) [CB 1 0; CT 1 0; CB 1 1; CT 1 1] =
      [1%nat; 0%nat; 1%nat; 1%nat]
  | _ => False
  end.
Proof. exact (@truths_ex). Qed.
Print Assumptions C51_truths_ex.

Theorem C51_operand_ex :
  map telling [JsHost.LNum 7%Z; JsHost.LNum 0%Z; JsHost.LArr [JsHost.LNum 0%Z]; JsHost.LArr []; JsHost.LObj [];
               JsHost.LObj [("a"%string, JsHost.LNum 0%Z)]; JsHost.LStr ""] =
  [Some [CT 4 1; CB 4 1]; Some [CB 4 1]; Some [CT 4 1; CB 4 1]; Some [CB 4 1]; Some [CB 4 1];
   Some [CT 4 1; CB 4 1]; Some [CB 4 1]].
Proof. exact (@operand_ex). Qed.
Print Assumptions C51_operand_ex.

