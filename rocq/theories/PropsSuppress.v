(** Property theorems proved in [Suppress.v]; generated by tools/genprops.py. *)
From Coq Require Import NArith String List Bool Lia PeanoNat.
Import ListNotations.
From Verif Require Import Base IndexMap Oxide SourceCov Hints Ast Visitor VisitorRel VisitorEx Erase
  Counting.
Open Scope N_scope.
From Verif Require Import Suppress.

Theorem C35_ignore_next : forall e n v t s t' s' sp,
  hint_site v t = Some sp -> hint e sp = Some INext -> good false t = true ->
  visit e n v t s = Ok (t', s') -> t' = t /\ s' = s.
Proof. exact (@ignore_next). Qed.
Print Assumptions C35_ignore_next.

Theorem C35_ignore_next_stmt : forall e n x ss s,
  hint e (nspan x) = Some INext ->
  insert_stmts_counter e (visit e n) (x :: ss) s =
  let* (ss', s') := insert_stmts_counter e (visit e n) ss s in Ok (x :: ss', s').
Proof. exact (@ignore_next_stmt). Qed.
Print Assumptions C35_ignore_next_stmt.

Theorem C35_ignore_next_item : forall e n x xs s xs' s',
  hint e (nspan x) = Some INext -> export_const_span x = None -> good false x = true -> before s = [] ->
  visit_items e (visit e n) (x :: xs) s = Ok (xs', s') ->
  exists xs'', xs' = x :: xs'' /\ visit_items e (visit e n) xs s = Ok (xs'', s').
Proof. exact (@ignore_next_item). Qed.
Print Assumptions C35_ignore_next_item.

Theorem C35_ignore_next_export_const_refuted : exists e x s t' s' n,
  hint e (nspan x) = Some INext /\ good true x = true /\
  visit_items e (visit e n) [x] s = Ok (t', s') /\
  t' <> [x] /\ sc_s (cov s') <> sc_s (cov s).
Proof. exact (@ignore_next_export_const_refuted). Qed.
Print Assumptions C35_ignore_next_export_const_refuted.

Theorem C35_ignore_next_ex :
  let e := comment_env 1 "istanbul ignore next" in
  hint_site VStmt (hd none (nkids ex_ignored)) = Some (mkSpan 1 18) /\ hint e (mkSpan 1 18) = Some INext /\
  visit e 20 VStmt ex_ignored (init_state e "f.js" None) = Ok (ex_ignored, init_state e "f.js" None) /\
  match visit plain_env 20 VStmt ex_ignored (init_state e "f.js" None) with
  | Ok (t', _) => counters t' <> [] | _ => False end.
Proof. exact (@ignore_next_ex). Qed.
Print Assumptions C35_ignore_next_ex.

Theorem C37_ignored_method : forall e n v t s name,
  is_instr v = true -> method_name t = Some name -> In name (e_ignore_methods e) ->
  visit e (S n) v t s = Ok (t, s).
Proof. exact (@ignored_method). Qed.
Print Assumptions C37_ignored_method.

Theorem C37_ignored_method_ex :
  let s := init_state plain_env "f.js" None in
  method_name ex_method = Some "m"%string /\
  visit (methods_env ["k"; "m"]%string) 20 VCov ex_method s = Ok (ex_method, s) /\
  match visit (methods_env ["k"]%string) 20 VCov ex_method s with
  | Ok (t', _) => counters t' = [CF 0; CS 0]
  | _ => False end.
Proof. exact (@ignored_method_ex). Qed.
Print Assumptions C37_ignored_method_ex.

