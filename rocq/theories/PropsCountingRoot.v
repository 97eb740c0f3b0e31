(** Property theorems proved in [CountingRoot.v]; generated by tools/genprops.py. *)
From Coq Require Import NArith String List Bool Lia PeanoNat.
Import ListNotations.
From Verif Require Import Base IndexMap Oxide SourceCov SourceCovProofs Hints Ast Visitor VisitorRel
  VisitorEx Erase Counting.
Open Scope N_scope.
From Verif Require Import CountingRoot.

Theorem C29_no_dangling_counter : forall e n path ism t items t' sc c,
  program_items t = Some items -> forallb (good false) items = true -> clean t = true ->
  instrument e n path ism t = Ok (t', sc) ->
  match c with CT _ _ => False | _ => True end ->
  (0 < occ c t')%nat -> slot_exists (sc_fc sc) c = true.
Proof. exact (@no_dangling_counter). Qed.
Print Assumptions C29_no_dangling_counter.

Theorem C29_counters_account : forall e n path ism t items t' sc,
  program_items t = Some items -> forallb (good false) items = true -> clean t = true ->
  instrument e n path ism t = Ok (t', sc) ->
  (forall i, (occ (CS i) t' <= one (slot_exists (sc_fc sc) (CS i)))%nat) /\
  (forall i, occ (CF i) t' = one (slot_exists (sc_fc sc) (CF i))) /\
  (forall b i, occ (CB b i) t' = one (slot_exists (sc_fc sc) (CB b i))) /\
  (forall b i, occ (CT b i) t' = one (truth_text e (sc_fc sc) b i)).
Proof. exact (@counters_account). Qed.
Print Assumptions C29_counters_account.

Theorem C29_embedded_record : forall e n path ism t items t' sc,
  program_items t = Some items -> forallb (good false) items = true -> clean t = true ->
  instrument e n path ism t = Ok (t', sc) ->
  templates t' =
  if should_ignore_file (e_word e) (e_comments e) (nspan t) then [] else [sc_fc sc].
Proof. exact (@embedded_record). Qed.
Print Assumptions C29_embedded_record.

Theorem C29_ex_function_account :
  match program_items ex_function with Some items => forallb (good true) items | None => false end = true /\
  clean ex_function = true /\
  account logic_env ex_function [CS 2; CS 3; CF 0; CF 1; CB 0 1; CB 0 2; CB 1 1; CT 0 0; CT 1 1; CT 1 2] =
  Some [(CS 2, 1%nat, true); (CS 3, 0%nat, false); (CF 0, 1%nat, true); (CF 1, 0%nat, false);
        (CB 0 1, 1%nat, true); (CB 0 2, 0%nat, false); (CB 1 1, 1%nat, true);
        (CT 0 0, 0%nat, false); (CT 1 1, 1%nat, true); (CT 1 2, 0%nat, false)].
Proof. exact (@ex_function_account). Qed.
Print Assumptions C29_ex_function_account.

Theorem C30_truth_counter_dangles_refuted : exists e t items t' sc b i,
  program_items t = Some items /\ forallb (good true) items = true /\ clean t = true /\
  instrument e 40 "f.js" None t = Ok (t', sc) /\
  (0 < occ (CT b i) t')%nat /\ slot_exists (sc_fc sc) (CT b i) = false.
Proof. exact (@truth_counter_dangles_refuted). Qed.
Print Assumptions C30_truth_counter_dangles_refuted.

Theorem C30_truth_slots : forall e n path ism t items t' sc,
  program_items t = Some items -> forallb (good false) items = true -> clean t = true ->
  instrument e n path ism t = Ok (t', sc) ->
  forall b i, slot_exists (sc_fc sc) (CT b i) =
    truth_text e (sc_fc sc) b i &&
    match im_get b (fc_branch_map (sc_fc sc)) with
    | Some br => match b_type br with BinaryExpr => true | _ => false end
    | None => false
    end.
Proof. exact (@truth_slots). Qed.
Print Assumptions C30_truth_slots.

Theorem C30_no_dangling_truth_counter_partial : forall e n path ism t items t' sc b i,
  program_items t = Some items -> forallb (good false) items = true -> clean t = true ->
  instrument e n path ism t = Ok (t', sc) ->
  (forall k br, im_get k (fc_branch_map (sc_fc sc)) = Some br -> b_type br <> DefaultArg) ->
  occ (CT b i) t' = one (slot_exists (sc_fc sc) (CT b i)).
Proof. exact (@no_dangling_truth_counter_partial). Qed.
Print Assumptions C30_no_dangling_truth_counter_partial.

Theorem C31_no_counter_twice : forall e n path ism t items t' sc c,
  program_items t = Some items -> forallb (good false) items = true -> clean t = true ->
  instrument e n path ism t = Ok (t', sc) -> (occ c t' <= 1)%nat.
Proof. exact (@no_counter_twice). Qed.
Print Assumptions C31_no_counter_twice.

Theorem C31_counters_account : forall e n path ism t items t' sc,
  program_items t = Some items -> forallb (good false) items = true -> clean t = true ->
  instrument e n path ism t = Ok (t', sc) ->
  (forall i, (occ (CS i) t' <= one (slot_exists (sc_fc sc) (CS i)))%nat) /\
  (forall i, occ (CF i) t' = one (slot_exists (sc_fc sc) (CF i))) /\
  (forall b i, occ (CB b i) t' = one (slot_exists (sc_fc sc) (CB b i))) /\
  (forall b i, occ (CT b i) t' = one (truth_text e (sc_fc sc) b i)).
Proof. exact (@counters_account). Qed.
Print Assumptions C31_counters_account.

Theorem C32_slot_without_counter_refuted : exists e t items t' sc i,
  program_items t = Some items /\ forallb (good false) items = true /\ clean t = true /\
  instrument e 40 "f.js" None t = Ok (t', sc) /\
  slot_exists (sc_fc sc) (CS i) = true /\ occ (CS i) t' = 0%nat.
Proof. exact (@slot_without_counter_refuted). Qed.
Print Assumptions C32_slot_without_counter_refuted.

Theorem C32_statement_counters_exact : forall e n path ism t items t' sc,
  program_items t = Some items -> forallb (good true) items = true -> clean t = true ->
  instrument e n path ism t = Ok (t', sc) ->
  forall i, occ (CS i) t' = one (slot_exists (sc_fc sc) (CS i)).
Proof. exact (@statement_counters_exact). Qed.
Print Assumptions C32_statement_counters_exact.

Theorem C32_counters_account : forall e n path ism t items t' sc,
  program_items t = Some items -> forallb (good false) items = true -> clean t = true ->
  instrument e n path ism t = Ok (t', sc) ->
  (forall i, (occ (CS i) t' <= one (slot_exists (sc_fc sc) (CS i)))%nat) /\
  (forall i, occ (CF i) t' = one (slot_exists (sc_fc sc) (CF i))) /\
  (forall b i, occ (CB b i) t' = one (slot_exists (sc_fc sc) (CB b i))) /\
  (forall b i, occ (CT b i) t' = one (truth_text e (sc_fc sc) b i)).
Proof. exact (@counters_account). Qed.
Print Assumptions C32_counters_account.

