(** Property theorems proved in [Template.v]; generated by tools/genprops.py. *)
From Coq Require Import NArith String Ascii List Bool Lia PeanoNat.
Import ListNotations.
From Verif Require Import Base IndexMap Decimal Oxide Json CovJson DataObject.
Open Scope string_scope.
From Verif Require Import Template.

Theorem C21_emitted_spec : forall gcv path fc,
  emitted_for gcv path fc = mkEmitted path (fc_hash fc) gcv (snd (coverage_data_object fc)).
Proof. exact (@emitted_spec). Qed.
Print Assumptions C21_emitted_spec.

Theorem C23_first_call : forall f h d, wf_heap h -> eval (em_data f) = Some d ->
  exists a h', trun (template f) [] None h = Some (VRef a, Some (VRef a), h') /\ wf_heap h' /\
    published h' (em_gcv f) (em_path f) = Some a /\
    (forall x j, data_at h x = Some j -> data_at h' x = Some j) /\
    (forall g p, (g, p) <> (em_gcv f, em_path f) -> published h' g p = published h g p) /\
    match published h (em_gcv f) (em_path f) with
    | Some a0 => exists j, data_at h a0 = Some j /\
        if keeps_record (em_hash f) j then a = a0 else a = length h /\ data_at h' a = Some d
    | None => a = length h /\ data_at h' a = Some d
    end.
Proof. exact (@first_call). Qed.
Print Assumptions C23_first_call.

