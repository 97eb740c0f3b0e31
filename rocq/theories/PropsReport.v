(** Property theorems proved in [Report.v]; generated by tools/genprops.py. *)
From Coq Require Import NArith String Ascii List Bool Lia PeanoNat Permutation.
Import ListNotations.
From Verif Require Import Base IndexMap Decimal Oxide SipHash Json CovJson DataObject Template SourceCov Hints Ast Visitor Runtime.
From Verif Require Import Report.

Theorem C47_published_record : forall evs, valid evs -> NoDup (map file_key (loaded evs)) ->
  Forall (fun f => exists fc, output_of f fc) (loaded evs) ->
  exists st, run evs rt0 = Some st /\
    forall i f fc, nth_error (loaded evs) i = Some f -> output_of f fc -> touched i evs = true ->
      exists a j r, published (rheap st) (em_gcv f) (em_path f) = Some a /\ data_at (rheap st) a = Some j /\
        read_fc j = Some r /\ same_data r (after (incs i evs) fc).
Proof. exact (@published_record). Qed.
Print Assumptions C47_published_record.

