(** Property theorems proved in [OxideMergeProofs.v]; generated by tools/genprops.py. *)
From Coq Require Import NArith String Ascii List Bool Lia Permutation.
Import ListNotations.
From Verif Require Import Base IndexMap Decimal Oxide OxideSpec.
Open Scope N_scope.
From Verif Require Import OxideMergeProofs.

Theorem C07_key_from_loc_iff : forall a b, key_from_loc a = key_from_loc b <->
  line (rstart a) = line (rstart b) /\ column (rstart a) = column (rstart b) /\
  line (rend a) = line (rend b) /\ column (rend a) = column (rend b).
Proof. exact (@key_from_loc_iff). Qed.
Print Assumptions C07_key_from_loc_iff.

