(** Property theorems proved in [Consistent.v]; generated by tools/genprops.py. *)
From Coq Require Import ZArith NArith String List Bool Lia PeanoNat Permutation.
Import ListNotations.
From Verif Require Import Base Oxide Hints Ast Sem Account Sites Accurate Ledger.
From Verif Require Import Consistent.

Theorem C62_run_fits : forall h n t x v, NoDup (events t) -> block_bodies t = true -> fits t (evs h (snd (run_program h n t x v))).
Proof. exact (@run_fits). Qed.
Print Assumptions C62_run_fits.

