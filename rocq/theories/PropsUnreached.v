(** Property theorems proved in [Unreached.v]; generated by tools/genprops.py. *)
From Coq Require Import ZArith NArith String List Bool Lia PeanoNat.
Import ListNotations.
From Verif Require Import Base Oxide Hints Ast Sem Account Sites Accurate Ledger Consistent Keeps.
From Verif Require Import Unreached.

Theorem C63_run_idle : forall h n t x v, NoDup (events t) -> block_bodies t = true -> idle t (evs h (snd (run_program h n t x v))).
Proof. exact (@run_idle). Qed.
Print Assumptions C63_run_idle.

