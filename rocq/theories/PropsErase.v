(** Property theorems proved in [Erase.v]; generated by tools/genprops.py. *)
From Coq Require Import NArith String List Bool Lia PeanoNat.
Import ListNotations.
From Verif Require Import Base IndexMap Oxide SourceCov Hints Ast Visitor VisitorRel VisitorEx.
Open Scope N_scope.
From Verif Require Import Erase.

Theorem C33_erase_instrument : forall e n path ism t t' c,
  clean t = true -> instrument e n path ism t = Ok (t', c) -> erase t' = t.
Proof. exact (@erase_instrument). Qed.
Print Assumptions C33_erase_instrument.

Theorem C33_erase_clean : forall t, clean t = true -> erase t = t.
Proof. exact (@erase_clean). Qed.
Print Assumptions C33_erase_clean.

Theorem C33_erase_visit : forall e n v t s t' s',
  sonly (before s) -> visit e n v t s = Ok (t', s') -> erase t' = erase t.
Proof. exact (@erase_visit). Qed.
Print Assumptions C33_erase_visit.

Theorem C33_erase_instrument_ex :
  clean ex_function = true /\
  match instrument plain_env 40 "f.js" None ex_function with
  | Ok (t', _) => clean t' = false /\ erase t' = ex_function
  | _ => False
  end.
Proof. exact (@erase_instrument_ex). Qed.
Print Assumptions C33_erase_instrument_ex.

