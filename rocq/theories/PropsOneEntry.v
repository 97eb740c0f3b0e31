(** Property theorems proved in [OneEntry.v]; generated by tools/genprops.py. *)
From Coq Require Import NArith String List Bool Lia PeanoNat.
Import ListNotations.
From Verif Require Import Base IndexMap Oxide SourceCov Hints Ast Visitor VisitorRel VisitorEx Erase Counting.
Open Scope N_scope.
From Verif Require Import OneEntry.

Theorem C39_tagged_init_registered_twice_refuted : exists e t t' c,
  instrument e 20 "f.js" None t = Ok (t', c) /\ NoDup (sites e t) /\
  table_places (sc_fc c) = [PFn (range_of e (mkSpan 21 30)); PFn (range_of e (mkSpan 21 30))].
Proof. exact (@tagged_init_registered_twice_refuted). Qed.
Print Assumptions C39_tagged_init_registered_twice_refuted.

Theorem C39_one_entry_per_site_partial : forall e n path ism t t' c,
  instrument e n path ism t = Ok (t', c) -> no_tagged_init t = true ->
  forall p, (length (filter p (table_places (sc_fc c))) <= length (filter p (sites e t)))%nat.
Proof. exact (@one_entry_per_site_partial). Qed.
Print Assumptions C39_one_entry_per_site_partial.

Theorem C39_entries_distinct_partial : forall e n path ism t t' c,
  instrument e n path ism t = Ok (t', c) -> no_tagged_init t = true ->
  NoDup (sites e t) -> NoDup (table_places (sc_fc c)).
Proof. exact (@entries_distinct_partial). Qed.
Print Assumptions C39_entries_distinct_partial.

Theorem C39_one_entry_ex :
  no_tagged_init ex_function = true /\ NoDup (sites plain_env ex_function) /\
  match instrument plain_env 20 "f.js" None ex_function with
  | Ok (_, c) => table_places (sc_fc c) = sites plain_env ex_function
  | _ => False end.
Proof. exact (@one_entry_ex). Qed.
Print Assumptions C39_one_entry_ex.

