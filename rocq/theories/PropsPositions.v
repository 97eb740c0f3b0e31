(** Property theorems proved in [Positions.v]; generated by tools/genprops.py. *)
From Coq Require Import NArith String List Bool Lia PeanoNat.
Import ListNotations.
From Verif Require Import Base IndexMap Decimal Oxide SourceCov Hints Ast Visitor VisitorRel VisitorEx Erase Prologue Layout.
Open Scope N_scope.
From Verif Require Import Positions.

Theorem C64_positions_kept : forall e n path ism t t' c, clean t = true -> instrument e n path ism t = Ok (t', c) ->
  thinned (places t) (places t').
Proof. exact (@positions_kept). Qed.
Print Assumptions C64_positions_kept.

Theorem C64_positions_same : forall e n path ism t t' c, clean t = true -> instrument e n path ism t = Ok (t', c) ->
  forall sp, In sp (places t') <-> In sp (places t).
Proof. exact (@positions_same). Qed.
Print Assumptions C64_positions_same.

Theorem C64_positions_added : forall e n path ism t t' c, instrument e n path ism t = Ok (t', c) ->
  (length (places t') <= length (places t) + 2 * shorts t)%nat.
Proof. exact (@positions_added). Qed.
Print Assumptions C64_positions_added.

Theorem C64_positions_equal : forall e n path ism t t' c, clean t = true -> shorts t = 0%nat -> instrument e n path ism t = Ok (t', c) ->
  places t' = places t.
Proof. exact (@positions_equal). Qed.
Print Assumptions C64_positions_equal.

Theorem C64_positions_equal_refuted : exists t t' c, clean t = true /\ instrument plain_env 40 "f.js" None t = Ok (t', c) /\ places t' <> places t.
Proof. exact (@positions_equal_refuted). Qed.
Print Assumptions C64_positions_equal_refuted.

Theorem C64_record_located : forall e n path ism t t' c, clean t = true -> instrument e n path ism t = Ok (t', c) ->
  Forall (fun p => located e t (snd p)) (fc_statement_map (sc_fc c)) /\
  Forall (fun p => located_fn e t (snd p)) (fc_fn_map (sc_fc c)) /\
  Forall (fun p => located_branch e t (snd p)) (fc_branch_map (sc_fc c)).
Proof. exact (@record_located). Qed.
Print Assumptions C64_record_located.

Theorem C64_positions_ex :
  let pairs t := map (fun sp => (lo sp, hi sp)) (places t) in
  clean ex_arrow = true /\ shorts ex_arrow = 1%nat /\ shorts ex_function = 0%nat /\ clean ex_function = true /\
  pairs ex_arrow = [(1, 20); (1, 20); (1, 20); (7, 19); (7, 8); (11, 18); (11, 18); (17, 18); (17, 18)] /\
  match instrument plain_env 40 "f.js" None ex_arrow with
  | Ok (t', c) =>
      pairs t' = [(1, 20); (1, 20); (1, 20); (7, 19); (7, 8); (11, 18); (11, 18); (17, 18); (17, 18); (17, 18); (17, 18)] /\
      map (fun p => (column (rstart (snd p)), column (rend (snd p)))) (fc_statement_map (sc_fc c)) = [(11, 18); (17, 18)]
  | _ => False
  end /\
  match instrument plain_env 40 "f.js" None ex_function with
  | Ok (t', c) => t' <> ex_function /\ length (places t') = 23%nat
  | _ => False
  end.
Proof. exact (@positions_ex). Qed.
Print Assumptions C64_positions_ex.

