(** Property theorems proved in [Builder.v]; generated by tools/genprops.py. *)
From Coq Require Import NArith String List Bool Lia PeanoNat.
Import ListNotations.
From Verif Require Import Base IndexMap Decimal Oxide SourceCov SourceCovProofs Hints Ast Visitor VisitorRel VisitorEx Counting Slots Produced Json CovJson JsonParse Serde CountingRoot.
Open Scope N_scope.
From Verif Require Import Builder.

Theorem C49_produced_round_trip : forall e n path ism t items t' sc, program_items t = Some items ->
  instrument e n path ism t = Ok (t', sc) ->
  sc_s sc <= u32_mod -> sc_f sc <= u32_mod -> sc_b sc <= u32_mod -> (forall m, ism = Some m -> is_u32 (sm_version m)) ->
  from_str de_file_coverage (fc_text (sc_fc sc)) = Some (sc_fc sc).
Proof. exact (@produced_round_trip). Qed.
Print Assumptions C49_produced_round_trip.

Theorem C49_produced_positions : forall e n path ism t items t' sc, program_items t = Some items ->
  instrument e n path ism t = Ok (t', sc) ->
  positions (fun r => exists sp, r = get_range_from_span (e_lookup e) sp) (sc_fc sc).
Proof. exact (@produced_positions). Qed.
Print Assumptions C49_produced_positions.

Theorem C49_produced_round_trip_ex :
  match instrument logic_env 60 "f.js"%string None ex_function with
  | Ok (_, sc) => (sc_s sc, sc_f sc, sc_b sc) = (3, 1, 2) /\
                  from_str de_file_coverage (fc_text (sc_fc sc)) = Some (sc_fc sc)
  | _ => False
  end.
Proof. exact (@produced_round_trip_ex). Qed.
Print Assumptions C49_produced_round_trip_ex.

