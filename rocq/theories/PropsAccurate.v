(** Property theorems proved in [Accurate.v]; generated by tools/genprops.py. *)
From Coq Require Import NArith String List Bool Lia PeanoNat.
Import ListNotations.
From Verif Require Import Base IndexMap Oxide SourceCov SourceCovProofs Hints Ast Visitor VisitorRel VisitorEx Erase
  Counting CountingRoot Sem SemShape SemErase SemVisit SemProps Account Slots Sites AccountVisit.
Open Scope N_scope.
From Verif Require Import Accurate.

Theorem C43_counters_accurate_partial : forall e n path ism t items t' sc,
  program_items t = Some items -> clean t = true -> forallb (good true) items = true ->
  forallb item items = true -> forallb exact items = true -> NoDup (map fst (flat_map sites items)) ->
  instrument e n path ism t = Ok (t', sc) ->
  forall c, seen c = true -> slot_exists (sc_fc sc) c = true ->
  exists ev sp, In (ev, sp) (flat_map sites items) /\ suits c ev = true /\
    loc_of (sc_fc sc) c = Some (range_of e sp) /\
    forall h fuel x w,
      count_occ counter_dec (cnt h (snd (run_program h fuel t' x w))) c =
      count_occ event_dec (evs h (snd (run_program h fuel t' x w))) ev.
Proof. exact (@counters_accurate_partial). Qed.
Print Assumptions C43_counters_accurate_partial.

Theorem C43_counters_tell_original_partial : forall e n path ism t items t' sc,
  program_items t = Some items -> clean t = true -> forallb (good true) items = true ->
  forallb item items = true -> forallb exact items = true -> NoDup (map fst (flat_map sites items)) ->
  covered_program (e_report_logic e) t = true ->
  instrument e n path ism t = Ok (t', sc) ->
  forall c, seen c = true -> slot_exists (sc_fc sc) c = true ->
  exists ev sp, In (ev, sp) (flat_map sites items) /\ suits c ev = true /\
    loc_of (sc_fc sc) c = Some (range_of e sp) /\
    forall h, (e_report_logic e = true -> pure_tests h) -> forall fuel x w,
      count_occ counter_dec (cnt h (snd (run_program h fuel t' x w))) c =
      count_occ event_dec (evs h (snd (run_program h fuel t x w))) ev.
Proof. exact (@counters_tell_original_partial). Qed.
Print Assumptions C43_counters_tell_original_partial.

Theorem C43_instrument_acc : forall e n path ism t items t' sc,
  program_items t = Some items -> forallb item items = true -> forallb exact items = true ->
  instrument e n path ism t = Ok (t', sc) ->
  should_ignore_file (e_word e) (e_comments e) (nspan t) = false ->
  exists l, SL e (loc_of (sc_fc sc)) (flat_map sites items) l /\ Acc l [] [] t'.
Proof. exact (@instrument_acc). Qed.
Print Assumptions C43_instrument_acc.

Theorem C43_accurate_ex :
  clean ex_count = true /\ covered_program false ex_count = true /\
  match program_items ex_count with
  | Some items =>
      forallb (good true) items && forallb item items && forallb exact items = true /\
      length (flat_map sites items) = 18%nat /\
      nodup event_dec (map fst (flat_map sites items)) = map fst (flat_map sites items)
  | None => False
  end /\
  tally plain_env ex_count 9 =
  Some [(CB 0 0, 1%nat); (CF 0, 2%nat); (CS 0, 2%nat); (CS 1, 2%nat); (CS 2, 2%nat); (CB 1 0, 2%nat);
        (CS 3, 2%nat); (CB 2 0, 2%nat); (CB 2 1, 0%nat); (CS 4, 2%nat); (CS 5, 2%nat); (CB 3 0, 2%nat);
        (CB 3 1, 0%nat); (CS 6, 1%nat); (CS 7, 1%nat); (CS 8, 1%nat); (CF 1, 0%nat); (CS 9, 0%nat)].
Proof. exact (@accurate_ex). Qed.
Print Assumptions C43_accurate_ex.

Theorem C43_accurate_ex_applies : forall c, In c [CS 5; CF 0; CB 0 0; CB 3 1] ->
  match instrument plain_env 60 "f.js" None ex_count with
  | Ok (t', sc) =>
      exists ev sp, suits c ev = true /\ loc_of (sc_fc sc) c = Some (range_of plain_env sp) /\
        forall h fuel x w,
          count_occ counter_dec (cnt h (snd (run_program h fuel t' x w))) c =
          count_occ event_dec (evs h (snd (run_program h fuel ex_count x w))) ev
  | _ => False
  end.
Proof. exact (@accurate_ex_applies). Qed.
Print Assumptions C43_accurate_ex_applies.

Theorem C43_field_counter_refuted : exists c, inaccurate plain_env ex_field c.
Proof. exact (@field_counter_refuted). Qed.
Print Assumptions C43_field_counter_refuted.

Theorem C43_declarator_counter_refuted : exists c, inaccurate plain_env ex_declarators c.
Proof. exact (@declarator_counter_refuted). Qed.
Print Assumptions C43_declarator_counter_refuted.

