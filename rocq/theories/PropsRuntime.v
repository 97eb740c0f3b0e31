(** Property theorems proved in [Runtime.v]; generated by tools/genprops.py. *)
From Coq Require Import NArith String Ascii List Bool Lia PeanoNat.
Import ListNotations.
From Verif Require Import Base IndexMap Decimal Oxide Json CovJson DataObject Template SourceCov Hints Ast.
Open Scope string_scope.
From Verif Require Import Runtime.

Theorem C22_one_live_record : forall evs, valid evs -> NoDup (map file_key (loaded evs)) -> Forall total_lit (loaded evs) ->
  exists st, run evs rt0 = Some st /\
    forall i f, nth_error (loaded evs) i = Some f ->
      if touched i evs
      then exists a j d, nth_error (rinsts st) i = Some (f, Some (VRef a)) /\
             published (rheap st) (em_gcv f) (em_path f) = Some a /\ data_at (rheap st) a = Some j /\
             eval (em_data f) = Some d /\ j = increased (incs i evs) d /\
             forall c, count c j = option_map (fun n => (n + hits i c evs)%N) (count c d)
      else published (rheap st) (em_gcv f) (em_path f) = None.
Proof. exact (@one_live_record). Qed.
Print Assumptions C22_one_live_record.

Theorem C22_counts_are_kept : forall evs, valid evs -> NoDup (map file_key (loaded evs)) ->
  Forall (fun f => exists fc, output_of f fc) (loaded evs) ->
  exists st, run evs rt0 = Some st /\
    forall i f fc, nth_error (loaded evs) i = Some f -> output_of f fc -> touched i evs = true ->
      exists a j, published (rheap st) (em_gcv f) (em_path f) = Some a /\ data_at (rheap st) a = Some j /\
        forall c, count c j = option_map (fun n => (n + hits i c evs)%N) (recorded fc c).
Proof. exact (@counts_are_kept). Qed.
Print Assumptions C22_counts_are_kept.

Theorem C22_later_calls_agree : forall evs i st v st1 st', call i st = Some (v, st1) -> run evs st1 = Some st' ->
  call i st' = Some (v, st').
Proof. exact (@later_calls_agree). Qed.
Print Assumptions C22_later_calls_agree.

Theorem C22_initial_count : forall fc c, unique_keys fc -> count c (JObj (fc_value fc)) = recorded fc c.
Proof. exact (@initial_count). Qed.
Print Assumptions C22_initial_count.

Theorem C22_counts_are_kept_ex : exists st, run two_files rt0 = Some st /\
  (exists a j, published (rheap st) "__coverage__" "test-emotion.js" = Some a /\ data_at (rheap st) a = Some j /\ count (CS 0) j = Some 2%N) /\
  (exists a j, published (rheap st) "__coverage__" "b.js" = Some a /\ data_at (rheap st) a = Some j /\ count (CS 0) j = Some 1%N).
Proof. exact (@counts_are_kept_ex). Qed.
Print Assumptions C22_counts_are_kept_ex.

Theorem C23_reload_keeps_counts_refuted : exists f evs st a j, valid evs /\ Forall (eq f) (loaded evs) /\
  (exists fc, output_of f fc) /\ run evs rt0 = Some st /\
  published (rheap st) (em_gcv f) (em_path f) = Some a /\ data_at (rheap st) a = Some j /\
  hits 0 (CS 0) evs = 1%N /\ count (CS 0) j = Some 0%N.
Proof. exact (@reload_keeps_counts_refuted). Qed.
Print Assumptions C23_reload_keeps_counts_refuted.

Theorem C23_reload_restarts : forall evs f fc i, valid evs -> Forall (fun g => exists gc, output_of g gc) (loaded evs) ->
  output_of f fc -> nth_error (loaded evs) i = Some f -> first_use i evs <> None ->
  exists st a j, run (evs ++ [ELoad f; ECall (length (loaded evs))]) rt0 = Some st /\
    published (rheap st) (em_gcv f) (em_path f) = Some a /\ data_at (rheap st) a = Some j /\
    (forall c, count c j = recorded fc c).
Proof. exact (@reload_restarts). Qed.
Print Assumptions C23_reload_restarts.

Theorem C23_every_load_counts_alone : forall evs, valid evs -> Forall no_dollar (loaded evs) ->
  exists st, run evs rt0 = Some st /\
    (forall i f, nth_error (loaded evs) i = Some f -> first_use i evs <> None ->
      exists a j d, nth_error (rinsts st) i = Some (f, Some (VRef a)) /\ data_at (rheap st) a = Some j /\
        eval (em_data f) = Some d /\
        (forall c, count c j = option_map (fun n => (n + hits i c evs)%N) (count c d)) /\
        (published (rheap st) (em_gcv f) (em_path f) = Some a <-> latest evs i f)) /\
    (forall i i' f f' v, nth_error (rinsts st) i = Some (f, Some v) -> nth_error (rinsts st) i' = Some (f', Some v) -> i = i').
Proof. exact (@every_load_counts_alone). Qed.
Print Assumptions C23_every_load_counts_alone.

