(** Property theorems proved in [Scripts.v]; generated by tools/genprops.py. *)
From Coq Require Import NArith String Ascii List Bool Lia PeanoNat.
Import ListNotations.
From Verif Require Import Base IndexMap Decimal Oxide SourceCov Hints Ast Visitor VisitorEx CountingRoot
  Json CovJson DataObject Template Runtime Options Plugin DebugComment Emitted.
Open Scope string_scope.
From Verif Require Import Scripts.

Theorem C57_scripts_apart_refuted : exists x fs p os p' ra rb evs st,
  process_all x fs p = Ok (os, p') /\ flat_map (fun o => templates (out_program o)) os = [ra; rb] /\
  valid evs /\ loaded evs = [emitted_for "__coverage__" "a.js" ra; emitted_for "__coverage__" "b.js" rb] /\
  run (shared (map name_of os) 0 evs) rt0 = Some st /\
  (forall c, In c [CS 0; CF 0] -> recorded ra c = Some 0%N /\ hits 0 c evs = 1%N) /\ recorded rb (CS 0) = Some 0%N /\ hits 1 (CS 0) evs = 1%N /\
  (exists a j, published (rheap st) "__coverage__" "a.js" = Some a /\ data_at (rheap st) a = Some j /\
     count (CF 0) j = Some 0%N /\ count (CS 0) j = Some 0%N) /\
  (exists a j, published (rheap st) "__coverage__" "b.js" = Some a /\ data_at (rheap st) a = Some j /\ count (CS 0) j = Some 2%N).
Proof. exact (@scripts_apart_refuted). Qed.
Print Assumptions C57_scripts_apart_refuted.

Theorem C57_scripts_apart_partial : forall names hist, NoDup names -> length names = length (loaded hist) -> valid hist ->
  NoDup (map file_key (loaded hist)) -> Forall (fun f => exists fc, output_of f fc) (loaded hist) ->
  exists st, run (shared names 0 hist) rt0 = Some st /\
    forall i f fc, nth_error (loaded hist) i = Some f -> output_of f fc -> touched i hist = true ->
      exists a j, published (rheap st) (em_gcv f) (em_path f) = Some a /\ data_at (rheap st) a = Some j /\
        forall c, count c j = option_map (fun k => (k + hits i c hist)%N) (recorded fc c).
Proof. exact (@scripts_apart_partial). Qed.
Print Assumptions C57_scripts_apart_partial.

Theorem C57_shared_counts : forall names hist, valid hist -> NoDup (map file_key (loaded hist)) ->
  Forall (fun f => exists fc, output_of f fc) (loaded hist) ->
  exists st, run (shared names 0 hist) rt0 = Some st /\
    forall i f fc, nth_error (loaded hist) i = Some f -> output_of f fc -> touched i (shared names 0 hist) = true ->
      exists a j, published (rheap st) (em_gcv f) (em_path f) = Some a /\ data_at (rheap st) a = Some j /\
        forall c, count c j = option_map (fun k => (k + hits i c (shared names 0 hist))%N) (recorded fc c).
Proof. exact (@shared_counts). Qed.
Print Assumptions C57_shared_counts.

Theorem C57_diverted_after : forall names h1 h2 i j c, (i < j < length (loaded h1))%nat -> nth i names "" = nth j names "" ->
  valid (h1 ++ h2) -> hits i c (shared names 0 (h1 ++ h2)) = hits i c (shared names 0 h1).
Proof. exact (@diverted_after). Qed.
Print Assumptions C57_diverted_after.

Theorem C57_one_process_diverts : forall x fs p os p' f g h1 h2 i j oi oj c, p_fn p = Some f -> p_temp p = Some g ->
  process_all x fs p = Ok (os, p') ->
  nth_error os i = Some oi -> nth_error os j = Some oj -> out_names oi <> None -> out_names oj <> None ->
  (i < j < length (loaded h1))%nat -> valid (h1 ++ h2) ->
  hits i c (shared (map name_of os) 0 (h1 ++ h2)) = hits i c (shared (map name_of os) 0 h1).
Proof. exact (@one_process_diverts). Qed.
Print Assumptions C57_one_process_diverts.

Theorem C57_distinct_names_apart : forall names hist, NoDup names -> (length (loaded hist) <= length names)%nat -> valid hist ->
  shared names 0 hist = hist.
Proof. exact (@distinct_names_apart). Qed.
Print Assumptions C57_distinct_names_apart.

Theorem C57_scripts_apart_ex : exists st, run (shared ["cov_1"; "cov_2"] 0 script_run) rt0 = Some st /\
  exists a j, published (rheap st) "__coverage__" "a.js" = Some a /\ data_at (rheap st) a = Some j /\
    count (CF 0) j = Some 1%N /\ count (CS 0) j = Some 1%N.
Proof. exact (@scripts_apart_ex). Qed.
Print Assumptions C57_scripts_apart_ex.

