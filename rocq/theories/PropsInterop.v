(** Property theorems proved in [Interop.v]; generated by tools/genprops.py. *)
From Coq Require Import NArith String Ascii List Bool Lia PeanoNat Permutation.
Import ListNotations.
From Verif Require Import Base IndexMap Decimal Oxide SipHash SourceCov Hints Ast Visitor VisitorEx Erase Counting CountingRoot
  Json JsonParse CovJson Serde DataObject Template Runtime Report Produced Builder ReadInitial.
From Verif Require Import Interop.

Theorem C59_interop_counts : forall evs, valid evs -> NoDup (map file_key (loaded evs)) ->
  Forall (fun f => exists fc, output_of f fc) (loaded evs) ->
  exists st, run evs rt0 = Some st /\
    forall i f fc, nth_error (loaded evs) i = Some f -> output_of f fc -> touched i evs = true -> static_u32 fc ->
      exists a j, published (rheap st) (em_gcv f) (em_path f) = Some a /\ data_at (rheap st) a = Some j /\
        (forall c, count c j = option_map (fun n => n + Runtime.hits i c evs) (recorded fc c)) /\
        ((forall c n, recorded fc c = Some n -> n + Runtime.hits i c evs < 4294967296) ->
           exists r, interop (file_coverage_of j) = Some r /\ same_data r (after (incs i evs) fc) /\
             forall c, recorded r c = option_map (fun n => n + Runtime.hits i c evs) (recorded fc c)) /\
        ((exists c n, recorded fc c = Some n /\ 4294967296 <= n + Runtime.hits i c evs) -> interop (file_coverage_of j) = None).
Proof. exact (@interop_counts). Qed.
Print Assumptions C59_interop_counts.

Theorem C59_produced_static : forall e n path ism t items t' sc, program_items t = Some items ->
  instrument e n path ism t = Ok (t', sc) ->
  sc_s sc <= 4294967296 -> sc_f sc <= 4294967296 -> sc_b sc <= 4294967296 -> (forall m, ism = Some m -> is_u32 (sm_version m)) ->
  static_u32 (sc_fc sc).
Proof. exact (@produced_static). Qed.
Print Assumptions C59_produced_static.

Theorem C59_interop_ex : exists st a j r, run two_files rt0 = Some st /\
  published (rheap st) "__coverage__" "test-emotion.js" = Some a /\ data_at (rheap st) a = Some j /\
  interop (file_coverage_of j) = Some r /\ im_get 0 (fc_s r) = Some 2.
Proof. exact (@interop_ex). Qed.
Print Assumptions C59_interop_ex.

Theorem C59_interop_overflow_ex : interop (JObj [("all", JBool false); ("path", JStr "a"); ("statementMap", JObj []); ("fnMap", JObj []); ("branchMap", JObj []);
    ("s", JObj [("0", JNum 4294967296)]); ("f", JObj []); ("b", JObj [])]) = None /\
  interop (JObj [("all", JBool false); ("path", JStr "a"); ("statementMap", JObj []); ("fnMap", JObj []); ("branchMap", JObj []);
    ("s", JObj [("0", JNum 4294967295)]); ("f", JObj []); ("b", JObj [])]) <> None.
Proof. exact (@interop_overflow_ex). Qed.
Print Assumptions C59_interop_overflow_ex.

