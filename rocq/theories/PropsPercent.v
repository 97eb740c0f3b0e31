(** Property theorems proved in [Percent.v]; generated by tools/genprops.py. *)
From Coq Require Import NArith ZArith Reals String List Bool Lia Lra.
From Coq Require Import Floats.SpecFloat.
From Flocq Require Import Core.Core.
Import ListNotations.
From Verif Require Import Base Float FloatR Oxide.
Open Scope R_scope.
From Verif Require Import Percent.

Theorem C10_coverage_ratio : forall data, data <> nil -> (Z.of_nat (length data) < 2 ^ 64)%Z ->
  let cov := IZR (Z.of_nat (length (filter (fun x => negb (x =? 0)%N) data))) in
  let tot := IZR (Z.of_nat (length data)) in
  sf_finite (c_coverage (coverage_of data)) = true /\
  val32 (c_coverage (coverage_of data)) = rnd32 (rnd32 (rnd32 cov / rnd32 tot) * 100) /\
  0 <= val32 (c_coverage (coverage_of data)) <= 100.
Proof. exact (@coverage_ratio). Qed.
Print Assumptions C10_coverage_ratio.

Theorem C10_coverage_ratio_nan : c_coverage (coverage_of []) = S754_nan.
Proof. exact (@coverage_ratio_nan). Qed.
Print Assumptions C10_coverage_ratio_nan.

Theorem C12_percent_truncates : forall c t, (c <= t)%N -> (0 < t)%N ->
  sf_finite (percent c t) = true /\
  val32 (percent c t) = round radix2 (FLT_exp (-149) 24) ZnearestE (IZR (Z.of_N (10000 * c / t)) / 100).
Proof. exact (@percent_truncates). Qed.
Print Assumptions C12_percent_truncates.

Theorem C12_percent_nearest : forall c t y, (c <= t)%N -> (0 < t)%N ->
  generic_format radix2 (FLT_exp (-149) 24) y ->
  Rabs (val32 (percent c t) - IZR (hundredths c t) / 100) <= Rabs (y - IZR (hundredths c t) / 100).
Proof. exact (@percent_nearest). Qed.
Print Assumptions C12_percent_nearest.

Theorem C12_percent_range : forall c t, (c <= t)%N -> (0 < t)%N -> 0 <= val32 (percent c t) <= 100.
Proof. exact (@percent_range). Qed.
Print Assumptions C12_percent_range.

Theorem C12_percent_100_iff : forall c t, (c <= t)%N -> (0 < t)%N ->
  (val32 (percent c t) = 100 <-> c = t).
Proof. exact (@percent_100_iff). Qed.
Print Assumptions C12_percent_100_iff.

Theorem C12_percent_full : forall t, percent t t = f32_of_Z 100.
Proof. exact (@percent_full). Qed.
Print Assumptions C12_percent_full.

Theorem C12_percent_monotone : forall c1 c2 t, (c1 <= c2)%N -> (c2 <= t)%N -> (0 < t)%N ->
  val32 (percent c1 t) <= val32 (percent c2 t).
Proof. exact (@percent_monotone). Qed.
Print Assumptions C12_percent_monotone.

Theorem C12_percent_zero : forall c, percent c 0 = f32_of_Z 100.
Proof. exact (@percent_zero). Qed.
Print Assumptions C12_percent_zero.

Theorem C12_percent_lt_100 : forall c t, (c < t)%N -> val32 (percent c t) < 99.995.
Proof. exact (@percent_lt_100). Qed.
Print Assumptions C12_percent_lt_100.

Theorem C12_percent_above_ratio_refuted : exists c t, (c <= t)%N /\ (0 < t)%N /\
  IZR (hundredths c t) / 100 < val32 (percent c t).
Proof. exact (@percent_above_ratio_refuted). Qed.
Print Assumptions C12_percent_above_ratio_refuted.

Theorem C12_percent_test2 : val32 (percent 999998 999999) < 100.
Proof. exact (@percent_test2). Qed.
Print Assumptions C12_percent_test2.

