(** Percentages (claim C12) and the f32 ratio of branch coverage (part of C10).
    Specifications speak about real numbers: [val32 x] is the real value of a finite
    binary32 number and [round radix2 (FLT_exp (-149) 24) ZnearestE] is IEEE rounding to
    nearest even. *)
From Coq Require Import NArith ZArith Reals String List Bool Lia Lra.
From Coq Require Import Floats.SpecFloat.
From Flocq Require Import Core.Core.
Import ListNotations.
From Verif Require Import Base Float FloatR Oxide.
Open Scope R_scope.

Lemma sf_fin : forall x, BinarySingleNaN.is_finite_SF x = true -> sf_finite x = true.
Proof. intros [?|?| |? ? ?]; auto. Qed.

Lemma IZR_of_N_div : forall a b, (0 < b)%N -> Zfloor (IZR (Z.of_N a) / IZR (Z.of_N b)) = Z.of_N (a / b).
Proof. intros a b Hb. rewrite N2Z.inj_div. apply Zfloor_div. lia. Qed.

(** Conversion through f64 is exact for the quotient: 100000 < 2^24. *)
Lemma via_f64 : forall k, (0 <= k < 2 ^ 24)%Z -> is32 (f64_to_f32 (f64_of_Z k)) (IZR k).
Proof.
  intros k Hk.
  (* binary64 of a small integer is exact: reuse the definition of binary_normalize *)
  pose proof (BinarySingleNaN.binary_normalize_correct 53 1024 eq_refl eq_refl BinarySingleNaN.mode_NE k 0 false) as H.
  cbv zeta in H.
  assert (Hx : F2R (Float radix2 k 0) = IZR k) by (unfold F2R; simpl; ring).
  rewrite Hx in H.
  assert (Hg : generic_format radix2 (FLT_exp (3 - 1024 - 53) 53) (IZR k)).
  { apply generic_format_FLT. exists (Float radix2 k 0); simpl; [now rewrite Hx|lia|lia]. }
  change (SpecFloat.fexp 53 1024) with (FLT_exp (3 - 1024 - 53) 53) in H.
  rewrite round_generic in H by (auto with typeclass_instances).
  assert (Hbig : Rabs (IZR k) < bpow radix2 1024).
  { rewrite Rabs_pos_eq by (apply IZR_le; lia).
    apply Rlt_trans with (bpow radix2 24); [|apply bpow_lt; lia].
    change (bpow radix2 24) with (IZR (2 ^ 24)). apply IZR_lt. lia. }
  rewrite Rlt_bool_true in H by exact Hbig. destruct H as (H1 & H2 & H3).
  assert (E : f64_of_Z k = BinarySingleNaN.B2SF (BinarySingleNaN.binary_normalize 53 1024 eq_refl eq_refl BinarySingleNaN.mode_NE k 0 false)).
  { unfold f64_of_Z. clear. destruct k as [|p|p]; simpl; auto; rewrite BinarySingleNaN.B2SF_SF2B;
    unfold SpecFloat.binary_round, BinarySingleNaN.binary_round, BinarySingleNaN.shl_align_fexp;
    destruct (SpecFloat.shl_align _ _ _) as [mz ez];
    unfold SpecFloat.binary_round_aux, BinarySingleNaN.binary_round_aux;
    destruct (SpecFloat.shr_fexp _ _ _ _ _) as [mrs' e']; simpl.
    all: match goal with |- context [SpecFloat.round_nearest_even ?m ?l] =>
       assert (Hr : forall s, SpecFloat.round_nearest_even m l = BinarySingleNaN.choice_mode BinarySingleNaN.mode_NE s m l)
         by (intros s; destruct l as [|[| |]]; try reflexivity; simpl; unfold Round.cond_incr; now destruct (Z.even m));
       now rewrite (Hr false) || now rewrite (Hr true) end. }
  rewrite E. set (b := BinarySingleNaN.binary_normalize _ _ _ _ _ _ _ _) in *. clearbody b. clear E Hx Hg Hbig.
  destruct b as [s|s| |s m e Hb]; simpl in *; try discriminate.
  - repeat split; auto.
  - replace (if s then Z.neg m else Z.pos m) with (cond_Zopp s (Z.pos m)) by (destruct s; reflexivity).
    assert (Hr : rnd32 (IZR (cond_Zopp s (Z.pos m)) * bpow radix2 e) = IZR k).
    { change (rnd32 (F2R (Float radix2 (cond_Zopp s (Z.pos m)) e)) = IZR k). rewrite H1. apply rnd_id, format32_Z. lia. }
    rewrite <- Hr. apply is32_normalize.
    rewrite Hr. rewrite <- (rnd_id (IZR k)) by (apply format32_Z; lia).
    apply (rnd_small _ k); auto. split; [apply IZR_le; lia|lra].
Qed.

(** Truncation of the ratio to hundredths of a percent. *)
Definition hundredths (c t : N) : Z := Z.of_N (10000 * c / t).

Lemma hundredths_bound : forall c t, (c <= t)%N -> (0 < t)%N -> (0 <= hundredths c t <= 10000)%Z.
Proof.
  intros c t Hc Ht. unfold hundredths.
  assert (10000 * c / t < 10001)%N by (apply N.div_lt_upper_bound; nia).
  generalize dependent (10000 * c / t)%N. lia.
Qed.

(** floor(rnd(q/10)) = floor(q/10) for q <= 100000 *)
Lemma floor_tenth : forall q, (0 <= q <= 100000)%Z -> Zfloor (rnd32 (IZR q / 10)) = (q / 10)%Z.
Proof.
  intros q Hq. set (k := (q / 10)%Z).
  pose proof (Z.div_mod q 10). pose proof (Z.mod_pos_bound q 10).
  assert (Hk : (0 <= k <= 10000 /\ 10 * k <= q <= 10 * k + 9)%Z) by (unfold k in *; lia).
  destruct Hk as [Hk1 [Hk2 Hk3]]. clearbody k.
  apply IZR_le in Hk2, Hk3. rewrite plus_IZR in Hk3. rewrite mult_IZR in Hk2, Hk3.
  apply Zfloor_imp. split.
  - rewrite <- (rnd_id (IZR k)) by (apply format32_Z; lia). apply rnd_mono. lra.
  - apply Rle_lt_trans with (IZR (1024 * (k + 1) - 1) * bpow radix2 (-10)).
    + rewrite <- (rnd_id (IZR (1024 * (k + 1) - 1) * bpow radix2 (-10))) by (apply format32; lia).
      apply rnd_mono. rewrite minus_IZR, mult_IZR, plus_IZR. simpl. lra.
    + rewrite minus_IZR, mult_IZR, plus_IZR. simpl. lra.
Qed.

(** C12, main statement: [percent] is the single-precision rounding of the truncated
    ratio. *)
Theorem percent_truncates : forall c t, (c <= t)%N -> (0 < t)%N ->
  sf_finite (percent c t) = true /\
  val32 (percent c t) = round radix2 (FLT_exp (-149) 24) ZnearestE (IZR (Z.of_N (10000 * c / t)) / 100).
Proof.
  intros c t Hc Ht. unfold percent. destruct (N.ltb_spec 0 t); [|lia].
  set (q := (1000 * 100 * c / t)%N).
  assert (Hq : (0 <= Z.of_N q <= 100000)%Z).
  { assert (q < 100001)%N by (apply N.div_lt_upper_bound; nia). clearbody q; lia. }
  assert (Hq10 : (Z.of_N q / 10 = Z.of_N (10000 * c / t))%Z).
  { change 10%Z with (Z.of_N 10). rewrite <- N2Z.inj_div. f_equal. unfold q.
    rewrite N.div_div by lia. rewrite (N.mul_comm t 10).
    replace (1000 * 100 * c)%N with (10 * (10000 * c))%N by lia. apply N.div_mul_cancel_l; lia. }
  assert (R1 : 0 <= IZR (Z.of_N q) / 10 <= 10000).
  { destruct Hq as [Ha Hb]. apply IZR_le in Ha, Hb. simpl in *. lra. }
  assert (I1 : is32 (f32_div (f64_to_f32 (f64_of_Z (Z.of_N q))) (f32_of_Z 10)) (rnd32 (IZR (Z.of_N q) / 10))).
  { apply is32_div; [apply via_f64; lia|apply is32_of_Z; lia|lra|]. apply (rnd_small _ 10000); auto. lia. }
  assert (I2 : is32 (f32_floor (f32_div (f64_to_f32 (f64_of_Z (Z.of_N q))) (f32_of_Z 10))) (IZR (Z.of_N q / 10))).
  { rewrite <- floor_tenth by auto. apply is32_floor; auto.
    destruct (rnd_bounded _ 10000 ltac:(lia) R1). simpl in *. lra. }
  assert (R2 : 0 <= IZR (Z.of_N q / 10) / 100 <= 100).
  { assert (Hb : (0 <= Z.of_N q / 10 <= 10000)%Z) by (split; [apply Z.div_pos; lia|apply Z.div_le_upper_bound; lia]).
    destruct Hb as [Ha Hb]. apply IZR_le in Ha, Hb. simpl in *. lra. }
  assert (I3 : is32 (f32_div (f32_floor (f32_div (f64_to_f32 (f64_of_Z (Z.of_N q))) (f32_of_Z 10))) (f32_of_Z 100))
                 (rnd32 (IZR (Z.of_N q / 10) / 100))).
  { apply is32_div; [auto|apply is32_of_Z; lia|lra|]. apply (rnd_small _ 100); auto. lia. }
  destruct I3 as (V & F & E). split; [apply sf_fin; auto|]. rewrite E, Hq10. reflexivity.
Qed.

(** No single-precision number is nearer to the truncated ratio. *)
Theorem percent_nearest : forall c t y, (c <= t)%N -> (0 < t)%N ->
  generic_format radix2 (FLT_exp (-149) 24) y ->
  Rabs (val32 (percent c t) - IZR (hundredths c t) / 100) <= Rabs (y - IZR (hundredths c t) / 100).
Proof.
  intros c t y Hc Ht Hy. destruct (percent_truncates c t Hc Ht) as [_ ->].
  fold (hundredths c t).
  assert (Hv : Valid_exp (FLT_exp (-149) 24)) by (apply FLT_exp_valid; reflexivity).
  destruct (round_N_pt radix2 (FLT_exp (-149) 24) (fun x => negb (Z.even x)) (IZR (hundredths c t) / 100)) as [_ H].
  exact (H y Hy).
Qed.

Lemma hundredths_R : forall c t, (c <= t)%N -> (0 < t)%N -> 0 <= IZR (hundredths c t) / 100 <= 100.
Proof.
  intros c t Hc Ht. destruct (hundredths_bound c t Hc Ht) as [Ha Hb]. apply IZR_le in Ha, Hb. simpl in *. lra.
Qed.

Theorem percent_range : forall c t, (c <= t)%N -> (0 < t)%N -> 0 <= val32 (percent c t) <= 100.
Proof.
  intros c t Hc Ht. destruct (percent_truncates c t Hc Ht) as [_ ->].
  apply (rnd_bounded _ 100); [lia|]. apply hundredths_R; auto.
Qed.

Theorem percent_100_iff : forall c t, (c <= t)%N -> (0 < t)%N ->
  (val32 (percent c t) = 100 <-> c = t).
Proof.
  intros c t Hc Ht. destruct (percent_truncates c t Hc Ht) as [_ ->]. split.
  - intros He. destruct (N.eq_dec c t); auto. exfalso.
    assert (Hk : (10000 * c / t < 10000)%N) by (apply N.div_lt_upper_bound; nia).
    assert (Hle : (Z.of_N (10000 * c / t) <= 9999)%Z) by (generalize dependent (10000 * c / t)%N; lia). apply IZR_le in Hle.
    assert (Hb : rnd32 (IZR (Z.of_N (10000 * c / t)) / 100) <= IZR 12799 * bpow radix2 (-7)).
    { rewrite <- (rnd_id (IZR 12799 * bpow radix2 (-7))) by (apply format32; simpl; lia).
      apply rnd_mono. change (bpow radix2 (-7)) with (/ 128). lra. }
    unfold rnd32, fexp32 in Hb. rewrite He in Hb. simpl in Hb. lra.
  - intros ->. rewrite N.div_mul by lia.
    change (rnd32 (IZR (Z.of_N 10000) / 100) = 100).
    replace (IZR (Z.of_N 10000) / 100) with (IZR 100) by (simpl; lra). apply rnd_id, format32_Z. simpl. lia.
Qed.

(** ... and then it is the very float 100.0 that [percent] returns for empty totals. *)
Theorem percent_full : forall t, percent t t = f32_of_Z 100.
Proof.
  intros t. destruct (N.eq_dec t 0); [subst; reflexivity|]. unfold percent. destruct (N.ltb_spec 0 t); [|lia].
  rewrite N.div_mul by lia. vm_compute. reflexivity.
Qed.

Theorem percent_monotone : forall c1 c2 t, (c1 <= c2)%N -> (c2 <= t)%N -> (0 < t)%N ->
  val32 (percent c1 t) <= val32 (percent c2 t).
Proof.
  intros c1 c2 t H1 H2 Ht.
  destruct (percent_truncates c1 t) as [_ ->]; [lia|auto|].
  destruct (percent_truncates c2 t) as [_ ->]; [lia|auto|].
  apply rnd_mono. apply Rmult_le_compat_r; [lra|]. apply IZR_le.
  assert (10000 * c1 / t <= 10000 * c2 / t)%N by (apply N.div_le_mono; lia).
  generalize dependent (10000 * c1 / t)%N. generalize dependent (10000 * c2 / t)%N. lia.
Qed.

Theorem percent_zero : forall c, percent c 0 = f32_of_Z 100.
Proof. reflexivity. Qed.

(** Reading: for c < t the result is below 99.995. *)
Theorem percent_lt_100 : forall c t, (c < t)%N -> val32 (percent c t) < 99.995.
Proof.
  intros c t Hc. destruct (percent_truncates c t) as [_ ->]; [lia|lia|].
  assert (Hk : (10000 * c / t < 10000)%N) by (apply N.div_lt_upper_bound; nia).
  assert (Hle : (Z.of_N (10000 * c / t) <= 9999)%Z) by (generalize dependent (10000 * c / t)%N; lia). apply IZR_le in Hle.
  apply Rle_lt_trans with (IZR 12799 * bpow radix2 (-7)); [|simpl; lra].
  rewrite <- (rnd_id (IZR 12799 * bpow radix2 (-7))) by (apply format32; simpl; lia).
  apply rnd_mono. change (bpow radix2 (-7)) with (/ 128). lra.
Qed.

(** As a real number the result can exceed the truncated ratio: 0.07 is not a binary32
    number and is rounded up. *)
Theorem percent_above_ratio_refuted : exists c t, (c <= t)%N /\ (0 < t)%N /\
  IZR (hundredths c t) / 100 < val32 (percent c t).
Proof.
  exists 7%N, 10000%N. repeat split; try (vm_compute; congruence).
  assert (E : percent 7 10000 = S754_finite false 9395241 (-27)) by (vm_compute; reflexivity).
  rewrite E. unfold val32, hundredths. simpl. unfold F2R. simpl. lra.
Qed.

(** ** C10: ratio of one line *)
Lemma rnd_ratio_le1 : forall a b, 0 <= a <= b -> 0 < b -> 0 <= rnd32 (a / b) <= 1.
Proof.
  intros a b Ha Hb. apply (rnd_bounded _ 1); [lia|]. split.
  - apply Rmult_le_pos; [lra|]. apply Rlt_le, Rinv_0_lt_compat. auto.
  - apply Rmult_le_reg_r with b; auto. unfold Rdiv. rewrite Rmult_assoc, Rinv_l by lra. lra.
Qed.

Lemma is32_of_Z_big : forall k, (0 <= k < 2 ^ 64)%Z -> is32 (f32_of_Z k) (rnd32 (IZR k)) /\ rnd32 (IZR k) <= bpow radix2 64.
Proof.
  intros k Hk. assert (Hle : rnd32 (IZR k) <= bpow radix2 64).
  { replace (bpow radix2 64) with (rnd32 (bpow radix2 64)).
    - apply rnd_mono. change (bpow radix2 64) with (IZR (2 ^ 64)). apply IZR_le. lia.
    - apply rnd_id. replace (bpow radix2 64) with (IZR 1 * bpow radix2 64) by ring. apply format32; simpl; lia. }
  split; auto. unfold f32_of_Z. replace (IZR k) with (IZR k * bpow radix2 0) by (simpl; ring).
  apply is32_normalize. simpl. rewrite Rmult_1_r. rewrite Rabs_pos_eq.
  - apply Rle_lt_trans with (1 := Hle). apply bpow_lt. lia.
  - rewrite <- rnd_0. apply rnd_mono. apply IZR_le. lia.
Qed.

Lemma rnd_pos : forall k, (0 < k)%Z -> 1 <= rnd32 (IZR k).
Proof.
  intros k Hk. rewrite <- (rnd_id (IZR 1)) by (apply format32_Z; simpl; lia). apply rnd_mono. apply IZR_le. lia.
Qed.

(** For any number of path counters (a usize: below 2^64) the ratio is finite and in
    [0,100], and it is the IEEE result of covered/total*100. *)
Theorem coverage_ratio : forall data, data <> nil -> (Z.of_nat (length data) < 2 ^ 64)%Z ->
  let cov := IZR (Z.of_nat (length (filter (fun x => negb (x =? 0)%N) data))) in
  let tot := IZR (Z.of_nat (length data)) in
  sf_finite (c_coverage (coverage_of data)) = true /\
  val32 (c_coverage (coverage_of data)) = rnd32 (rnd32 (rnd32 cov / rnd32 tot) * 100) /\
  0 <= val32 (c_coverage (coverage_of data)) <= 100.
Proof.
  intros data Hne Hlen cov tot.
  assert (Hpos : positive_hits data = length (filter (fun x => negb (x =? 0)%N) data)).
  { unfold positive_hits. f_equal. apply filter_ext. intros x; destruct x; reflexivity. }
  assert (Hle : (length (filter (fun x => negb (x =? 0)%N) data) <= length data)%nat).
  { clear. induction data as [|x l IH]; simpl; auto. destruct (negb _); simpl; lia. }
  assert (Hl0 : (0 < length data)%nat) by (destruct data; simpl; [congruence|lia]).
  destruct (is32_of_Z_big (Z.of_nat (length data))) as [It _]; [lia|].
  destruct (is32_of_Z_big (Z.of_nat (positive_hits data))) as [Ic _]; [lia|].
  rewrite Hpos in Ic. fold cov in Ic. fold tot in It.
  assert (Ht : 1 <= rnd32 tot) by (apply rnd_pos; lia).
  assert (Hc : 0 <= rnd32 cov <= rnd32 tot).
  { split; [rewrite <- rnd_0|]; apply rnd_mono; apply IZR_le; lia. }
  pose proof (rnd_ratio_le1 _ _ Hc ltac:(lra)) as H1.
  assert (Id : is32 (f32_div (f32_of_nat (positive_hits data)) (f32_of_nat (length data))) (rnd32 (rnd32 cov / rnd32 tot))).
  { apply is32_div; auto; [unfold f32_of_nat; rewrite Hpos; auto|lra|].
    rewrite Rabs_pos_eq by lra. apply Rle_lt_trans with 1; [lra|]. pose proof big32_gt. lra. }
  assert (H2 : 0 <= rnd32 (rnd32 cov / rnd32 tot) * 100 <= 100) by lra.
  assert (Im : is32 (c_coverage (coverage_of data)) (rnd32 (rnd32 (rnd32 cov / rnd32 tot) * 100))).
  { unfold coverage_of; simpl. apply is32_mul; auto; [apply (is32_of_Z 100); lia|].
    apply (rnd_small _ 100); auto. lia. }
  destruct Im as (V & F & E). rewrite E. split; [apply sf_fin; auto|]. split; [auto|].
  apply (rnd_bounded _ 100); auto; lia.
Qed.

(** A line all of whose branches have no path gets NaN. *)
Theorem coverage_ratio_nan : c_coverage (coverage_of []) = S754_nan.
Proof. vm_compute. reflexivity. Qed.

(** percent.rs tests *)
Example percent_test1 : percent 1 1 = f32_of_Z 100.
Proof. vm_compute. reflexivity. Qed.
Example percent_test2 : val32 (percent 999998 999999) < 100.
Proof. pose proof (percent_lt_100 999998 999999 eq_refl). lra. Qed.
