(** Real-number meaning of the binary32 operations of [Float.v], from Flocq's
    correctness theorems. *)
From Coq Require Import NArith ZArith Reals List Bool Lia Lra.
From Coq Require Import Floats.SpecFloat.
From Flocq Require Import Core.Core IEEE754.BinarySingleNaN.
From Verif Require Import Float.
Open Scope R_scope.

Definition fexp32 : Z -> Z := FLT_exp (-149) 24.
(** Round to nearest, ties to even, in binary32 (no overflow). *)
Definition rnd32 (x : R) : R := round radix2 fexp32 ZnearestE x.
Definition val32 (x : f32) : R := SF2R radix2 x.

Lemma prec32 : FLX.Prec_gt_0 24. Proof. reflexivity. Qed.
Lemma emax32 : Prec_lt_emax 24 128. Proof. reflexivity. Qed.
#[local] Existing Instance prec32.
#[local] Existing Instance emax32.

#[local] Instance fexp32_valid : Valid_exp fexp32.
Proof. apply FLT_exp_valid. reflexivity. Qed.

Lemma rnd_mono : forall x y, x <= y -> rnd32 x <= rnd32 y.
Proof. intros. apply round_le; auto with typeclass_instances. Qed.
Lemma rnd_id : forall x, generic_format radix2 fexp32 x -> rnd32 x = x.
Proof. intros. apply round_generic; auto with typeclass_instances. Qed.
Lemma rnd_0 : rnd32 0 = 0.
Proof. apply round_0; auto with typeclass_instances. Qed.

(** m * 2^e with |m| < 2^24 and e in range is a binary32 number *)
Lemma format32 : forall m e, (Z.abs m < 2 ^ 24)%Z -> (-149 <= e)%Z ->
  generic_format radix2 fexp32 (IZR m * bpow radix2 e).
Proof.
  intros m e Hm He. apply generic_format_FLT.
  exists (Float radix2 m e); simpl; auto.
Qed.
Lemma format32_Z : forall m, (Z.abs m < 2 ^ 24)%Z -> generic_format radix2 fexp32 (IZR m).
Proof.
  intros m Hm. replace (IZR m) with (IZR m * bpow radix2 0) by (simpl; ring). apply format32; auto. lia.
Qed.

Definition big32 : R := bpow radix2 128.

Lemma round_aux_equiv : forall sx mx ex lx,
  SpecFloat.binary_round_aux 24 128 sx mx ex lx = binary_round_aux 24 128 mode_NE sx mx ex lx.
Proof.
  intros. unfold SpecFloat.binary_round_aux, binary_round_aux.
  destruct (shr_fexp _ _ _ _ _) as [mrs' e']; simpl.
  assert (H : forall s m l, round_nearest_even m l = choice_mode mode_NE s m l).
  { intros s m [|[| |]]; try reflexivity. simpl. unfold Round.cond_incr. now destruct (Z.even m). }
  now rewrite (H sx).
Qed.

Lemma normalize_equiv : forall m e s,
  SpecFloat.binary_normalize 24 128 m e s = B2SF (binary_normalize 24 128 prec32 emax32 mode_NE m e s).
Proof.
  intros [|p|p] e s; simpl; auto; rewrite B2SF_SF2B;
  unfold SpecFloat.binary_round, binary_round, shl_align_fexp;
  destruct (shl_align _ _ _) as [mz ez]; apply round_aux_equiv.
Qed.

(** A finite binary32 value with its real meaning. *)
Definition is32 (x : f32) (r : R) : Prop :=
  valid_binary 24 128 x = true /\ is_finite_SF x = true /\ val32 x = r.

Lemma is32_B : forall b : binary_float 24 128, is_finite b = true -> is32 (B2SF b) (B2R b).
Proof.
  intros b H. repeat split.
  - apply valid_binary_B2SF.
  - now rewrite is_finite_SF_B2SF.
  - unfold val32. apply SF2R_B2SF.
Qed.

Lemma is32_inv : forall x r, is32 x r -> exists b : binary_float 24 128,
  x = B2SF b /\ is_finite b = true /\ B2R b = r.
Proof.
  intros x r (V & F & E). exists (SF2B x V). rewrite B2SF_SF2B, is_finite_SF2B, B2R_SF2B. auto.
Qed.

Lemma is32_normalize : forall m e s, Rabs (rnd32 (IZR m * bpow radix2 e)) < big32 ->
  is32 (SpecFloat.binary_normalize 24 128 m e s) (rnd32 (IZR m * bpow radix2 e)) /\
  (m = 0%Z -> SpecFloat.binary_normalize 24 128 m e s = S754_zero s).
Proof.
  intros m e s Hb. split; [|intros ->; reflexivity]. rewrite normalize_equiv.
  pose proof (binary_normalize_correct 24 128 prec32 emax32 mode_NE m e s) as H. cbv zeta in H.
  change (F2R (Float radix2 m e)) with (IZR m * bpow radix2 e) in H.
  rewrite Rlt_bool_true in H by exact Hb. destruct H as (H1 & H2 & _).
  pose proof (is32_B _ H2) as H. rewrite H1 in H. exact H.
Qed.

Lemma is32_div : forall x y a b, is32 x a -> is32 y b -> b <> 0 -> Rabs (rnd32 (a / b)) < big32 ->
  is32 (f32_div x y) (rnd32 (a / b)).
Proof.
  intros x y a b Hx Hy Hb Hbig.
  destruct (is32_inv _ _ Hx) as (bx & -> & Fx & Rx). destruct (is32_inv _ _ Hy) as (by_ & -> & Fy & Ry).
  assert (E : f32_div (B2SF bx) (B2SF by_) = B2SF (Bdiv mode_NE bx by_)).
  { unfold f32_div. destruct bx as [sx|sx| |sx mx ex Bx], by_ as [sy|sy| |sy my ey By]; try reflexivity.
    simpl. rewrite B2SF_SF2B. destruct (SFdiv_core_binary _ _ _ _ _ _) as [[mz ez] lz]. apply round_aux_equiv. }
  rewrite E.
  pose proof (Bdiv_correct 24 128 prec32 emax32 mode_NE bx by_) as H.
  rewrite Rx, Ry in H. specialize (H Hb).
  rewrite Rlt_bool_true in H by exact Hbig. destruct H as (H1 & H2 & _).
  rewrite Fx in H2. pose proof (is32_B _ H2) as H. rewrite H1 in H. exact H.
Qed.

Lemma is32_mul : forall x y a b, is32 x a -> is32 y b -> Rabs (rnd32 (a * b)) < big32 ->
  is32 (f32_mul x y) (rnd32 (a * b)).
Proof.
  intros x y a b Hx Hy Hbig.
  destruct (is32_inv _ _ Hx) as (bx & -> & Fx & Rx). destruct (is32_inv _ _ Hy) as (by_ & -> & Fy & Ry).
  assert (E : f32_mul (B2SF bx) (B2SF by_) = B2SF (Bmult mode_NE bx by_)).
  { unfold f32_mul. destruct bx as [sx|sx| |sx mx ex Bx], by_ as [sy|sy| |sy my ey By]; try reflexivity.
    simpl. rewrite B2SF_SF2B. apply round_aux_equiv. }
  rewrite E.
  pose proof (Bmult_correct 24 128 prec32 emax32 mode_NE bx by_) as H.
  rewrite Rx, Ry in H.
  rewrite Rlt_bool_true in H by exact Hbig. destruct H as (H1 & H2 & _).
  rewrite Fx, Fy in H2. pose proof (is32_B _ H2) as H. rewrite H1 in H. exact H.
Qed.

(** Bounds *)
Lemma big32_gt : 16777216 < big32.
Proof. change 16777216 with (bpow radix2 24). apply bpow_lt. lia. Qed.

Lemma rnd_bounded : forall x k, (0 <= k < 2 ^ 24)%Z -> 0 <= x <= IZR k -> 0 <= rnd32 x <= IZR k.
Proof.
  intros x k Hk [H1 H2]. split.
  - rewrite <- rnd_0. now apply rnd_mono.
  - rewrite <- (rnd_id (IZR k)); [now apply rnd_mono|]. apply format32_Z. lia.
Qed.
Lemma rnd_small : forall x k, (0 <= k < 2 ^ 24)%Z -> 0 <= x <= IZR k -> Rabs (rnd32 x) < big32.
Proof.
  intros x k Hk Hx. destruct (rnd_bounded x k Hk Hx) as [H1 H2].
  rewrite Rabs_pos_eq by auto. apply Rle_lt_trans with (IZR k); auto.
  apply Rle_lt_trans with (IZR 16777216); [apply IZR_le; lia|]. apply big32_gt.
Qed.

Lemma is32_of_Z : forall k, (0 <= k < 2 ^ 24)%Z -> is32 (f32_of_Z k) (IZR k).
Proof.
  intros k Hk. unfold f32_of_Z.
  assert (Hr : rnd32 (IZR k * bpow radix2 0) = IZR k).
  { simpl. rewrite Rmult_1_r. apply rnd_id, format32_Z. lia. }
  rewrite <- Hr at 1. apply is32_normalize. simpl. rewrite Rmult_1_r.
  apply (rnd_small _ k); auto. split; [apply IZR_le; lia|lra].
Qed.

(** [f32::floor] *)
Lemma is32_floor : forall x r, is32 x r -> 0 <= r < 16777216 -> is32 (f32_floor x) (IZR (Zfloor r)).
Proof.
  intros x r (V & F & E) Hr. unfold val32 in E.
  destruct x as [s|s| |s m e]; try discriminate; simpl in E.
  - subst r. assert (H : Zfloor 0 = 0%Z) by (apply (Zfloor_IZR 0)). rewrite H. repeat split; auto.
  - unfold f32_floor. destruct (Z.leb_spec 0 e) as [He|He].
    + assert (Hf : IZR (Zfloor r) = r).
      { rewrite <- E. unfold F2R; simpl. rewrite <- (IZR_Zpower radix2) by auto.
        rewrite <- mult_IZR. now rewrite Zfloor_IZR. }
      rewrite Hf. repeat split; auto.
    + set (z := (if s then Z.neg m else Z.pos m)).
      assert (Hz : Zfloor r = (z / 2 ^ (- e))%Z).
      { rewrite <- E. unfold F2R; simpl Fnum; simpl Fexp.
        replace (cond_Zopp s (Z.pos m)) with z by (destruct s; reflexivity).
        replace (bpow radix2 e) with (/ IZR (2 ^ (- e))).
        - apply Zfloor_div. assert (0 < 2 ^ (- e))%Z by (apply Z.pow_pos_nonneg; lia). lia.
        - replace e with (- (- e))%Z at 2 by lia. rewrite bpow_opp. f_equal.
          change 2%Z with (radix_val radix2). apply IZR_Zpower. lia. }
      rewrite <- Hz.
      assert (Hb : (0 <= Zfloor r < 2 ^ 24)%Z).
      { split; [apply Zfloor_lub; simpl; apply Hr|]. apply lt_IZR.
        apply Rle_lt_trans with r; [apply Zfloor_lb|]. change (2 ^ 24)%Z with 16777216%Z. apply Hr. }
      assert (Hrr : rnd32 (IZR (Zfloor r) * bpow radix2 0) = IZR (Zfloor r)).
      { simpl. rewrite Rmult_1_r. apply rnd_id, format32_Z. lia. }
      assert (Hbig : Rabs (rnd32 (IZR (Zfloor r) * bpow radix2 0)) < big32).
      { simpl. rewrite Rmult_1_r. apply (rnd_small _ (Zfloor r)); auto. split; [apply IZR_le; lia|lra]. }
      destruct (is32_normalize (Zfloor r) 0 s Hbig) as [H _].
      rewrite Hrr in H. exact H.
Qed.

(** Two finite values with the same real meaning are equal, except for the sign of zero. *)
Lemma is32_inj : forall x y r, is32 x r -> is32 y r -> r <> 0 -> x = y.
Proof.
  intros x y r Hx Hy Hr.
  destruct (is32_inv _ _ Hx) as (bx & -> & Fx & Rx). destruct (is32_inv _ _ Hy) as (by_ & -> & Fy & Ry).
  f_equal. apply B2R_inj; try congruence.
  - destruct bx; simpl in *; try discriminate; auto; congruence.
  - destruct by_; simpl in *; try discriminate; auto; congruence.
Qed.
