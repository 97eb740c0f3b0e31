(** Rust's [DefaultHasher] on a string: SipHash-1-3 with zero key over the bytes followed by
    0xff ([impl Hash for str]).  Used in create_coverage_data_object.rs:418-422,
    create_coverage_fn_decl.rs:30-33 and build.rs:8-15. *)
From Coq Require Import NArith String Ascii List Bool Lia.
Import ListNotations.
From Verif Require Import Decimal.
Open Scope N_scope.

Definition mask64 : N := 18446744073709551615.
Definition add64 (a b : N) : N := N.land (a + b) mask64.
Definition rotl64 (x k : N) : N := N.lor (N.land (N.shiftl x k) mask64) (N.shiftr x (64 - k)).

Record sip := mkSip { v0 : N; v1 : N; v2 : N; v3 : N }.
Definition sip_round (s : sip) : sip :=
  let a0 := add64 (v0 s) (v1 s) in
  let a1 := N.lxor (rotl64 (v1 s) 13) a0 in
  let a0 := rotl64 a0 32 in
  let a2 := add64 (v2 s) (v3 s) in
  let a3 := N.lxor (rotl64 (v3 s) 16) a2 in
  let a0 := add64 a0 a3 in
  let a3 := N.lxor (rotl64 a3 21) a0 in
  let a2 := add64 a2 a1 in
  let a1 := N.lxor (rotl64 a1 17) a2 in
  let a2 := rotl64 a2 32 in
  mkSip a0 a1 a2 a3.
(** "somepseudorandomlygeneratedbytes" xored with the zero key *)
Definition sip_init : sip :=
  mkSip 8317987319222330741 7237128888997146477 7816392313619706465 8387220255154660723.
Definition sip_block (m : N) (s : sip) : sip :=
  let s' := sip_round (mkSip (v0 s) (v1 s) (v2 s) (N.lxor (v3 s) m)) in
  mkSip (N.lxor (v0 s') m) (v1 s') (v2 s') (v3 s').
Definition sip_finish (s : sip) : N :=
  let s' := sip_round (sip_round (sip_round (mkSip (v0 s) (v1 s) (N.lxor (v2 s) 255) (v3 s)))) in
  N.lxor (N.lxor (v0 s') (v1 s')) (N.lxor (v2 s') (v3 s')).

(** Little-endian word of at most eight bytes *)
Fixpoint le_word (bs : list N) : N :=
  match bs with [] => 0 | b :: bs' => b + 256 * le_word bs' end.
Fixpoint sip_bytes (bs : list N) (len : N) (s : sip) : N :=
  match bs with
  | b0 :: b1 :: b2 :: b3 :: b4 :: b5 :: b6 :: b7 :: rest =>
      sip_bytes rest len (sip_block (le_word [b0; b1; b2; b3; b4; b5; b6; b7]) s)
  | _ => sip_finish (sip_block (le_word bs + N.shiftl (N.land len 255) 56) s)
  end.
Fixpoint bytes_of (s : string) : list N :=
  match s with EmptyString => [] | String c s' => N_of_ascii c :: bytes_of s' end.
(** [value.hash(&mut DefaultHasher::new()); hasher.finish()] *)
Definition hash_str (s : string) : N :=
  let bs := (bytes_of s ++ [255])%list in
  sip_bytes bs (N.of_nat (length bs)) sip_init.

(** build.rs:11-15: the schema version, spec/util/constants.ts *)
Definition COVERAGE_MAGIC_KEY : string := "_coverageSchema".
Definition COVERAGE_MAGIC_VALUE : string := "11020577277169172593".
Example magic_value : dec (hash_str "swc-coverage-instrument@0") = COVERAGE_MAGIC_VALUE.
Proof. vm_compute. reflexivity. Qed.
(** The name of the counter function in the fixture of test-emotion.js *)
Example fn_name_vector : dec (hash_str "test-emotion.js") = "14220330533750098279"%string.
Proof. vm_compute. reflexivity. Qed.

(** The hash is a 64-bit number. *)
Lemma land_mask_lt : forall a, N.land a mask64 < 2 ^ 64.
Proof.
  intros a. change mask64 with (N.ones 64). rewrite N.land_ones. apply N.mod_lt. discriminate.
Qed.
Lemma lxor_lt : forall a b, a < 2 ^ 64 -> b < 2 ^ 64 -> N.lxor a b < 2 ^ 64.
Proof.
  intros a b Ha Hb. apply N.div_small_iff; [discriminate|]. apply N.div_small_iff in Ha; [|discriminate].
  apply N.div_small_iff in Hb; [|discriminate]. rewrite <- !N.shiftr_div_pow2 in *.
  now rewrite N.shiftr_lxor, Ha, Hb.
Qed.
Lemma lor_lt : forall a b, a < 2 ^ 64 -> b < 2 ^ 64 -> N.lor a b < 2 ^ 64.
Proof.
  intros a b Ha Hb. apply N.div_small_iff; [discriminate|]. apply N.div_small_iff in Ha; [|discriminate].
  apply N.div_small_iff in Hb; [|discriminate]. rewrite <- !N.shiftr_div_pow2 in *.
  now rewrite N.shiftr_lor, Ha, Hb.
Qed.
Lemma rotl_lt : forall x k, x < 2 ^ 64 -> rotl64 x k < 2 ^ 64.
Proof.
  intros x k H. apply lor_lt; [apply land_mask_lt|]. rewrite N.shiftr_div_pow2.
  eapply N.le_lt_trans; [|exact H]. apply N.div_le_upper_bound; [apply N.pow_nonzero; discriminate|].
  rewrite <- (N.mul_1_l x) at 1. apply N.mul_le_mono_r.
  change 1 with (N.succ 0). apply N.le_succ_l. apply N.neq_0_lt_0. apply N.pow_nonzero. discriminate.
Qed.
Definition sip_ok (s : sip) : Prop := v0 s < 2 ^ 64 /\ v1 s < 2 ^ 64 /\ v2 s < 2 ^ 64 /\ v3 s < 2 ^ 64.
Lemma round_ok : forall s, sip_ok s -> sip_ok (sip_round s).
Proof.
  intros s (A & B & C & D). unfold sip_round, sip_ok. cbv zeta. cbn [v0 v1 v2 v3].
  repeat split; unfold add64; repeat first [apply land_mask_lt | apply lxor_lt | apply rotl_lt | assumption].
Qed.
(** Words of the state stay below 2^64 whatever block is added, since blocks are 64 bit. *)
Lemma le_word_lt : forall bs, Forall (fun b => b < 256) bs -> le_word bs < 256 ^ N.of_nat (length bs).
Proof.
  intros bs H. induction H as [|b bs Hb _ IH]; [reflexivity|].
  cbn [le_word length]. rewrite Nat2N.inj_succ, N.pow_succ_r'.
  apply N.lt_le_trans with (256 + 256 * le_word bs); [now apply N.add_lt_mono_r|].
  rewrite <- (N.mul_1_r 256) at 1. rewrite <- N.mul_add_distr_l. apply N.mul_le_mono_l.
  rewrite N.add_1_l. now apply N.le_succ_l.
Qed.

Lemma block_ok : forall m s, m < 2 ^ 64 -> sip_ok s -> sip_ok (sip_block m s).
Proof.
  intros m s Hm (A & B & C & D). unfold sip_block. cbv zeta.
  assert (K : sip_ok (sip_round (mkSip (v0 s) (v1 s) (v2 s) (N.lxor (v3 s) m))))
    by (apply round_ok; repeat split; try assumption; now apply lxor_lt).
  destruct K as (K0 & K1 & K2 & K3). repeat split; try assumption. now apply lxor_lt.
Qed.
Lemma finish_lt : forall s, sip_ok s -> sip_finish s < 2 ^ 64.
Proof.
  intros s (A & B & C & D). unfold sip_finish. cbv zeta.
  assert (K : sip_ok (sip_round (sip_round (sip_round (mkSip (v0 s) (v1 s) (N.lxor (v2 s) 255) (v3 s))))))
    by (do 3 apply round_ok; repeat split; try assumption; apply lxor_lt; [assumption|reflexivity]).
  destruct K as (K0 & K1 & K2 & K3). apply lxor_lt; apply lxor_lt; assumption.
Qed.
Lemma tail_lt : forall bs len, (length bs <= 7)%nat -> Forall (fun b => b < 256) bs ->
  le_word bs + N.shiftl (N.land len 255) 56 < 2 ^ 64.
Proof.
  intros bs len Hl Hb. apply le_word_lt in Hb.
  assert (A : le_word bs < 2 ^ 56).
  { eapply N.lt_le_trans; [exact Hb|]. change (2 ^ 56) with (256 ^ 7). apply N.pow_le_mono_r; [discriminate|]. lia. }
  assert (B : N.land len 255 < 2 ^ 8).
  { change 255 with (N.ones 8). rewrite N.land_ones. apply N.mod_lt. discriminate. }
  rewrite N.shiftl_mul_pow2. change (2 ^ 64) with (2 ^ 8 * 2 ^ 56). change (2 ^ 8) with 256 in *.
  remember (2 ^ 56) as P. nia.
Qed.
Lemma sip_bytes_lt : forall n bs len s, (length bs <= n)%nat -> Forall (fun b => b < 256) bs -> sip_ok s ->
  sip_bytes bs len s < 2 ^ 64.
Proof.
  induction n as [|n IH]; intros bs len s Hn Hb Hs.
  - destruct bs; [|cbn in Hn; lia]. apply finish_lt, block_ok; [|exact Hs]. apply tail_lt; [cbn; lia|constructor].
  - do 7 (destruct bs as [|? bs]; [apply finish_lt, block_ok; [apply tail_lt; [cbn; lia|exact Hb]|exact Hs]|]).
    destruct bs as [|? bs]; [apply finish_lt, block_ok; [apply tail_lt; [cbn; lia|exact Hb]|exact Hs]|].
    cbn [sip_bytes]. apply IH; [cbn [length] in Hn; lia| |].
    + now do 8 (apply Forall_inv_tail in Hb).
    + apply block_ok; [|exact Hs].
      match goal with |- le_word ?l < _ => change (2 ^ 64) with (256 ^ N.of_nat (length l)); apply le_word_lt end.
      repeat (constructor; [exact (Forall_inv Hb)|]; apply Forall_inv_tail in Hb). constructor.
Qed.
Lemma bytes_lt : forall s, Forall (fun b => b < 256) (bytes_of s).
Proof. induction s as [|c s IH]; constructor; [apply N_ascii_bounded|exact IH]. Qed.
Lemma bytes_of_inj : forall a b, bytes_of a = bytes_of b -> a = b.
Proof.
  induction a as [|c a IH]; intros [|d b] H; try discriminate; [reflexivity|].
  cbn in H. injection H as H1 H2. f_equal; [|now apply IH].
  now rewrite <- (ascii_N_embedding c), <- (ascii_N_embedding d), H1.
Qed.
Theorem hash_str_lt : forall s, hash_str s < 2 ^ 64.
Proof.
  intros s. unfold hash_str. cbv zeta. eapply sip_bytes_lt; [reflexivity| |].
  - apply Forall_app. split; [apply bytes_lt|]. repeat constructor.
  - repeat split; reflexivity.
Qed.
