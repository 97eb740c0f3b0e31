(** Decimal rendering of unsigned integers ([{}] of u32/u64 in [format!]) and its
    injectivity. *)
From Coq Require Import NArith String Ascii List Bool Lia.
From Coq Require Import DecimalString DecimalN DecimalFacts.
Import ListNotations.

(** [format!("{}", n)] for an unsigned integer. *)
Definition dec (n : N) : string := NilEmpty.string_of_uint (N.to_uint n).

Lemma dec_inj : forall a b, dec a = dec b -> a = b.
Proof.
  intros a b H. unfold dec in H.
  apply (f_equal NilEmpty.uint_of_string) in H.
  rewrite !NilEmpty.usu in H. inversion H as [H1].
  now apply Unsigned.to_uint_inj in H1.
Qed.

Definition is_digit (c : ascii) : bool :=
  let n := nat_of_ascii c in (Nat.leb 48 n && Nat.leb n 57)%bool.

Fixpoint all_chars (p : ascii -> bool) (s : string) : bool :=
  match s with
  | EmptyString => true
  | String c s' => p c && all_chars p s'
  end.

Lemma string_of_uint_digits : forall d, all_chars is_digit (NilEmpty.string_of_uint d) = true.
Proof. induction d; simpl; auto. Qed.

Lemma dec_digits : forall n, all_chars is_digit (dec n) = true.
Proof. intros. apply string_of_uint_digits. Qed.

Lemma dec_nonempty : forall n, dec n <> EmptyString.
Proof.
  intros n H. unfold dec in H.
  destruct n as [|p]; [discriminate|].
  change (N.to_uint (N.pos p)) with (Pos.to_uint p) in H.
  destruct (Pos.to_uint p) eqn:E; try discriminate.
  pose proof (DecimalPos.Unsigned.of_to p) as H0. rewrite E in H0. discriminate.
Qed.

(** Splitting at the first character outside a class is unambiguous. *)
Lemma split_unique : forall p c1 c2 s1 s2 r1 r2,
  all_chars p s1 = true -> all_chars p s2 = true -> p c1 = false -> p c2 = false ->
  (s1 ++ String c1 r1)%string = (s2 ++ String c2 r2)%string ->
  s1 = s2 /\ c1 = c2 /\ r1 = r2.
Proof.
  induction s1 as [|a s1 IH]; intros s2 r1 r2 H1 H2 Hc1 Hc2 H.
  - destruct s2 as [|b s2]; simpl in *.
    + inversion H; auto.
    + inversion H; subst. apply andb_prop in H2 as [H2 _]. congruence.
  - destruct s2 as [|b s2]; simpl in *.
    + inversion H; subst. apply andb_prop in H1 as [H1 _]. congruence.
    + inversion H; subst. apply andb_prop in H1 as [? H1]. apply andb_prop in H2 as [? H2].
      apply IH in H4; auto. destruct H4 as (?&?&?); subst; auto.
Qed.

Example dec_0 : dec 0 = "0"%string. Proof. reflexivity. Qed.
Example dec_1203 : dec 1203 = "1203"%string. Proof. reflexivity. Qed.
