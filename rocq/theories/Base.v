(** Base definitions shared by all layers: outcomes, u32 arithmetic, lists. *)
From Coq Require Import NArith ZArith String List Bool Lia.
From Coq Require Export ZifyBool ZifyNat ZifyN.
Import ListNotations.
Open Scope N_scope.

(** ** Outcomes

    A Rust function of the repo either returns, panics, or (in the model of the
    recursive visitor only) runs out of the model's fuel.  The panic reason names
    the [expect]/[panic!]/index expression of the source. *)
Inductive reason : Type :=
| RMapValueMissing   (* file_coverage.rs:31,44,84,95 "Corresponding map value should exist" *)
| RIndex             (* file_coverage.rs:290,306 branch.locations[0] out of bounds *)
| ROverflow          (* arithmetic overflow in a debug build *)
| RStatementMissing  (* file_coverage.rs:184 "statement not found" *)
| RLineOrLoc         (* file_coverage.rs:230 "Either line or loc should exist" *)
| RBranchMissing     (* file_coverage.rs:233 "branch data not found" *)
| RInvalidBranch     (* source_coverage/mod.rs:136-145 "Invalid branch" *)
| RUnimplemented     (* instrumentation_counter_helper.rs:206 unimplemented!() *)
| RMalformed         (* model only: a tree that is not an SWC AST *)
| RLogInit           (* swc-plugin-coverage/src/lib.rs:52 a global log subscriber is already set *).

Inductive res (A : Type) : Type :=
| Ok (a : A)
| Panic (r : reason)
| OutOfFuel.
Arguments Ok {A} a.
Arguments Panic {A} r.
Arguments OutOfFuel {A}.

Definition bind {A B} (m : res A) (k : A -> res B) : res B :=
  match m with
  | Ok a => k a
  | Panic r => Panic r
  | OutOfFuel => OutOfFuel
  end.

Declare Scope res_scope.
Delimit Scope res_scope with res.
Notation "'let*' x ':=' m 'in' k" := (bind m (fun x => k))
  (at level 200, x pattern, m at level 100, k at level 200, right associativity) : res_scope.
Open Scope res_scope.

Definition is_ok {A} (m : res A) : bool := match m with Ok _ => true | _ => false end.

Lemma bind_ok : forall A B (m : res A) (k : A -> res B) b,
  bind m k = Ok b -> exists a, m = Ok a /\ k a = Ok b.
Proof. intros A B [a|r|] k b H; simpl in H; try discriminate; eauto. Qed.

(** [expect]: unwrap an option or panic. *)
Definition expect {A} (r : reason) (o : option A) : res A :=
  match o with Some a => Ok a | None => Panic r end.

(** Monadic left fold: a Rust [for] loop over a list with a mutable accumulator. *)
Fixpoint fold_res {A B} (f : A -> B -> res A) (a : A) (l : list B) : res A :=
  match l with
  | [] => Ok a
  | b :: l' => let* a' := f a b in fold_res f a' l'
  end.

Fixpoint map_res {A B} (f : A -> res B) (l : list A) : res (list B) :=
  match l with
  | [] => Ok []
  | a :: l' => let* b := f a in let* bs := map_res f l' in Ok (b :: bs)
  end.

Lemma fold_res_app : forall A B (f : A -> B -> res A) l1 l2 a,
  fold_res f a (l1 ++ l2) = (let* a' := fold_res f a l1 in fold_res f a' l2).
Proof.
  induction l1 as [|b l1 IH]; intros; simpl; auto.
  destruct (f a b); simpl; auto.
Qed.

Lemma map_res_app : forall A B (f : A -> res B) l1 l2,
  map_res f (l1 ++ l2) =
  (let* a := map_res f l1 in let* b := map_res f l2 in Ok (a ++ b)%list).
Proof.
  induction l1 as [|b l1 IH]; intros; simpl.
  - destruct (map_res f l2); auto.
  - destruct (f b); simpl; auto. rewrite IH.
    destruct (map_res f l1); simpl; auto. destruct (map_res f l2); auto.
Qed.

Lemma map_res_ok_Forall2 : forall A B (f : A -> res B) l bs,
  map_res f l = Ok bs <-> Forall2 (fun a b => f a = Ok b) l bs.
Proof.
  induction l as [|a l IH]; intros; split; intros H.
  - inversion H; constructor.
  - inversion H; reflexivity.
  - simpl in H. apply bind_ok in H as (b & Hb & H).
    apply bind_ok in H as (bs' & Hbs & H). inversion H; subst.
    constructor; auto. now apply IH.
  - inversion H; subst. simpl. rewrite H2. simpl.
    apply IH in H4. rewrite H4. reflexivity.
Qed.

Lemma map_res_length : forall A B (f : A -> res B) l bs,
  map_res f l = Ok bs -> length bs = length l.
Proof.
  intros A B f l bs H. apply map_res_ok_Forall2 in H.
  induction H; simpl; auto.
Qed.

(** ** u32 arithmetic

    Rust's [+=] on u32 panics in builds with overflow checks (the default of
    debug/test builds) and wraps in release builds.  Everything that adds hits is
    parameterised by the mode, and theorems quantify over it. *)
Inductive ovf_mode : Type := Debug | Release.

Definition u32_max : N := 4294967295.
Definition u32_mod : N := 4294967296.

Definition u32_add (m : ovf_mode) (a b : N) : res N :=
  match m with
  | Debug => if a + b <? u32_mod then Ok (a + b) else Panic ROverflow
  | Release => Ok ((a + b) mod u32_mod)
  end.

Definition is_u32 (n : N) : Prop := n < u32_mod.

Lemma u32_add_debug : forall a b c, u32_add Debug a b = Ok c -> c = a + b.
Proof. intros a b c. unfold u32_add. destruct (_ <? _); congruence. Qed.

Lemma u32_add_fits : forall m a b, a + b < u32_mod -> u32_add m a b = Ok (a + b).
Proof.
  intros [] a b H; unfold u32_add.
  - destruct (N.ltb_spec (a + b) u32_mod); [reflexivity|lia].
  - rewrite N.mod_small; auto.
Qed.

Lemma u32_add_range : forall m a b c, u32_add m a b = Ok c -> is_u32 c.
Proof.
  intros [] a b c; unfold u32_add, is_u32.
  - destruct (N.ltb_spec (a + b) u32_mod); intros H0; inversion H0; subst; auto.
  - intros H0; inversion H0. apply N.mod_lt. unfold u32_mod; lia.
Qed.

Lemma u32_add_mod : forall m a b c, u32_add m a b = Ok c -> c mod u32_mod = (a + b) mod u32_mod.
Proof.
  intros [] a b c; unfold u32_add.
  - destruct (_ <? _); intros H; inversion H; auto.
  - intros H; inversion H. apply N.mod_mod. unfold u32_mod; lia.
Qed.

(** ** Decidable equality used as a boolean by the maps *)
Class EqB (K : Type) : Type := {
  eqb : K -> K -> bool;
  eqb_spec : forall a b, eqb a b = true <-> a = b
}.

#[global] Instance EqB_N : EqB N := {| eqb := N.eqb; eqb_spec := N.eqb_eq |}.
#[global] Instance EqB_string : EqB string := {| eqb := String.eqb; eqb_spec := String.eqb_eq |}.

Lemma eqb_refl : forall K (E : EqB K) (a : K), eqb a a = true.
Proof. intros. now apply eqb_spec. Qed.

Lemma eqb_neq : forall K (E : EqB K) (a b : K), eqb a b = false <-> a <> b.
Proof.
  intros. destruct (eqb a b) eqn:H.
  - apply eqb_spec in H. split; congruence.
  - split; auto. intros _ Heq. apply eqb_spec in Heq. congruence.
Qed.

Lemma eqb_dec : forall K (E : EqB K) (a b : K), {a = b} + {a <> b}.
Proof.
  intros. destruct (eqb a b) eqn:H.
  - left. now apply eqb_spec.
  - right. now apply eqb_neq in H.
Qed.

(** ** Sums *)
Definition sumN (l : list N) : N := fold_right N.add 0 l.

Lemma sumN_app : forall a b, sumN (a ++ b)%list = sumN a + sumN b.
Proof. induction a; intros; simpl; auto. rewrite IHa. lia. Qed.

Lemma sumN_cons : forall a l, sumN (a :: l) = a + sumN l.
Proof. reflexivity. Qed.

(** Numbering 0,1,2,... of a list, as [enumerate() as u32] does.  (Lists longer
    than 2^32 are not representable in the real program's memory; the model does
    not truncate.) *)
Fixpoint number_from {A} (i : N) (l : list A) : list (N * A) :=
  match l with
  | [] => []
  | a :: l' => (i, a) :: number_from (i + 1) l'
  end.

Lemma number_from_length : forall A (l : list A) i, length (number_from i l) = length l.
Proof. induction l; simpl; auto. Qed.

Lemma number_from_snd : forall A (l : list A) i, map snd (number_from i l) = l.
Proof. induction l; simpl; intros; auto. now rewrite IHl. Qed.

Lemma number_from_fst : forall A (l : list A) i,
  map fst (number_from i l) = map (fun n => i + N.of_nat n) (seq 0 (length l)).
Proof.
  induction l as [|a l IH]; intros; simpl; auto.
  f_equal; [lia|]. rewrite IH. rewrite <- seq_shift, map_map.
  apply map_ext; intros; lia.
Qed.

Lemma number_from_map : forall A B (f : A -> B) (l : list A) i,
  number_from i (map f l) = map (fun p => (fst p, f (snd p))) (number_from i l).
Proof. induction l; simpl; intros; auto. now rewrite IHl. Qed.

Lemma number_from_app : forall A (l1 l2 : list A) i,
  number_from i (l1 ++ l2) =
  (number_from i l1 ++ number_from (i + N.of_nat (length l1)) l2)%list.
Proof.
  induction l1 as [|a l1 IH]; intros; simpl.
  - f_equal; lia.
  - rewrite IH. do 3 f_equal. lia.
Qed.

Lemma NoDup_map_inj : forall A B (f : A -> B) l,
  (forall x y, In x l -> In y l -> f x = f y -> x = y) -> NoDup l -> NoDup (map f l).
Proof.
  intros A B f l Hinj H. induction H as [|x l Hx H IH]; simpl; constructor.
  - rewrite in_map_iff. intros (y & Hy & Hin).
    assert (y = x) by (apply Hinj; simpl; auto). subst. contradiction.
  - apply IH. intros; apply Hinj; simpl; auto.
Qed.

Lemma number_from_NoDup : forall A (l : list A) i, NoDup (map fst (number_from i l)).
Proof.
  intros. rewrite number_from_fst. apply NoDup_map_inj.
  - intros; lia.
  - apply seq_NoDup.
Qed.

Lemma in_number_from : forall A (l : list A) i p,
  In p (number_from i l) -> i <= fst p /\ fst p < i + N.of_nat (length l) /\ In (snd p) l.
Proof.
  induction l as [|a l IH]; simpl; intros i p H; [tauto|].
  destruct H as [<-|H]; simpl.
  - repeat split; try lia; auto.
  - apply IH in H as (?&?&?). repeat split; auto; lia.
Qed.

Lemma NoDup_app_l : forall A (l1 l2 : list A), NoDup (l1 ++ l2) -> NoDup l1.
Proof.
  induction l1 as [|a l1 IH]; simpl; intros l2 H; constructor; inversion H; subst.
  - rewrite in_app_iff in H2. tauto.
  - eauto.
Qed.

Lemma NoDup_app_r : forall A (l1 l2 : list A), NoDup (l1 ++ l2) -> NoDup l2.
Proof. induction l1 as [|a l1 IH]; simpl; intros l2 H; auto. inversion H; auto. Qed.

Lemma NoDup_app_disj : forall A (l1 l2 : list A) x, NoDup (l1 ++ l2) -> In x l1 -> In x l2 -> False.
Proof.
  induction l1 as [|a l1 IH]; simpl; intros l2 x H Hin Hin2; auto. inversion H; subst.
  destruct Hin as [->|Hin]; eauto. apply H2. rewrite in_app_iff; auto.
Qed.

Lemma NoDup_app_intro : forall A (l1 l2 : list A), NoDup l1 -> NoDup l2 ->
  (forall x, In x l1 -> In x l2 -> False) -> NoDup (l1 ++ l2).
Proof.
  induction l1 as [|a l1 IH]; simpl; intros l2 H1 H2 Hd; auto. inversion H1; subst.
  constructor.
  - rewrite in_app_iff. intros [?|?]; eauto.
  - apply IH; eauto.
Qed.
