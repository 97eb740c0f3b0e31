(** Insertion-ordered maps: the operations of [indexmap::IndexMap] the repo uses.

    The crate is a dependency, so this is a model of its documented behaviour:
    [insert] of a present key keeps the key's position and replaces the value, of
    an absent key appends; [entry().and_modify().or_insert()]; [retain] filters in
    order; [swap_remove_entry] moves the last entry into the hole. *)
From Coq Require Import NArith String List Bool Lia Permutation.
Import ListNotations.
From Verif Require Import Base.

Section IM.
Context {K V : Type} {E : EqB K}.

Definition imap := list (K * V).

Fixpoint im_get (k : K) (m : imap) : option V :=
  match m with
  | [] => None
  | (k', v) :: m' => if eqb k k' then Some v else im_get k m'
  end.

Definition im_has (k : K) (m : imap) : bool :=
  match im_get k m with Some _ => true | None => false end.

(** [IndexMap::insert] *)
Fixpoint im_insert (k : K) (v : V) (m : imap) : imap :=
  match m with
  | [] => [(k, v)]
  | (k', v') :: m' => if eqb k k' then (k', v) :: m' else (k', v') :: im_insert k v m'
  end.

(** [entry(k).and_modify(f).or_insert(v)] where [f] may panic *)
Fixpoint im_upsert (k : K) (f : V -> res V) (v : V) (m : imap) : res imap :=
  match m with
  | [] => Ok [(k, v)]
  | (k', v') :: m' =>
      if eqb k k' then (let* w := f v' in Ok ((k', w) :: m'))
      else (let* m'' := im_upsert k f v m' in Ok ((k', v') :: m''))
  end.

(** [get_mut(k).map(f)] *)
Fixpoint im_update (k : K) (f : V -> V) (m : imap) : imap :=
  match m with
  | [] => []
  | (k', v) :: m' => if eqb k k' then (k', f v) :: m' else (k', v) :: im_update k f m'
  end.

Definition im_keys (m : imap) : list K := map fst m.
Definition im_values (m : imap) : list V := map snd m.

(** [retain] *)
Definition im_retain (p : K -> V -> bool) (m : imap) : imap :=
  filter (fun kv => p (fst kv) (snd kv)) m.

(** [swap_remove_entry]: the last entry takes the removed entry's place. *)
Fixpoint im_replace_with (k : K) (x : K * V) (m : imap) : imap :=
  match m with
  | [] => []
  | (k', v) :: m' => if eqb k k' then x :: m' else (k', v) :: im_replace_with k x m'
  end.

Definition im_swap_remove (k : K) (m : imap) : imap :=
  if im_has k m then
    match rev m with
    | [] => []
    | (kl, vl) :: _ =>
        if eqb k kl then removelast m
        else im_replace_with k (kl, vl) (removelast m)
    end
  else m.

Definition im_wf (m : imap) : Prop := NoDup (im_keys m).

(** ** Lemmas *)

Lemma im_get_in : forall k v m, im_get k m = Some v -> In (k, v) m.
Proof.
  induction m as [|[k' v'] m IH]; simpl; [discriminate|].
  destruct (eqb k k') eqn:H.
  - apply eqb_spec in H; subst. intros H; inversion H; auto.
  - auto.
Qed.

Lemma im_get_None : forall k m, im_get k m = None <-> ~ In k (im_keys m).
Proof.
  induction m as [|[k' v'] m IH]; simpl; [tauto|].
  destruct (eqb k k') eqn:H.
  - apply eqb_spec in H; subst. split; [discriminate|]. intros H; exfalso; auto.
  - apply eqb_neq in H. rewrite IH. split; intros H1.
    + intros [H2|H2]; auto.
    + auto.
Qed.

Lemma im_has_in : forall k m, im_has k m = true <-> In k (im_keys m).
Proof.
  intros. unfold im_has. destruct (im_get k m) eqn:H.
  - split; auto. intros _. apply im_get_in in H.
    unfold im_keys. apply in_map_iff. exists (k, v); auto.
  - apply im_get_None in H. split; [discriminate|contradiction].
Qed.

Lemma im_in_get : forall m, im_wf m -> forall k v, In (k, v) m -> im_get k m = Some v.
Proof.
  induction m as [|[k' v'] m IH]; simpl; intros Hwf k v Hin; [tauto|].
  unfold im_wf in Hwf; simpl in Hwf. inversion Hwf; subst.
  destruct Hin as [Heq|Hin].
  - inversion Heq; subst. now rewrite eqb_refl.
  - destruct (eqb k k') eqn:He.
    + apply eqb_spec in He; subst. exfalso. apply H1.
      unfold im_keys. apply in_map_iff. exists (k', v); auto.
    + apply IH; auto.
Qed.

Lemma im_get_insert : forall k k' v m,
  im_get k (im_insert k' v m) = if eqb k k' then Some v else im_get k m.
Proof.
  induction m as [|[k2 v2] m IH]; simpl.
  - destruct (eqb k k'); auto.
  - destruct (eqb k' k2) eqn:H1; simpl.
    + apply eqb_spec in H1; subst. destruct (eqb k k2) eqn:H2; auto.
    + rewrite IH. destruct (eqb k k2) eqn:H2; auto.
      apply eqb_spec in H2; subst. destruct (eqb k2 k') eqn:H3; auto.
      apply eqb_spec in H3; subst. rewrite eqb_refl in H1. discriminate.
Qed.

Lemma im_keys_insert : forall k v m,
  im_keys (im_insert k v m) = if im_has k m then im_keys m else im_keys m ++ [k].
Proof.
  induction m as [|[k2 v2] m IH]; auto.
  unfold im_has in *. simpl. destruct (eqb k k2) eqn:H1; simpl; auto.
  rewrite IH. destruct (im_get k m); auto.
Qed.

Lemma im_insert_fresh : forall k v m, ~ In k (im_keys m) -> im_insert k v m = m ++ [(k, v)].
Proof.
  induction m as [|[k2 v2] m IH]; simpl; intros H; auto.
  destruct (eqb k k2) eqn:H1.
  - apply eqb_spec in H1; subst. exfalso; auto.
  - rewrite IH; auto.
Qed.

Lemma NoDup_snoc : forall A (l : list A) x, NoDup l -> ~ In x l -> NoDup (l ++ [x]).
Proof.
  induction l as [|a l IH]; simpl; intros x H Hx.
  - constructor; auto.
  - inversion H; subst. constructor.
    + rewrite in_app_iff. simpl. intros [?|[?|?]]; subst; auto.
    + apply IH; auto.
Qed.

Lemma im_wf_insert : forall k v m, im_wf m -> im_wf (im_insert k v m).
Proof.
  intros. unfold im_wf. rewrite im_keys_insert.
  destruct (im_has k m) eqn:H1; auto.
  apply NoDup_snoc; auto. intros H2. apply im_has_in in H2. congruence.
Qed.

Lemma im_update_keys : forall k f m, im_keys (im_update k f m) = im_keys m.
Proof.
  induction m as [|[k2 v2] m IH]; simpl; auto.
  destruct (eqb k k2); simpl; auto. now rewrite IH.
Qed.

Lemma im_get_update : forall k k' f m,
  im_get k (im_update k' f m) = if eqb k k' then option_map f (im_get k m) else im_get k m.
Proof.
  induction m as [|[k2 v2] m IH]; simpl.
  - destruct (eqb k k'); auto.
  - destruct (eqb k' k2) eqn:H1; simpl.
    + apply eqb_spec in H1; subst. destruct (eqb k k2); auto.
    + rewrite IH. destruct (eqb k k2) eqn:H2; auto.
      apply eqb_spec in H2; subst. destruct (eqb k2 k') eqn:H3; auto.
      apply eqb_spec in H3; subst. rewrite eqb_refl in H1. discriminate.
Qed.

Lemma im_keys_retain_incl : forall p m k, In k (im_keys (im_retain p m)) -> In k (im_keys m).
Proof.
  intros p m k. unfold im_keys, im_retain. rewrite !in_map_iff.
  intros (x & Hx & Hin). apply filter_In in Hin as [Hin _]. eauto.
Qed.

Lemma im_wf_retain : forall p m, im_wf m -> im_wf (im_retain p m).
Proof.
  unfold im_wf. induction m as [|[k v] m IH]; simpl; intros H; auto.
  inversion H; subst. destruct (p k v); simpl; auto.
  constructor; auto. intros Hin. apply H2. eapply im_keys_retain_incl; eauto.
Qed.

Lemma im_get_retain : forall p m k, im_wf m ->
  im_get k (im_retain p m) =
  match im_get k m with Some v => if p k v then Some v else None | None => None end.
Proof.
  induction m as [|[k2 v2] m IH]; simpl; intros k Hwf; auto.
  unfold im_wf in Hwf; simpl in Hwf; inversion Hwf; subst.
  destruct (eqb k k2) eqn:H3.
  - apply eqb_spec in H3; subst. destruct (p k2 v2) eqn:Hp; simpl.
    + now rewrite eqb_refl.
    + fold (im_retain p m). apply im_get_None. intros Hin. apply H1.
      eapply im_keys_retain_incl; eauto.
  - destruct (p k2 v2) eqn:Hp; simpl.
    + rewrite H3. apply IH; auto.
    + apply IH; auto.
Qed.

Lemma im_replace_with_perm : forall k x m v,
  im_get k m = Some v -> Permutation ((k, v) :: im_replace_with k x m) (x :: m).
Proof.
  induction m as [|[k2 v2] m IH]; simpl; intros v H; [discriminate|].
  destruct (eqb k k2) eqn:H1.
  - apply eqb_spec in H1; inversion H; subst. apply perm_swap.
  - rewrite perm_swap, (IH _ H). apply perm_swap.
Qed.

Lemma im_get_app : forall k m1 m2,
  im_get k (m1 ++ m2) = match im_get k m1 with Some v => Some v | None => im_get k m2 end.
Proof.
  induction m1 as [|[k2 v2] m1 IH]; simpl; intros; auto. destruct (eqb k k2); auto.
Qed.

(** [swap_remove] removes exactly the entry of the key, up to order. *)
Lemma im_swap_remove_perm : forall k v m, im_wf m ->
  im_get k m = Some v -> Permutation ((k, v) :: im_swap_remove k m) m.
Proof.
  intros k v m Hwf Hget. unfold im_swap_remove.
  assert (Hh : im_has k m = true) by (unfold im_has; now rewrite Hget). rewrite Hh.
  destruct (rev m) as [|[kl vl] r] eqn:Hr.
  { assert (m = []) by (rewrite <- (rev_involutive m), Hr; reflexivity). subst; discriminate. }
  assert (Hm : m = rev r ++ [(kl, vl)]).
  { rewrite <- (rev_involutive m), Hr. reflexivity. }
  rewrite Hm in *. rewrite removelast_last. clear Hr Hm Hh.
  set (m0 := rev r) in *. destruct (eqb k kl) eqn:H1.
  - apply eqb_spec in H1; subst. rewrite im_get_app in Hget.
    destruct (im_get kl m0) eqn:H2.
    + exfalso. unfold im_wf, im_keys in Hwf. rewrite map_app in Hwf. simpl in Hwf.
      apply NoDup_remove_2 in Hwf. apply Hwf. rewrite app_nil_r.
      apply im_get_in in H2. apply in_map_iff. exists (kl, v0); auto.
    + simpl in Hget. rewrite eqb_refl in Hget. inversion Hget; subst.
      apply Permutation_cons_append.
  - rewrite im_get_app in Hget. destruct (im_get k m0) eqn:H2.
    + inversion Hget; subst. rewrite (im_replace_with_perm _ _ _ _ H2).
      apply Permutation_cons_append.
    + simpl in Hget. rewrite H1 in Hget. discriminate.
Qed.

Lemma im_swap_remove_absent : forall k m, im_get k m = None -> im_swap_remove k m = m.
Proof. intros k m H. unfold im_swap_remove, im_has. now rewrite H. Qed.

Lemma im_wf_perm : forall m m', Permutation m m' -> im_wf m -> im_wf m'.
Proof.
  unfold im_wf, im_keys. intros. eapply Permutation_NoDup; [|eassumption].
  now apply Permutation_map.
Qed.

Lemma im_get_perm : forall m m' k, Permutation m m' -> im_wf m -> im_get k m = im_get k m'.
Proof.
  intros m m' k HP Hwf. pose proof (im_wf_perm _ _ HP Hwf) as Hwf'.
  destruct (im_get k m) eqn:H.
  - apply im_get_in in H. symmetry. apply im_in_get; auto.
    eapply Permutation_in; eauto.
  - symmetry. apply im_get_None. apply im_get_None in H. intros Hin. apply H.
    unfold im_keys in *. apply Permutation_sym in HP.
    eapply Permutation_in; [|eassumption]. now apply Permutation_map.
Qed.

Lemma im_swap_remove_wf : forall k m, im_wf m -> im_wf (im_swap_remove k m).
Proof.
  intros k m Hwf. destruct (im_get k m) eqn:H.
  - pose proof (im_swap_remove_perm _ _ _ Hwf H) as HP. apply Permutation_sym in HP.
    apply im_wf_perm in HP; auto. unfold im_wf in *. simpl in HP. now inversion HP.
  - rewrite im_swap_remove_absent; auto.
Qed.

Lemma im_get_swap_remove : forall k k' m, im_wf m ->
  im_get k (im_swap_remove k' m) = if eqb k k' then None else im_get k m.
Proof.
  intros k k' m Hwf. destruct (im_get k' m) eqn:H.
  - pose proof (im_swap_remove_perm _ _ _ Hwf H) as HP.
    pose proof (im_wf_perm _ _ (Permutation_sym HP) Hwf) as Hwf'.
    rewrite <- (im_get_perm _ _ k HP Hwf'). simpl.
    destruct (eqb k k') eqn:H1; auto. apply eqb_spec in H1; subst.
    unfold im_wf in Hwf'; simpl in Hwf'; inversion Hwf'; subst. now apply im_get_None.
  - rewrite im_swap_remove_absent; auto. destruct (eqb k k') eqn:H1; auto.
    apply eqb_spec in H1; subst; auto.
Qed.

End IM.

Arguments imap : clear implicits.

Lemma im_get_map : forall K V W (E : EqB K) (f : K -> V -> W) (m : imap K V) k,
  im_get k (map (fun kv => (fst kv, f (fst kv) (snd kv))) m) = option_map (f k) (im_get k m).
Proof.
  induction m as [|[k2 v2] m IH]; simpl; intros; auto.
  destruct (eqb k k2) eqn:H; simpl; auto.
  apply eqb_spec in H; subst; auto.
Qed.

Lemma im_get_number_from : forall V (l : list V) i n,
  im_get n (number_from i l) =
  if (i <=? n)%N then nth_error l (N.to_nat (n - i)) else None.
Proof.
  induction l as [|v l IH]; intros; simpl.
  - destruct (i <=? n)%N; auto. now destruct (N.to_nat (n - i)).
  - destruct (N.eqb_spec n i).
    + subst. rewrite N.leb_refl, N.sub_diag. reflexivity.
    + rewrite IH. destruct (N.leb_spec (i + 1) n); destruct (N.leb_spec i n); try lia; auto.
      replace (N.to_nat (n - i)) with (S (N.to_nat (n - (i + 1)))) by lia. reflexivity.
Qed.
