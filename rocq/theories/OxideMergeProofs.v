(** Proofs about [fc_merge]. *)
From Coq Require Import NArith String Ascii List Bool Lia Permutation.
Import ListNotations.
From Verif Require Import Base IndexMap Decimal Oxide OxideSpec.
Open Scope N_scope.

(** ** C07: location keys *)
Lemma bar_not_digit : is_digit "|"%char = false.
Proof. reflexivity. Qed.

Lemma key_from_loc_inj : forall a b, key_from_loc a = key_from_loc b -> a = b.
Proof.
  intros [[a1 a2] [a3 a4]] [[b1 b2] [b3 b4]] H. unfold key_from_loc in H; simpl in H.
  apply split_unique with (p := is_digit) in H; auto using dec_digits. destruct H as (H1 & _ & H).
  apply split_unique with (p := is_digit) in H; auto using dec_digits. destruct H as (H2 & _ & H).
  apply split_unique with (p := is_digit) in H; auto using dec_digits. destruct H as (H3 & _ & H4).
  apply dec_inj in H1, H2, H3, H4. subst; auto.
Qed.

Lemma key_eqb : forall a b, String.eqb (key_from_loc a) (key_from_loc b) = range_eqb a b.
Proof.
  intros. destruct (range_eqb a b) eqn:H.
  - apply range_eqb_spec in H; subst. apply String.eqb_refl.
  - apply String.eqb_neq. intros Heq. apply key_from_loc_inj in Heq; subst.
    pose proof (proj2 (range_eqb_spec b b) eq_refl). congruence.
Qed.

(** C07 *)
Theorem key_from_loc_iff : forall a b, key_from_loc a = key_from_loc b <->
  line (rstart a) = line (rstart b) /\ column (rstart a) = column (rstart b) /\
  line (rend a) = line (rend b) /\ column (rend a) = column (rend b).
Proof.
  intros a b. split.
  - intros H. apply key_from_loc_inj in H. subst; auto.
  - intros (H1 & H2 & H3 & H4). unfold key_from_loc. now rewrite H1, H2, H3, H4.
Qed.

(** ** Facts about rows *)
Section Pre.
Context {T H : Type} (loc : T -> option range).

Lemma rows_renumber_gen : forall (vs : list (H * T)) i pre,
  N.of_nat (length pre) = i ->
  flat_map (fun kh =>
    match im_get (fst kh) (number_from 0 (pre ++ map snd vs)) with
    | Some t => match loc t with Some r => [(r, (snd kh, t))] | None => [] end
    | None => []
    end) (number_from i (map fst vs)) =
  flat_map (fun v => match loc (snd v) with Some r => [(r, v)] | None => [] end) vs.
Proof.
  induction vs as [|[h t] vs IH]; intros i pre Hi; simpl; auto.
  rewrite im_get_number_from. simpl.
  rewrite N.sub_0_r. destruct (N.leb_spec 0 i); [|lia].
  replace (N.to_nat i) with (length pre) by lia.
  rewrite nth_error_app2 by lia. rewrite PeanoNat.Nat.sub_diag. simpl.
  f_equal.
  replace (pre ++ t :: map snd vs)%list with ((pre ++ [t]) ++ map snd vs)%list
    by (rewrite <- app_assoc; reflexivity).
  apply IH. rewrite app_length. simpl. lia.
Qed.

Lemma rows_renumber : forall items : imap string (H * T),
  rows loc (fst (merge_renumber items)) (snd (merge_renumber items)) =
  flat_map (fun v => match loc (snd v) with Some r => [(r, v)] | None => [] end)
    (im_values items).
Proof. intros. unfold rows, merge_renumber; simpl. apply (rows_renumber_gen _ 0 []). reflexivity. Qed.
End Pre.

Section Last.
Context {T H : Type} (val : H -> N).

(** The hits of the last row of a location (0 if none). *)
Definition last_hits (rs : list (range * (H * T))) (l : range) : N :=
  fold_left (fun acc r => if range_eqb (fst r) l then val (fst (snd r)) else acc) rs 0.

Lemma last_hits_notin : forall (rs : list (range * (H * T))) l a, ~ In l (map fst rs) ->
  fold_left (fun acc r => if range_eqb (fst r) l then val (fst (snd r)) else acc) rs a = a.
Proof.
  induction rs as [|[r v] rs IH]; intros l a Hni; simpl; auto.
  destruct (range_eqb r l) eqn:E.
  - apply range_eqb_spec in E; subst. exfalso; apply Hni; simpl; auto.
  - apply IH. intros Hin; apply Hni; simpl; auto.
Qed.

Lemma hits_at_notin : forall (rs : list (range * (H * T))) l, ~ In l (map fst rs) -> hits_at val rs l = 0.
Proof.
  induction rs as [|[r v] rs IH]; intros l Hni; auto.
  unfold hits_at; simpl. destruct (range_eqb r l) eqn:E.
  - apply range_eqb_spec in E; subst. exfalso; apply Hni; simpl; auto.
  - apply IH. intros Hin; apply Hni; simpl; auto.
Qed.

Lemma last_hits_unique : forall (rs : list (range * (H * T))) l, NoDup (map fst rs) ->
  last_hits rs l = hits_at val rs l.
Proof.
  induction rs as [|[r v] rs IH]; intros l Hnd; auto.
  simpl in Hnd. inversion Hnd; subst. unfold last_hits, hits_at; simpl.
  destruct (range_eqb r l) eqn:E.
  - apply range_eqb_spec in E; subst. rewrite last_hits_notin by auto. simpl.
    fold (hits_at val rs l). rewrite hits_at_notin by auto. lia.
  - apply IH; auto.
Qed.

End Last.

(** ** The generic merge over rows *)
Section G.
Context {T H : Type} (add : H -> H -> res H) (key : T -> res string) (loc : T -> option range).
Hypothesis key_loc : forall t, key t =
  match loc t with Some r => Ok (key_from_loc r) | None => Panic RIndex end.

Definition ins_rows (items : imap string (H * T)) (rs : list (range * (H * T))) :=
  fold_left (fun m r => im_insert (key_from_loc (fst r)) (snd r) m) rs items.

Definition ups_rows (items : imap string (H * T)) (rs : list (range * (H * T))) :=
  fold_res (fun m r => im_upsert (key_from_loc (fst r))
     (fun pair => let* h := add (fst pair) (fst (snd r)) in Ok (h, snd pair)) (snd r) m) items rs.

Lemma table_ok_cons : forall k (h : H) hits (mp : imap N T),
  table_ok loc ((k, h) :: hits) mp ->
  (exists t r, im_get k mp = Some t /\ loc t = Some r) /\ table_ok loc hits mp.
Proof.
  intros k h hits mp Hok. split.
  - apply Hok. simpl; auto.
  - intros k' Hin. apply Hok. simpl; auto.
Qed.

Lemma loop1_rows : forall mp (hits : imap N H) items, table_ok loc hits mp ->
  fold_res (merge_loop1 key mp) items hits = Ok (ins_rows items (rows loc hits mp)).
Proof.
  induction hits as [|[k h] hits IH]; intros items Hok; simpl; auto.
  apply table_ok_cons in Hok as ((t & r & Ht & Hr) & Hok).
  unfold merge_loop1 at 1. simpl. rewrite Ht. simpl. rewrite key_loc, Hr. simpl.
  rewrite IH; auto.
Qed.

Lemma loop2_rows : forall mp hits items, table_ok loc hits mp ->
  fold_res (merge_loop2 add key mp) items hits = ups_rows items (rows loc hits mp).
Proof.
  induction hits as [|[k h] hits IH]; intros items Hok; simpl; auto.
  apply table_ok_cons in Hok as ((t & r & Ht & Hr) & Hok).
  unfold merge_loop2 at 1. simpl. rewrite Ht. simpl. rewrite key_loc, Hr. simpl.
  unfold ups_rows in *. simpl.
  destruct (im_upsert _ _ _ _); simpl; auto.
Qed.

Lemma merge_gen_rows : forall h1 m1 h2 m2, table_ok loc h1 m1 -> table_ok loc h2 m2 ->
  merge_properties_gen add key h1 m1 h2 m2 =
  (let* items := ups_rows (ins_rows [] (rows loc h1 m1)) (rows loc h2 m2) in
   Ok (merge_renumber items)).
Proof.
  intros. unfold merge_properties_gen. rewrite loop1_rows by auto. simpl.
  now rewrite loop2_rows.
Qed.

(** A counter without metadata, or metadata without location, is a panic. *)
Lemma not_ok_panics : forall (f : imap string (H * T) -> N * H -> res (imap string (H * T))) mp,
  (forall items k h, (forall t r, im_get k mp = Some t -> loc t = Some r -> False) ->
     exists r, f items (k, h) = Panic r) ->
  (forall items kh, f items kh <> OutOfFuel) ->
  forall hits items, (forall t, fold_res f items hits <> Ok t) \/ table_ok loc hits mp.
Proof.
  intros f mp Hf _. induction hits as [|[k h] hits IH]; intros items.
  - right. intros k Hin. simpl in Hin; tauto.
  - destruct (im_get k mp) as [t|] eqn:Ht; [destruct (loc t) as [r|] eqn:Hr|].
    + destruct (f items (k, h)) as [items'| |] eqn:Hs.
      * destruct (IH items') as [Hl|Hr'].
        -- left. intros t0. simpl. rewrite Hs. simpl. apply Hl.
        -- right. intros k' [<-|Hin]; eauto.
      * left. intros t0. simpl. rewrite Hs. discriminate.
      * left. intros t0. simpl. rewrite Hs. discriminate.
    + left. intros t0. simpl. destruct (Hf items k h) as [r Hp].
      { intros t1 r1 H1 H2. congruence. }
      rewrite Hp. discriminate.
    + left. intros t0. simpl. destruct (Hf items k h) as [r Hp].
      { intros; congruence. }
      rewrite Hp. discriminate.
Qed.

Lemma upsert_no_fuel : forall k f v (m : imap string (H * T)),
  (forall x, f x <> OutOfFuel) -> im_upsert k f v m <> OutOfFuel.
Proof.
  induction m as [|[k' v'] m IH]; simpl; intros Hf; [discriminate|].
  destruct (String.eqb k k').
  - destruct (f v') eqn:E; simpl; try discriminate. exfalso; eapply Hf; eauto.
  - destruct (im_upsert k f v m) eqn:E; simpl; try discriminate. exfalso; apply IH; auto.
Qed.

Hypothesis add_no_fuel : forall a b, add a b <> OutOfFuel.

Lemma merge_gen_ok_tables : forall h1 m1 h2 m2 r,
  merge_properties_gen add key h1 m1 h2 m2 = Ok r ->
  table_ok loc h1 m1 /\ table_ok loc h2 m2.
Proof.
  intros h1 m1 h2 m2 r Hr. unfold merge_properties_gen in Hr.
  apply bind_ok in Hr as (it1 & H1 & Hr). apply bind_ok in Hr as (it2 & H2 & _).
  split.
  - destruct (not_ok_panics (merge_loop1 key m1) m1) with (hits := h1) (items := @nil (string * (H * T)))
      as [Hn|]; auto.
    + intros items k h Hno. unfold merge_loop1. simpl.
      destruct (im_get k m1) as [t|] eqn:Ht; simpl; eauto.
      rewrite key_loc. destruct (loc t) eqn:Hl; simpl; eauto. exfalso; eauto.
    + intros items [k h]. unfold merge_loop1. simpl.
      destruct (im_get k m1); simpl; [|discriminate]. rewrite key_loc.
      destruct (loc t); simpl; discriminate.
    + exfalso. eapply Hn; eauto.
  - destruct (not_ok_panics (merge_loop2 add key m2) m2) with (hits := h2) (items := it1)
      as [Hn|]; auto.
    + intros items k h Hno. unfold merge_loop2. simpl.
      destruct (im_get k m2) as [t|] eqn:Ht; simpl; eauto.
      rewrite key_loc. destruct (loc t) eqn:Hl; simpl; eauto. exfalso; eauto.
    + intros items [k h]. unfold merge_loop2. simpl.
      destruct (im_get k m2); simpl; [|discriminate]. rewrite key_loc.
      destruct (loc t); simpl; [|discriminate].
      apply upsert_no_fuel. intros x. destruct (add (fst x) h) eqn:E; simpl; try discriminate.
      exfalso; eapply add_no_fuel; eauto.
    + exfalso. eapply Hn; eauto.
Qed.

(** Invariant of the key map: keys are the keys of the items' locations. *)
Definition keyed (items : imap string (H * T)) : Prop :=
  forall k v, In (k, v) items -> exists r, loc (snd v) = Some r /\ k = key_from_loc r.

Lemma rows_loc : forall (hits : imap N H) mp r, In r (rows loc hits mp) -> loc (snd (snd r)) = Some (fst r).
Proof.
  intros hits mp r Hin. unfold rows in Hin. apply in_flat_map in Hin as ([k h] & _ & Hin).
  simpl in Hin. destruct (im_get k mp) as [t|]; [|contradiction].
  destruct (loc t) eqn:Hl; [|contradiction].
  destruct Hin as [<-|[]]. simpl. auto.
Qed.

Definition rows_ok (rs : list (range * (H * T))) : Prop :=
  forall r, In r rs -> loc (snd (snd r)) = Some (fst r).

Lemma ins_keyed : forall rs items, rows_ok rs -> keyed items -> keyed (ins_rows items rs).
Proof.
  induction rs as [|[r v] rs IH]; intros items Hrs Hk; simpl; auto.
  apply IH.
  - intros x Hx; apply Hrs; simpl; auto.
  - intros k w Hin.
    assert (Hi : forall m k' v', In (k, w) (im_insert k' v' m) ->
              (k = k' /\ w = v') \/ In (k, w) m).
    { clear. induction m as [|[k2 v2] m IHm]; simpl; intros k' v' Hin.
      - destruct Hin as [Heq|[]]. inversion Heq; auto.
      - destruct (String.eqb_spec k' k2).
        + subst. simpl in Hin. destruct Hin as [Heq|Hin]; auto. inversion Heq; auto.
        + simpl in Hin. destruct Hin as [Heq|Hin]; auto. apply IHm in Hin as [|]; auto. }
    apply Hi in Hin as [[-> ->]|Hin].
    + exists r. split; auto. apply (Hrs (r, v)). simpl; auto.
    + eauto.
Qed.

Lemma upsert_split : forall (f : H * T -> res (H * T)) v (m : imap string (H * T)) m' k,
  im_upsert k f v m = Ok m' ->
  (im_get k m = None /\ m' = m ++ [(k, v)]) \/
  (exists w w', im_get k m = Some w /\ f w = Ok w' /\ m' = im_update k (fun _ => w') m).
Proof.
  induction m as [|[k2 v2] m IH]; simpl; intros m' k Hu.
  - inversion Hu; subst. auto.
  - destruct (String.eqb k k2) eqn:He.
    + apply bind_ok in Hu as (w & Hw & Hu). inversion Hu; subst. right. eauto.
    + apply bind_ok in Hu as (m2 & Hm2 & Hu). inversion Hu; subst.
      apply IH in Hm2 as [[H1 ->]|(w & w' & H1 & H2 & ->)].
      * left; auto.
      * right. exists w, w'. auto.
Qed.

Lemma in_update : forall k k0 (w w' : H * T) (m : imap string (H * T)), In (k, w) (im_update k0 (fun _ => w') m) ->
  (k = k0 /\ w = w') \/ In (k, w) m.
Proof.
  induction m as [|[k2 v2] m IH]; simpl; [tauto|].
  destruct (String.eqb_spec k0 k2).
  - subst. intros [Heq|Hin]; auto. inversion Heq; auto.
  - intros [Heq|Hin]; auto. apply IH in Hin as [|]; auto.
Qed.

Lemma ups_keyed : forall rs items items', rows_ok rs -> keyed items ->
  ups_rows items rs = Ok items' -> keyed items'.
Proof.
  induction rs as [|[r v] rs IH]; intros items items' Hrs Hk Hu.
  - inversion Hu; subst; auto.
  - unfold ups_rows in Hu; simpl in Hu. apply bind_ok in Hu as (m & Hm & Hu).
    eapply IH; [| |exact Hu].
    + intros x Hx; apply Hrs; simpl; auto.
    + apply upsert_split in Hm as [[_ ->]|(w & w' & Hget & Hw & ->)]; intros k x Hin.
      * apply in_app_iff in Hin as [Hin|[Heq|[]]]; eauto. inversion Heq; subst.
        exists r; split; auto. apply (Hrs (r, x)); simpl; auto.
      * apply in_update in Hin as [[-> ->]|Hin]; eauto.
        apply bind_ok in Hw as (h & _ & Hw). inversion Hw; subst; simpl.
        apply im_get_in in Hget. apply Hk in Hget. destruct Hget as (r' & ? & ?); eauto.
Qed.

Lemma ins_wf : forall rs items, im_wf items -> im_wf (ins_rows items rs).
Proof. induction rs; simpl; intros; auto. apply IHrs. now apply im_wf_insert. Qed.

Lemma ups_wf : forall rs items items', im_wf items -> ups_rows items rs = Ok items' -> im_wf items'.
Proof.
  induction rs as [|[r v] rs IH]; intros items items' Hk Hu.
  - inversion Hu; subst; auto.
  - unfold ups_rows in Hu; simpl in Hu. apply bind_ok in Hu as (m & Hm & Hu).
    eapply IH; [|exact Hu].
    apply upsert_split in Hm as [[Hn ->]|(w & w' & Hget & Hw & ->)].
    + unfold im_wf, im_keys. rewrite map_app. simpl. apply NoDup_snoc; auto.
      now apply im_get_None.
    + unfold im_wf. rewrite im_update_keys. auto.
Qed.

(** ** Values *)
Section Val.
Context (val : H -> N) (R : N -> N -> Prop).
Hypothesis R_refl : forall x, R x x.
Hypothesis R_trans : forall x y z, R x y -> R y z -> R x z.
Hypothesis R_plus : forall x y z, R x y -> R (x + z) (y + z).
Hypothesis add_val : forall a b c, add a b = Ok c -> R (val c) (val a + val b).

Definition vget (l : range) (items : imap string (H * T)) : N :=
  match im_get (key_from_loc l) items with Some v => val (fst v) | None => 0 end.

(** The hits of the last row of a location (0 if none). *)

Lemma ins_vget_gen : forall rs items l,
  vget l (ins_rows items rs) =
  fold_left (fun acc r => if range_eqb (fst r) l then val (fst (snd r)) else acc) rs (vget l items).
Proof.
  induction rs as [|[r v] rs IH]; intros items l; simpl; auto.
  rewrite IH. f_equal. unfold vget. rewrite im_get_insert. simpl.
  rewrite key_eqb. destruct (range_eqb l r) eqn:E.
  - apply range_eqb_spec in E; subst. now rewrite (proj2 (range_eqb_spec r r) eq_refl).
  - destruct (range_eqb r l) eqn:E2; auto. apply range_eqb_spec in E2; subst.
    rewrite (proj2 (range_eqb_spec l l) eq_refl) in E. discriminate.
Qed.

Lemma ups_vget : forall rs items items' l, ups_rows items rs = Ok items' ->
  R (vget l items') (vget l items + hits_at val rs l).
Proof.
  induction rs as [|[r v] rs IH]; intros items items' l Hu.
  - inversion Hu; subst. unfold hits_at; simpl. rewrite N.add_0_r. auto.
  - unfold ups_rows in Hu; simpl in Hu. apply bind_ok in Hu as (m & Hm & Hu).
    apply (IH _ _ l) in Hu. eapply R_trans; [exact Hu|].
    unfold hits_at; simpl. fold (hits_at val rs l).
    apply upsert_split in Hm as [[Hn ->]|(w & w' & Hget & Hw & ->)].
    + unfold vget. rewrite im_get_app. simpl. rewrite key_eqb.
      destruct (range_eqb r l) eqn:E.
      * apply range_eqb_spec in E; subst. rewrite Hn.
        rewrite (proj2 (range_eqb_spec l l) eq_refl). simpl.
        apply R_refl.
      * destruct (range_eqb l r) eqn:E2.
        { apply range_eqb_spec in E2; subst.
          rewrite (proj2 (range_eqb_spec r r) eq_refl) in E. discriminate. }
        destruct (im_get (key_from_loc l) items); apply R_refl.
    + unfold vget. rewrite im_get_update. simpl. rewrite key_eqb.
      destruct (range_eqb r l) eqn:E.
      * apply range_eqb_spec in E; subst. rewrite Hget.
        rewrite (proj2 (range_eqb_spec l l) eq_refl). simpl.
        apply bind_ok in Hw as (h & Hh & Hw). inversion Hw; subst; simpl.
        apply add_val in Hh. rewrite N.add_assoc. apply R_plus. exact Hh.
      * destruct (range_eqb l r) eqn:E2.
        { apply range_eqb_spec in E2; subst.
          rewrite (proj2 (range_eqb_spec r r) eq_refl) in E. discriminate. }
        destruct (im_get (key_from_loc l) items); apply R_refl.
Qed.

(** Rows of the renumbered output. *)


Lemma rows_keyed : forall (items : imap string (H * T)), keyed items ->
  Forall2 (fun kv r => fst kv = key_from_loc (fst r) /\ snd kv = snd r) items
   (flat_map (fun v => match loc (snd v) with Some r => [(r, v)] | None => [] end)
    (im_values items)).
Proof.
  induction items as [|[k v] items IH]; intros Hk; simpl; [constructor|].
  destruct (Hk k v) as (r & Hr & ->); simpl; auto. rewrite Hr. simpl. constructor.
  - split; reflexivity.
  - apply IH. intros k' v' Hin. apply Hk; simpl; auto.
Qed.

Lemma hits_at_items : forall (items : imap string (H * T)) rs,
  Forall2 (fun kv r => fst kv = key_from_loc (fst r) /\ snd kv = snd r) items rs ->
  im_wf items -> forall l, hits_at val rs l = vget l items.
Proof.
  intros items rs HF. induction HF as [|[k v] [r v'] items rs [Hk Hv] HF IH]; intros Hwf l; auto.
  simpl in Hk, Hv; subst k v'. unfold im_wf in Hwf; simpl in Hwf. inversion Hwf as [|? ? Hni Hwf']; subst.
  unfold hits_at, vget; simpl. rewrite key_eqb.
  destruct (range_eqb r l) eqn:E.
  - apply range_eqb_spec in E; subst. rewrite (proj2 (range_eqb_spec l l) eq_refl). simpl.
    fold (hits_at val rs l). rewrite IH by auto. unfold vget.
    apply im_get_None in Hni. rewrite Hni. lia.
  - destruct (range_eqb l r) eqn:E2.
    { apply range_eqb_spec in E2; subst.
      rewrite (proj2 (range_eqb_spec r r) eq_refl) in E. discriminate. }
    fold (hits_at val rs l). rewrite IH by auto. reflexivity.
Qed.

Lemma empty_keyed : keyed [].
Proof. intros k v []. Qed.

Lemma rows_rows_ok : forall (hits : imap N H) mp, rows_ok (rows loc hits mp).
Proof. intros hits mp r Hin. eapply rows_loc; eauto. Qed.

(** Main per-location law, for arbitrary tables (repeated locations allowed). *)
Lemma merge_gen_hits : forall h1 m1 h2 m2 h m l,
  merge_properties_gen add key h1 m1 h2 m2 = Ok (h, m) ->
  R (hits_at val (rows loc h m) l)
    (last_hits val (rows loc h1 m1) l + hits_at val (rows loc h2 m2) l).
Proof.
  intros h1 m1 h2 m2 h m l Hm.
  destruct (merge_gen_ok_tables _ _ _ _ _ Hm) as [Hok1 Hok2].
  rewrite merge_gen_rows in Hm by auto.
  apply bind_ok in Hm as (items & Hu & Hr).
  assert (Hw : im_wf items).
  { eapply ups_wf; [|exact Hu]. apply ins_wf. constructor. }
  assert (Hk : keyed items).
  { eapply ups_keyed; [| |exact Hu].
    - apply rows_rows_ok.
    - apply ins_keyed; [apply rows_rows_ok|apply empty_keyed]. }
  assert (h = fst (merge_renumber items) /\ m = snd (merge_renumber items)) as [-> ->].
  { inversion Hr as [Hr']. auto. }
  rewrite rows_renumber.
  rewrite (hits_at_items _ _ (rows_keyed _ Hk) Hw).
  eapply R_trans; [apply (ups_vget _ _ _ l Hu)|].
  apply R_plus. rewrite ins_vget_gen. unfold vget; simpl. apply R_refl.
Qed.

(** With distinct locations "last" is "sum". *)



End Val.

(** ** Shape of the output with distinct locations *)
Section Shape.
Context (plus : H -> H -> H) (fits : H -> H -> Prop).
Hypothesis add_fits : forall a b, fits a b -> add a b = Ok (plus a b).

Definition kitems (rs : list (range * (H * T))) : imap string (H * T) :=
  map (fun r => (key_from_loc (fst r), snd r)) rs.

Lemma kitems_get : forall rs l, im_get (key_from_loc l) (kitems rs) = lookup_row l rs.
Proof.
  induction rs as [|[r v] rs IH]; intros l; simpl; auto.
  rewrite key_eqb. unfold lookup_row; simpl.
  destruct (range_eqb l r) eqn:E.
  - apply range_eqb_spec in E; subst. now rewrite (proj2 (range_eqb_spec r r) eq_refl).
  - destruct (range_eqb r l) eqn:E2.
    { apply range_eqb_spec in E2; subst.
      rewrite (proj2 (range_eqb_spec l l) eq_refl) in E. discriminate. }
    apply IH.
Qed.

Lemma kitems_keys_in : forall rs l, In (key_from_loc l) (im_keys (kitems rs)) <-> In l (map fst rs).
Proof.
  induction rs as [|[r v] rs IH]; intros l; simpl; [tauto|]. rewrite IH. split.
  - intros [He|]; auto. apply key_from_loc_inj in He; auto.
  - intros [->|]; auto.
Qed.

Lemma ins_unique_gen : forall rs pre, NoDup (map fst (pre ++ rs)) ->
  ins_rows (kitems pre) rs = kitems (pre ++ rs).
Proof.
  induction rs as [|[r v] rs IH]; intros pre Hnd; simpl.
  - now rewrite app_nil_r.
  - rewrite im_insert_fresh.
    + replace (kitems pre ++ [(key_from_loc r, v)]) with (kitems (pre ++ [(r, v)])).
      * rewrite IH; rewrite <- app_assoc; auto.
      * unfold kitems. rewrite map_app. reflexivity.
    + rewrite kitems_keys_in. rewrite map_app in Hnd. simpl in Hnd.
      apply NoDup_remove_2 in Hnd. rewrite in_app_iff in Hnd. tauto.
Qed.

Lemma ins_unique : forall rs, NoDup (map fst rs) -> ins_rows [] rs = kitems rs.
Proof. intros. apply (ins_unique_gen rs []); auto. Qed.

Lemma existsb_loc : forall (rs : list (range * (H * T))) l,
  existsb (fun q => range_eqb (fst q) l) rs = true <-> In l (map fst rs).
Proof.
  intros. rewrite existsb_exists, in_map_iff. split.
  - intros (x & Hin & He). apply range_eqb_spec in He. eauto.
  - intros (x & He & Hin). exists x. split; auto. now apply range_eqb_spec.
Qed.

Lemma lookup_row_None : forall (rs : list (range * (H * T))) l, lookup_row l rs = None <-> ~ In l (map fst rs).
Proof.
  intros. rewrite <- kitems_get. rewrite im_get_None. now rewrite kitems_keys_in.
Qed.

Lemma lookup_row_app : forall (a b : list (range * (H * T))) l,
  lookup_row l (a ++ b) = match lookup_row l a with Some x => Some x | None => lookup_row l b end.
Proof.
  intros. rewrite <- !kitems_get. unfold kitems. rewrite map_app, im_get_app. reflexivity.
Qed.

Lemma filter_ext_in' : forall A (f g : A -> bool) l, (forall x, In x l -> f x = g x) -> filter f l = filter g l.
Proof.
  induction l as [|a l IH]; simpl; intros Hx; auto.
  rewrite (Hx a) by auto. rewrite IH by auto. auto.
Qed.

Lemma im_update_kitems : forall rs l w,
  NoDup (map fst rs) ->
  im_update (key_from_loc l) (fun _ => w) (kitems rs) =
  kitems (map (fun r => if range_eqb (fst r) l then (fst r, w) else r) rs).
Proof.
  induction rs as [|[r v] rs IH]; intros l w Hnd; simpl; auto.
  simpl in Hnd; inversion Hnd; subst. rewrite key_eqb.
  destruct (range_eqb l r) eqn:E.
  - apply range_eqb_spec in E; subst. rewrite (proj2 (range_eqb_spec r r) eq_refl). simpl.
    f_equal. f_equal. rewrite <- (map_id rs) at 1. apply map_ext_in.
    intros [r2 v2] Hin; simpl. destruct (range_eqb r2 r) eqn:E2; auto.
    apply range_eqb_spec in E2; subst. exfalso. apply H2. apply in_map_iff. exists (r, v2); auto.
  - destruct (range_eqb r l) eqn:E2.
    { apply range_eqb_spec in E2; subst.
      rewrite (proj2 (range_eqb_spec l l) eq_refl) in E. discriminate. }
    simpl. f_equal. apply IH; auto.
Qed.

Lemma spec_merge_rows_locs_in : forall (r1 r2 : list (range * (H * T))) l,
  In l (map fst (spec_merge_rows plus r1 r2)) <-> In l (map fst r1) \/ In l (map fst r2).
Proof.
  intros. unfold spec_merge_rows. rewrite map_app, in_app_iff, map_map.
  assert (Hf : map (fun x : range * (H * T) => fst match lookup_row (fst x) r2 with
     | Some (h2, _) => (fst x, (plus (fst (snd x)) h2, snd (snd x))) | None => x end) r1 = map fst r1).
  { apply map_ext. intros [r v]; simpl. destruct (lookup_row r r2) as [[? ?]|]; auto. }
  rewrite Hf. split.
  - intros [?|Hin]; auto. right. apply in_map_iff in Hin as (x & <- & Hin).
    apply filter_In in Hin as [Hin _]. apply in_map; auto.
  - intros [?|Hin]; auto. destruct (existsb (fun q => range_eqb (fst q) l) r1) eqn:E.
    + left. now apply existsb_loc.
    + right. apply in_map_iff in Hin as (x & <- & Hin). apply in_map_iff. exists x. split; auto.
      apply filter_In. split; auto. now rewrite E.
Qed.

Lemma spec_merge_rows_NoDup : forall r1 r2 : list (range * (H * T)),
  NoDup (map fst r1) -> NoDup (map fst r2) -> NoDup (map fst (spec_merge_rows plus r1 r2)).
Proof.
  intros r1 r2 H1 H2. unfold spec_merge_rows. rewrite map_app, map_map.
  assert (Hf : map (fun x : range * (H * T) => fst match lookup_row (fst x) r2 with
     | Some (h2, _) => (fst x, (plus (fst (snd x)) h2, snd (snd x))) | None => x end) r1 = map fst r1).
  { apply map_ext. intros [r v]; simpl. destruct (lookup_row r r2) as [[? ?]|]; auto. }
  rewrite Hf.
  assert (Hdisj : forall l, In l (map fst r1) ->
     ~ In l (map fst (filter (fun r => negb (existsb (fun q => range_eqb (fst q) (fst r)) r1)) r2))).
  { intros l Hin Hin2. apply in_map_iff in Hin2 as (x & <- & Hin2).
    apply filter_In in Hin2 as [_ Hx]. apply existsb_loc in Hin. rewrite Hin in Hx. discriminate. }
  assert (Hnd2 : NoDup (map fst (filter (fun r => negb (existsb (fun q => range_eqb (fst q) (fst r)) r1)) r2))).
  { clear Hdisj. induction r2 as [|[r v] r2 IH]; simpl; [constructor|].
    simpl in H2. inversion H2; subst.
    assert (IH' : NoDup (map fst (filter (fun r0 => negb (existsb (fun q => range_eqb (fst q) (fst r0)) r1)) r2))).
    { apply IH; auto. apply map_ext. intros [r0 v0]; simpl. destruct (lookup_row r0 r2) as [[? ?]|]; auto. }
    destruct (negb _); simpl; auto. constructor; auto.
    intros Hin. apply H4. apply in_map_iff in Hin as (x & Hx & Hin).
    apply filter_In in Hin as [Hin _]. apply in_map_iff. eauto. }
  revert Hdisj. generalize (map fst (filter (fun r => negb (existsb (fun q => range_eqb (fst q) (fst r)) r1)) r2)) Hnd2.
  clear -H1. induction H1 as [|x l Hx Hl IH]; intros l2 Hnd Hd; simpl; auto.
  constructor.
  - rewrite in_app_iff. intros [?|?]; [contradiction|]. eapply Hd; simpl; eauto.
  - apply IH; auto. intros y Hy. apply Hd. simpl; auto.
Qed.

(** Adding one more row of a new location to the second table. *)
Lemma spec_merge_snoc_old : forall (r1 r2 : list (range * (H * T))) l v h t,
  NoDup (map fst r1) -> ~ In l (map fst r2) -> lookup_row l r1 = Some (h, t) ->
  spec_merge_rows plus r1 (r2 ++ [(l, v)]) =
  map (fun r => if range_eqb (fst r) l then (fst r, (plus h (fst v), t)) else r)
    (spec_merge_rows plus r1 r2).
Proof.
  intros r1 r2 l v h t Hnd Hni Hl. unfold spec_merge_rows. rewrite map_app, map_map. f_equal.
  - apply map_ext_in. intros [r [h0 t0]] Hin. simpl. rewrite lookup_row_app.
    destruct (lookup_row r r2) as [[h2 t2]|] eqn:E2.
    + simpl. destruct (range_eqb r l) eqn:E; auto. apply range_eqb_spec in E; subst.
      exfalso. apply Hni. destruct (in_dec (fun a b => eqb_dec _ _ a b) l (map fst r2)); auto.
      apply lookup_row_None in n. congruence.
    + unfold lookup_row. simpl. destruct (range_eqb l r) eqn:E; simpl.
      * apply range_eqb_spec in E; subst. rewrite (proj2 (range_eqb_spec r r) eq_refl).
        destruct v as [hv tv]. simpl.
        assert (lookup_row r r1 = Some (h0, t0)).
        { rewrite <- kitems_get. apply im_in_get.
          - unfold im_wf, im_keys, kitems. rewrite map_map. simpl.
            rewrite <- map_map. apply NoDup_map_inj; auto. intros; now apply key_from_loc_inj.
          - unfold kitems. apply in_map_iff. exists (r, (h0, t0)); auto. }
        rewrite H0 in Hl; inversion Hl; subst; auto.
      * destruct (range_eqb r l) eqn:E3; auto. apply range_eqb_spec in E3; subst.
        rewrite (proj2 (range_eqb_spec l l) eq_refl) in E. discriminate.
  - rewrite filter_app. simpl.
    assert (Hx : existsb (fun q => range_eqb (fst q) l) r1 = true).
    { apply existsb_loc. destruct (in_dec (fun a b => eqb_dec _ _ a b) l (map fst r1)); auto.
      apply lookup_row_None in n. congruence. }
    rewrite Hx. simpl. rewrite app_nil_r. rewrite <- (map_id (filter _ r2)) at 1.
    apply map_ext_in. intros [r w] Hin. simpl. destruct (range_eqb r l) eqn:E; auto.
    apply range_eqb_spec in E; subst. apply filter_In in Hin as [Hin _].
    exfalso. apply Hni. apply in_map_iff. exists (l, w); auto.
Qed.

Lemma spec_merge_snoc_new : forall (r1 r2 : list (range * (H * T))) l v,
  ~ In l (map fst r1) -> 
  spec_merge_rows plus r1 (r2 ++ [(l, v)]) = spec_merge_rows plus r1 r2 ++ [(l, v)].
Proof.
  intros r1 r2 l v Hni. unfold spec_merge_rows. rewrite <- app_assoc. f_equal.
  - apply map_ext_in. intros [r w] Hin. simpl. rewrite lookup_row_app.
    destruct (lookup_row r r2) as [[h2 t2]|]; auto.
    unfold lookup_row. simpl. destruct (range_eqb l r) eqn:E; simpl; auto.
    apply range_eqb_spec in E; subst. exfalso. apply Hni. apply in_map_iff. exists (r, w); auto.
  - rewrite filter_app. simpl.
    destruct (existsb (fun q => range_eqb (fst q) l) r1) eqn:Hx; simpl; auto.
    apply existsb_loc in Hx. contradiction.
Qed.

Lemma lookup_spec_merge : forall (r1 r2 : list (range * (H * T))) l, NoDup (map fst r1) ->
  lookup_row l (spec_merge_rows plus r1 r2) =
  match lookup_row l r1, lookup_row l r2 with
  | Some (h1, t1), Some (h2, _) => Some (plus h1 h2, t1)
  | Some x, None => Some x
  | None, y => y
  end.
Proof.
  intros r1 r2 l Hnd. unfold spec_merge_rows. rewrite lookup_row_app.
  assert (Hm : lookup_row l (map (fun r => match lookup_row (fst r) r2 with
                | Some (h2, _) => (fst r, (plus (fst (snd r)) h2, snd (snd r)))
                | None => r
                end) r1) =
    match lookup_row l r1, lookup_row l r2 with
    | Some (h1, t1), Some (h2, _) => Some (plus h1 h2, t1)
    | x, _ => x end).
  { clear Hnd. induction r1 as [|[r [h t]] r1 IH]; auto.
    unfold lookup_row in *. simpl.
    destruct (option_map snd (find (fun r0 => range_eqb (fst r0) r) r2)) as [[h2 t2]|] eqn:E2; simpl;
    destruct (range_eqb r l) eqn:E; simpl; auto.
    - apply range_eqb_spec in E; subst. rewrite E2. auto.
    - apply range_eqb_spec in E; subst. rewrite E2. auto. }
  rewrite Hm. destruct (lookup_row l r1) as [[h1 t1]|] eqn:E1.
  - destruct (lookup_row l r2) as [[? ?]|]; auto.
  - apply lookup_row_None in E1. clear Hm.
    induction r2 as [|[r w] r2 IH]; auto. simpl.
    destruct (existsb (fun q => range_eqb (fst q) r) r1) eqn:Hx; simpl.
    + apply existsb_loc in Hx. unfold lookup_row in *. simpl.
      destruct (range_eqb r l) eqn:E; auto.
      apply range_eqb_spec in E; subst. contradiction.
    + unfold lookup_row in *; simpl. destruct (range_eqb r l) eqn:E; auto.
Qed.

Lemma ups_unique_gen : forall rs2 pre (rs1 : list (range * (H * T))),
  NoDup (map fst rs1) -> NoDup (map fst (pre ++ rs2)) ->
  (forall l h1 t1 h2 t2, lookup_row l rs1 = Some (h1, t1) ->
     lookup_row l rs2 = Some (h2, t2) -> fits h1 h2) ->
  ups_rows (kitems (spec_merge_rows plus rs1 pre)) rs2 =
  Ok (kitems (spec_merge_rows plus rs1 (pre ++ rs2))).
Proof.
  induction rs2 as [|[r v] rs2 IH]; intros pre rs1 H1 H2 Hf.
  - rewrite app_nil_r. reflexivity.
  - assert (Hni : ~ In r (map fst pre) /\ ~ In r (map fst rs2)).
    { rewrite map_app in H2. simpl in H2. apply NoDup_remove_2 in H2. rewrite in_app_iff in H2. tauto. }
    destruct Hni as [Hnp Hn2].
    assert (Hnd_pre : NoDup (map fst pre)).
    { rewrite map_app in H2. eapply NoDup_app_l; eauto. }
    unfold ups_rows. simpl fold_res.
    assert (Hstep : im_upsert (key_from_loc r)
       (fun pair => let* h := add (fst pair) (fst v) in Ok (h, snd pair)) v
       (kitems (spec_merge_rows plus rs1 pre)) = Ok (kitems (spec_merge_rows plus rs1 (pre ++ [(r, v)])))).
    { assert (Hu : forall f m, (forall w, im_get (key_from_loc r) m = Some w -> exists w', f w = Ok w') ->
         im_upsert (key_from_loc r) f v m =
         match im_get (key_from_loc r) m with
         | Some w => let* w' := f w in Ok (im_update (key_from_loc r) (fun _ => w') m)
         | None => Ok (m ++ [(key_from_loc r, v)])
         end).
      { clear. induction m as [|[k2 v2] m IH]; simpl; intros Hx; auto.
        destruct (String.eqb (key_from_loc r) k2) eqn:E; auto.
        rewrite IH by auto. destruct (im_get (key_from_loc r) m) as [w|] eqn:E2; simpl; auto.
        destruct (Hx w eq_refl) as [w' Hw]. rewrite Hw. reflexivity. }
      assert (Hg : im_get (key_from_loc r) (kitems (spec_merge_rows plus rs1 pre)) = lookup_row r rs1).
      { rewrite kitems_get, lookup_spec_merge by auto.
        apply lookup_row_None in Hnp. rewrite Hnp. destruct (lookup_row r rs1) as [[? ?]|]; auto. }
      destruct (lookup_row r rs1) as [[h1 t1]|] eqn:E1.
      - assert (Hfit : add h1 (fst v) = Ok (plus h1 (fst v))).
        { apply add_fits. apply (Hf r h1 t1 (fst v) (snd v)); auto.
          unfold lookup_row; simpl. rewrite (proj2 (range_eqb_spec r r) eq_refl). simpl. now destruct v. }
        rewrite Hu.
        + rewrite Hg. simpl. rewrite Hfit. simpl.
          rewrite im_update_kitems by (apply spec_merge_rows_NoDup; auto).
          rewrite (spec_merge_snoc_old _ _ _ _ h1 t1); auto.
        + rewrite Hg. intros w Hw. inversion Hw; subst; simpl. rewrite Hfit. simpl. eauto.
      - rewrite Hu.
        + rewrite Hg. rewrite spec_merge_snoc_new.
          * unfold kitems. rewrite map_app. reflexivity.
          * now apply lookup_row_None.
        + rewrite Hg. discriminate. }
    rewrite Hstep. simpl. fold (ups_rows (kitems (spec_merge_rows plus rs1 (pre ++ [(r, v)]))) rs2).
    rewrite IH.
    + rewrite <- app_assoc. reflexivity.
    + auto.
    + rewrite <- app_assoc. auto.
    + intros l h1 t1 h2 t2 Ha Hb. apply (Hf l h1 t1 h2 t2); auto.
      unfold lookup_row in *. simpl. destruct (range_eqb r l) eqn:E; auto.
      apply range_eqb_spec in E; subst. exfalso. apply Hn2.
      destruct (in_dec (fun a b => eqb_dec _ _ a b) l (map fst rs2)); auto.
      apply lookup_row_None in n. unfold lookup_row in n. congruence.
Qed.

Lemma spec_merge_nil : forall r1 : list (range * (H * T)), spec_merge_rows plus r1 [] = r1.
Proof.
  intros. unfold spec_merge_rows. simpl. rewrite app_nil_r.
  rewrite <- (map_id r1) at 2. apply map_ext. intros [? ?]; reflexivity.
Qed.

(** Full characterisation of the merged tables for distinct locations. *)
Lemma merge_gen_shape : forall h1 m1 h2 m2,
  table_ok loc h1 m1 -> table_ok loc h2 m2 ->
  NoDup (map fst (rows loc h1 m1)) -> NoDup (map fst (rows loc h2 m2)) ->
  (forall l x t1 y t2, lookup_row l (rows loc h1 m1) = Some (x, t1) ->
     lookup_row l (rows loc h2 m2) = Some (y, t2) -> fits x y) ->
  let out := map snd (spec_merge_rows plus (rows loc h1 m1) (rows loc h2 m2)) in
  merge_properties_gen add key h1 m1 h2 m2 =
  Ok (number_from 0 (map fst out), number_from 0 (map snd out)).
Proof.
  intros h1 m1 h2 m2 Ho1 Ho2 Hn1 Hn2 Hf out. rewrite merge_gen_rows by auto.
  rewrite ins_unique by auto.
  pose proof (ups_unique_gen (rows loc h2 m2) [] (rows loc h1 m1) Hn1 Hn2 Hf) as Hu.
  rewrite spec_merge_nil in Hu. rewrite Hu. simpl.
  unfold merge_renumber, im_values, kitems. rewrite !map_map. simpl.
  unfold out. rewrite !map_map. reflexivity.
Qed.

Lemma rows_numbered : forall (rs : list (range * (H * T))), rows_ok rs ->
  rows loc (number_from 0 (map fst (map snd rs))) (number_from 0 (map snd (map snd rs))) = rs.
Proof.
  intros rs Hrs. 
  pose proof (rows_renumber_gen loc (map snd rs) 0 [] eq_refl) as Hx. simpl in Hx.
  unfold rows. rewrite Hx. clear Hx.
  induction rs as [|[r v] rs IH]; simpl; auto.
  pose proof (Hrs (r, v) (or_introl eq_refl)) as Hr. simpl in Hr. rewrite Hr. simpl. f_equal.
  apply IH. intros x Hx. apply Hrs; simpl; auto.
Qed.

Lemma spec_merge_rows_ok : forall r1 r2 : list (range * (H * T)), rows_ok r1 -> rows_ok r2 -> rows_ok (spec_merge_rows plus r1 r2).
Proof.
  intros r1 r2 Hr1 Hr2 x Hx. unfold spec_merge_rows in Hx. apply in_app_iff in Hx as [Hx|Hx].
  - apply in_map_iff in Hx as ([r [h t]] & <- & Hin). simpl.
    apply Hr1 in Hin. simpl in Hin. destruct (lookup_row r r2) as [[h2 t2]|]; auto.
  - apply filter_In in Hx as [Hx _]. auto.
Qed.

End Shape.
End G.
