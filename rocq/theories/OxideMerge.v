(** Theorems about [FileCoverage::merge] (claims C01-C07). *)
From Coq Require Import PeanoNat NArith String Ascii List Bool Lia Permutation.
Import ListNotations.
From Verif Require Import Base IndexMap Decimal Oxide OxideSpec OxideMergeProofs.
Open Scope N_scope.

(** ** Adding path counters *)
Lemma u32_add_no_fuel : forall m a b, u32_add m a b <> OutOfFuel.
Proof. intros [] a b; unfold u32_add; [destruct (_ <? _)|]; discriminate. Qed.

Lemma vec_add_in_no_fuel : forall m a b, vec_add_in m a b <> OutOfFuel.
Proof.
  induction a as [|x a IH]; intros [|y b]; simpl; try discriminate.
  destruct (u32_add m x y) eqn:E; simpl; try discriminate.
  - destruct (vec_add_in m a b) eqn:E2; simpl; try discriminate. exfalso; eapply IH; eauto.
  - exfalso; eapply u32_add_no_fuel; eauto.
Qed.

Lemma vec_add_no_fuel : forall m a b, vec_add m a b <> OutOfFuel.
Proof. intros. apply vec_add_in_no_fuel. Qed.

Lemma nth_resize : forall l n j, nth j (vec_resize l n) 0 = nth j l 0.
Proof.
  intros. unfold vec_resize. destruct (PeanoNat.Nat.lt_ge_cases j (length l)).
  - rewrite app_nth1; auto.
  - rewrite app_nth2 by auto. rewrite (nth_overflow l) by auto. apply nth_repeat.
Qed.

Lemma vec_add_in_nth : forall m (R : N -> N -> Prop), (forall x, R x x) ->
  (forall x y z, u32_add m x y = Ok z -> R z (x + y)) ->
  forall a b c, vec_add_in m a b = Ok c ->
  forall j, R (nth j c 0) (nth j a 0 + nth j b 0).
Proof.
  intros m R Rr HR. induction a as [|x a IH]; intros [|y b] c Hv j; simpl in Hv; try discriminate.
  - inversion Hv; subst. destruct j; simpl; rewrite ?N.add_0_r; auto.
  - inversion Hv; subst. replace (nth j [] 0) with 0 by (destruct j; auto). rewrite N.add_0_r; auto.
  - apply bind_ok in Hv as (z & Hz & Hv). apply bind_ok in Hv as (r & Hr & Hv). inversion Hv; subst.
    destruct j; simpl; auto.
Qed.

Lemma vec_add_nth : forall m (R : N -> N -> Prop), (forall x, R x x) ->
  (forall x y z, u32_add m x y = Ok z -> R z (x + y)) ->
  forall a b c, vec_add m a b = Ok c ->
  forall j, R (nth j c 0) (nth j a 0 + nth j b 0).
Proof.
  intros m R Rr HR a b c Hv j. unfold vec_add in Hv.
  eapply vec_add_in_nth in Hv; eauto. instantiate (1 := j) in Hv.
  destruct (length a <? length b)%nat; auto. now rewrite nth_resize in Hv.
Qed.

Lemma vec_add_fits : forall m a b, (forall j, nth j a 0 + nth j b 0 < u32_mod) ->
  vec_add m a b = Ok (zip_plus a b).
Proof.
  intros m a b Hf. unfold vec_add.
  assert (Hgen : forall a b, (forall j, nth j a 0 + nth j b 0 < u32_mod) ->
     vec_add_in m (if (length a <? length b)%nat then vec_resize a (length b) else a) b
     = Ok (zip_plus a b)).
  { clear. induction a as [|x a IH]; intros b Hf.
    - simpl. destruct b as [|y b]; auto.
      replace (0 <? length (y :: b))%nat with true by (symmetry; apply PeanoNat.Nat.ltb_lt; simpl; lia).
      unfold vec_resize. simpl length. rewrite PeanoNat.Nat.sub_0_r. simpl repeat.
      assert (Hrep : forall l, (forall j, nth j l 0 < u32_mod) ->
                vec_add_in m (repeat 0 (length l)) l = Ok l).
      { clear. induction l as [|z l IH]; intros Hl; auto. simpl.
        rewrite u32_add_fits by (specialize (Hl 0%nat); simpl in Hl; lia). simpl.
        rewrite IH; auto. intros j. apply (Hl (S j)). }
      apply (Hrep (y :: b)). intros j. specialize (Hf j). destruct j; simpl in *; lia.
    - destruct b as [|y b]; auto. simpl length. rewrite (PeanoNat.Nat.ltb_compare).
      simpl PeanoNat.Nat.compare. rewrite <- PeanoNat.Nat.ltb_compare.
      specialize (IH b). 
      assert (Hf' : forall j, nth j a 0 + nth j b 0 < u32_mod) by (intros j; apply (Hf (S j))).
      specialize (IH Hf').
      destruct (length a <? length b)%nat; simpl;
        rewrite u32_add_fits by (apply (Hf 0%nat)); simpl.
      + unfold vec_resize in IH. rewrite IH. reflexivity.
      + rewrite IH. reflexivity. }
  apply Hgen; auto.
Qed.

Lemma zip_plus_nth : forall a b j, nth j (zip_plus a b) 0 = nth j a 0 + nth j b 0.
Proof.
  induction a as [|x a IH]; intros [|y b] j; simpl.
  - destruct j; auto.
  - destruct j; auto.
  - destruct j; rewrite N.add_0_r; auto.
  - destruct j; simpl; auto.
Qed.

Lemma zip_plus_length : forall a b, length (zip_plus a b) = Nat.max (length a) (length b).
Proof. induction a as [|x a IH]; intros [|y b]; simpl; auto. Qed.

(** ** Instances of the generic development *)
Definition k_stmt (r : range) : res string := Ok (key_from_loc r).
Definition k_fn (f : func) : res string := Ok (key_from_loc (f_loc f)).

Lemma k_stmt_loc : forall t, k_stmt t =
  match stmt_loc t with Some r => Ok (key_from_loc r) | None => Panic RIndex end.
Proof. reflexivity. Qed.
Lemma k_fn_loc : forall t, k_fn t =
  match fn_loc t with Some r => Ok (key_from_loc r) | None => Panic RIndex end.
Proof. reflexivity. Qed.
Lemma k_br_loc : forall t, branch_key t =
  match br_loc t with Some r => Ok (key_from_loc r) | None => Panic RIndex end.
Proof. intros t. unfold branch_key, br_loc. destruct (b_locations t); reflexivity. Qed.

Lemma merge_unfold : forall m a b r, fc_all a = false -> fc_all b = false ->
  fc_merge m a b = Ok r ->
  fc_all r = false /\ fc_path r = fc_path a /\ fc_input_source_map r = fc_input_source_map a /\
  merge_properties m k_stmt (fc_s a) (fc_statement_map a) (fc_s b) (fc_statement_map b)
    = Ok (fc_s r, fc_statement_map r) /\
  merge_properties m k_fn (fc_f a) (fc_fn_map a) (fc_f b) (fc_fn_map b)
    = Ok (fc_f r, fc_fn_map r) /\
  merge_properties_hits_vec m branch_key (fc_b a) (fc_branch_map a) (fc_b b) (fc_branch_map b)
    = Ok (fc_b r, fc_branch_map r) /\
  match fc_b_t a, fc_b_t b with
  | Some x, Some y => exists bt bm,
      merge_properties_hits_vec m branch_key x (fc_branch_map r) y (fc_branch_map b) = Ok (bt, bm)
      /\ fc_b_t r = Some bt
  | _, _ => fc_b_t r = fc_b_t a
  end.
Proof.
  intros m a b r Ha Hb Hm. unfold fc_merge in Hm. rewrite Ha, Hb in Hm.
  apply bind_ok in Hm as ([s sm] & Hs & Hm).
  apply bind_ok in Hm as ([f fm] & Hf & Hm).
  apply bind_ok in Hm as ([bb bm] & Hbb & Hm).
  apply bind_ok in Hm as (bt & Hbt & Hm). inversion Hm; subst; simpl; clear Hm.
  repeat split; auto.
  destruct (fc_b_t a) as [x|], (fc_b_t b) as [y|]; try (inversion Hbt; auto; fail).
  apply bind_ok in Hbt as ([bt' bm'] & H1 & H2). inversion H2; subst. eauto.
Qed.

(** ** C01: hits add up, location by location *)
Definition cong32 (x y : N) : Prop := x mod u32_mod = y mod u32_mod.

Lemma cong32_plus : forall x y z, cong32 x y -> cong32 (x + z) (y + z).
Proof.
  unfold cong32. intros x y z Hxy.
  rewrite <- (N.add_mod_idemp_l x), <- (N.add_mod_idemp_l y) by (unfold u32_mod; lia). now rewrite Hxy.
Qed.

(** The exact law, for arbitrary records: what a location's hits become.  The first
    record contributes only its LAST row of a location, the second contributes all. *)
Definition stmt_last (fc : file_coverage) (l : range) : N := last_hits (fun h => h) (stmt_rows fc) l.
Definition fn_last (fc : file_coverage) (l : range) : N := last_hits (fun h => h) (fn_rows fc) l.
Definition path_last (fc : file_coverage) (l : range) (j : nat) : N :=
  last_hits (fun v => nth j v 0) (branch_rows fc) l.

Lemma merge_exact_R : forall m (R : N -> N -> Prop),
  (forall x, R x x) -> (forall x y z, R x y -> R y z -> R x z) ->
  (forall x y z, R x y -> R (x + z) (y + z)) ->
  (forall x y z, u32_add m x y = Ok z -> R z (x + y)) ->
  forall a b r, fc_all a = false -> fc_all b = false -> fc_merge m a b = Ok r ->
  (forall l, R (stmt_hits r l) (stmt_last a l + stmt_hits b l)) /\
  (forall l, R (fn_hits r l) (fn_last a l + fn_hits b l)) /\
  (forall l j, R (path_hits r l j) (path_last a l j + path_hits b l j)).
Proof.
  intros m R R1 R2 R3 R4 a b r Ha Hb Hm.
  destruct (merge_unfold _ _ _ _ Ha Hb Hm) as (_ & _ & _ & Hs & Hf & Hbr & _).
  repeat split.
  - intros l. unfold stmt_hits, stmt_last, stmt_rows.
    eapply (merge_gen_hits (u32_add m) k_stmt stmt_loc k_stmt_loc (u32_add_no_fuel m)
      (fun h => h) R R1 R2 R3 R4); eauto.
  - intros l. unfold fn_hits, fn_last, fn_rows.
    eapply (merge_gen_hits (u32_add m) k_fn fn_loc k_fn_loc (u32_add_no_fuel m)
      (fun h => h) R R1 R2 R3 R4); eauto.
  - intros l j. unfold path_hits, path_last, branch_rows.
    eapply (merge_gen_hits (vec_add m) branch_key br_loc k_br_loc (vec_add_no_fuel m)
      (fun v => nth j v 0) R R1 R2 R3); eauto.
    intros x y z Hz. eapply vec_add_nth; eauto.
Qed.

(** Claim C04, the law that does hold for arbitrary records in a debug build. *)
Theorem merge_exact : forall a b r, fc_all a = false -> fc_all b = false ->
  fc_merge Debug a b = Ok r ->
  (forall l, stmt_hits r l = stmt_last a l + stmt_hits b l) /\
  (forall l, fn_hits r l = fn_last a l + fn_hits b l) /\
  (forall l j, path_hits r l j = path_last a l j + path_hits b l j).
Proof.
  intros. eapply (merge_exact_R Debug eq); eauto using u32_add_debug; intros; congruence.
Qed.

Theorem merge_exact_release : forall a b r, fc_all a = false -> fc_all b = false ->
  fc_merge Release a b = Ok r ->
  (forall l, cong32 (stmt_hits r l) (stmt_last a l + stmt_hits b l)) /\
  (forall l, cong32 (fn_hits r l) (fn_last a l + fn_hits b l)) /\
  (forall l j, cong32 (path_hits r l j) (path_last a l j + path_hits b l j)).
Proof.
  intros. eapply (merge_exact_R Release cong32); eauto using cong32_plus.
  - reflexivity.
  - unfold cong32; congruence.
  - intros. unfold cong32. eapply u32_add_mod; eauto.
Qed.

Theorem merge_adds_hits : forall a b r, fc_all a = false -> fc_all b = false ->
  locs_unique a -> fc_merge Debug a b = Ok r ->
  (forall l, stmt_hits r l = stmt_hits a l + stmt_hits b l) /\
  (forall l, fn_hits r l = fn_hits a l + fn_hits b l) /\
  (forall l j, path_hits r l j = path_hits a l j + path_hits b l j).
Proof.
  intros a b r Ha Hb (Hu1 & Hu2 & Hu3) Hm.
  destruct (merge_exact _ _ _ Ha Hb Hm) as (H1 & H2 & H3).
  repeat split; intros.
  - rewrite H1. unfold stmt_last, stmt_hits. now rewrite last_hits_unique.
  - rewrite H2. unfold fn_last, fn_hits. now rewrite last_hits_unique.
  - rewrite H3. unfold path_last, path_hits. now rewrite last_hits_unique.
Qed.

Theorem merge_adds_hits_release : forall a b r, fc_all a = false -> fc_all b = false ->
  locs_unique a -> fc_merge Release a b = Ok r ->
  (forall l, cong32 (stmt_hits r l) (stmt_hits a l + stmt_hits b l)) /\
  (forall l, cong32 (fn_hits r l) (fn_hits a l + fn_hits b l)) /\
  (forall l j, cong32 (path_hits r l j) (path_hits a l j + path_hits b l j)).
Proof.
  intros a b r Ha Hb (Hu1 & Hu2 & Hu3) Hm.
  destruct (merge_exact_release _ _ _ Ha Hb Hm) as (H1 & H2 & H3).
  repeat split; intros.
  - specialize (H1 l). unfold stmt_last in H1. rewrite last_hits_unique in H1; auto.
  - specialize (H2 l). unfold fn_last in H2. rewrite last_hits_unique in H2; auto.
  - specialize (H3 l j). unfold path_last in H3. rewrite last_hits_unique in H3; auto.
Qed.

(** ** C02: when does merge return, and what exactly *)

(** merge never returns if a counter has no metadata or a branch no location. *)
Theorem merge_ok_tables : forall m a b r, fc_all a = false -> fc_all b = false ->
  fc_merge m a b = Ok r -> tables_ok a /\ tables_ok b.
Proof.
  intros m a b r Ha Hb Hm.
  destruct (merge_unfold _ _ _ _ Ha Hb Hm) as (_ & _ & _ & Hs & Hf & Hbr & _).
  apply (merge_gen_ok_tables _ _ stmt_loc k_stmt_loc (u32_add_no_fuel m)) in Hs as [? ?].
  apply (merge_gen_ok_tables _ _ fn_loc k_fn_loc (u32_add_no_fuel m)) in Hf as [? ?].
  apply (merge_gen_ok_tables _ _ br_loc k_br_loc (vec_add_no_fuel m)) in Hbr as [? ?].
  unfold tables_ok; auto.
Qed.

Lemma lookup_hits_at : forall T H (val : H -> N) (rs : list (range * (H * T))) l h t,
  NoDup (map fst rs) -> lookup_row l rs = Some (h, t) -> hits_at val rs l = val h.
Proof.
  induction rs as [|[r [h0 t0]] rs IH]; intros l h t Hnd Hl; [discriminate|].
  simpl in Hnd; inversion Hnd; subst. unfold lookup_row in Hl; simpl in Hl.
  unfold hits_at; simpl. destruct (range_eqb r l) eqn:E; simpl in *.
  - apply range_eqb_spec in E; subst. inversion Hl; subst.
    fold (hits_at val rs l). rewrite hits_at_notin by auto. lia.
  - apply (IH l h t); auto.
Qed.

Definition merged_rows_s a b := spec_merge_rows N.add (stmt_rows a) (stmt_rows b).
Definition merged_rows_f a b := spec_merge_rows N.add (fn_rows a) (fn_rows b).
Definition merged_rows_b a b := spec_merge_rows zip_plus (branch_rows a) (branch_rows b).

(** The record merge returns, written out: rows of the first record in order with the
    second's hits added, then the second's new rows; ids 0..n-1. *)
Definition spec_merge (a b : file_coverage) (bt : option branch_hit_map) : file_coverage :=
  mkFC false (fc_path a)
    (number_from 0 (map (fun r => snd (snd r)) (merged_rows_s a b)))
    (number_from 0 (map (fun r => snd (snd r)) (merged_rows_f a b)))
    (number_from 0 (map (fun r => snd (snd r)) (merged_rows_b a b)))
    (number_from 0 (map (fun r => fst (snd r)) (merged_rows_s a b)))
    (number_from 0 (map (fun r => fst (snd r)) (merged_rows_f a b)))
    (number_from 0 (map (fun r => fst (snd r)) (merged_rows_b a b)))
    bt (fc_input_source_map a).

Lemma merge_parts : forall m a b, tables_ok a -> tables_ok b -> locs_unique a -> locs_unique b ->
  merge_fits a b ->
  merge_properties m k_stmt (fc_s a) (fc_statement_map a) (fc_s b) (fc_statement_map b)
    = Ok (fc_s (spec_merge a b None), fc_statement_map (spec_merge a b None)) /\
  merge_properties m k_fn (fc_f a) (fc_fn_map a) (fc_f b) (fc_fn_map b)
    = Ok (fc_f (spec_merge a b None), fc_fn_map (spec_merge a b None)) /\
  merge_properties_hits_vec m branch_key (fc_b a) (fc_branch_map a) (fc_b b) (fc_branch_map b)
    = Ok (fc_b (spec_merge a b None), fc_branch_map (spec_merge a b None)).
Proof.
  intros m a b (Ta1 & Ta2 & Ta3) (Tb1 & Tb2 & Tb3) (Ua1 & Ua2 & Ua3) (Ub1 & Ub2 & Ub3) (F1 & F2 & F3).
  unfold spec_merge; simpl. repeat split.
  - unfold merge_properties.
    rewrite (merge_gen_shape (u32_add m) k_stmt stmt_loc k_stmt_loc
      N.add (fun x y => x + y < u32_mod) (u32_add_fits m)); auto.
    + rewrite !map_map. reflexivity.
    + intros l x t1 y t2 H1 H2. specialize (F1 l).
      rewrite (lookup_hits_at _ _ _ _ _ _ _ Ua1 H1), (lookup_hits_at _ _ _ _ _ _ _ Ub1 H2) in F1. auto.
  - unfold merge_properties.
    rewrite (merge_gen_shape (u32_add m) k_fn fn_loc k_fn_loc
      N.add (fun x y => x + y < u32_mod) (u32_add_fits m)); auto.
    + rewrite !map_map. reflexivity.
    + intros l x t1 y t2 H1 H2. specialize (F2 l).
      rewrite (lookup_hits_at _ _ _ _ _ _ _ Ua2 H1), (lookup_hits_at _ _ _ _ _ _ _ Ub2 H2) in F2. auto.
  - unfold merge_properties_hits_vec.
    rewrite (merge_gen_shape (vec_add m) branch_key br_loc k_br_loc
      zip_plus (fun x y => forall j, nth j x 0 + nth j y 0 < u32_mod) (vec_add_fits m)); auto.
    + rewrite !map_map. reflexivity.
    + intros l x t1 y t2 H1 H2 j. specialize (F3 j l).
      rewrite (lookup_hits_at _ _ _ _ _ _ _ Ua3 H1), (lookup_hits_at _ _ _ _ _ _ _ Ub3 H2) in F3. auto.
Qed.

Theorem merge_shape : forall m a b, fc_all a = false -> fc_all b = false ->
  tables_ok a -> tables_ok b -> locs_unique a -> locs_unique b -> merge_fits a b ->
  fc_b_t a = None \/ fc_b_t b = None ->
  fc_merge m a b = Ok (spec_merge a b (fc_b_t a)).
Proof.
  intros m a b Ha Hb Ta Tb Ua Ub F Hbt.
  destruct (merge_parts m a b Ta Tb Ua Ub F) as (P1 & P2 & P3).
  unfold fc_merge. rewrite Ha, Hb.
  fold k_stmt. change (fun fn : func => Ok (key_from_loc (f_loc fn))) with k_fn.
  change (fun r : range => Ok (key_from_loc r)) with k_stmt.
  rewrite P1; simpl. rewrite P2; simpl. rewrite P3; simpl.
  unfold spec_merge.
  destruct Hbt as [-> | ->]; simpl; auto. destruct (fc_b_t a); auto.
Qed.

(** In a release build well-formed tables always merge (no truthiness tables). *)
Lemma upsert_total : forall (V : Type) k (f : V -> res V) v (m : imap string V),
  (forall x, exists y, f x = Ok y) -> exists m', im_upsert k f v m = Ok m'.
Proof.
  induction m as [|[k' v'] m IH]; simpl; intros Hf; eauto.
  destruct (String.eqb k k').
  - destruct (Hf v') as [y Hy]. rewrite Hy. simpl. eauto.
  - destruct (IH Hf) as [m' Hm]. rewrite Hm. simpl. eauto.
Qed.

Lemma ups_total : forall T H (add : H -> H -> res H), (forall a b, exists c, add a b = Ok c) ->
  forall (rs : list (range * (H * T))) items, exists items', ups_rows add items rs = Ok items'.
Proof.
  intros T H add Hadd. induction rs as [|r rs IH]; intros items; [exists items; reflexivity|].
  unfold ups_rows. simpl.
  destruct (upsert_total _ (key_from_loc (fst r))
     (fun pair => let* h := add (fst pair) (fst (snd r)) in Ok (h, snd pair)) (snd r) items) as [m' Hm].
  { intros [h t]. destruct (Hadd h (fst (snd r))) as [c Hc]. simpl. rewrite Hc. simpl. eauto. }
  rewrite Hm. simpl. apply IH.
Qed.

Lemma u32_add_release : forall a b, exists c, u32_add Release a b = Ok c.
Proof. intros. simpl. eauto. Qed.

Lemma vec_add_release : forall a b, exists c, vec_add Release a b = Ok c.
Proof.
  intros a b. unfold vec_add.
  assert (Hg : forall p it, (length it <= length p)%nat -> exists c, vec_add_in Release p it = Ok c).
  { induction p as [|x p IH]; intros [|y it] Hl; simpl in *; eauto; try lia.
    destruct (IH it) as [c Hc]; [lia|]. rewrite Hc. simpl. eauto. }
  apply Hg. destruct (PeanoNat.Nat.ltb_spec (length a) (length b)); auto.
  unfold vec_resize. rewrite app_length, repeat_length. lia.
Qed.

Theorem merge_total_release : forall a b, fc_all a = false -> fc_all b = false ->
  tables_ok a -> tables_ok b -> fc_b_t a = None \/ fc_b_t b = None ->
  exists r, fc_merge Release a b = Ok r.
Proof.
  intros a b Ha Hb (Ta1 & Ta2 & Ta3) (Tb1 & Tb2 & Tb3) Hbt.
  unfold fc_merge. rewrite Ha, Hb.
  change (fun fn : func => Ok (key_from_loc (f_loc fn))) with k_fn.
  change (fun r : range => Ok (key_from_loc r)) with k_stmt.
  unfold merge_properties, merge_properties_hits_vec.
  rewrite (merge_gen_rows _ _ stmt_loc k_stmt_loc) by auto.
  destruct (ups_total _ _ _ u32_add_release (rows stmt_loc (fc_s b) (fc_statement_map b))
     (ins_rows [] (rows stmt_loc (fc_s a) (fc_statement_map a)))) as [i1 ->]. simpl.
  rewrite (merge_gen_rows _ _ fn_loc k_fn_loc) by auto.
  destruct (ups_total _ _ _ u32_add_release (rows fn_loc (fc_f b) (fc_fn_map b))
     (ins_rows [] (rows fn_loc (fc_f a) (fc_fn_map a)))) as [i2 ->]. simpl.
  rewrite (merge_gen_rows _ _ br_loc k_br_loc) by auto.
  destruct (ups_total _ _ _ vec_add_release (rows br_loc (fc_b b) (fc_branch_map b))
     (ins_rows [] (rows br_loc (fc_b a) (fc_branch_map a)))) as [i3 ->]. simpl.
  destruct Hbt as [-> | ->]; simpl; eauto. destruct (fc_b_t a); simpl; eauto.
Qed.

(** The rows of the merged record are the merged rows, so it is well-formed again. *)
Lemma spec_merge_rows_eq : forall a b bt,
  stmt_rows (spec_merge a b bt) = merged_rows_s a b /\
  fn_rows (spec_merge a b bt) = merged_rows_f a b /\
  branch_rows (spec_merge a b bt) = merged_rows_b a b.
Proof.
  intros. unfold stmt_rows, fn_rows, branch_rows, spec_merge; simpl.
  rewrite <- (map_map (@snd range (N * range)) (fun v => snd v)), <- (map_map (@snd range (N * range)) (fun v => fst v)).
  rewrite <- (map_map (@snd range (N * func)) (fun v => snd v)), <- (map_map (@snd range (N * func)) (fun v => fst v)).
  rewrite <- (map_map (@snd range (list N * branch)) (fun v => snd v)), <- (map_map (@snd range (list N * branch)) (fun v => fst v)).
  repeat split; apply rows_numbered; unfold merged_rows_s, merged_rows_f, merged_rows_b, stmt_rows, fn_rows, branch_rows; eauto using spec_merge_rows_ok, rows_rows_ok.
Qed.

Lemma table_ok_numbered : forall T H (loc : T -> option range) (rs : list (range * (H * T))),
  rows_ok loc rs ->
  table_ok loc (number_from 0 (map (fun r => fst (snd r)) rs)) (number_from 0 (map (fun r => snd (snd r)) rs)).
Proof.
  intros T H loc rs Hrs k Hin. unfold im_keys in Hin.
  apply in_map_iff in Hin as ([k' h] & <- & Hin). simpl.
  pose proof (im_in_get _ (number_from_NoDup _ _ _) _ _ Hin) as Hg.
  rewrite im_get_number_from in *. destruct (0 <=? k'); [|discriminate].
  rewrite nth_error_map in *. destruct (nth_error rs (N.to_nat (k' - 0))) as [[r [h' t]]|] eqn:E; [|discriminate].
  simpl. exists t, r. split; auto. apply nth_error_In in E. apply Hrs in E. auto.
Qed.

Theorem spec_merge_wf : forall a b bt, locs_unique a -> locs_unique b ->
  tables_ok (spec_merge a b bt) /\ locs_unique (spec_merge a b bt).
Proof.
  intros a b bt (Ua1 & Ua2 & Ua3) (Ub1 & Ub2 & Ub3).
  destruct (spec_merge_rows_eq a b bt) as (E1 & E2 & E3). split.
  - unfold tables_ok, spec_merge; simpl.
    repeat split; apply table_ok_numbered; unfold merged_rows_s, merged_rows_f, merged_rows_b, stmt_rows, fn_rows, branch_rows; eauto using spec_merge_rows_ok, rows_rows_ok.
  - unfold locs_unique. rewrite E1, E2, E3.
    repeat split; apply spec_merge_rows_NoDup; auto.
Qed.

(** Numbering of the result: ids 0..n-1, hits and maps have the same ids. *)
Theorem spec_merge_dense : forall a b bt,
  let r := spec_merge a b bt in
  im_keys (fc_s r) = im_keys (fc_statement_map r) /\
  im_keys (fc_f r) = im_keys (fc_fn_map r) /\
  im_keys (fc_b r) = im_keys (fc_branch_map r) /\
  im_keys (fc_s r) = map N.of_nat (seq 0 (length (fc_s r))) /\
  im_keys (fc_f r) = map N.of_nat (seq 0 (length (fc_f r))) /\
  im_keys (fc_b r) = map N.of_nat (seq 0 (length (fc_b r))).
Proof.
  intros. unfold r, spec_merge, im_keys; simpl.
  rewrite !number_from_fst, !number_from_length, !map_length. simpl. auto 10.
Qed.

(** ** C03: order independence *)
Definition plain (fc : file_coverage) : Prop :=
  fc_all fc = false /\ tables_ok fc /\ locs_unique fc /\ fc_b_t fc = None.

Definition same_hits (a b : file_coverage) : Prop :=
  (forall l, stmt_hits a l = stmt_hits b l) /\ (forall l, fn_hits a l = fn_hits b l) /\
  (forall l j, path_hits a l j = path_hits b l j).

Lemma merge_fits_sym : forall a b, merge_fits a b -> merge_fits b a.
Proof.
  intros a b (F1 & F2 & F3). repeat split; intros; intros l; rewrite N.add_comm; auto.
  apply F3.
Qed.

Lemma plain_merge : forall m a b, plain a -> plain b -> merge_fits a b ->
  exists r, fc_merge m a b = Ok r /\ plain r /\
  (forall l, stmt_hits r l = stmt_hits a l + stmt_hits b l) /\
  (forall l, fn_hits r l = fn_hits a l + fn_hits b l) /\
  (forall l j, path_hits r l j = path_hits a l j + path_hits b l j).
Proof.
  intros m a b (Ha & Ta & Ua & Ba) (Hb & Tb & Ub & Bb) F.
  exists (spec_merge a b (fc_b_t a)). 
  pose proof (merge_shape m a b Ha Hb Ta Tb Ua Ub F (or_introl Ba)) as Hm.
  pose proof (merge_shape Debug a b Ha Hb Ta Tb Ua Ub F (or_introl Ba)) as Hd.
  split; auto. split.
  - destruct (spec_merge_wf a b (fc_b_t a) Ua Ub). repeat split; try tauto; auto;
    try (destruct H0 as (?&?&?); auto); destruct H as (?&?&?); auto.
  - eapply merge_adds_hits; eauto.
Qed.

Theorem merge_comm : forall m a b, plain a -> plain b -> merge_fits a b ->
  exists r1 r2, fc_merge m a b = Ok r1 /\ fc_merge m b a = Ok r2 /\ same_hits r1 r2.
Proof.
  intros m a b Pa Pb F.
  destruct (plain_merge m a b Pa Pb F) as (r1 & H1 & _ & S1 & F1 & B1).
  destruct (plain_merge m b a Pb Pa (merge_fits_sym _ _ F)) as (r2 & H2 & _ & S2 & F2 & B2).
  exists r1, r2. repeat split; auto; intros.
  - rewrite S1, S2; lia. - rewrite F1, F2; lia. - rewrite B1, B2; lia.
Qed.

(** All three records' hits together fit in a u32. *)
Definition merge_fits3 (a b c : file_coverage) : Prop :=
  (forall l, stmt_hits a l + stmt_hits b l + stmt_hits c l < u32_mod) /\
  (forall l, fn_hits a l + fn_hits b l + fn_hits c l < u32_mod) /\
  (forall j l, path_hits a l j + path_hits b l j + path_hits c l j < u32_mod).

Theorem merge_assoc : forall m a b c, plain a -> plain b -> plain c -> merge_fits3 a b c ->
  exists r1 r2,
    (let* x := fc_merge m a b in fc_merge m x c) = Ok r1 /\
    (let* y := fc_merge m b c in fc_merge m a y) = Ok r2 /\ same_hits r1 r2.
Proof.
  intros m a b c Pa Pb Pc (Q1 & Q2 & Q3).
  assert (Fab : merge_fits a b).
  { repeat split; intros; intros l.
    - specialize (Q1 l); unfold stmt_hits in *; lia.
    - specialize (Q2 l); unfold fn_hits in *; lia.
    - specialize (Q3 j l); unfold path_hits in *; lia. }
  assert (Fbc : merge_fits b c).
  { repeat split; intros; intros l.
    - specialize (Q1 l); unfold stmt_hits in *; lia.
    - specialize (Q2 l); unfold fn_hits in *; lia.
    - specialize (Q3 j l); unfold path_hits in *; lia. }
  destruct (plain_merge m a b Pa Pb Fab) as (x & Hx & Px & S1 & F1 & B1).
  destruct (plain_merge m b c Pb Pc Fbc) as (y & Hy & Py & S2 & F2 & B2).
  assert (Fxc : merge_fits x c).
  { repeat split; intros; intros l.
    - specialize (Q1 l); fold (stmt_hits x l) (stmt_hits c l); rewrite S1; lia.
    - specialize (Q2 l); fold (fn_hits x l) (fn_hits c l); rewrite F1; lia.
    - specialize (Q3 j l); fold (path_hits x l j) (path_hits c l j); rewrite B1; lia. }
  assert (Fay : merge_fits a y).
  { repeat split; intros; intros l.
    - specialize (Q1 l); fold (stmt_hits a l) (stmt_hits y l); rewrite S2; lia.
    - specialize (Q2 l); fold (fn_hits a l) (fn_hits y l); rewrite F2; lia.
    - specialize (Q3 j l); fold (path_hits a l j) (path_hits y l j); rewrite B2; lia. }
  destruct (plain_merge m x c Px Pc Fxc) as (r1 & H1 & _ & S3 & F3 & B3).
  destruct (plain_merge m a y Pa Py Fay) as (r2 & H2 & _ & S4 & F4 & B4).
  exists r1, r2. rewrite Hx, Hy. simpl. repeat split; auto; intros.
  - rewrite S3, S4, S1, S2; lia. - rewrite F3, F4, F1, F2; lia. - rewrite B3, B4, B1, B2; lia.
Qed.

(** Merging a zeroed copy changes no hit. *)
Lemma rows_map_hits : forall T H (loc : T -> option range) (f : H -> H) (hits : imap N H) (mp : imap N T),
  rows loc (map (fun kv => (fst kv, f (snd kv))) hits) mp =
  map (fun r => (fst r, (f (fst (snd r)), snd (snd r)))) (rows loc hits mp).
Proof.
  induction hits as [|[k h] hits IH]; intros mp; simpl; auto.
  rewrite map_app. unfold rows in *. simpl. rewrite IH.
  destruct (im_get k mp) as [t|]; simpl; auto. destruct (loc t); simpl; auto.
Qed.

Lemma map_fst_rows : forall T H (f : H -> H) (rs : list (range * (H * T))),
  map fst (map (fun r => (fst r, (f (fst (snd r)), snd (snd r)))) rs) = map fst rs.
Proof. intros. rewrite map_map. reflexivity. Qed.

Lemma hits_at_zero : forall T H (val : H -> N) (rs : list (range * (H * T))) l,
  (forall r, In r rs -> val (fst (snd r)) = 0) -> hits_at val rs l = 0.
Proof.
  intros T H val rs l Hz. unfold hits_at.
  induction rs as [|r rs IH]; simpl; auto.
  destruct (range_eqb (fst r) l); simpl.
  - rewrite (Hz r) by (simpl; auto). rewrite IH; auto. intros; apply Hz; simpl; auto.
  - apply IH. intros; apply Hz; simpl; auto.
Qed.

Lemma reset_rows : forall fc,
  stmt_rows (reset_hits fc) = map (fun r => (fst r, (0, snd (snd r)))) (stmt_rows fc) /\
  fn_rows (reset_hits fc) = map (fun r => (fst r, (0, snd (snd r)))) (fn_rows fc) /\
  branch_rows (reset_hits fc) =
    map (fun r => (fst r, (map (fun _ => 0) (fst (snd r)), snd (snd r)))) (branch_rows fc).
Proof.
  intros. unfold stmt_rows, fn_rows, branch_rows, reset_hits, reset_line_hits, reset_branch_hits; simpl.
  repeat split.
  - apply (rows_map_hits _ _ stmt_loc (fun _ => 0)).
  - apply (rows_map_hits _ _ fn_loc (fun _ => 0)).
  - apply (rows_map_hits _ _ br_loc (map (fun _ => 0))).
Qed.

Lemma nth_map_zero : forall (v : list N) j, nth j (map (fun _ => 0) v) 0 = 0.
Proof. induction v as [|x v IH]; intros [|j]; simpl; auto. Qed.

Lemma reset_hits_zero : forall fc,
  (forall l, stmt_hits (reset_hits fc) l = 0) /\ (forall l, fn_hits (reset_hits fc) l = 0) /\
  (forall l j, path_hits (reset_hits fc) l j = 0).
Proof.
  intros fc. destruct (reset_rows fc) as (E1 & E2 & E3).
  unfold stmt_hits, fn_hits, path_hits. rewrite E1, E2, E3. repeat split; intros; apply hits_at_zero;
  intros r Hin; apply in_map_iff in Hin as (x & <- & _); simpl; auto using nth_map_zero.
Qed.

Lemma reset_keys : forall fc, im_keys (fc_s (reset_hits fc)) = im_keys (fc_s fc) /\
  im_keys (fc_f (reset_hits fc)) = im_keys (fc_f fc) /\ im_keys (fc_b (reset_hits fc)) = im_keys (fc_b fc).
Proof.
  intros. unfold reset_hits, reset_line_hits, reset_branch_hits, im_keys; simpl. now rewrite !map_map.
Qed.

Lemma reset_plain : forall fc, plain fc -> plain (reset_hits fc).
Proof.
  intros fc (Ha & (T1 & T2 & T3) & (U1 & U2 & U3) & B).
  destruct (reset_keys fc) as (K1 & K2 & K3). destruct (reset_rows fc) as (E1 & E2 & E3).
  repeat split; auto.
  - intros k Hin. rewrite K1 in Hin. apply T1; auto.
  - intros k Hin. rewrite K2 in Hin. apply T2; auto.
  - intros k Hin. rewrite K3 in Hin. apply T3; auto.
  - rewrite E1, map_map. simpl. auto.
  - rewrite E2, map_map. simpl. auto.
  - rewrite E3, map_map. simpl. auto.
  - simpl. rewrite B. reflexivity.
Qed.

Definition hits_u32 (fc : file_coverage) : Prop :=
  (forall l, stmt_hits fc l < u32_mod) /\ (forall l, fn_hits fc l < u32_mod) /\
  (forall j l, path_hits fc l j < u32_mod).

Theorem merge_zeroed_identity : forall m a, plain a -> hits_u32 a ->
  exists r, fc_merge m a (reset_hits a) = Ok r /\ same_hits r a.
Proof.
  intros m a Pa (H1 & H2 & H3). destruct (reset_hits_zero a) as (Z1 & Z2 & Z3).
  destruct (plain_merge m a (reset_hits a) Pa (reset_plain _ Pa)) as (r & Hr & _ & S & F & B).
  { repeat split; intros; intros l.
    - fold (stmt_hits a l) (stmt_hits (reset_hits a) l). rewrite Z1, N.add_0_r. auto.
    - fold (fn_hits a l) (fn_hits (reset_hits a) l). rewrite Z2, N.add_0_r. auto.
    - fold (path_hits a l j) (path_hits (reset_hits a) l j). rewrite Z3, N.add_0_r. auto. }
  exists r. split; auto. repeat split; intros.
  - rewrite S, Z1; lia. - rewrite F, Z2; lia. - rewrite B, Z3; lia.
Qed.

(** Boolean checkers used to discharge hypotheses on concrete records. *)
Fixpoint nodupb (l : list range) : bool :=
  match l with [] => true | x :: l => negb (existsb (range_eqb x) l) && nodupb l end.
Lemma nodupb_ok : forall l, nodupb l = true -> NoDup l.
Proof.
  induction l as [|x l IH]; intros H; constructor; simpl in H; apply andb_prop in H as [H1 H2]; auto.
  intros Hin. apply negb_true_iff in H1.
  assert (existsb (range_eqb x) l = true); [|congruence].
  apply existsb_exists. exists x. split; auto. destruct (eqb_spec x x); auto.
Qed.
Definition table_okb {H T} (loc : T -> option range) (hits : imap N H) (mp : imap N T) : bool :=
  forallb (fun k => match im_get k mp with Some t => match loc t with Some _ => true | None => false end | None => false end)
    (im_keys hits).
Lemma table_okb_ok : forall H T (loc : T -> option range) (hits : imap N H) (mp : imap N T),
  table_okb loc hits mp = true -> table_ok loc hits mp.
Proof.
  intros H T loc hits mp Hb k Hin. unfold table_okb in Hb. rewrite forallb_forall in Hb.
  specialize (Hb k Hin). destruct (im_get k mp) as [t|] eqn:E; try discriminate.
  destruct (loc t) as [r|] eqn:E2; try discriminate. eauto.
Qed.
Ltac solve_table := apply table_okb_ok; vm_compute; reflexivity.
Ltac solve_nodup := apply nodupb_ok; vm_compute; reflexivity.

(** ** C04: duplicates lose hits *)
Definition total_hits (fc : file_coverage) : N :=
  sumN (im_values (fc_s fc)) + sumN (im_values (fc_f fc)) + sumN (map sumN (im_values (fc_b fc))).

Definition dup_fc : file_coverage :=
  mkFC false "dup.js" [(0, range_default); (1, range_default)] [] []
    [(0, 5); (1, 7)] [] [] None None.

Theorem merge_never_loses_hits_refuted :
  exists a b r, tables_ok a /\ tables_ok b /\ fc_all a = false /\ fc_all b = false /\
    fc_merge Debug a b = Ok r /\ total_hits r <> total_hits a + total_hits b.
Proof.
  exists dup_fc, dup_fc. eexists. do 2 (split; [repeat split; solve_table|]).
  repeat split; try (vm_compute; reflexivity). vm_compute. discriminate.
Qed.

Theorem merge_comm_refuted_with_duplicates :
  exists a b r1 r2 l, fc_merge Debug a b = Ok r1 /\ fc_merge Debug b a = Ok r2 /\
    stmt_hits r1 l <> stmt_hits r2 l.
Proof.
  exists dup_fc, (mkFC false "dup.js" [(0, range_default)] [] [] [(0, 1)] [] [] None None).
  eexists. eexists. exists range_default. repeat split; try (vm_compute; reflexivity).
  vm_compute. discriminate.
Qed.

(** ** C06: placeholder records *)
Theorem merge_placeholder_ignored : forall m a b, fc_all b = true -> fc_merge m a b = Ok a.
Proof. intros m a b H. unfold fc_merge. now rewrite H. Qed.

Theorem merge_placeholder_replaced : forall m a b, fc_all a = true -> fc_all b = false ->
  fc_merge m a b = Ok b.
Proof. intros m a b Ha Hb. unfold fc_merge. now rewrite Ha, Hb. Qed.

Theorem merge_keeps_identity : forall m a b r, fc_all a = false -> fc_all b = false ->
  fc_merge m a b = Ok r ->
  fc_all r = false /\ fc_path r = fc_path a /\ fc_input_source_map r = fc_input_source_map a.
Proof.
  intros m a b r Ha Hb Hm. destruct (merge_unfold _ _ _ _ Ha Hb Hm) as (? & ? & ? & _). auto.
Qed.

(** ** C05: truthiness tables *)

(** A reportLogic record with an [if] branch 0 and a logical branch 1, as the
    instrumenter produces for [if (c) {} ; x || y]. *)
Definition logic_fc (n : N) : file_coverage :=
  mkFC false "l.js" [] []
    [(0, mkBranch (Some (range_new 1 0 1 9)) BIf [range_new 1 0 1 9; range_new 1 0 1 9] (Some 1));
     (1, mkBranch (Some (range_new 2 0 2 6)) BinaryExpr [range_new 2 0 2 1; range_new 2 5 2 6] (Some 2))]
    [] [] [(0, [1; 0]); (1, [n; n])] (Some [(1, [n; 0])]) None.

(** Truthiness counts reported under a branch's id: the branch's location is the one
    the branch table gives for the id. *)
Definition truth_rows (fc : file_coverage) (bt : branch_hit_map) := rows br_loc bt (fc_branch_map fc).
Definition truth_hits (fc : file_coverage) (l : range) (j : nat) : N :=
  match fc_b_t fc with
  | Some bt => hits_at (fun v => nth j v 0) (truth_rows fc bt) l
  | None => 0
  end.

Theorem merge_truthiness_refuted :
  exists a b r l j, locs_unique a /\ locs_unique b /\ tables_ok a /\ tables_ok b /\
    fc_merge Debug a b = Ok r /\ truth_hits r l j <> truth_hits a l j + truth_hits b l j.
Proof.
  exists (logic_fc 3), (logic_fc 4). eexists. exists (range_new 2 0 2 1), 0%nat.
  do 2 (split; [repeat split; solve_nodup|]). do 2 (split; [repeat split; solve_table|]).
  split; [vm_compute; reflexivity|]. vm_compute. discriminate.
Qed.

(** ... and a second merge of the result can panic: bT now names branch 0 only.  The
    panic case: the truthiness ids of the first record exceed the merged table. *)
Theorem merge_truthiness_panics_refuted :
  exists a b, locs_unique a /\ locs_unique b /\ tables_ok a /\ tables_ok b /\
    table_ok br_loc (match fc_b_t a with Some x => x | None => [] end) (fc_branch_map a) /\
    fc_merge Debug a b = Panic RMapValueMissing.
Proof.
  (* branch 0 was pruned because it had no path (freeze), so ids start at 1 *)
  pose (mk := mkFC false "l.js" [] []
    [(1, mkBranch (Some (range_new 2 0 2 6)) BinaryExpr [range_new 2 0 2 1; range_new 2 5 2 6] (Some 2))]
    [] [] [(1, [1; 1])] (Some [(1, [1; 0])]) None).
  exists mk, mk. subst mk.
  do 2 (split; [repeat split; solve_nodup|]). do 2 (split; [repeat split; solve_table|]).
  split; [solve_table|]. vm_compute. reflexivity.
Qed.

(** What holds: if the first record's branches are numbered 0..n-1 and every branch of
    both records has truthiness counters, sums are right and ids agree with the branch
    table.  Missing from the full claim: records with branches other than logical
    expressions, or with pruned branches. *)
Definition full_truth (fc : file_coverage) (bt : branch_hit_map) : Prop :=
  fc_b_t fc = Some bt /\ im_keys bt = im_keys (fc_b fc).

Lemma rows_keys_locs : forall T H1 H2 (loc : T -> option range) (x : imap N H1) (y : imap N H2) (mp : imap N T),
  im_keys x = im_keys y -> map fst (rows loc x mp) = map fst (rows loc y mp).
Proof.
  induction x as [|[k h] x IH]; intros [|[k' h'] y] mp Hk; simpl in Hk; try discriminate; auto.
  inversion Hk; subst. simpl. rewrite !map_app. f_equal.
  - destruct (im_get k' mp) as [t|]; auto. destruct (loc t); auto.
  - apply IH; auto.
Qed.

Lemma spec_merge_locs : forall T H1 H2 (p1 : H1 -> H1 -> H1) (p2 : H2 -> H2 -> H2)
  (a1 b1 : list (range * (H1 * T))) (a2 b2 : list (range * (H2 * T))),
  map fst a1 = map fst a2 -> map fst b1 = map fst b2 ->
  map fst (spec_merge_rows p1 a1 b1) = map fst (spec_merge_rows p2 a2 b2).
Proof.
  intros T H1 H2 p1 p2 a1 b1 a2 b2 Ha Hb. unfold spec_merge_rows. rewrite !map_app, !map_map.
  f_equal.
  - transitivity (map fst a1); [|rewrite Ha; symmetry]; apply map_ext;
    intros [r v]; simpl; destruct (lookup_row r _) as [[? ?]|]; auto.
  - assert (He : forall l, existsb (fun q : range * (H1 * T) => range_eqb (fst q) l) a1 =
                           existsb (fun q : range * (H2 * T) => range_eqb (fst q) l) a2).
    { intros l. clear -Ha. revert a2 Ha. induction a1 as [|x a1 IH]; intros [|y a2] Ha; simpl in Ha; try discriminate; auto.
      inversion Ha. simpl. rewrite H0. f_equal. apply IH; auto. }
    clear Ha. revert b2 Hb. induction b1 as [|x b1 IH]; intros [|y b2] Hb; simpl in Hb; try discriminate; auto.
    inversion Hb. simpl. rewrite H0, He.
    destruct (negb _); simpl; auto. f_equal; auto.
Qed.

Lemma im_get_dense_app : forall V (l1 l2 : list V) k v,
  im_get k (number_from 0 l1) = Some v -> im_get k (number_from 0 (l1 ++ l2)) = Some v.
Proof.
  intros V l1 l2 k v Hg. rewrite im_get_number_from in *. destruct (0 <=? k); auto.
  rewrite nth_error_app1; auto. apply nth_error_Some. congruence.
Qed.

Lemma rows_ext_map : forall T H (loc : T -> option range) (hits : imap N H) (m1 m2 : imap N T),
  (forall k, In k (im_keys hits) -> im_get k m1 = im_get k m2) -> rows loc hits m1 = rows loc hits m2.
Proof.
  induction hits as [|[k h] hits IH]; intros m1 m2 He; simpl; auto.
  rewrite (He k) by (simpl; auto). f_equal. apply IH. intros; apply He; simpl; auto.
Qed.

Definition dense_branches (fc : file_coverage) : Prop :=
  im_keys (fc_b fc) = map N.of_nat (seq 0 (length (fc_b fc))) /\
  im_keys (fc_branch_map fc) = im_keys (fc_b fc).

Lemma number_from_keys : forall V (m : imap N V) i,
  im_keys m = map (fun n => i + N.of_nat n) (seq 0 (length m)) -> m = number_from i (im_values m).
Proof.
  induction m as [|[k v] m IH]; intros i Hk; simpl in *; auto.
  inversion Hk as [[Hk1 Hk2]]. f_equal; [f_equal; lia|].
  apply IH. rewrite Hk2, <- seq_shift, map_map. apply map_ext; intros; lia.
Qed.

Lemma spec_merge_branch_prefix : forall a b bt, locs_unique a -> tables_ok a -> dense_branches a ->
  forall k t, im_get k (fc_branch_map a) = Some t ->
  im_get k (fc_branch_map (spec_merge a b bt)) = Some t.
Proof.
  intros a b bt Ua Ta (D1 & D2) k t Hg. unfold spec_merge; simpl.
  unfold merged_rows_b, spec_merge_rows. rewrite map_app. apply im_get_dense_app.
  rewrite map_map.
  rewrite (map_ext _ (fun r => snd (snd r))) by
    (intros [r [h0 t0]]; simpl; destruct (lookup_row r _) as [[? ?]|]; auto).
  assert (Hbm : fc_branch_map a = number_from 0 (im_values (fc_branch_map a))).
  { apply number_from_keys. rewrite D2, D1. f_equal. f_equal.
    rewrite <- (map_length fst (fc_b a)), <- (map_length fst (fc_branch_map a)).
    unfold im_keys in D2. now rewrite D2. }
  rewrite Hbm in Hg.
  assert (Hr : map (fun r => snd (snd r)) (branch_rows a) = im_values (fc_branch_map a)).
  { unfold branch_rows. destruct Ta as (_ & _ & T3).
    assert (Hgen : forall pre (hs : imap N (list N)) suf,
       im_keys hs = map (fun n => N.of_nat (length pre) + N.of_nat n) (seq 0 (length hs)) ->
       length hs = length suf ->
       table_ok br_loc hs (number_from 0 (pre ++ suf)) ->
       map (fun r => snd (snd r)) (rows br_loc hs (number_from 0 (pre ++ suf))) = suf).
    { clear. intros pre hs. revert pre.
      induction hs as [|[k h] hs IH]; intros pre [|t suf] Hk Hl Hok; simpl in Hl; try discriminate; auto.
      simpl in Hk. inversion Hk as [[Hk1 Hk2]].
      assert (Hget : im_get k (number_from 0 (pre ++ t :: suf)) = Some t).
      { rewrite im_get_number_from. destruct (N.leb_spec 0 k); [|lia].
        replace (N.to_nat (k - 0)) with (length pre) by lia.
        rewrite nth_error_app2 by lia. rewrite PeanoNat.Nat.sub_diag. reflexivity. }
      destruct (Hok k) as (t' & r & Ht' & Hr'); [simpl; auto|].
      rewrite Hget in Ht'; inversion Ht'; subst t'.
      simpl. rewrite Hk1 in Hget. rewrite Hget, Hr'. simpl. f_equal.
      replace (pre ++ t :: suf)%list with ((pre ++ [t]) ++ suf)%list by (rewrite <- app_assoc; auto).
      apply IH; try lia.
      - rewrite Hk2, <- seq_shift, map_map, app_length. apply map_ext. intros; simpl; lia.
      - rewrite <- app_assoc. simpl. intros k0 Hin. apply Hok. simpl; auto. }
    specialize (Hgen [] (fc_b a) (im_values (fc_branch_map a))). simpl in Hgen.
    rewrite <- Hbm in Hgen. apply Hgen.
    - rewrite D1. apply map_ext; intros; lia.
    - unfold im_values. rewrite map_length.
      rewrite <- (map_length fst (fc_b a)), <- (map_length fst (fc_branch_map a)).
      unfold im_keys in D2. now rewrite D2.
    - auto. }
  rewrite Hr. auto.
Qed.

Theorem merge_truthiness_partial : forall m a b bta btb,
  fc_all a = false -> fc_all b = false ->
  tables_ok a -> tables_ok b -> locs_unique a -> locs_unique b -> merge_fits a b ->
  dense_branches a -> full_truth a bta -> full_truth b btb ->
  (forall l j, truth_hits a l j + truth_hits b l j < u32_mod) ->
  exists r bt, fc_merge m a b = Ok r /\ fc_b_t r = Some bt /\
    im_keys bt = im_keys (fc_b r) /\
    (forall l j, truth_hits r l j = truth_hits a l j + truth_hits b l j).
Proof.
  intros m a b bta btb Ha Hb Ta Tb Ua Ub F Da (Ba & Ka) (Bb & Kb) Ft.
  destruct (merge_parts m a b Ta Tb Ua Ub F) as (P1 & P2 & P3).
  set (sp := spec_merge a b None) in *.
  assert (Hrows_a : rows br_loc bta (fc_branch_map sp) = truth_rows a bta).
  { apply rows_ext_map. intros k Hin. rewrite Ka in Hin.
    destruct Ta as (T1 & T2 & T3). destruct (T3 k Hin) as (t & r & Ht & Hr).
    rewrite Ht. apply spec_merge_branch_prefix; auto. repeat split; auto. }
  assert (La : map fst (truth_rows a bta) = map fst (branch_rows a)).
  { apply rows_keys_locs; auto. }
  assert (Lb : map fst (truth_rows b btb) = map fst (branch_rows b)).
  { apply rows_keys_locs; auto. }
  assert (Ua' : NoDup (map fst (truth_rows a bta))) by (rewrite La; apply Ua).
  assert (Ub' : NoDup (map fst (truth_rows b btb))) by (rewrite Lb; apply Ub).
  assert (Hbt : merge_properties_hits_vec m branch_key bta (fc_branch_map sp) btb (fc_branch_map b) =
     Ok (number_from 0 (map fst (map snd (spec_merge_rows zip_plus (truth_rows a bta) (truth_rows b btb)))),
         number_from 0 (map snd (map snd (spec_merge_rows zip_plus (truth_rows a bta) (truth_rows b btb)))))).
  { unfold merge_properties_hits_vec.
    rewrite (merge_gen_shape (vec_add m) branch_key br_loc k_br_loc
      zip_plus (fun x y => forall j, nth j x 0 + nth j y 0 < u32_mod) (vec_add_fits m)).
    - rewrite Hrows_a. reflexivity.
    - intros k Hin. rewrite Ka in Hin. destruct Ta as (T1 & T2 & T3).
      destruct (T3 k Hin) as (t & r & Ht & Hr). exists t, r. split; auto.
      apply spec_merge_branch_prefix; auto. repeat split; auto.
    - intros k Hin. rewrite Kb in Hin. apply Tb; auto.
    - rewrite Hrows_a. auto.
    - auto.
    - rewrite Hrows_a. intros l x t1 y t2 H1 H2 j. specialize (Ft l j). unfold truth_hits in Ft.
      rewrite Ba, Bb in Ft.
      rewrite (lookup_hits_at _ _ _ _ _ _ _ Ua' H1), (lookup_hits_at _ _ _ _ _ _ _ Ub' H2) in Ft. auto. }
  set (bt := number_from 0 (map fst (map snd (spec_merge_rows zip_plus (truth_rows a bta) (truth_rows b btb))))) in *.
  exists (spec_merge a b (Some bt)), bt.
  assert (Hlocs : map fst (spec_merge_rows zip_plus (truth_rows a bta) (truth_rows b btb)) =
                  map fst (merged_rows_b a b)).
  { apply spec_merge_locs; auto. }
  assert (Hm : fc_merge m a b = Ok (spec_merge a b (Some bt))).
  { unfold fc_merge. rewrite Ha, Hb.
    change (fun fn : func => Ok (key_from_loc (f_loc fn))) with k_fn.
    change (fun r : range => Ok (key_from_loc r)) with k_stmt.
    rewrite P1; simpl. rewrite P2; simpl. rewrite P3; simpl.
    rewrite Ba, Bb. unfold sp in Hbt; simpl in Hbt. rewrite Hbt. simpl.
    unfold spec_merge. reflexivity. }
  assert (Hlen : length (spec_merge_rows zip_plus (truth_rows a bta) (truth_rows b btb)) = length (merged_rows_b a b)).
  { rewrite <- (map_length fst), Hlocs, map_length. auto. }
  split; [exact Hm|]. split; [reflexivity|]. split.
  - unfold bt, spec_merge, im_keys; simpl. rewrite !number_from_fst, !map_length, Hlen. reflexivity.
  - intros l j.
    assert (Hrr : truth_rows (spec_merge a b (Some bt)) bt = spec_merge_rows zip_plus (truth_rows a bta) (truth_rows b btb)).
    { unfold truth_rows at 1. rewrite <- (rows_numbered br_loc (spec_merge_rows zip_plus (truth_rows a bta) (truth_rows b btb))).
      - fold bt. apply rows_ext_map. intros k Hin.
        unfold spec_merge; simpl.
        f_equal. f_equal.
        (* metadata at each position is the same *)
        rewrite map_map.
        assert (Hmeta : forall (r1 r2 : list (range * (list N * branch))) (q1 q2 : list (range * (list N * branch))),
           map (fun r => (fst r, snd (snd r))) r1 = map (fun r => (fst r, snd (snd r))) q1 ->
           map (fun r => (fst r, snd (snd r))) r2 = map (fun r => (fst r, snd (snd r))) q2 ->
           map (fun r => snd (snd r)) (spec_merge_rows zip_plus r1 r2) =
           map (fun r => snd (snd r)) (spec_merge_rows zip_plus q1 q2)).
        { clear. intros r1 r2 q1 q2 H1 H2. unfold spec_merge_rows. rewrite !map_app, !map_map. f_equal.
          - rewrite (map_ext _ (fun r => snd (snd r))).
            2:{ intros [r [h t]]; simpl; destruct (lookup_row r r2) as [[? ?]|]; auto. }
            rewrite (map_ext (fun x => snd (snd match lookup_row (fst x) q2 with
               | Some (h2, _) => (fst x, (zip_plus (fst (snd x)) h2, snd (snd x))) | None => x end)) (fun r => snd (snd r))).
            2:{ intros [r [h t]]; simpl; destruct (lookup_row r q2) as [[? ?]|]; auto. }
            apply (f_equal (map snd)) in H1. rewrite !map_map in H1. exact H1.
          - assert (He : forall l, existsb (fun q : range * (list N * branch) => range_eqb (fst q) l) r1 =
                           existsb (fun q : range * (list N * branch) => range_eqb (fst q) l) q1).
            { intros l. revert q1 H1. induction r1 as [|x r1 IH]; intros [|y q1] H1; simpl in H1; try discriminate; auto.
              inversion H1. simpl. rewrite H0. f_equal. apply IH; auto. }
            clear H1. revert q2 H2. induction r2 as [|x r2 IH]; intros [|y q2] H2; simpl in H2; try discriminate; auto.
            inversion H2. simpl. rewrite H0, He. destruct (negb _); simpl; auto. f_equal; auto. }
        assert (Hmr : forall fc bt', im_keys bt' = im_keys (fc_b fc) ->
           map (fun r => (fst r, snd (snd r))) (branch_rows fc) =
           map (fun r => (fst r, snd (snd r))) (truth_rows fc bt')).
        { clear. intros fc bt' Hk. unfold branch_rows, truth_rows. revert bt' Hk.
          induction (fc_b fc) as [|[k h] x IH]; intros [|[k' h'] y] Hk; simpl in Hk; try discriminate; auto.
          inversion Hk; subst. simpl. rewrite !map_app. f_equal.
          - destruct (im_get k (fc_branch_map fc)) as [t|]; auto. destruct (br_loc t); auto.
          - apply IH; auto. }
        unfold merged_rows_b. apply Hmeta; apply Hmr; auto.
      - apply spec_merge_rows_ok; apply rows_rows_ok. }
    unfold truth_hits. simpl. rewrite Ba, Bb, Hrr.
    (* per-location value of merged rows *)
    pose proof (spec_merge_rows_NoDup zip_plus _ _ Ua' Ub') as Hnd.
    assert (Hlk : lookup_row l (spec_merge_rows zip_plus (truth_rows a bta) (truth_rows b btb)) =
       match lookup_row l (truth_rows a bta), lookup_row l (truth_rows b btb) with
       | Some (h1, t1), Some (h2, _) => Some (zip_plus h1 h2, t1)
       | Some x, None => Some x | None, y => y end).
    { apply lookup_spec_merge; auto. }
    assert (Hz : forall (rs : list (range * (list N * branch))), lookup_row l rs = None ->
      hits_at (fun v => nth j v 0) rs l = 0).
    { intros rs Hn. apply hits_at_notin. now apply lookup_row_None. }
    destruct (lookup_row l (truth_rows a bta)) as [[h1 t1]|] eqn:E1;
    destruct (lookup_row l (truth_rows b btb)) as [[h2 t2]|] eqn:E2.
    + rewrite (lookup_hits_at _ _ _ _ _ _ _ Hnd Hlk), (lookup_hits_at _ _ _ _ _ _ _ Ua' E1),
        (lookup_hits_at _ _ _ _ _ _ _ Ub' E2). apply zip_plus_nth.
    + rewrite (lookup_hits_at _ _ _ _ _ _ _ Hnd Hlk), (lookup_hits_at _ _ _ _ _ _ _ Ua' E1), (Hz _ E2). lia.
    + rewrite (lookup_hits_at _ _ _ _ _ _ _ Hnd Hlk), (lookup_hits_at _ _ _ _ _ _ _ Ub' E2), (Hz _ E1). lia.
    + rewrite (Hz _ E1), (Hz _ E2), (Hz _ Hlk). reflexivity.
Qed.

(** ** Non-vacuity: the repo's own test records satisfy the hypotheses *)
Definition plain_first : file_coverage :=
  mkFC false "/path/to/file" (fc_statement_map test_base) (fc_fn_map test_base)
    (fc_branch_map test_base) (fc_s test_first) (fc_f test_first) (fc_b test_first) None None.
Definition plain_second : file_coverage :=
  mkFC false "/path/to/file" (fc_statement_map test_base) (fc_fn_map test_base)
    (fc_branch_map test_base) (fc_s test_second) (fc_f test_second) (fc_b test_second) None None.

Example plain_first_ok : plain plain_first.
Proof. repeat split; try solve_table; try solve_nodup. Qed.
Example plain_second_ok : plain plain_second.
Proof. repeat split; try solve_table; try solve_nodup. Qed.

(** Bound on hits per location by the total, to discharge [merge_fits] on examples. *)
Lemma hits_at_le : forall T H (val : H -> N) (rs : list (range * (H * T))) l,
  hits_at val rs l <= sumN (map (fun r => val (fst (snd r))) rs).
Proof.
  intros. unfold hits_at. induction rs as [|r rs IH]; simpl; [lia|].
  destruct (range_eqb (fst r) l); simpl; lia.
Qed.

Lemma nth_le_sum : forall v j, nth j v 0 <= sumN v.
Proof. induction v as [|x v IH]; intros [|j]; simpl; try lia. specialize (IH j). lia. Qed.

Lemma path_at_le : forall T (rs : list (range * (list N * T))) l j,
  hits_at (fun v => nth j v 0) rs l <= sumN (map (fun r => sumN (fst (snd r))) rs).
Proof.
  intros. unfold hits_at. induction rs as [|r rs IH]; simpl; [lia|].
  destruct (range_eqb (fst r) l); simpl; pose proof (nth_le_sum (fst (snd r)) j); lia.
Qed.

Lemma fits_by_totals : forall a b,
  sumN (map (fun r => fst (snd r)) (stmt_rows a)) + sumN (map (fun r => fst (snd r)) (stmt_rows b)) < u32_mod ->
  sumN (map (fun r => fst (snd r)) (fn_rows a)) + sumN (map (fun r => fst (snd r)) (fn_rows b)) < u32_mod ->
  sumN (map (fun r => sumN (fst (snd r))) (branch_rows a)) + sumN (map (fun r => sumN (fst (snd r))) (branch_rows b)) < u32_mod ->
  merge_fits a b.
Proof.
  intros a b H1 H2 H3. repeat split; intros; intros l.
  - pose proof (hits_at_le _ _ (fun h => h) (stmt_rows a) l). pose proof (hits_at_le _ _ (fun h => h) (stmt_rows b) l). lia.
  - pose proof (hits_at_le _ _ (fun h => h) (fn_rows a) l). pose proof (hits_at_le _ _ (fun h => h) (fn_rows b) l). lia.
  - pose proof (path_at_le _ (branch_rows a) l j). pose proof (path_at_le _ (branch_rows b) l j). lia.
Qed.

Example plain_fits : merge_fits plain_first plain_second.
Proof. apply fits_by_totals; vm_compute; reflexivity. Qed.

Example merge_comm_nonvacuous :
  exists r1 r2, fc_merge Debug plain_first plain_second = Ok r1 /\
    fc_merge Debug plain_second plain_first = Ok r2 /\ same_hits r1 r2 /\
    stmt_hits r1 (range_new 1 1 1 100) = 1 /\ path_hits r1 (range_new 2 1 2 20) 1 = 2.
Proof.
  destruct (merge_comm Debug _ _ plain_first_ok plain_second_ok plain_fits) as (r1 & r2 & H1 & H2 & H3).
  exists r1, r2. do 3 (split; [assumption|]).
  clear H2 H3. assert (E : Ok r1 = fc_merge Debug plain_first plain_second) by auto. clear H1.
  let t := eval vm_compute in (fc_merge Debug plain_first plain_second) in
  change (fc_merge Debug plain_first plain_second) with t in E.
  injection E as ->. split; vm_compute; reflexivity.
Qed.

(** Records for which the partial truthiness theorem applies. *)
Definition truth_fc (n : N) : file_coverage :=
  mkFC false "t.js" [] []
    [(0, mkBranch (Some (range_new 2 0 2 6)) BinaryExpr [range_new 2 0 2 1; range_new 2 5 2 6] (Some 2))]
    [] [] [(0, [n; n])] (Some [(0, [n; 0])]) None.
Example truth_nonvacuous :
  exists r bt, fc_merge Debug (truth_fc 3) (truth_fc 4) = Ok r /\ fc_b_t r = Some bt /\
    im_keys bt = im_keys (fc_b r) /\
    (forall l j, truth_hits r l j = truth_hits (truth_fc 3) l j + truth_hits (truth_fc 4) l j).
Proof.
  apply (merge_truthiness_partial Debug (truth_fc 3) (truth_fc 4) [(0, [3; 0])] [(0, [4; 0])]);
    try reflexivity; try (repeat split; try solve_table; try solve_nodup; fail).
  - apply fits_by_totals; vm_compute; reflexivity.
  - intros l j. 
    change (truth_hits (truth_fc 3) l j) with (hits_at (fun v => nth j v 0) (truth_rows (truth_fc 3) [(0, [3; 0])]) l).
    change (truth_hits (truth_fc 4) l j) with (hits_at (fun v => nth j v 0) (truth_rows (truth_fc 4) [(0, [4; 0])]) l).
    pose proof (path_at_le _ (truth_rows (truth_fc 3) [(0, [3; 0])]) l j) as H1.
    pose proof (path_at_le _ (truth_rows (truth_fc 4) [(0, [4; 0])]) l j) as H2.
    change (sumN (map _ (truth_rows (truth_fc 3) [(0, [3; 0])]))) with 3 in H1.
    change (sumN (map _ (truth_rows (truth_fc 4) [(0, [4; 0])]))) with 4 in H2.
    unfold u32_mod. lia.
Qed.
