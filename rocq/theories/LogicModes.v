(** With [reportLogic] the report of a project can also be computed in builds with overflow checks, as long as the truthiness
    counters of all published records are few and small (see [LogicReport.v]). *)
From Coq Require Import NArith String List Bool Lia PeanoNat Permutation.
Import ListNotations.
From Verif Require OneEntry.
From Verif Require Import Base IndexMap Decimal Oxide OxideSpec OxideMergeProofs OxideMerge OxideViews SourceCov SourceCovProofs
  Hints Ast Visitor VisitorRel VisitorEx Erase Counting CountingRoot Json CovJson DataObject Template Runtime Produced Report
  Sem SemShape SemErase SemVisit SemProps Account Slots Sites AccountVisit Accurate EndToEnd Runs Project LogicReport.
Open Scope string_scope. Open Scope list_scope. Open Scope N_scope.

(** The weight of a record: its truthiness counters and their values *)
Definition vec_weight (v : list N) : N := sumN v + N.of_nat (length v).
Definition table_weight (bt : branch_hit_map) : N := sumN (map (fun kv => vec_weight (snd kv)) bt).
Definition truth_weight (fc : file_coverage) : N := match fc_b_t fc with Some bt => table_weight bt | None => 0 end.

Lemma sumN_cons : forall x l, sumN (x :: l) = x + sumN l.
Proof. reflexivity. Qed.
Lemma sumN_app : forall l l', sumN (l ++ l') = sumN l + sumN l'.
Proof. intros l l'. induction l as [|x l IH]; [reflexivity|]. cbn [app]. rewrite !sumN_cons, IH. lia. Qed.

(** ** Merging *)
Lemma vec_add_in_weight : forall m p it, (length it <= length p)%nat -> sumN p + sumN it < u32_mod ->
  exists c, vec_add_in m p it = Ok c /\ sumN c = sumN p + sumN it /\ length c = length p.
Proof.
  intros m p. induction p as [|x p IH]; intros [|y it] L W; cbn [length] in L; try lia.
  - exists []. repeat split.
  - exists (x :: p). split; [reflexivity|]. split; [|reflexivity]. change (sumN []) with 0. lia.
  - rewrite !sumN_cons in W. cbn [vec_add_in]. rewrite u32_add_fits by lia. cbn [bind].
    destruct (IH it) as (c & -> & E1 & E2); [lia|lia|]. cbn [bind]. eexists. split; [reflexivity|]. rewrite !sumN_cons. split; [lia|]. cbn [length]. lia.
Qed.
Lemma vec_add_weight : forall m a b, vec_weight a + vec_weight b < u32_mod ->
  exists c, vec_add m a b = Ok c /\ vec_weight c <= vec_weight a + vec_weight b.
Proof.
  intros m a b W. unfold vec_weight in *. unfold vec_add.
  assert (Z : forall n, sumN (repeat 0 n) = 0). { induction n as [|n IH]; [reflexivity|]. cbn [repeat]. now rewrite sumN_cons, IH. }
  destruct (Nat.ltb_spec (length a) (length b)) as [L|L].
  - destruct (vec_add_in_weight m (vec_resize a (length b)) b) as (c & E & E1 & E2).
    + unfold vec_resize. rewrite app_length, repeat_length. lia.
    + unfold vec_resize. rewrite sumN_app, Z. lia.
    + exists c. split; [exact E|]. rewrite E1, E2. unfold vec_resize. rewrite sumN_app, Z, app_length, repeat_length. lia.
  - destruct (vec_add_in_weight m a b L) as (c & E & E1 & E2); [lia|]. exists c. split; [exact E|]. rewrite E1, E2. lia.
Qed.

Section Items.
Context {T : Type}.
Definition items_weight (items : imap string (list N * T)) : N := sumN (map (fun kv => vec_weight (fst (snd kv))) items).
Definition rows_weight (rs : list (range * (list N * T))) : N := sumN (map (fun r => vec_weight (fst (snd r))) rs).
Lemma insert_weight : forall k v items, items_weight (im_insert k v items) <= items_weight items + vec_weight (fst v).
Proof.
  intros k v items. unfold items_weight. induction items as [|[k' v'] items IH]; cbn [im_insert map]; rewrite ?sumN_cons; cbn [snd]; [change (sumN []) with 0; lia|].
  destruct (eqb k k'); cbn [map]; rewrite !sumN_cons; cbn [snd]; lia.
Qed.
Lemma ins_weight : forall rs items, items_weight (ins_rows items rs) <= items_weight items + rows_weight rs.
Proof.
  intros rs. unfold ins_rows, rows_weight. induction rs as [|r rs IH]; intros items; cbn [fold_left map]; rewrite ?sumN_cons; [change (sumN []) with 0; lia|].
  specialize (IH (im_insert (key_from_loc (fst r)) (snd r) items)). pose proof (insert_weight (key_from_loc (fst r)) (snd r) items). lia.
Qed.
Lemma upsert_weight : forall m k (v : list N * T) items, items_weight items + vec_weight (fst v) < u32_mod ->
  exists items', im_upsert k (fun pair => let* h := vec_add m (fst pair) (fst v) in Ok (h, snd pair)) v items = Ok items' /\
    items_weight items' <= items_weight items + vec_weight (fst v).
Proof.
  intros m k v items. unfold items_weight. induction items as [|[k' v'] items IH]; intros W; cbn [im_upsert map] in *; rewrite ?sumN_cons in *; cbn [snd] in *.
  - eexists. split; [reflexivity|]. cbn [map]. rewrite sumN_cons. cbn [snd]. lia.
  - destruct (eqb k k').
    + destruct (vec_add_weight m (fst v') (fst v)) as (c & -> & L); [lia|]. cbn [bind]. eexists. split; [reflexivity|]. cbn [map]. rewrite sumN_cons. cbn [snd fst]. lia.
    + destruct IH as (i' & -> & L); [lia|]. cbn [bind]. eexists. split; [reflexivity|]. cbn [map]. rewrite sumN_cons. cbn [snd]. lia.
Qed.
Lemma ups_weight : forall m rs items, items_weight items + rows_weight rs < u32_mod ->
  exists items', ups_rows (vec_add m) items rs = Ok items' /\ items_weight items' <= items_weight items + rows_weight rs.
Proof.
  intros m rs. unfold ups_rows, rows_weight. induction rs as [|r rs IH]; intros items W; cbn [fold_res map] in *; rewrite ?sumN_cons in *.
  - exists items. split; [reflexivity|lia].
  - destruct (upsert_weight m (key_from_loc (fst r)) (snd r) items) as (i1 & -> & L1); [lia|]. cbn [bind].
    destruct (IH i1) as (i2 & E & L2); [lia|]. exists i2. split; [exact E|lia].
Qed.
End Items.
Lemma rows_table : forall T (loc : T -> option range) bt mp, rows_weight (rows loc bt mp) <= table_weight bt.
Proof.
  intros T loc bt mp. unfold rows_weight, table_weight, rows. induction bt as [|[k v] bt IH]; cbn [flat_map map]; [lia|].
  rewrite sumN_cons, map_app, sumN_app. cbn [fst snd]. destruct (im_get k mp) as [t|]; [destruct (loc t) as [g|]|]; cbn [map]; rewrite ?sumN_cons; cbn [fst snd];
    change (sumN []) with 0; lia.
Qed.
Lemma renumbered : forall T (items : imap string (list N * T)), table_weight (number_from 0 (map fst (im_values items))) = items_weight items.
Proof.
  intros T items. unfold table_weight, items_weight, im_values. generalize 0 at 1. induction items as [|[k v] items IH]; intros n; [reflexivity|].
  cbn [map number_from]. rewrite !sumN_cons. cbn [snd]. now rewrite IH.
Qed.

Lemma truth_merge_modes : forall m bt1 X1 bt2 X2 (L : list range), tables_ok X1 -> tables_ok X2 -> attached bt1 X1 -> attached bt2 X2 ->
  (forall g, In g (map fst (branch_rows X1)) -> In g L) -> (forall g, In g (map fst (branch_rows X2)) -> In g L) ->
  table_weight bt1 + table_weight bt2 < u32_mod ->
  exists bt mp, merge_properties_hits_vec m branch_key bt1 (fc_branch_map X1) bt2 (fc_branch_map X2) = Ok (bt, mp) /\
    (forall k, In k (im_keys bt) -> (N.to_nat k < length L)%nat) /\ table_weight bt <= table_weight bt1 + table_weight bt2.
Proof.
  intros m bt1 X1 bt2 X2 L T1 T2 A1 A2 L1 L2 W0. unfold merge_properties_hits_vec.
  rewrite (merge_gen_rows _ _ br_loc k_br_loc) by now apply attached_table.
  pose proof (rows_table _ br_loc bt1 (fc_branch_map X1)) as R1. pose proof (rows_table _ br_loc bt2 (fc_branch_map X2)) as R2.
  pose proof (ins_weight (rows br_loc bt1 (fc_branch_map X1)) []) as I1. change (@items_weight branch []) with 0 in I1.
  destruct (ups_weight m (rows br_loc bt2 (fc_branch_map X2)) (ins_rows [] (rows br_loc bt1 (fc_branch_map X1)))) as (items & E & We); [lia|].
  rewrite E. cbn [bind merge_renumber]. do 2 eexists. split; [reflexivity|]. split; [|rewrite renumbered; lia]. intros k I. unfold im_keys in I. rewrite number_from_fst in I.
  apply in_map_iff in I as (n & <- & I). apply in_seq in I. unfold im_values in I. rewrite !map_length in I.
  assert (W : NoDup (im_keys items)).
  { eapply (ups_wf (vec_add m)); [|exact E]. apply ins_wf. constructor. }
  assert (Inc : incl (im_keys items) (map key_from_loc L)).
  { intros x Ix. apply (ups_keys_in (vec_add m) _ _ _ _ E) in Ix as [Ix|Ix].
    - apply ins_keys_in in Ix as [[]|Ix]. apply in_map_iff in Ix as (r & <- & Ir). apply in_map, L1. eapply attached_locs; eauto.
    - apply in_map_iff in Ix as (r & <- & Ir). apply in_map, L2. eapply attached_locs; eauto. }
  pose proof (NoDup_incl_length W Inc) as Le. unfold im_keys in Le. rewrite !map_length in Le. lia.
Qed.

Lemma logic_step_modes : forall m fc, fc_all fc = false -> unique_keys fc -> tables_ok fc -> locs_unique fc -> zeroed fc -> no_gaps fc ->
  (forall k, In k (im_keys (fc_branch_map fc)) <-> In k (im_keys (fc_b fc))) ->
  match fc_b_t fc with Some bt => attached bt fc | None => True end ->
  forall a l r l', Inv (without fc) (without a) l -> bounded fc a -> same_data r (after l' fc) ->
  fits (after (l ++ l') (without fc)) -> truth_weight a + truth_weight r < u32_mod ->
  exists R, fc_merge m a r = Ok R /\ bounded fc R /\ truth_weight R <= truth_weight a + truth_weight r.
Proof.
  intros m fc Hall Hu Ht Hl Hz Hg Hb Ha a l r l' Ia Ba D F W. pose proof (without_same _ _ _ D) as D'.
  destruct (inv_merge (without fc) Hall eq_refl (step_unique fc Hu) Ht Hl Hz m (without a) l (without r) l' Ia D' F) as (r0 & E0 & I0).
  destruct (inv_start (without fc) Hall eq_refl (step_unique fc Hu) Ht Hl (without r) l' D') as (Sr & (Pr1 & Pr2 & _) & _).
  destruct Ia as (Sa & (Pa1 & Pa2 & _) & _). destruct I0 as (S0 & (_ & T0 & _) & _).
  destruct (merge_split m a r r0 Pa1 Pr1 E0) as (-> & vs & Ev).
  pose proof (truth_keys fc Hu Ht Hg Hb Ha r l' D) as Tr. unfold bounded in Ba. unfold truth_weight in *.
  destruct (fc_b_t a) as [bt1|]; [|eexists; split; [reflexivity|split; [exact I|cbn [with_truth fc_b_t]; lia]]].
  destruct (fc_b_t r) as [bt2|]; [|eexists; split; [reflexivity|split; [exact Ba|cbn [with_truth fc_b_t]; lia]]]. destruct Tr as [Tr1 Tr2].
  assert (Locs : forall l, map fst (branch_rows (after l (without fc))) = map fst (branch_rows fc)).
  { intros l0. destruct (rows_after l0 (without fc)) as (_ & _ & ->). rewrite locs_mapped. unfold xb. rewrite krows_locs. reflexivity. }
  assert (LL : forall X l0, same_rows X (after l0 (without fc)) -> Permutation (map fst (branch_rows X)) (map fst (branch_rows fc))).
  { intros X l0 (_ & _ & S3). rewrite <- (Locs l0). now apply Permutation_map. }
  destruct (truth_merge_modes m bt1 r0 bt2 r (map fst (branch_rows fc)) T0 Pr2) as (bt & mp & E & Bd & Wb).
  - intros k Ik. apply Ba in Ik. rewrite Ev. unfold im_keys. rewrite number_from_fst. apply in_map_iff. exists (N.to_nat k). split; [lia|].
    apply in_seq. split; [lia|]. cbn. rewrite <- (number_from_length _ vs 0), <- Ev.
    rewrite <- (rows_len _ _ br_loc _ _ (proj2 (proj2 T0))). change (rows br_loc (fc_b r0) (fc_branch_map r0)) with (branch_rows r0).
    rewrite <- (map_length fst (branch_rows r0)), (Permutation_length (LL r0 _ S0)), map_length. exact Ik.
  - exact Tr1.
  - intros g Ig. exact (Permutation_in g (LL r0 _ S0) Ig).
  - intros g Ig. exact (Permutation_in g (LL (without r) _ Sr) Ig).
  - exact W.
  - rewrite E. cbn [bind]. eexists. split; [reflexivity|]. split; [|exact Wb]. unfold bounded. cbn [with_truth fc_b_t]. intros k Ik.
    rewrite <- (map_length fst (branch_rows fc)). now apply Bd.
Qed.

(** ** Maps *)
Definition map_weight (M : coverage_map) : N := sumN (map (fun kv => truth_weight (snd kv)) M).
Lemma map_insert_weight : forall k v (M : coverage_map), im_get k M = None -> map_weight (im_insert k v M) = map_weight M + truth_weight v.
Proof.
  intros k v M. unfold map_weight. induction M as [|[k' v'] M IH]; intros E; cbn [im_insert im_get map] in *; rewrite ?sumN_cons; cbn [snd]; [change (sumN []) with 0; lia|].
  destruct (eqb k k'); [discriminate|]. cbn [map]. rewrite sumN_cons, IH by exact E. cbn [snd]. lia.
Qed.
Lemma map_get_weight : forall k (M : coverage_map) R, im_get k M = Some R -> truth_weight R <= map_weight M.
Proof.
  intros k M R. unfold map_weight. induction M as [|[k' v'] M IH]; intros E; cbn [im_get map] in *; [discriminate|]. rewrite sumN_cons. cbn [snd].
  destruct (eqb k k'); [injection E as ->; lia|]. specialize (IH E). lia.
Qed.
Lemma map_update_weight : forall k v (M : coverage_map) R, im_get k M = Some R ->
  map_weight (im_update k (fun _ => v) M) + truth_weight R = map_weight M + truth_weight v.
Proof.
  intros k v M R. unfold map_weight. induction M as [|[k' v'] M IH]; intros E; cbn [im_get im_update map] in *; [discriminate|].
  destruct (eqb k k'); cbn [map]; rewrite !sumN_cons; cbn [snd]; [injection E as ->; lia|]. specialize (IH E). lia.
Qed.

Lemma adds_modes : forall m l, Forall modelled_logic l -> (forall P, In P l -> no_gaps (p_record P)) ->
  forall K rs, Forall2 (whole (project l)) K rs -> forall M H, state (all_without (project l)) (all_without M) H ->
  (forall p fc R, im_get p (project l) = Some fc -> im_get p M = Some R -> bounded fc R) ->
  (forall p fc, im_get p (all_without (project l)) = Some fc -> fits (after (logs_of p (H ++ K)) fc)) ->
  map_weight M + sumN (map truth_weight rs) < u32_mod ->
  exists M', fold_res (add_coverage_for_file m) M rs = Ok M' /\ map_weight M' <= map_weight M + sumN (map truth_weight rs).
Proof.
  intros m l Hm Hg. rewrite Forall_forall in Hm.
  assert (Pr : forall p fc, im_get p (all_without (project l)) = Some fc -> fc_path fc = p /\ OxideMerge.plain fc /\ unique_keys fc /\ zeroed fc).
  { intros p fc E. rewrite without_get in E. destruct (im_get p (project l)) as [fc0|] eqn:E0; [|discriminate].
    injection E as <-. destruct (project_in l p fc0 E0) as (P & I & <- & <-). apply modelled_logic_record, Hm, I. }
  intros K rs F. induction F as [|[p lg] r K rs (fc & Ep & D) _ IH]; intros M H S0 Bd Ft Wt; cbn [map] in Wt; rewrite ?sumN_cons in Wt.
  { exists M. split; [reflexivity|]. cbn [map]. change (sumN []) with 0. lia. }
  cbn [fst snd] in *. assert (E0 : H ++ (p, lg) :: K = (H ++ [(p, lg)]) ++ K) by (rewrite <- app_assoc; reflexivity). rewrite E0 in Ft.
  assert (Ep' : im_get p (all_without (project l)) = Some (without fc)) by (rewrite without_get, Ep; reflexivity).
  assert (Fp : fits (after (logs_of p (H ++ [(p, lg)])) (without fc))).
  { specialize (Ft p _ Ep'). rewrite logs_app in Ft. destruct (Pr p _ Ep') as (_ & (A & B & C & Dn) & U & Z). eapply fits_prefix; eauto. }
  destruct (add_state (all_without (project l)) Pr m (all_without M) H p lg (without fc) (without r) S0 Ep' (without_same _ _ _ D) Fp) as (W1 & Ew & Sw).
  destruct (project_in l p fc Ep) as (P & IP & <- & <-). pose proof (modelled_logic_step P (Hm P IP)) as X. cbv zeta in X.
  destruct X as (X1 & X2 & X3 & X4 & X5 & X6 & X7).
  assert (Pth : fc_path r = p_path P).
  { pose proof (proj1 (Pr _ _ Ep')) as Q. destruct D as (_ & D & _). cbn in D, Q. congruence. }
  assert (Lg : logs_of (p_path P) (H ++ [(p_path P, lg)]) = logs_of (p_path P) H ++ lg).
  { rewrite logs_app. f_equal. unfold logs_of. cbn. now rewrite String.eqb_refl, app_nil_r. }
  rewrite Lg in Fp.
  assert (X : exists M1, add_coverage_for_file m M r = Ok M1 /\ (forall q fc R, im_get q (project l) = Some fc -> im_get q M1 = Some R -> bounded fc R) /\
    map_weight M1 <= map_weight M + truth_weight r).
  { unfold add_coverage_for_file. rewrite Pth. destruct (im_get (p_path P) M) as [R|] eqn:Eg.
    - destruct S0 as [_ S0]. specialize (S0 (p_path P)).
      assert (Eg' : im_get (p_path P) (all_without M) = Some (without R)) by (rewrite without_get, Eg; reflexivity).
      destruct (has (p_path P) H); [|congruence]. destruct S0 as (fc' & R' & E1 & E2 & I0). rewrite Ep' in E1. rewrite Eg' in E2.
      injection E1 as <-. injection E2 as <-. pose proof (map_get_weight _ _ _ Eg) as Wg.
      destruct (logic_step_modes m (p_record P) X1 X2 X3 X4 X5 (Hg P IP) X6 X7 R _ r lg I0 (Bd _ _ _ Ep Eg) D Fp) as (R1 & E1 & B1 & W2); [lia|].
      rewrite E1. cbn [bind]. eexists. split; [reflexivity|]. split.
      + intros q fc R2 Eq Er. rewrite im_get_update in Er. destruct (eqb q (p_path P)) eqn:Eqp.
        * apply String.eqb_eq in Eqp. subst q. rewrite Eg in Er. cbn in Er. injection Er as <-. rewrite Ep in Eq. injection Eq as <-. exact B1.
        * now apply (Bd q).
      + pose proof (map_update_weight (p_path P) R1 M R Eg). lia.
    - eexists. split; [reflexivity|]. split; [|rewrite map_insert_weight by exact Eg; lia].
      intros q fc R2 Eq Er. rewrite im_get_insert in Er. destruct (eqb q (p_path P)) eqn:Eqp.
      + apply String.eqb_eq in Eqp. subst q. injection Er as <-. rewrite Ep in Eq. injection Eq as <-.
        pose proof (truth_keys (p_record P) X2 X3 (Hg P IP) X6 X7 r lg D) as T. unfold bounded. destruct (fc_b_t r); [apply T|exact I].
      + now apply (Bd q). }
  destruct X as (M1 & E1 & B1 & W2). cbn [fold_res map]. rewrite E1, sumN_cons. cbn [bind]. pose proof (add_without _ _ _ _ E1) as Ea.
  assert (W1 = all_without M1) by congruence. subst W1. destruct (IH M1 _ Sw B1 Ft) as (M' & E2 & W3); [lia|]. exists M'. split; [exact E2|lia].
Qed.

(** ** The weight of a merged map *)
Lemma u32_add_le : forall m a b c, u32_add m a b = Ok c -> c <= a + b.
Proof.
  intros [] a b c H; unfold u32_add in H.
  - destruct (_ <? _); [injection H as <-; lia|discriminate].
  - injection H as <-. apply N.mod_le. discriminate.
Qed.
Lemma vec_add_le : forall m a b c, vec_add m a b = Ok c -> vec_weight c <= vec_weight a + vec_weight b.
Proof.
  intros m a b c. unfold vec_add, vec_weight.
  assert (G : forall p it c, vec_add_in m p it = Ok c -> sumN c <= sumN p + sumN it /\ length c = length p).
  { induction p as [|x p IH]; intros [|y it] c0 H; cbn [vec_add_in] in H; try discriminate; [injection H as <-; cbn; lia|injection H as <-; split; [lia|reflexivity]|].
    destruct (u32_add m x y) as [z| |] eqn:E; cbn [bind] in H; try discriminate. apply u32_add_le in E.
    destruct (vec_add_in m p it) as [r| |] eqn:E2; cbn [bind] in H; try discriminate. injection H as <-. destruct (IH it r E2) as [L1 L2].
    rewrite !sumN_cons. split; [lia|]. cbn [length]. lia. }
  assert (Z : forall n, sumN (repeat 0 n) = 0). { induction n as [|n IH]; [reflexivity|]. cbn [repeat]. now rewrite sumN_cons, IH. }
  destruct (Nat.ltb_spec (length a) (length b)) as [L|L]; intros H; apply G in H as [H1 H2].
  - unfold vec_resize in *. rewrite sumN_app, Z in H1. rewrite app_length, repeat_length in H2. lia.
  - lia.
Qed.
Lemma truths_le : forall m bt1 (mp1 : branch_map) bt2 mp2 bt mp, merge_properties_hits_vec m branch_key bt1 mp1 bt2 mp2 = Ok (bt, mp) ->
  table_weight bt <= table_weight bt1 + table_weight bt2.
Proof.
  intros m bt1 mp1 bt2 mp2 bt mp H. unfold merge_properties_hits_vec, merge_properties_gen in H.
  assert (G1 : forall bt items i, fold_res (merge_loop1 branch_key mp1) items bt = Ok i -> items_weight i <= items_weight items + table_weight bt).
  { clear. unfold table_weight. intros bt. induction bt as [|[k v] bt IH]; intros items i H; cbn [fold_res map] in *; rewrite ?sumN_cons in *; [injection H as <-; cbn; lia|].
    unfold merge_loop1 at 1 in H. cbn [fst snd] in *. destruct (expect _ (im_get k mp1)) as [br| |]; cbn [bind] in H; try discriminate.
    destruct (branch_key br) as [key| |]; cbn [bind] in H; try discriminate. apply IH in H. pose proof (insert_weight key (v, br) items) as L. cbn [fst] in L. lia. }
  assert (G2 : forall bt items i, fold_res (merge_loop2 (vec_add m) branch_key mp2) items bt = Ok i -> items_weight i <= items_weight items + table_weight bt).
  { clear. unfold table_weight. intros bt. induction bt as [|[k v] bt IH]; intros items i H; cbn [fold_res map] in *; rewrite ?sumN_cons in *; [injection H as <-; cbn; lia|].
    unfold merge_loop2 at 1 in H. cbn [fst snd] in *. destruct (expect _ (im_get k mp2)) as [br| |]; cbn [bind] in H; try discriminate.
    destruct (branch_key br) as [key| |]; cbn [bind] in H; try discriminate.
    destruct (im_upsert _ _ _ items) as [i1| |] eqn:E; cbn [bind] in H; try discriminate. apply IH in H.
    enough (items_weight i1 <= items_weight items + vec_weight v) by lia. clear - E. unfold items_weight. revert i1 E.
    induction items as [|[k' v'] items IH]; intros i1 E; cbn [im_upsert map] in *; rewrite ?sumN_cons; cbn [snd].
    - injection E as <-. cbn [map]. rewrite sumN_cons. cbn [snd fst]. lia.
    - destruct (eqb key k').
      + destruct (vec_add m (fst v') v) as [h| |] eqn:Ev; cbn [bind] in E; try discriminate. injection E as <-. apply vec_add_le in Ev. cbn [map]. rewrite sumN_cons. cbn [snd fst]. lia.
      + destruct (im_upsert _ _ _ items) as [i2| |]; cbn [bind] in E; try discriminate. injection E as <-. specialize (IH i2 eq_refl). cbn [map]. rewrite sumN_cons. cbn [snd]. lia. }
  destruct (fold_res (merge_loop1 branch_key mp1) [] bt1) as [i1| |] eqn:E1; cbn [bind] in H; try discriminate. apply G1 in E1. change (@items_weight branch []) with 0 in E1.
  destruct (fold_res (merge_loop2 (vec_add m) branch_key mp2) i1 bt2) as [i2| |] eqn:E2; cbn [bind merge_renumber] in H; try discriminate. apply G2 in E2.
  injection H as <- _. rewrite renumbered. lia.
Qed.
Lemma merge_weight : forall m a b r, fc_merge m a b = Ok r -> truth_weight r <= truth_weight a + truth_weight b.
Proof.
  intros m a b r H. unfold fc_merge in H. destruct (fc_all b); [injection H as <-; lia|]. destruct (fc_all a); [injection H as <-; lia|].
  destruct (merge_properties m _ (fc_s a) _ _ _) as [[s sm]| |]; cbn [bind] in *; try discriminate.
  destruct (merge_properties m _ (fc_f a) _ _ _) as [[f fm]| |]; cbn [bind] in *; try discriminate.
  destruct (merge_properties_hits_vec m branch_key (fc_b a) _ _ _) as [[c bm]| |]; cbn [bind] in *; try discriminate. unfold truth_weight.
  destruct (fc_b_t a) as [bt1|]; [|cbn [bind] in H; injection H as <-; cbn [fc_b_t]; lia].
  destruct (fc_b_t b) as [bt2|]; [|cbn [bind] in H; injection H as <-; cbn [fc_b_t]; lia].
  destruct (merge_properties_hits_vec m branch_key bt1 bm bt2 (fc_branch_map b)) as [[bt mp]| |] eqn:E; cbn [bind] in H; try discriminate.
  injection H as <-. cbn [fc_b_t]. exact (truths_le _ _ _ _ _ _ _ E).
Qed.
Lemma adds_weight : forall m rs M M', fold_res (add_coverage_for_file m) M rs = Ok M' -> map_weight M' <= map_weight M + sumN (map truth_weight rs).
Proof.
  intros m rs. induction rs as [|r rs IH]; intros M M' H; cbn [fold_res map] in *; rewrite ?sumN_cons; [injection H as <-; change (sumN []) with 0; lia|].
  destruct (add_coverage_for_file m M r) as [M1| |] eqn:E; cbn [bind] in H; try discriminate. apply IH in H.
  enough (map_weight M1 <= map_weight M + truth_weight r) by lia. unfold add_coverage_for_file in E.
  destruct (im_get (fc_path r) M) as [R|] eqn:Eg.
  - destruct (fc_merge m R r) as [v| |] eqn:Em; cbn [bind] in E; try discriminate. injection E as <-. apply merge_weight in Em.
    pose proof (map_update_weight _ v M R Eg). lia.
  - injection E as <-. rewrite map_insert_weight by exact Eg. lia.
Qed.

(** ** Summaries *)
Lemma positive_le : forall v, (positive_hits v <= length v)%nat.
Proof. intros v. apply filter_length_le. Qed.
Lemma branch_totals_modes : forall m bt, table_weight bt < u32_mod ->
  exists t, compute_branch_totals m bt = Ok t /\ t_total t <= table_weight bt /\ t_covered t <= t_total t /\ t_skipped t = 0.
Proof.
  intros m bt W. unfold compute_branch_totals.
  assert (G : forall (bt : branch_hit_map) c t, c <= t -> t + table_weight bt < u32_mod -> exists c' t', fold_res (branch_totals_step m) (c, t) (im_values bt) = Ok (c', t') /\
    t' <= t + table_weight bt /\ c' <= t').
  { clear. unfold table_weight, im_values. intros bt. induction bt as [|[k v] bt IH]; intros c t Le W; cbn [map fold_res] in *; rewrite ?sumN_cons in *; cbn [snd] in *.
    - exists c, t. split; [reflexivity|]. change (sumN []) with 0. lia.
    - pose proof (positive_le v) as Lp. unfold branch_totals_step at 1. cbn [fst snd]. unfold vec_weight in *. rewrite !u32_add_fits by lia. cbn [bind].
      destruct (IH (c + N.of_nat (positive_hits v)) (t + N.of_nat (length v))) as (c' & t' & E & L1 & L2); [lia|lia|]. exists c', t'. split; [exact E|]. lia. }
  destruct (G bt 0 0) as (c & t & E & L1 & L2); [lia|lia|]. rewrite E. cbn [bind]. eexists. split; [reflexivity|]. cbn. lia.
Qed.
Definition truth_fits (s : coverage_summary) (w : N) : Prop :=
  match cs_branches_true s with Some t => t_total t <= w /\ t_covered t <= t_total t /\ t_skipped t = 0 | None => True end.
Lemma summary_modes : forall m fc s, to_summary m (without fc) = Ok s -> truth_weight fc < u32_mod ->
  exists s', to_summary m fc = Ok s' /\ no_truth s' = s /\ truth_fits s' (truth_weight fc).
Proof.
  intros m fc s H W. unfold to_summary in *. change (get_line_coverage (without fc)) with (get_line_coverage fc) in H. cbn [without fc_s fc_f fc_b fc_b_t] in H.
  destruct (get_line_coverage fc) as [lc| |]; cbn [bind] in *; try discriminate.
  destruct (compute_branch_totals m (fc_b fc)) as [t| |]; cbn [bind] in *; try discriminate. injection H as <-. unfold truth_weight, truth_fits in *.
  destruct (fc_b_t fc) as [bt|].
  - destruct (branch_totals_modes m bt W) as (t' & -> & L). cbn [bind]. eexists. split; [reflexivity|]. split; [reflexivity|exact L].
  - eexists. split; [reflexivity|]. split; [reflexivity|exact I].
Qed.
Lemma sums_modes : forall m a b s wa wb, summary_merge m (no_truth a) (no_truth b) = Ok s -> truth_fits a wa -> truth_fits b wb -> wa + wb < u32_mod ->
  exists s', summary_merge m a b = Ok s' /\ no_truth s' = s /\ truth_fits s' (wa + wb).
Proof.
  intros m a b s wa wb H Fa Fb W. unfold summary_merge in *. cbn [no_truth cs_lines cs_statements cs_functions cs_branches cs_branches_true] in H.
  do 4 (match goal with H : bind ?x _ = _ |- _ => destruct x; cbn [bind] in *; try discriminate end). injection H as <-. unfold truth_fits in *.
  destruct (cs_branches_true b) as [tb|].
  - set (ta := match cs_branches_true a with Some v => v | None => totals_default end).
    assert (Ta : t_total ta <= wa /\ t_covered ta <= t_total ta /\ t_skipped ta = 0).
    { unfold ta. destruct (cs_branches_true a); [exact Fa|]. cbn. lia. }
    unfold totals_merge. rewrite !u32_add_fits by lia. cbn [bind]. eexists. split; [reflexivity|]. split; [reflexivity|]. cbn. lia.
  - eexists. split; [reflexivity|]. split; [reflexivity|]. cbn [cs_branches_true]. destruct (cs_branches_true a); [lia|exact I].
Qed.
Lemma report_modes : forall m M s, cm_get_coverage_summary m (all_without M) = Ok s -> map_weight M < u32_mod ->
  exists s', cm_get_coverage_summary m M = Ok s' /\ no_truth s' = s.
Proof.
  intros m M s H W. unfold cm_get_coverage_summary, im_values, all_without in *. rewrite map_map in H. cbn [snd] in H.
  assert (G : forall (M : coverage_map) a w s, truth_fits a w -> w + map_weight M < u32_mod ->
    fold_res (fun acc fc => let* s := to_summary m fc in summary_merge m acc s) (no_truth a) (map (fun x => without (snd x)) M) = Ok s ->
    exists s', fold_res (fun acc fc => let* s := to_summary m fc in summary_merge m acc s) a (map snd M) = Ok s' /\ no_truth s' = s).
  { clear. unfold map_weight. intros M. induction M as [|[p fc] M IH]; intros a w s Fa W H; cbn [map fold_res snd] in *; rewrite ?sumN_cons in *; cbn [snd] in *.
    - exists a. split; [reflexivity|]. now injection H.
    - destruct (to_summary m (without fc)) as [t| |] eqn:E; cbn [bind] in H; try discriminate.
      destruct (summary_merge m (no_truth a) t) as [b| |] eqn:E2; cbn [bind] in H; try discriminate.
      destruct (summary_modes m fc t E) as (t' & -> & <- & Ft); [lia|]. cbn [bind].
      destruct (sums_modes m a t' b w (truth_weight fc) E2 Fa Ft) as (b' & -> & <- & Fb); [lia|]. cbn [bind].
      apply (IH b' _ s Fb); [lia|exact H]. }
  apply (G M summary_derived_default 0 s); [exact I|lia|exact H].
Qed.

(** In both build modes the report of a project instrumented with or without [reportLogic] can be computed if no branch was
    removed from a record and the truthiness counters of all published records are few and small. *)
Theorem logic_modes_partial : forall m l gcv hs rss logs, NoDup (map p_path l) -> Forall modelled_logic l -> small l ->
  (forall P, In P l -> no_gaps (p_record P)) ->
  Forall2 (process (project l) gcv) hs rss -> (forall P, In P l -> Forall2 (acted_logic gcv P) hs (logs P)) ->
  (forall P ev, In P l -> N.of_nat (count_occ event_dec (concat (logs P)) ev) < u32_mod) ->
  sumN (map truth_weight (concat rss)) < u32_mod ->
  exists M s parts, merge_maps m rss = Ok M /\ cm_get_coverage_summary m M = Ok s /\
    map (fun x => p_path (r_prog x)) parts = cm_get_files M /\
    Permutation (map r_prog parts) (filter (fun P => ran_once gcv (p_path P) hs) l) /\
    Forall (part_of logs M) parts /\
    adds_up logs r_stmts parts (cs_statements s) /\ adds_up logs r_fns parts (cs_functions s) /\
    adds_up logs r_paths parts (cs_branches s).
Proof.
  intros m l gcv hs rss logs W Hm Sm Hg F Ha Hb Hw. pose proof Hm as Hm'. rewrite Forall_forall in Hm'.
  assert (Pp : forall p fc, im_get p (project l) = Some fc -> fc_path fc = p).
  { intros p fc E. destruct (project_in l p fc E) as (P & I & <- & <-). apply modelled_logic_record, Hm', I. }
  assert (X : exists K, Forall2 (whole (project l)) K (concat rss) /\ Forall (fun rs => NoDup (map fc_path rs)) rss /\
    forall p, has p K = ran_once gcv p hs /\ logs_of p K = total gcv p hs).
  { clear - F Pp. induction F as [|evs rs hs rss P _ (K & A & B & C)].
    - exists []. split; [constructor|]. split; [constructor|]. now intros p.
    - destruct (process_paths (project l) Pp gcv evs rs P) as (K1 & A1 & B1 & C1). exists (K1 ++ K). cbn [concat].
      split; [now apply Forall2_app|]. split; [now constructor|]. intros p. unfold ran_once, total. cbn [existsb flat_map].
      destruct (C p) as [C2 C3], (C1 p) as [C4 C5]. rewrite has_app, logs_app, C2, C3, C4, C5. now split. }
  destruct X as (K & A & B & C).
  destruct (adds_modes m l Hm Hg K (concat rss) A [] []) as (M & E & Wm).
  { split; [split; [constructor|discriminate]|]. now intros p. }
  { discriminate. }
  { intros p fc Ep. cbn [app]. destruct (C p) as [_ ->]. rewrite without_get in Ep.
    destruct (im_get p (project l)) as [fc0|] eqn:E0; [|discriminate]. injection Ep as <-. destruct (project_in l p fc0 E0) as (P & I & <- & <-).
    destruct (modelled_logic_record P (Hm' P I)) as (_ & (P1 & P2 & P3 & P4) & P5 & P6).
    apply (fits_recorded (without (p_record P)) P5 P3). intros c v Hv. pose proof (Hm' P I) as (H1 & H2 & H3 & H4 & H5 & H6 & H7 & _ & H9 & _).
    destruct (rows_tell_for (p_env P) (p_fuel P) (p_path P) (p_ism P) (p_tree P) (p_items P) (p_out P) (p_cov P) H1 H2 H3 H4 H5 H6 H7 H9
      (total gcv (p_path P) hs) (concat (logs P)) (acted_logic_told gcv P hs (logs P) (Ha P I))) as [X1 _].
    destruct (seen c) eqn:Sc; [|destruct c; discriminate]. apply (X1 (fun ev => Hb P ev I) c v Sc). destruct c; [exact Hv..|discriminate]. }
  { exact Hw. }
  rewrite <- (merge_maps_adds m rss B) in E. change (map_weight []) with 0 in Wm.
  destruct (logic_tells_partial m l gcv hs rss logs M W Hm F Ha Hb E) as (Ok0 & Fs & Rd).
  assert (Ok1 : cm_ok (all_without M)).
  { destruct Ok0 as [O1 O2]. split; [unfold cm_get_files in *; now rewrite without_keys|]. intros p R G.
    unfold cm_get_coverage_for_file in G. rewrite without_get in G. destruct (im_get p M) as [R0|] eqn:E1; [|discriminate]. injection G as <-. now apply (O2 p R0). }
  destruct (summaries_of m l (fun p => ran_once gcv p hs) logs (all_without M) W Sm Ok1) as (s0 & _ & Es & _).
  { intros p. unfold cm_get_files. rewrite without_keys. apply Fs. }
  { intros P R I G. unfold cm_get_coverage_for_file in G. rewrite without_get in G. destruct (im_get (p_path P) M) as [R0|] eqn:E1; [|discriminate].
    injection G as <-. now apply (Rd P R0 I). }
  destruct (report_modes m M s0 Es) as (s & Hs & _); [lia|].
  destruct (logic_report_partial m l gcv hs rss logs M s W Hm Sm F Ha Hb E Hs) as (parts & H). exists M, s, parts. auto.
Qed.

(** ** Example *)
Lemma same_weight : forall a b, same_data a b -> truth_weight a = truth_weight b.
Proof.
  intros a b (_ & _ & _ & _ & _ & _ & _ & _ & P & _). unfold truth_weight, table_weight. destruct (fc_b_t a), (fc_b_t b); try contradiction; [|reflexivity].
  unfold sumN. induction P; cbn [map fold_right]; lia.
Qed.
Lemma calls_weight : forall t' sc n, instrument logic_env 40 "f.js" None ex_calls = Ok (t', sc) -> n = 1%nat \/ n = 20%nat ->
  truth_weight (after (calls_incs n (calls_program t' sc)) (sc_fc sc)) = match n with 1%nat => 2 | _ => 3 end.
Proof. intros t' sc n H [->| ->]; vm_compute in H; injection H as <- <-; vm_compute; reflexivity. Qed.
(** Two processes run [ex_calls], instrumented with [reportLogic], and a debug build reports on them. *)
Example logic_debug_ex : forall t' sc, instrument logic_env 40 "f.js" None ex_calls = Ok (t', sc) ->
  let P := calls_program t' sc in
  let hs := [one_file (calls_emitted P) (calls_incs 20 P); one_file (calls_emitted P) (calls_incs 1 P)] in
  exists rss M s, fc_b_t (sc_fc sc) <> None /\ Forall2 (process (project [P]) "__coverage__") hs rss /\ merge_maps Debug rss = Ok M /\
    cm_get_coverage_summary Debug M = Ok s /\ cm_get_files M = ["f.js"] /\
    t_total (cs_statements s) = 5 /\ t_total (cs_functions s) = 1 /\ t_total (cs_branches s) = 4.
Proof.
  intros t' sc H P hs. destruct (calls_modelled t' sc H) as (Mo & Sm & Ng & Bt). fold P in Mo, Sm.
  assert (Wl : NoDup (map p_path [P])) by (repeat constructor; intros []).
  assert (Hm : Forall modelled_logic [P]) by (constructor; [exact Mo|constructor]).
  assert (In1 : forall n, exists rs, process (project [P]) "__coverage__" (one_file (calls_emitted P) (calls_incs n P)) rs).
  { intros n. destruct (one_file_ok (calls_emitted P) (calls_incs n P)) as (V & L & _).
    assert (O : Forall (fun f => exists fc, output_of f fc /\ (em_gcv f = "__coverage__" -> im_get (em_path f) (project [P]) = Some fc))
      (loaded (one_file (calls_emitted P) (calls_incs n P)))).
    { rewrite L. constructor; [|constructor]. exists (p_record P). destruct Mo as (H1 & _ & _ & _ & _ & _ & _ & H8 & H9 & _). split.
      - destruct (produced_literal _ _ _ _ _ _ _ _ H1 H9 H8) as [O _]. apply O.
      - intros _. reflexivity. }
    assert (W1 : NoDup (map file_key (loaded (one_file (calls_emitted P) (calls_incs n P))))) by (rewrite L; repeat constructor; intros []).
    destruct (variable_read _ "__coverage__" V W1) as (st & rs & E & Er & _).
    { eapply Forall_impl; [|exact O]. intros f (fc & Of & _). eauto. }
    exists (map snd rs). split; [exact V|]. split; [exact W1|]. split; [exact O|]. exists st, rs. auto. }
  assert (Pj : forall p fc, im_get p (project [P]) = Some fc -> fc_path fc = p /\ p = "f.js" /\ fc = sc_fc sc).
  { intros p fc E. destruct (project_in [P] p fc E) as (Q & [<-|[]] & <- & <-). split; [apply modelled_logic_record, Mo|now split]. }
  assert (Wn : forall n rs, n = 1%nat \/ n = 20%nat -> process (project [P]) "__coverage__" (one_file (calls_emitted P) (calls_incs n P)) rs ->
    sumN (map truth_weight rs) <= 3).
  { intros n rs Hn Pr. destruct (process_paths (project [P]) (fun p fc E => proj1 (Pj p fc E)) _ _ _ Pr) as (K & Wh & Nd & Lg).
    destruct (Lg "f.js") as [_ Lf]. change "f.js" with (em_path (calls_emitted P)) in Lf. change "__coverage__" with (em_gcv (calls_emitted P)) in Lf.
    destruct (one_ok (calls_emitted P) (calls_incs n P)) as (_ & _ & D). rewrite D in Lf. change (em_path (calls_emitted P)) with "f.js" in Lf.
    assert (Pth : forall r, In r rs -> fc_path r = "f.js").
    { clear - Wh Pj. induction Wh as [|x r K rs (fc & E & D) _ IH]; [intros r []|]. intros r0 [<-|I]; [|now apply IH].
      destruct (Pj _ _ E) as (A & B & _). destruct D as (_ & D & _). cbn in D. congruence. }
    destruct Wh as [|x r K rs (fc & E & Ds) Wh]; [cbn; lia|]. destruct rs as [|r' rs].
    2: { exfalso. cbn [map] in Nd. inversion Nd as [|? ? Ni _]. apply Ni. left. rewrite !Pth; cbn; auto. }
    inversion Wh. subst K. destruct (Pj _ _ E) as (_ & Ex & ->). unfold logs_of in Lf. cbn [flat_map] in Lf. rewrite Ex, String.eqb_refl, app_nil_r in Lf.
    rewrite Lf in Ds. cbn [map]. rewrite sumN_cons, (same_weight _ _ Ds). change (sumN []) with 0. unfold P. rewrite (calls_weight t' sc n H Hn). destruct Hn as [->| ->]; lia. }
  destruct (In1 20%nat) as (r1 & P1), (In1 1%nat) as (r2 & P2).
  assert (Pr : Forall2 (process (project [P]) "__coverage__") hs [r1; r2]) by (constructor; [exact P1|constructor; [exact P2|constructor]]).
  assert (Ac : forall Q, In Q [P] -> Forall2 (acted_logic "__coverage__" Q) hs [calls_log 20; calls_log 1]).
  { intros Q [<-|[]]. constructor; [|constructor; [|constructor]]; unfold acted_logic.
    - destruct (one_ok (calls_emitted P) (calls_incs 20 P)) as (_ & U & D). rewrite U. exists pure_toy, 20%nat, tt, w0.
      split; [intros _; apply pure_toy_tests|]. split; [reflexivity|]. change (done "__coverage__" (p_path P)) with (done (em_gcv (calls_emitted P)) (em_path (calls_emitted P))). rewrite D. apply Permutation_refl.
    - destruct (one_ok (calls_emitted P) (calls_incs 1 P)) as (_ & U & D). rewrite U. exists pure_toy, 1%nat, tt, w0.
      split; [intros _; apply pure_toy_tests|]. split; [reflexivity|]. change (done "__coverage__" (p_path P)) with (done (em_gcv (calls_emitted P)) (em_path (calls_emitted P))). rewrite D. apply Permutation_refl. }
  assert (Fit : forall Q ev, In Q [P] -> N.of_nat (count_occ event_dec (concat [calls_log 20; calls_log 1]) ev) < u32_mod).
  { intros Q ev _. refine (N.le_lt_trans _ _ _ (occurrences_le ev _) _). vm_compute. reflexivity. }
  destruct (logic_modes_partial Debug [P] "__coverage__" hs [r1; r2] (fun _ => [calls_log 20; calls_log 1]) Wl Hm Sm) as (M & s & parts & E1 & E2 & E3 & E4 & E5 & (A1 & _) & (A2 & _) & (A3 & _)).
  { intros Q [<-|[]]. exact Ng. } { exact Pr. } { exact Ac. } { exact Fit. }
  { cbn [concat]. rewrite app_nil_r, map_app, sumN_app. pose proof (Wn 20%nat r1 (or_intror eq_refl) P1). pose proof (Wn 1%nat r2 (or_introl eq_refl) P2).
    apply (N.le_lt_trans _ 6); [lia|reflexivity]. }
  assert (Fl : filter (fun Q => ran_once "__coverage__" (p_path Q) hs) [P] = [P]).
  { unfold hs, ran_once. cbn [filter existsb]. destruct (one_ok (calls_emitted P) (calls_incs 20 P)) as (_ & U & _). rewrite U. reflexivity. }
  rewrite Fl in E4. apply Permutation_sym, Permutation_length_1_inv in E4.
  destruct (map_single _ _ E4) as (x & -> & Ex).
  cbn [map] in E3. rewrite Ex in E3. apply Forall_inv in E5 as (X1 & X2 & X3 & _). rewrite Ex in X1, X2, X3.
  exists [r1; r2], M, s. split; [exact Bt|]. split; [exact Pr|]. split; [exact E1|]. split; [exact E2|]. split; [symmetry; exact E3|].
  rewrite A1, A2, A3. cbn [map sumN fold_right]. rewrite X1, X2, X3. unfold paths_of, p_record, P, calls_program. cbn [p_cov].
  clear - H. vm_compute in H. injection H as _ <-. repeat split.
Qed.
