(** Visiting a node does not touch the branches registered before it (used for C36), and what
    an if statement becomes. *)
From Coq Require Import NArith String List Bool Lia PeanoNat.
Import ListNotations.
From Verif Require Import Base IndexMap Oxide SourceCov Hints Ast Visitor VisitorRel VisitorEx Erase
  Counting Suppress.
Open Scope N_scope.

(** Table entry and counter row of a branch *)
Definition entry (sc : source_cov) (b : N) : option branch * option (list N) :=
  (im_get b (fc_branch_map (sc_fc sc)), im_get b (fc_b (sc_fc sc))).
Definition keeps (b0 : N) (sc sc' : source_cov) : Prop :=
  entry sc' b0 = entry sc b0 /\ sc_b sc <= sc_b sc'.

Lemma keeps_refl : forall b sc, keeps b sc sc. Proof. split; [reflexivity|lia]. Qed.
Lemma keeps_trans : forall b x y z, keeps b x y -> keeps b y z -> keeps b x z.
Proof. intros b x y z [A1 A2] [B1 B2]. split; [congruence|lia]. Qed.
Lemma keeps_stmt : forall b r sc sc' i, new_statement r sc = (sc', i) -> keeps b sc sc'.
Proof. intros b r sc sc' i H. inversion H; subst. split; [reflexivity|cbn; lia]. Qed.
Lemma keeps_fn : forall b n d l sc sc' i, new_function n d l sc = (sc', i) -> keeps b sc sc'.
Proof. intros b n d l sc sc' i H. inversion H; subst. split; [reflexivity|cbn; lia]. Qed.
Lemma keeps_branch : forall b t l f sc sc' i, new_branch t l f sc = (sc', i) -> b < sc_b sc ->
  keeps b sc sc' /\ b <> i.
Proof.
  intros b t l f sc sc' i H Hb. inversion H; subst. split; [|lia]. split; [|cbn; lia].
  unfold entry. cbn. rewrite !im_get_insert. change (eqb b (sc_b sc)) with (b =? sc_b sc).
  destruct (N.eqb_spec b (sc_b sc)); [lia|reflexivity].
Qed.
Lemma keeps_path : forall b b1 r sc sc' i, add_branch_path b1 r sc = Ok (sc', i) -> b <> b1 ->
  keeps b sc sc'.
Proof.
  intros b b1 r sc sc' i H Hb. unfold add_branch_path in H.
  apply bind_ok in H as [x1 [_ H]]. apply bind_ok in H as [x2 [_ H]]. apply bind_ok in H as [x3 [_ H]].
  inversion H; subst. split; [|cbn; lia]. unfold entry. cbn. rewrite !im_get_update.
  change (eqb b b1) with (b =? b1). destruct (N.eqb_spec b b1); [contradiction|reflexivity].
Qed.

(** What registering a branch and adding a path to it do to its own entry *)
Lemma branch_entry : forall t l f sc sc' b, new_branch t l f sc = (sc', b) ->
  b = sc_b sc /\ sc_b sc' = b + 1 /\
  entry sc' b = (Some (mkBranch (Some l) t [] (Some (line (rstart l)))), Some []).
Proof.
  intros t l f sc sc' b H. inversion H; subst. unfold entry. cbn. rewrite !im_get_insert.
  change (eqb (sc_b sc) (sc_b sc)) with (sc_b sc =? sc_b sc). rewrite N.eqb_refl. auto.
Qed.
Lemma path_entry : forall b r sc sc' i br row, add_branch_path b r sc = Ok (sc', i) ->
  entry sc b = (Some br, Some row) ->
  i = N.of_nat (length row) /\ sc_b sc' = sc_b sc /\
  entry sc' b = (Some (push_location r br), Some (row ++ [0])%list).
Proof.
  intros b r sc sc' i br row H E. unfold add_branch_path in H. unfold entry in *.
  inversion E as [[E1 E2]]. rewrite E1, E2 in H. cbn [expect bind] in H.
  rewrite im_get_update in H. change (eqb b b) with (b =? b) in H. rewrite N.eqb_refl, E2 in H.
  cbn [option_map expect bind] in H. inversion H; subst. cbn. rewrite !im_get_update.
  change (eqb b b) with (b =? b). rewrite N.eqb_refl, E1, E2. cbn. repeat split.
  rewrite app_length. cbn. f_equal. lia.
Qed.

Section Local.
Variable e : env.
Notation gd := (good false).

Definition own (v : vis) (b : N) : bool :=
  match v with VSwitch b' | VLogical b' => b =? b' | _ => false end.

Definition LV (v : vis) (t : node) (s s' : st) : Prop :=
  forall b0, b0 < sc_b (cov s) -> own v b0 = false -> gd t = true -> keeps b0 (cov s) (cov s').
Definition LK (v : vis) (cs : list node) (s s' : st) : Prop :=
  forall b0, b0 < sc_b (cov s) -> own v b0 = false -> forallb gd cs = true -> keeps b0 (cov s) (cov s').

Lemma keeps_mark : forall b sp s, keeps b (cov s) (cov (mark_prepend_stmt_counter e sp s)).
Proof.
  intros b sp s. unfold mark_prepend_stmt_counter.
  destruct (new_statement (range_of e sp) (cov s)) as [c i] eqn:H. now apply keeps_stmt with (b := b) in H.
Qed.
Lemma keeps_create_fn : forall b id fn s fn' s', create_fn_instrumentation e id fn s = Ok (fn', s') ->
  keeps b (cov s) (cov s').
Proof.
  intros b id [k sp cs] s fn' s' H. unfold create_fn_instrumentation in H.
  destruct k; try discriminate. destruct cs as [|p [|d [|bd [|ty [|? ?]]]]]; try discriminate.
  destruct (new_function _ _ _ _) as [c i] eqn:Hf. destruct (is_none bd); [discriminate|].
  destruct (prepend_to_block (CF i) bd) as [b'|] eqn:Hp; [|discriminate]. inversion H; subst.
  eapply keeps_fn; eauto.
Qed.
Lemma keeps_accessor : forall b name sp s bd b' s', accessor_body e name sp s bd = Ok (b', s') ->
  keeps b (cov s) (cov s').
Proof.
  intros b name sp s bd b' s' H. unfold accessor_body in H.
  destruct (is_none bd); [inversion H; subst; apply keeps_refl|].
  destruct (new_function _ _ _ _) as [c i] eqn:Hf.
  destruct (prepend_to_block (CF i) bd) as [b''|] eqn:Hp; [|discriminate]. inversion H; subst.
  eapply keeps_fn; eauto.
Qed.
Lemma keeps_covered : forall b x s x' s', covered e x s x' s' -> keeps b (cov s) (cov s').
Proof.
  intros b x s x' s' (s1 & H1 & H2).
  apply keeps_trans with (cov s1); [destruct H1; subst; [apply keeps_refl|apply keeps_mark]|].
  destruct H2 as [[-> H2]|[_ H2]]; [destruct H2; subst; [apply keeps_refl|apply keeps_mark]|].
  unfold replace_expr_with_stmt_counter in H2. destruct (new_statement _ _) as [c i] eqn:Hs.
  inversion H2; subst. eapply keeps_stmt; eauto.
Qed.
Lemma keeps_replace : forall b b1 x s x' s',
  replace_expr_with_branch_counter e x b1 s = Ok (x', s') -> b <> b1 -> keeps b (cov s) (cov s').
Proof.
  intros b b1 x s x' s' H Hb. unfold replace_expr_with_branch_counter in H.
  destruct (is_expr x); [|discriminate]. cbn [negb] in H.
  apply bind_ok in H as [[c i] [Hp H]]. inversion H; subst. eapply keeps_path; eauto.
Qed.
Lemma keeps_cond_arm : forall b b1 x s x' s', cond_arm e b1 x s x' s' -> b <> b1 -> keeps b (cov s) (cov s').
Proof.
  intros b b1 x s x' s' [[-> ->]|H] Hb; [apply keeps_refl|]. eapply keeps_replace; eauto.
Qed.

Ltac rwst :=
  repeat match goal with
  | H : on_enter e _ _ _ = (_, _, _) |- _ =>
      let C := fresh "Hc" in
      apply on_enter_facts in H as (C & _)
  | H : on_enter_with_span e _ _ = (_, _, _) |- _ =>
      let C := fresh "Hc" in
      apply on_enter_with_span_facts in H as (C & _)
  end;
  cbn [cov before on_exit pop push set_ign set_cov spawn clear_before] in *.
Ltac gsplit :=
  repeat match goal with
  | H : forallb gd (_ :: _) = true |- _ => cbn [forallb] in H
  | H : _ && _ = true |- _ => apply andb_true_iff in H as [? ?]
  | H : gd (Node ?k ?sp ?cs) = true |- _ =>
      let N := fresh "Hn" in let G := fresh "Hg" in
      apply good_split in H as [N G]
  | H : forallb gd (_ ++ _) = true |- _ => rewrite forallb_app in H
  end.
Ltac prem := solve [ assumption | cbn [good forallb]; rewrite !andb_true_iff; auto 10
                   | rewrite forallb_app; cbn [good forallb]; rewrite !andb_true_iff; auto 10 ].

(** Chain of [keeps] facts, with the bounds they need *)
Ltac step K := let K' := fresh "K" in pose proof K as K'; cbn [cov set_cov] in K';
  repeat match goal with Hc : cov ?a = cov ?b |- _ => rewrite Hc in * end.

Ltac bnd := unfold keeps in *; repeat match goal with H : _ /\ _ |- _ => destruct H end;
  repeat match goal with Hc : cov ?a = cov ?b |- _ => rewrite Hc in *; clear Hc end; lia.
Ltac own_ := cbn [own] in *; try assumption; try reflexivity; try (now apply N.eqb_neq; auto).
Ltac ih H := let K := fresh "K" in
  match type of H with
  | _ -> _ -> _ -> keeps _ _ _ => assert (K := H ltac:(bnd) ltac:(own_) ltac:(prem)); clear H
  end.
Ltac fin := repeat match goal with Hc : cov ?a = cov ?b |- _ => rewrite Hc in *; clear Hc end;
  unfold keeps in *; repeat match goal with H : _ /\ _ |- _ => destruct H end; split; [congruence|lia].

Theorem local_all :
  (forall v t s t' s', Vis e v t s t' s' -> LV v t s s') /\
  (forall v cs s cs' s', Kids e v cs s cs' s' -> LK v cs s s') /\
  (forall ss s ss' s', Ins e ss s ss' s' -> LK VStmt ss s s') /\
  (forall v b x s x' s', Wrap e v b x s x' s' ->
     forall b0, b0 < sc_b (cov s) -> own v b0 = false -> b0 <> b -> gd x = true -> keeps b0 (cov s) (cov s')) /\
  (forall b r cur x s x' s', Arm e b r cur x s x' s' ->
     forall b0, b0 < sc_b (cov s) -> b0 <> b -> gd x = true -> keeps b0 (cov s) (cov s')) /\
  (forall xs s xs' s', Items e xs s xs' s' -> LK VCov xs s s') /\
  (forall xs s xs' s', SItems e xs s xs' s' -> LK VCov xs s s').
Proof.
  apply Vis_all_ind; unfold LV, LK; intros; rwst; gsplit;
  repeat match goal with H : forall b, b < _ -> _ |- _ => specialize (H b0) end.
  - (* V_plain *) ih H1. fin.
  - apply keeps_refl.
  - ih H1. fin.
  - fin.
  - ih H3. fin.
  - (* V_marked *) pose proof (keeps_mark b0 sp s1). ih H5. fin.
  - ih H1. fin.
  - (* V_fn *) pose proof (keeps_create_fn b0 _ _ _ _ _ H3).
    destruct (create_fn_shape e false _ _ _ _ _ H3 ltac:(assumption)) as (? & _). ih H5. fin.
  - (* V_accessor *) pose proof (keeps_accessor b0 _ _ _ _ _ _ H3).
    match goal with H : accessor_body _ _ _ _ _ = _, G : gd body = true |- _ =>
      destruct (accessor_shape e false _ _ _ _ _ _ H G) as (? & _) end. ih H5. fin.
  - (* V_arrow_block *) pose proof (keeps_fn b0 _ _ _ _ _ _ H2). ih H4. fin.
  - (* V_arrow_expr *) pose proof (keeps_fn b0 _ _ _ _ _ _ H2).
    assert (K := H4 ltac:(bnd) eq_refl ltac:(cbn [forallb]; rewrite good_counter_stmt; cbn [good forallb];
        rewrite !andb_true_iff; unfold node_ok; simpl; auto 10)). fin.
  - (* V_init *) pose proof (keeps_covered b0 _ _ _ _ H3).
    match goal with H : covered _ _ _ _ _, G : gd value = true |- _ =>
      pose proof (covered_shape e false _ _ _ _ H G) end. ih H5. fin.
  - (* V_init_tagged *) pose proof (keeps_mark b0 vsp s1).
    match goal with H : Vis _ _ tpl _ _ _ |- _ =>
      destruct (proj1 (shape_all e false) _ _ _ _ _ H ltac:(assumption)) as (? & _) end.
    ih H4. ih H6. fin.
  - (* V_loop *) pose proof (keeps_mark b0 sp s1).
    match goal with H : block_last _ = _ |- _ => pose proof (block_last_shape false _ _ H Hg) end.
    ih H5. fin.
  - (* V_cond *)
    destruct (keeps_branch b0 _ _ _ _ _ _ H2 ltac:(bnd)) as [? ?].
    pose proof (keeps_cond_arm b0 _ _ _ _ _ H3 ltac:(assumption)).
    pose proof (keeps_cond_arm b0 _ _ _ _ _ H4 ltac:(assumption)).
    match goal with H : cond_arm _ _ con _ _ _, G : gd con = true |- _ =>
      destruct (cond_arm_shape e false _ _ _ _ _ H G) as (? & _) end.
    match goal with H : cond_arm _ _ alt _ _ _, G : gd alt = true |- _ =>
      destruct (cond_arm_shape e false _ _ _ _ _ H G) as (? & _) end.
    cbn [cov set_cov] in *. ih H6. fin.
  - (* V_switch *) pose proof (keeps_mark b0 sp s1).
    destruct (keeps_branch b0 _ _ _ _ _ _ H2 ltac:(bnd)) as [? ?]. ih H4. fin.
  - (* V_case *)
    assert (b0 <> b) by (cbn [own] in *; now apply N.eqb_neq).
    pose proof (keeps_path b0 _ _ _ _ _ H1 ltac:(assumption)). ih H3. fin.
  - (* V_if *) pose proof (keeps_mark b0 sp s1).
    destruct (keeps_branch b0 _ _ _ _ _ _ H2 ltac:(bnd)) as [? ?].
    assert (K := H4 ltac:(bnd) ltac:(assumption) ltac:(assumption)).
    assert (K' := H6 ltac:(bnd) ltac:(assumption) ltac:(assumption)).
    cbn [cov set_cov] in *. ih H8. fin.
  - (* V_with_block *) pose proof (keeps_mark b0 sp s1). ih H3. fin.
  - (* V_with_stmt *) pose proof (keeps_mark b0 sp s1). ih H4. fin.
  - (* V_bin *) ih H1. fin.
  - (* V_logical_new *)
    unfold new_logical_branch in H3. destruct (new_branch _ _ _ _) as [c i] eqn:Hnb. inversion H3; subst.
    cbn [cov push set_cov] in *.
    destruct (keeps_branch b0 _ _ _ _ _ _ Hnb ltac:(bnd)) as [? ?].
    assert (K := H5 ltac:(bnd) ltac:(assumption) ltac:(assumption) ltac:(assumption)).
    assert (K' := H7 ltac:(bnd) ltac:(assumption) ltac:(assumption) ltac:(assumption)). fin.
  - (* V_logical_inner *)
    assert (b0 <> b) by (cbn [own] in *; now apply N.eqb_neq).
    assert (K := H3 ltac:(bnd) ltac:(assumption) ltac:(assumption) ltac:(assumption)).
    assert (K' := H5 ltac:(bnd) ltac:(assumption) ltac:(assumption) ltac:(assumption)). fin.
  - (* V_assign_pat *)
    destruct (keeps_branch b0 _ _ _ _ _ _ H2 ltac:(bnd)) as [? ?].
    assert (K := H4 ltac:(bnd) ltac:(assumption) ltac:(assumption) ltac:(assumption)). fin.
  - discriminate.
  - discriminate.
  - apply keeps_refl.
  - (* K_cons *) ih H0. ih H2. fin.
  - apply keeps_refl.
  - ih H1. fin.
  - ih H3. fin.
  - ih H3. ih H5. fin.
  - apply keeps_refl.
  - (* W_nested *)
    assert (own (VLogical b) b0 = false) by (cbn [own]; now apply N.eqb_neq). ih H2. fin.
  - eapply keeps_path; eauto.
  - (* W_leaf *) pose proof (keeps_replace b0 _ _ _ _ _ H4 ltac:(assumption)). ih H3. fin.
  - apply keeps_refl.
  - pose proof (keeps_path b0 _ _ _ _ _ H ltac:(assumption)). ih H1. fin.
  - eapply keeps_path; eauto.
  - pose proof (keeps_path b0 _ _ _ _ _ H0 ltac:(assumption)). ih H2. fin.
  - apply keeps_refl.
  - ih H1. fin.
  - (* M_visit *)
    assert (keeps b0 (cov s1) (cov s2)) by (destruct H1 as [->|[? ->]]; [apply keeps_refl|apply keeps_mark]).
    ih H3. ih H5. fin.
  - apply keeps_refl.
  - ih H0. ih H2. fin.
Qed.
End Local.

(** A statement that is a block beginning with the counter [c] *)
Definition headed (c : counter) (x : node) : Prop := exists sp bi bsp ssp rest,
  x = Node KStmt sp [Node (KBlock bi) bsp [Node KStmts ssp (counter_stmt c :: rest)]].

Lemma wrap_effect : forall e n b r cur x s x' s' br row,
  wrap_with_counter e (visit e n) b r cur x s = Ok (x', s') ->
  good false x = true -> b < sc_b (cov s) -> entry (cov s) b = (Some br, Some row) ->
  headed (CB b (N.of_nat (length row))) x' /\ sc_b (cov s) <= sc_b (cov s') /\
  entry (cov s') b = (Some (push_location r br), Some (row ++ [0])%list).
Proof.
  intros e n b r cur x s x' s' br row H G Hb E. unfold wrap_with_counter in H.
  apply bind_ok in H as [[c i] [Hp H]].
  destruct (path_entry _ _ _ _ _ _ _ Hp E) as (-> & Hbb & E').
  destruct (stmt_view x) as [[xsp y]|] eqn:Hv; [|discriminate]. cbn [expect bind] in H.
  apply stmt_view_inv in Hv. subst x. cbn [good forallb] in G. rewrite !andb_true_iff in G.
  destruct G as (_ & G & _).
  destruct (is_block y) eqn:Hk.
  - destruct (block_view y) as [[[[bi bsp] ssp] ss]|] eqn:Hv; [|discriminate]. cbn [expect bind] in H.
    apply block_view_inv in Hv. subst y. cbn [good forallb] in G. rewrite !andb_true_iff in G.
    apply bind_ok in H as [[ss' s2] [Hi H]]. inversion H; subst; clear H.
    apply ins_sound in Hi; [|intros; now apply visit_sound with (n := n)].
    destruct G as (_ & (_ & G) & _).
    assert (K := proj1 (proj2 (proj2 (local_all e))) _ _ _ _ Hi b). cbn [cov set_cov] in K.
    destruct K as [K1 K2]; [rewrite Hbb; exact Hb|reflexivity|exact G|].
    repeat split; [now exists xsp, bi, bsp, ssp, ss'|lia|congruence].
  - apply bind_ok in H as [[x1 sv] [Hi H]]. inversion H; subst; clear H.
    apply visit_sound in Hi.
    assert (K := proj1 (local_all e) _ _ _ _ _ Hi b). cbn [cov set_cov spawn] in K.
    destruct K as [K1 K2]; [rewrite Hbb; exact Hb|reflexivity| |].
    { cbn [good forallb]. rewrite G. reflexivity. }
    repeat split; [|cbn [cov set_cov]; lia|cbn [cov set_cov]; congruence].
    unfold mk. eexists _, _, _, _, _. reflexivity.
Qed.

(** The effect of the hint on an if statement.  [paths] is the number of registered paths. *)
Theorem if_hints : forall e n v sp test con alt s t' s',
  visit e (S n) v (Node KIf sp [test; con; alt]) s = Ok (t', s') ->
  is_instr v = true -> (forall b0, v = VSwitch b0 -> b0 < sc_b (cov s)) ->
  good false (Node KIf sp [test; con; alt]) = true ->
  is_next (ign s) = false -> is_next (hint e sp) = false ->
  let b := sc_b (cov s) in
  exists test' con' alt' paths,
  t' = Node KIf sp [test'; con'; alt'] /\
  match hint e sp with
  | Some IIf => con' = con /\ headed (CB b 0) alt' /\ paths = 1%nat
  | Some IElse => headed (CB b 0) con' /\ alt' = alt /\ paths = 1%nat
  | _ => headed (CB b 0) con' /\ headed (CB b 1) alt' /\ paths = 2%nat
  end /\
  let r := range_of e sp in
  entry (cov s') b = (Some (mkBranch (Some r) BIf (repeat r paths) (Some (line (rstart r)))),
                      Some (repeat 0 paths)).
Proof.
  intros e n v sp test con alt s t' s' H Hv Hsw G Hs Hh b.
  assert (Ho : own v b = false).
  { destruct v; try reflexivity; try discriminate. cbn. apply N.eqb_neq. specialize (Hsw _ eq_refl). fold b in Hsw. clearbody b. lia. }
  assert (H' : visit_if_stmt e (visit e n) v (Node KIf sp [test; con; alt]) s = Ok (t', s')).
  { destruct v; try discriminate; exact H. }
  clear H. rename H' into H. unfold visit_if_stmt, enter_exit, on_enter, on_enter_with_span in H.
  cbn [ign push] in H. rewrite Hs in H. cbn [nspan nkids nkind] in H. rewrite Hh in H.
  assert (Hm : exists s2, mark_prepend_stmt_counter e sp (set_ign (hint e sp) (push NIfStmt s)) = s2 /\
     sc_b (cov s2) = b).
  { eexists. split; [reflexivity|]. unfold mark_prepend_stmt_counter.
    destruct (new_statement _ _) as [c i] eqn:E. inversion E; subst. reflexivity. }
  destruct Hm as (s2 & Em & Eb). rewrite Em in H. clearbody b.
  destruct (new_branch BIf (range_of e sp) false (cov s2)) as [c b'] eqn:Hb.
  destruct (branch_entry _ _ _ _ _ _ Hb) as (Hb' & Hbb & E0).
  rewrite Eb in Hb'. subst b'.
  cbn [good forallb] in G. rewrite !andb_true_iff in G. destruct G as (_ & G1 & G2 & G3 & _).
  assert (G3' : good false (if is_absent alt then mk KStmt [mk (KBlock true) [mk KStmts []]] else alt) = true)
    by (destruct (is_absent alt); [reflexivity|exact G3]).
  apply bind_ok in H as [[t1 s1] [H H1]]. apply bind_ok in H as [[con' s4] [Hc H]].
  apply bind_ok in H as [[alt' s5] [Ha H]]. apply bind_ok in H as [[test' s6] [Ht H]].
  inversion H; subst t1 s1. clear H. inversion H1; subst t' s'. clear H1. apply visit_sound in Ht.
  assert (Kt : sc_b (cov s5) > b -> entry (cov s6) b = entry (cov s5) b).
  { intros Hgt. apply (proj1 (local_all e) _ _ _ _ _ Ht b); [lia|exact Ho|exact G1]. }
  cbn [on_exit cov pop set_ign].
  assert (Wc : wrap_with_counter e (visit e n) b (range_of e sp) (hint e sp) con (set_cov c s2) = Ok (con', s4) ->
     headed (CB b 0) con' /\ b + 1 <= sc_b (cov s4) /\
     entry (cov s4) b = (Some (mkBranch (Some (range_of e sp)) BIf [range_of e sp] (Some (line (rstart (range_of e sp))))), Some [0])).
  { intros W. eapply wrap_effect in W; [|exact G2|cbn [cov set_cov]; lia|exact E0].
    destruct W as (W1 & W2 & W3). cbn [cov set_cov] in W2. repeat split; [exact W1|lia|exact W3]. }
  destruct (hint e sp) as [[]|]; try discriminate.
  - inversion Hc; subst con' s4. clear Hc.
    eapply wrap_effect in Ha; [|exact G3'|cbn [cov set_cov]; lia|exact E0].
    destruct Ha as (A1 & A2 & A3). cbn [cov set_cov] in A2.
    exists test', con, alt', 1%nat. repeat split; [exact A1|]. rewrite Kt by lia. exact A3.
  - destruct (Wc Hc) as (C1 & C2 & C3). inversion Ha; subst alt' s5. clear Ha.
    exists test', con', alt, 1%nat. repeat split; [exact C1|]. rewrite Kt by lia. exact C3.
  - destruct (Wc Hc) as (C1 & C2 & C3).
    eapply wrap_effect in Ha; [|exact G3'|lia|exact C3]. destruct Ha as (A1 & A2 & A3).
    exists test', con', alt', 2%nat. repeat split; [exact C1|exact A1|]. rewrite Kt by lia. exact A3.
Qed.

(** [if (x) y; else z;] with each hint *)
Definition ex_if : node :=
  T 30 50 KIf [var 34 35 "x"; T 37 39 KExprStmt [var 37 38 "y"]; T 46 48 KExprStmt [var 46 47 "z"]].
Example if_hints_ex :
  good false ex_if = true /\
  map (fun text => match visit (comment_env 30 text) 20 VCov ex_if (init_state plain_env "f.js" None) with
                   | Ok (t', s') => (counters t', snd (entry (cov s') 0)) | _ => ([], None) end)
      [" istanbul ignore if"; " istanbul ignore else"; " istanbul ignore next"; ""]%string =
  [([CB 0 0; CS 1], Some [0]); ([CB 0 0; CS 1], Some [0]); ([], None);
   ([CB 0 0; CS 1; CB 0 1; CS 2], Some [0; 0])].
Proof. vm_compute. auto. Qed.
