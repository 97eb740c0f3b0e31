(** C38: what the visitor remembers from one statement to the next. *)
From Coq Require Import NArith String List Bool Lia PeanoNat.
Import ListNotations.
From Verif Require Import Base IndexMap Oxide SourceCov Hints Ast Visitor VisitorRel VisitorEx Erase.
Open Scope N_scope.

(** The part of the visitor state that steers later decisions: the path to the current node and
    the hint in force.  (The coverage tables only supply ids; pending counters are only emitted.) *)
Definition context (s : st) : list nk * option ignore_scope := (stack s, ign s).

(** In a block, every statement starts in the context of the block, whatever it contains. *)
Lemma block_restores : forall e rec ss s ss' s',
  insert_stmts_counter e rec ss s = Ok (ss', s') -> context s' = context s /\ before s' = before s.
Proof.
  intros e rec ss. induction ss as [|x ss IH]; intros s ss' s' H; cbn [insert_stmts_counter] in H.
  - inversion H; subst. auto.
  - apply bind_ok in H as [[new s1] [H1 H]]. apply bind_ok in H as [[rest s2] [H2 H]].
    inversion H; subst. clear H. apply IH in H2 as [C B]. rewrite C, B. clear IH C B.
    destruct (is_injected_counter_stmt x); [inversion H1; subst; auto|].
    unfold on_enter, on_enter_with_span in H1. cbn [ign push] in H1. unfold context.
    destruct (is_next (ign s)) eqn:E.
    + cbn [is_next] in H1. rewrite E in H1. inversion H1; subst. auto.
    + destruct (is_next (hint e (nspan x))); [inversion H1; subst; auto|].
      apply bind_ok in H1 as [[x' sv] [_ H1]]. inversion H1; subst. auto.
Qed.

(** Trees without logical expression and nested program (and, with reportLogic, without default
    value, whose counter contains a logical expression), except inside lists of statements *)
Definition quiet_kind (rl : bool) (k : kind) : bool :=
  match k with
  | KBin op => negb (is_logical_op op) | KModuleItems | KScript => false
  | KAssignPat => negb rl
  | _ => true
  end.
Fixpoint quiet_ (rl : bool) (t : node) : bool :=
  match t with
  | Node k _ cs =>
      match k with KStmts => true | _ => quiet_kind rl k && forallb (quiet_ rl) cs end
  end.
Definition quiet_item_ (rl : bool) (x : node) : bool := forallb (quiet_ rl) (nkids x).

Section Quiet.
Variable e : env.
Notation quiet := (quiet_ (e_report_logic e)).
Notation quiet_item := (quiet_item_ (e_report_logic e)).

Lemma quiet_split : forall k sp cs, quiet (Node k sp cs) = true ->
  k = KStmts \/ quiet_kind (e_report_logic e) k = true /\ forallb quiet cs = true.
Proof. intros k sp cs H. destruct k; try (right; now apply andb_true_iff in H). now left. Qed.
Lemma quiet_node : forall k sp cs, (k <> KStmts -> quiet_kind (e_report_logic e) k = true /\ forallb quiet cs = true) ->
  quiet (Node k sp cs) = true.
Proof. intros k sp cs H. destruct k; try (apply andb_true_iff; apply H; discriminate). reflexivity. Qed.
Lemma quiet_sonly : forall l, sonly l -> forallb quiet l = true.
Proof. intros l H. induction H as [|x l [i ->] _ IH]; [reflexivity|]. now cbn [forallb]. Qed.

Lemma create_fn_quiet : forall id fn s fn' s', create_fn_instrumentation e id fn s = Ok (fn', s') ->
  context s' = context s /\ (quiet fn = true -> quiet fn' = true).
Proof.
  intros id [k sp cs] s fn' s' H. unfold create_fn_instrumentation in H.
  destruct k; try discriminate. destruct cs as [|p [|d [|bd [|ty [|? ?]]]]]; try discriminate.
  destruct (new_function _ _ _ _) as [c i]. destruct (is_none bd); [discriminate|].
  destruct (prepend_to_block (CF i) bd) as [b'|] eqn:Hp; [|discriminate]. inversion H; subst.
  split; [reflexivity|]. unfold prepend_to_block in Hp.
  destruct (block_view bd) as [[[[bi bsp] ssp] ss]|] eqn:Hv; [|discriminate]. inversion Hp; subst.
  apply block_view_inv in Hv. subst bd. cbn. auto.
Qed.
Lemma accessor_quiet : forall name sp s bd b' s', accessor_body e name sp s bd = Ok (b', s') ->
  context s' = context s /\ (quiet bd = true -> quiet b' = true).
Proof.
  intros name sp s bd b' s' H. unfold accessor_body in H.
  destruct (is_none bd); [inversion H; subst; auto|].
  destruct (new_function _ _ _ _) as [c i].
  destruct (prepend_to_block (CF i) bd) as [b''|] eqn:Hp; [|discriminate]. inversion H; subst.
  split; [reflexivity|]. unfold prepend_to_block in Hp.
  destruct (block_view bd) as [[[[bi bsp] ssp] ss]|] eqn:Hv; [|discriminate]. inversion Hp; subst.
  apply block_view_inv in Hv. subst bd. cbn. auto.
Qed.
Lemma mark_context : forall sp s, context (mark_prepend_stmt_counter e sp s) = context s.
Proof. reflexivity. Qed.
Lemma covered_quiet : forall x s x' s', covered e x s x' s' ->
  context s' = context s /\ (quiet x = true -> quiet x' = true).
Proof.
  intros x s x' s' (s1 & H1 & H2).
  assert (context s1 = context s) by (destruct H1; subst; reflexivity).
  destruct H2 as [[-> H2]|[_ H2]]; [destruct H2; subst; auto|].
  unfold replace_expr_with_stmt_counter in H2. destruct (new_statement _ _) as [c i].
  inversion H2; subst. split; [assumption|]. intros Q. cbn. now rewrite Q.
Qed.
Lemma replace_quiet : forall b x s x' s', replace_expr_with_branch_counter e x b s = Ok (x', s') ->
  context s' = context s /\ (quiet x = true -> quiet x' = true).
Proof.
  intros b x s x' s' H. unfold replace_expr_with_branch_counter in H.
  destruct (negb (is_expr x)); [discriminate|].
  apply bind_ok in H as [[c i] [Hp H]]. inversion H; subst. split; [reflexivity|].
  intros Q. cbn. now rewrite Q.
Qed.
Lemma cond_arm_quiet : forall b x s x' s', cond_arm e b x s x' s' ->
  context s' = context s /\ (quiet x = true -> quiet x' = true).
Proof. intros b x s x' s' [[-> ->]|H]; [auto|eapply replace_quiet; eauto]. Qed.
Lemma block_last_quiet : forall cs cs', block_last cs = Some cs' -> forallb quiet cs = true ->
  forallb quiet cs' = true.
Proof.
  induction cs as [|c cs IH]; intros cs' H Hg; [discriminate|].
  destruct cs as [|c2 cs].
  - simpl in H. unfold to_block in H. destruct (stmt_view c) as [[sp x]|] eqn:Hv; [|discriminate].
    apply stmt_view_inv in Hv. subst c.
    destruct (is_block x); inversion H; subst; [assumption|reflexivity].
  - cbn [forallb] in Hg. apply andb_true_iff in Hg as [Hc Hg].
    change (option_map (cons c) (block_last (c2 :: cs)) = Some cs') in H.
    destruct (block_last (c2 :: cs)) as [r|] eqn:E; [|discriminate]. inversion H; subst.
    cbn [forallb]. rewrite Hc. apply IH; auto.
Qed.

Definition QV (v : vis) (t : node) (s : st) (t' : node) (s' : st) : Prop :=
  quiet t = true -> (is_instr v = true -> context s' = context s) /\ quiet t' = true.
Definition QK (v : vis) (ts : list node) (s : st) (ts' : list node) (s' : st) : Prop :=
  forallb quiet ts = true -> (is_instr v = true -> context s' = context s) /\ forallb quiet ts' = true.

Ltac gsplit :=
  repeat match goal with
  | H : forallb quiet (_ :: _) = true |- _ => cbn [forallb] in H
  | H : _ && _ = true |- _ => apply andb_true_iff in H as [? ?]
  | H : quiet (Node ?k ?sp ?cs) = true |- _ =>
      let N := fresh "Hn" in let G := fresh "Hg" in
      apply quiet_split in H as [N|[N G]]; [solve [discriminate N|subst k; discriminate]|]
  | H : forallb quiet (_ ++ _) = true |- _ => rewrite forallb_app in H
  end.
Ltac prem := solve [ assumption | reflexivity
                   | apply quiet_node; intros _; split; [first [assumption|reflexivity]|]; cbn [forallb]; rewrite ?andb_true_iff; auto 10
                   | cbn [quiet_ quiet_kind forallb]; rewrite ?andb_true_iff; auto 10
                   | rewrite forallb_app; cbn [quiet_ quiet_kind forallb]; rewrite !andb_true_iff; auto 10
                   | unfold mk, E, increase_true_expr, counter_expr, counter_stmt; unfold mk, E;
                     cbn [quiet_ quiet_kind forallb app]; repeat (rewrite forallb_app; cbn [quiet_ quiet_kind forallb app]);
                     repeat match goal with
                            | H : quiet _ = true |- _ => rewrite H; clear H
                            | H : quiet_kind _ _ = true |- _ => rewrite H; clear H
                            | H : forallb quiet _ = true |- _ => rewrite H; clear H end; reflexivity ].
Ltac ih H := let C := fresh "C" in let Q := fresh "Q" in
  match type of H with _ -> _ => destruct (H ltac:(prem)) as [C Q]; clear H;
    try specialize (C ltac:(first [assumption|reflexivity])) end.
Ltac ent := repeat match goal with
  | H : on_enter e _ _ _ = (_, _, _) |- _ => unfold on_enter, on_enter_with_span in H
  | H : on_enter_with_span e _ _ = (_, _, _) |- _ => unfold on_enter_with_span in H
  | H : (if is_next ?i then _ else _) = (_, _, _) |- _ => destruct (is_next i); inversion H; subst; clear H
  end.
Ltac fin := ent; unfold context in *;
  repeat match goal with H : (_, _) = (_, _) |- _ => inversion H; clear H end;
  cbn [stack ign push pop set_ign set_cov spawn clear_before on_exit mark_prepend_stmt_counter] in *;
  try congruence; repeat match goal with H : stack _ = _ |- _ => rewrite H; clear H
                      | H : ign _ = _ |- _ => rewrite H; clear H end; try reflexivity.

Theorem quiet_all :
  (forall v t s t' s', Vis e v t s t' s' -> QV v t s t' s') /\
  (forall v cs s cs' s', Kids e v cs s cs' s' -> QK v cs s cs' s') /\
  (forall ss s ss' s', Ins e ss s ss' s' -> context s' = context s) /\
  (forall v b x s x' s', Wrap e v b x s x' s' -> e_report_logic e = false -> QV v x s x' s') /\
  (forall b r cur x s x' s', Arm e b r cur x s x' s' -> context s' = context s /\ (quiet x = true -> quiet x' = true)) /\
  (forall xs s xs' s', Items e xs s xs' s' -> forallb quiet_item xs = true -> context s' = context s) /\
  (forall xs s xs' s', SItems e xs s xs' s' -> forallb quiet_item xs = true -> context s' = context s).
Proof.
  apply Vis_all_ind; unfold QV, QK; intros; gsplit.
  - (* V_plain *) apply quiet_split in H2 as [->|[Hn Hg]].
    + split; [|reflexivity]. intros Hi. destruct v; discriminate.
    + ih H1. split; [exact C|]. prem.
  - split; [reflexivity|prem].
  - ih H1. split; [discriminate|prem].
  - split; [intros _; fin|prem].
  - ih H3. split; [intros _; fin|prem].
  - ih H5. split; [intros _; fin|prem].
  - split; [intros _; fin|prem].
  - (* V_fn *) destruct (create_fn_quiet _ _ _ _ _ H3) as [? Hq]. specialize (Hq ltac:(assumption)).
    ih H5. split; [intros _; fin|prem].
  - (* V_accessor *) destruct (accessor_quiet _ _ _ _ _ _ H3) as [? Hq]. specialize (Hq ltac:(assumption)).
    ih H5. split; [intros _; fin|prem].
  - (* V_arrow_block *) split; [intros _; fin|prem].
  - (* V_arrow_expr *) split; [intros _; fin|prem].
  - (* V_init *) destruct (covered_quiet _ _ _ _ H3) as [? Hq]. specialize (Hq ltac:(assumption)).
    ih H5. split; [intros _; fin|prem].
  - (* V_init_tagged *) ih H4. ih H6. split; [intros _; fin|prem].
  - (* V_loop *) pose proof (block_last_quiet _ _ H3 Hg). ih H5. split; [intros _; fin|prem].
  - (* V_cond *)
    destruct (cond_arm_quiet _ _ _ _ _ H3) as [? Hq]. specialize (Hq ltac:(assumption)).
    destruct (cond_arm_quiet _ _ _ _ _ H4) as [? Hq']. specialize (Hq' ltac:(assumption)).
    ih H6. split; [intros _; fin|prem].
  - (* V_switch *) ih H4. split; [intros _; fin|prem].
  - (* V_case *) ih H3. gsplit. split; [intros _; fin|prem].
  - (* V_if *) destruct H4 as [C1 Q1]. destruct H6 as [C2 Q2]. specialize (Q1 ltac:(assumption)). specialize (Q2 ltac:(assumption)).
    ih H8. split; [intros _; fin|prem].
  - (* V_with_block *) split; [intros _; fin|prem].
  - (* V_with_stmt *) ih H4. split; [intros _; fin|prem].
  - (* V_bin *) ih H1. split; [intros Hi; specialize (C Hi); fin|prem].
  - (* V_logical_new *) cbn [quiet_kind] in Hn. rewrite H0 in Hn. discriminate.
  - (* V_logical_inner *) cbn [quiet_kind] in Hn. rewrite H in Hn. discriminate.
  - (* V_assign_pat *) cbn [quiet_kind] in Hn. destruct (e_report_logic e) eqn:Hr; [discriminate|].
    specialize (H4 eq_refl). ih H4. split; [intros _; fin|prem].
  - discriminate.
  - discriminate.
  - auto.
  - ih H0. ih H2. split; [intros Hi; specialize (C Hi); specialize (C0 Hi); congruence|prem].
  - reflexivity.
  - assumption.
  - fin.
  - fin.
  - auto.
  - (* W_nested *) split; [intros _; fin|]. apply quiet_split in H4 as [->|[Hn Hg]]; [reflexivity|]. ih H2. prem.
  - (* W_report *) congruence.
  - (* W_leaf *) destruct (replace_quiet _ _ _ _ _ H4) as [? Hq].
    ih H3. specialize (Hq ltac:(prem)). split; [intros Hi; specialize (C Hi); congruence|assumption].
  - auto.
  - split; [fin|prem].
  - split; [fin|reflexivity].
  - split; [fin|reflexivity].
  - reflexivity.
  - cbn [forallb] in H2. apply andb_true_iff in H2 as [_ H2]. auto.
  - (* M_visit *) cbn [forallb] in H7. apply andb_true_iff in H7 as [H7 H8]. unfold quiet_item_ in H7. cbn [nkids] in H7.
    assert (context s2 = context s1) by (destruct H1 as [->|[? ->]]; reflexivity). clear H1.
    rewrite H5 by assumption. ih H3. fin.
  - reflexivity.
  - cbn [forallb] in H3. apply andb_true_iff in H3 as [H3 H4]. unfold quiet_item_ in H3. cbn [nkids] in H3.
    ih H0. rewrite H2 by assumption. exact C.
Qed.
End Quiet.

(** A block: the statements [ys] are instrumented from the same context whatever stands before them. *)
Theorem block_statements_context : forall e n xs ys s out s',
  insert_stmts_counter e (visit e n) (xs ++ ys) s = Ok (out, s') ->
  exists out1 out2 s1,
    insert_stmts_counter e (visit e n) xs s = Ok (out1, s1) /\
    context s1 = context s /\ before s1 = before s /\
    insert_stmts_counter e (visit e n) ys s1 = Ok (out2, s') /\ out = (out1 ++ out2)%list.
Proof.
  intros e n xs ys s out s' H.
  assert (Hx : exists out1 out2 s1, insert_stmts_counter e (visit e n) xs s = Ok (out1, s1) /\
     insert_stmts_counter e (visit e n) ys s1 = Ok (out2, s') /\ out = (out1 ++ out2)%list).
  { revert s out s' H. induction xs as [|x xs IH]; intros s out s' H.
    - exists [], out, s. auto.
    - cbn [insert_stmts_counter app] in *. apply bind_ok in H as [[new s1] [H1 H]].
      apply bind_ok in H as [[rest s2] [H2 H]]. inversion H; subst. clear H.
      apply IH in H2 as (o1 & o2 & s3 & A & B & ->).
      exists (new ++ o1)%list, o2, s3. rewrite H1. cbn [bind]. rewrite A. cbn [bind].
      repeat split; auto. apply app_assoc. }
  destruct Hx as (o1 & o2 & s1 & A & B & C). exists o1, o2, s1.
  destruct (block_restores _ _ _ _ _ _ A). auto.
Qed.

(** A module: the same, provided no logical expression occurs before them. *)
Theorem module_items_context_partial : forall e n xs ys s out s',
  visit_items e (visit e n) (xs ++ ys) s = Ok (out, s') ->
  forallb (quiet_item_ (e_report_logic e)) xs = true ->
  exists out1 out2 s1,
    visit_items e (visit e n) xs s = Ok (out1, s1) /\ context s1 = context s /\
    visit_items e (visit e n) ys s1 = Ok (out2, s') /\ out = (out1 ++ out2)%list.
Proof.
  intros e n xs ys s out s' H Q.
  assert (Hx : exists out1 out2 s1, visit_items e (visit e n) xs s = Ok (out1, s1) /\
     visit_items e (visit e n) ys s1 = Ok (out2, s') /\ out = (out1 ++ out2)%list).
  { clear Q. revert s out s' H. induction xs as [|x xs IH]; intros s out s' H.
    - exists [], out, s. auto.
    - cbn [visit_items app] in *. apply bind_ok in H as [[new s1] [H1 H]].
      apply bind_ok in H as [[rest s2] [H2 H]]. inversion H; subst. clear H.
      apply IH in H2 as (o1 & o2 & s3 & A & B & ->).
      exists (new ++ o1)%list, o2, s3. rewrite H1. cbn [bind]. rewrite A. cbn [bind].
      repeat split; auto. apply app_assoc. }
  destruct Hx as (o1 & o2 & s1 & A & B & C). exists o1, o2, s1. repeat split; auto.
  apply items_sound in A; [|intros; eapply visit_sound; eauto].
  eapply (proj1 (proj2 (proj2 (proj2 (proj2 (proj2 (quiet_all e))))))); eauto.
Qed.

(** A script: likewise. *)
Theorem script_items_context_partial : forall e n xs ys s out s',
  visit_script_items (visit e n) (xs ++ ys) s = Ok (out, s') ->
  forallb (quiet_item_ (e_report_logic e)) xs = true ->
  exists out1 out2 s1,
    visit_script_items (visit e n) xs s = Ok (out1, s1) /\ context s1 = context s /\
    visit_script_items (visit e n) ys s1 = Ok (out2, s') /\ out = (out1 ++ out2)%list.
Proof.
  intros e n xs ys s out s' H Q.
  assert (Hx : exists out1 out2 s1, visit_script_items (visit e n) xs s = Ok (out1, s1) /\
     visit_script_items (visit e n) ys s1 = Ok (out2, s') /\ out = (out1 ++ out2)%list).
  { clear Q. revert s out s' H. induction xs as [|x xs IH]; intros s out s' H.
    - exists [], out, s. auto.
    - cbn [visit_script_items app] in *. apply bind_ok in H as [[x' s1] [H1 H]].
      apply bind_ok in H as [[rest s2] [H2 H]]. inversion H; subst. clear H.
      apply IH in H2 as (o1 & o2 & s3 & A & B & ->).
      exists (before s1 ++ x' :: o1)%list, o2, s3. rewrite H1. cbn [bind]. rewrite A. cbn [bind].
      repeat split; auto. now rewrite <- app_assoc. }
  destruct Hx as (o1 & o2 & s1 & A & B & C). exists o1, o2, s1. repeat split; auto.
  apply sitems_sound with (e := e) in A; [|intros; eapply visit_sound; eauto].
  eapply (proj2 (proj2 (proj2 (proj2 (proj2 (proj2 (quiet_all e))))))); eauto.
Qed.

(** The unconditional claim fails: [const f = () => 1] has a statement counter of its own, but
    not after [a || b;]. *)
Definition ex_logical_stmt : node :=
  T 30 37 KExprStmt [X 30 36 (KBin OpOr) [var 30 31 "a"; var 35 36 "b"]].
Definition ex_arrow_const : node :=
  let_ 40 60 VConst [declarator 46 59 "f" (X 50 58 KArrow [list_ []; num 57 58; mk KTs []])].
Theorem preceding_statement_influences_refuted : exists x y,
  run_counters plain_env (module_ 1 90 [y]) = Some [CS 0; CF 0; CS 1] /\
  run_counters plain_env (module_ 1 90 [x; y]) =
    Some ([CS 0; CB 0 0; CB 0 1] ++ [CF 0; CS 1])%list.
Proof. exists ex_logical_stmt, ex_arrow_const. vm_compute. auto. Qed.

(** With another statement before it, or inside a function, nothing changes. *)
Example influence_ex :
  forallb (quiet_item_ false) [T 30 37 KExprStmt [var 30 36 "a"]; ex_arrow_const] = true /\
  run_counters plain_env (module_ 1 90 [T 30 37 KExprStmt [var 30 36 "a"]; ex_arrow_const]) =
    Some [CS 0; CS 1; CF 0; CS 2].
Proof. vm_compute. auto. Qed.
