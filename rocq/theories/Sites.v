(** The places of a source program that make events, and the programs in which every counter
    stays next to its event. *)
From Coq Require Import NArith String List Bool Lia PeanoNat.
Import ListNotations.
From Verif Require Import Base IndexMap Oxide SourceCov Hints Ast Visitor VisitorRel Erase Counting Sem Account Slots.
Open Scope N_scope.

(** ** Specification *)

(** The events a node can make by itself, each with the part of the text it is about *)
Definition own_sites (k : kind) (sp : span) (cs : list node) : list (event * span) :=
  match k with
  | KExprStmt | KReturn | KThrow | KBreak | KContinue | KWhile | KDoWhile | KSwitch | KWith | KForIn | KForOf
  | KTry | KFor | KLabeled | KExportDecl => [(EStmt sp, sp)]
  | KIf => [(EStmt sp, sp); (EArm sp false, sp); (EArm sp true, sp)]
  | KVarDeclarator => match cs with [_; i] => if is_none i then [] else [(EInit sp, nspan i)] | _ => [] end
  | KClassProp | KPrivateProp => match cs with _ :: i :: _ => [(EInit sp, nspan i)] | _ => [] end
  | KCond => match cs with [_; c; a] => [(ECond sp false, nspan c); (ECond sp true, nspan a)] | _ => [] end
  | KBin op =>
      if is_logical_op op then match cs with [x; y] => [(EOper sp false, nspan x); (EOper sp true, nspan y)] | _ => [] end
      else []
  | KAssignPat => match cs with [_; y] => [(EDefault sp, nspan y)] | _ => [] end
  | KSwitchCase => [(ECase sp, sp)]
  | KFunction => match cs with [_; _; b; _] => [(EFn sp, nspan b)] | _ => [] end
  | KArrow => match cs with [_; b; _] => [(EFn sp, nspan b)] | _ => [] end
  | KGetter => match cs with [_; _; b] => [(EFn sp, nspan b)] | _ => [] end
  | KSetter => match cs with [_; _; _; b] => [(EFn sp, nspan b)] | _ => [] end
  | _ => []
  end.
Definition posed (sp : span) (l : list (event * span)) : list (event * span) := if nowhere sp then [] else l.

(** All of them, in the order of the text.  The expression an arrow function returns counts
    as a statement. *)
Fixpoint sites (t : node) : list (event * span) :=
  match t with
  | Node k sp cs =>
      posed sp (own_sites k sp cs) ++
      match k with
      | KArrow =>
          match cs with
          | [p; b; ty] =>
              sites p ++ (if is_expr b then posed (nspan b) [(EStmt (nspan b), nspan b)] else []) ++ sites b ++ sites ty
          | _ => flat_map sites cs
          end
      | _ => flat_map sites cs
      end
  end.

(** Nodes whose visit can put a statement counter before the enclosing statement *)
Definition loud (k : kind) : bool :=
  marked_kind k || loop_kind k ||
  match k with KSwitch | KIf | KWith | KModuleItems | KScript => true | _ => false end.
Fixpoint noisy (t : node) : bool :=
  match t with
  | Node k _ cs =>
      match k with
      | KStmts | KArrow | KTs => false
      | KVarDeclarator | KClassProp | KPrivateProp =>
          match cs with _ :: x :: _ => ahead k x | _ => false end || existsb noisy cs
      | _ => loud k || existsb noisy cs
      end
  end.

Definition spot (sp : span) : bool := negb (nowhere sp).
Definition item (t : node) : bool := match nkind t with KStmt | KModuleDecl => true | _ => false end.
Definition nonlist (t : node) : bool := negb (is_list t).
Definition is_stmts (t : node) : bool := match nkind t with KStmts => true | _ => false end.

(** The children a node starts with: counters put before the node are as good as before them *)
Definition passes (k : kind) (i : nat) : bool :=
  match k with
  | KModuleDecl | KStmt | KExpr | KParen | KExportDecl | KVarDecl _ | KBlock _ | KList => Nat.eqb i 0
  | KLabeled => Nat.eqb i 1
  | _ => false
  end.
(** The children that may be noisy: these, bodies and the statements of a list *)
Definition free (k : kind) (i : nat) : bool :=
  passes k i || bpos k i || match k with KStmts => true | _ => false end.
Fixpoint kids_quiet (k : kind) (i : nat) (cs : list node) : bool :=
  match cs with
  | [] => true
  | c :: cs' => (free k i || negb (noisy c)) && kids_quiet k (S i) cs'
  end.

(** Number and kind of the children; positions for the nodes that make events *)
Definition form (k : kind) (sp : span) (cs : list node) : bool :=
  match k with
  | KModuleDecl | KStmt | KExpr | KParen => match cs with [d] => nonlist d | _ => false end
  | KExportDecl => match cs with [d] => spot sp && nonlist d | _ => false end
  | KVarDecl _ => match cs with [_] => true | _ => false end
  | KBlock _ => match cs with [d] => is_stmts d | _ => false end
  | KStmts => forallb item cs
  | KList => match cs with d :: _ => nonlist d | [] => true end
  | KLabeled =>
      match cs with
      | [n; d] => spot sp && match label_of n with Some _ => true | None => false end && nonlist d
      | _ => false
      end
  | KIf | KCond => match cs with [_; _; _] => spot sp | _ => false end
  | KExprStmt | KReturn | KThrow | KBreak | KContinue | KWhile | KDoWhile | KSwitch | KWith | KForIn | KForOf
  | KTry | KFor => stmt_arity k (length cs) && spot sp
  | KVarDeclarator => match cs with [_; i] => is_none i || spot sp | _ => false end
  | KClassProp | KPrivateProp => match cs with _ :: i :: _ => spot sp && negb (ahead k i) | _ => false end
  | KBin op => if is_logical_op op then match cs with [_; _] => spot sp | _ => false end else true
  | KAssignPat | KSwitchCase => match cs with [_; _] => spot sp | _ => false end
  | KFunction => match cs with [_; _; b; _] => spot sp && negb (is_expr b) | _ => false end
  | KArrow => match cs with [_; b; _] => spot sp && (negb (is_expr b) || (spot (nspan b) && negb (noisy b))) | _ => false end
  | KGetter => match cs with [_; _; b] => spot sp && negb (is_expr b) | _ => false end
  | KSetter => match cs with [_; _; _; b] => spot sp && negb (is_expr b) | _ => false end
  | KExportDefaultDecl | KNone | KTs | KDebugger | KFnDecl | KFnExpr | KClassDecl | KClassExpr | KClass
  | KClassMethod | KMethodProp | KSeq | KIdent _ | KPropIdent _ | KStr _ | KOther _ => true
  | KModule | KScript | KModuleItems | KTaggedTpl | KInjParen | KInjSeq | KTempSeq | KCounter _ | KTempAssign
  | KTempRead | KTempTest _ | KNullLit | KTemplateFn _ | KTemplateCall => false
  end.
Fixpoint exact (t : node) : bool :=
  match t with Node k sp cs => form k sp cs && kids_quiet k 0 cs && forallb exact cs end.

(** ** Quiet nodes leave the buffer alone *)
Lemma noisy_counter_expr : forall c, noisy (counter_expr c) = false. Proof. reflexivity. Qed.
Lemma noisy_paren_seq : forall c x, noisy (paren_seq c x) = noisy x.
Proof. intros. cbn. now rewrite !orb_false_r. Qed.
Lemma noisy_block : forall i bsp ssp ss, noisy (Node (KBlock i) bsp [Node KStmts ssp ss]) = false.
Proof. reflexivity. Qed.

Lemma prepend_noisy : forall c b b', prepend_to_block c b = Some b' -> noisy b' = false /\ noisy b = false.
Proof.
  intros c b b' H. unfold prepend_to_block in H. destruct (block_view b) as [[[[? ?] ?] ?]|] eqn:Hb; [|discriminate].
  apply block_view_inv in Hb. subst. inversion H; subst. split; apply noisy_block.
Qed.

Section Quiet.
Variable e : env.
Notation mark := (mark_prepend_stmt_counter e).

Lemma create_fn_noisy : forall id fn s fn' s', create_fn_instrumentation e id fn s = Ok (fn', s') ->
  noisy fn' = noisy fn /\ before s' = before s.
Proof.
  intros id [k sp cs] s fn' s' H. unfold create_fn_instrumentation in H. destruct k; try discriminate.
  destruct cs as [|p [|d [|b [|ty [|? ?]]]]]; try discriminate.
  destruct (new_function _ _ _ _) as [c i]. destruct (is_none b); [discriminate|].
  destruct (prepend_to_block _ _) as [b'|] eqn:Hb; [|discriminate].
  inversion H; subst. apply prepend_noisy in Hb as [H1 H2]. cbn [noisy existsb loud marked_kind loop_kind orb].
  now rewrite H1, H2.
Qed.
Lemma accessor_noisy : forall name sp s b b' s', accessor_body e name sp s b = Ok (b', s') ->
  noisy b' = noisy b /\ before s' = before s.
Proof.
  intros name sp s b b' s' H. unfold accessor_body in H. destruct (is_none b); [now inversion H|].
  destruct (new_function _ _ _ _) as [c i]. destruct (prepend_to_block _ _) as [b1|] eqn:Hb; [|discriminate].
  inversion H; subst. apply prepend_noisy in Hb as [H1 H2]. now rewrite H1, H2.
Qed.
Lemma covered_noisy : forall x s x' s', covered e x s x' s' -> noisy x' = noisy x.
Proof.
  intros x s x' s' (s1 & _ & [[-> _]|[_ H]]); [reflexivity|]. unfold replace_expr_with_stmt_counter in H.
  destruct (new_statement _ _). inversion H; subst. apply noisy_paren_seq.
Qed.
Lemma replace_noisy : forall x b s x' s', replace_expr_with_branch_counter e x b s = Ok (x', s') ->
  noisy x' = noisy x /\ before s' = before s.
Proof.
  intros x b s x' s' H. unfold replace_expr_with_branch_counter in H. destruct (negb _); [discriminate|].
  destruct (add_branch_path _ _ _) as [[c i]| |]; try discriminate. inversion H; subst.
  split; [apply noisy_paren_seq|reflexivity].
Qed.
Lemma cond_arm_noisy : forall b x s x' s', cond_arm e b x s x' s' -> noisy x' = noisy x /\ before s' = before s.
Proof. intros b x s x' s' [[-> ->]|H]; [split; reflexivity|now apply replace_noisy in H]. Qed.
Lemma logical_branch_before : forall sp s s' b, new_logical_branch e sp s = (s', b) -> before s' = before s.
Proof. intros sp s s' b H. unfold new_logical_branch in H. destruct (new_branch _ _ _ _). now inversion H. Qed.

Lemma quiet_kids : forall k sp cs, noisy (Node k sp cs) = false ->
  match k with KStmts | KArrow | KTs => True | _ => existsb noisy cs = false end.
Proof. intros k sp cs H. destruct k; auto; cbn [noisy] in H; apply orb_false_iff in H; tauto. Qed.
Lemma quiet_loud : forall k sp cs, noisy (Node k sp cs) = false -> loud k = true -> False.
Proof.
  intros k sp cs H L. destruct k; try discriminate L; cbn [noisy] in H; apply orb_false_iff in H as [H _];
    rewrite L in H; discriminate.
Qed.

Definition QV (v : vis) (t : node) (s s' : st) : Prop :=
  is_instr v = false \/ noisy t = false -> before s' = before s.
Definition QK (v : vis) (cs : list node) (s s' : st) : Prop :=
  is_instr v = false \/ existsb noisy cs = false -> before s' = before s.

Ltac ent := cbn [before on_exit pop push set_ign set_cov spawn clear_before] in *;
  repeat match goal with
  | H : on_enter e _ _ _ = (_, _, _) |- _ =>
      let B := fresh "Hb" in apply on_enter_facts in H as (_ & B & _ & _)
  | H : on_enter_with_span e _ _ = (_, _, _) |- _ =>
      let B := fresh "Hb" in apply on_enter_with_span_facts in H as (_ & B & _ & _)
  end; cbn [before on_exit pop push set_ign set_cov spawn clear_before] in *.

Theorem quiet_all :
  (forall v t s t' s', Vis e v t s t' s' -> QV v t s s') /\
  (forall v cs s cs' s', Kids e v cs s cs' s' -> QK v cs s s') /\
  (forall ss s ss' s', Ins e ss s ss' s' -> before s' = before s) /\
  (forall v b x s x' s', Wrap e v b x s x' s' -> QV v x s s') /\
  (forall b r cur x s x' s', Arm e b r cur x s x' s' -> before s' = before s) /\
  (forall xs s xs' s', Items e xs s xs' s' -> True) /\
  (forall xs s xs' s', SItems e xs s xs' s' -> True).
Proof.
  apply Vis_all_ind; unfold QV, QK; intros; ent; try exact I; try congruence;
    repeat match goal with
    | H : is_instr ?v = true, Q : is_instr ?v = false \/ _ |- _ => destruct Q as [Q|Q]; [congruence|]
    end;
    try (exfalso; eapply quiet_loud; [eassumption|]; now destruct k).
  - (* V_plain *) apply H1. destruct (is_instr v) eqn:Hi; [|now left]. destruct H2 as [Hv|Hn]; [congruence|]. right.
    unfold plain in H. rewrite Hi in H. apply quiet_kids in Hn. destruct k; try discriminate H; exact Hn.
  - rewrite H1 by now left. congruence.
  - (* V_enter *) rewrite H3; [congruence|]. right. apply quiet_kids in H5. destruct k; try discriminate; exact H5.
  - (* V_fn *) apply create_fn_noisy in H3 as [N1 N2]. rewrite H5; [congruence|]. right.
    apply quiet_kids in H7. cbn [existsb] in *. rewrite N1. destruct k; try discriminate; exact H7.
  - (* V_accessor *) apply accessor_noisy in H3 as [N1 N2]. rewrite H5; [congruence|]. right.
    apply quiet_kids in H7. rewrite existsb_app in *. cbn [existsb] in *. rewrite N1. destruct k; try discriminate; exact H7.
  - (* V_init *) apply covered_noisy in H3. destruct H6 as [_ H6].
    assert (Ha : ahead k value = false)
      by (destruct k; try discriminate; cbn [noisy] in H7; now apply orb_false_iff in H7 as [H7 _]).
    rewrite H5, (H6 Ha); [congruence|]. right. apply quiet_kids in H7. cbn [existsb] in *. rewrite H3.
    destruct k; try discriminate; exact H7.
  - (* V_init_tagged *) exfalso. apply quiet_kids in H8.
    assert (H9 : existsb noisy (name :: Node KExpr vsp [tpl] :: rest) = false) by (destruct k; try discriminate; exact H8).
    destruct tpl as [kt spt cst]. cbn [nkind] in H7. subst. cbn in H9. now rewrite orb_true_r in H9.
  - (* V_cond *) apply cond_arm_noisy in H3 as [N1 N2]. apply cond_arm_noisy in H4 as [N3 N4].
    rewrite H6; [cbn [before set_cov] in *; congruence|]. right. apply quiet_kids in H7. cbn [existsb] in *. now rewrite N1, N3.
  - exfalso. eapply quiet_loud; [eassumption|reflexivity].
  - (* V_case *) rewrite H3; [congruence|]. right. destruct H4 as [H4|H4]; [discriminate|]. now apply quiet_kids in H4.
  - exfalso. eapply quiet_loud; [eassumption|reflexivity].
  - exfalso. eapply quiet_loud; [eassumption|reflexivity].
  - exfalso. eapply quiet_loud; [eassumption|reflexivity].
  - (* V_bin *) rewrite H1; [congruence|]. destruct H2 as [H2|H2]; [now left|]. right. now apply quiet_kids in H2.
  - (* V_logical_new *) apply logical_branch_before in H3. cbn [before push] in H3.
    apply quiet_kids in H8. cbn [existsb] in H8. apply orb_false_iff in H8 as [N1 N2]. rewrite orb_false_r in N2.
    rewrite H7, H5 by now right. congruence.
  - rewrite H5, H3 by now left. congruence.
  - (* V_assign_pat *) rewrite H4; [congruence|]. right. apply quiet_kids in H5. cbn [existsb] in H5.
    apply orb_false_iff in H5 as [_ N2]. now rewrite orb_false_r in N2.
  - (* V_module_items *) exfalso. destruct H7 as [H7|H7]; [discriminate|]. eapply quiet_loud; [exact H7|reflexivity].
  - exfalso. destruct H2 as [H2|H2]; [discriminate|]. eapply quiet_loud; [exact H2|reflexivity].
  - (* K_cons *) rewrite H2, H0; [reflexivity| |]; (destruct H3 as [H3|H3]; [now left|]); right; cbn [existsb] in H3;
      apply orb_false_iff in H3; tauto.
  - (* W_leaf *) assert (Hk : k = KExpr).
    { unfold replace_expr_with_branch_counter in H4. cbn [is_expr nkind] in H4. destruct k; try discriminate; reflexivity. }
    apply replace_noisy in H4 as [_ N2]. rewrite N2. apply H3.
    destruct H5 as [H5|H5]; [now left|]. right. subst k. now apply quiet_kids in H5.
Qed.
End Quiet.
