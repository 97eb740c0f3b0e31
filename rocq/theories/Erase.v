(** Erasing the injected code from a tree (C33). *)
From Coq Require Import NArith String List Bool Lia PeanoNat.
Import ListNotations.
From Verif Require Import Base IndexMap Oxide SourceCov Hints Ast Visitor VisitorRel VisitorEx.
Open Scope N_scope.

(** ** Specification *)

(** Nothing. *)
Definition hole : node := mk KNone [].

(** What is left of an expression when its (erased) variant is [c]: a wrapper gives way to
    the expression it wraps. *)
Definition unwrap_expr (c : node) : option node :=
  match c with
  | Node KNone _ _ => Some hole
  | Node KInjParen _ [x] => Some x               (* (.., x) *)
  | Node KInjSeq _ [_; x] => Some x              (* counter, x *)
  | Node KTempSeq _ (x :: _) => Some x           (* temp = x, .., temp *)
  | Node KTempAssign _ [x] => Some x
  | _ => None
  end.
Definition erase_expr (sp : span) (c : node) : node :=
  match unwrap_expr c with
  | Some x => if is_block x then Node KExpr sp [c] else x
  | None => Node KExpr sp [c]
  end.

(** An injected block stands for the only statement in it, or for nothing. *)
Definition erase_stmt (sp : span) (c : node) : node :=
  if is_none c then hole
  else match block_view c with
       | Some (true, _, _, []) => hole
       | Some (true, _, _, [x]) => x
       | _ => Node KStmt sp [c]
       end.

(** An injected function body stands for the expression it returns. *)
Definition return_view (t : node) : option node :=
  match stmt_view t with Some (_, Node KReturn _ [x]) => Some x | _ => None end.
Definition erase_arrow_body (b : node) : node :=
  match block_view b with
  | Some (true, _, _, [r]) => match return_view r with Some x => x | None => b end
  | _ => b
  end.

(** Erase at the root, the children being erased already. *)
Definition erase_node (k : kind) (sp : span) (cs : list node) : node :=
  match k with
  | KCounter _ | KTemplateFn _ | KTemplateCall | KNone => hole
  | KExpr => match cs with [c] => erase_expr sp c | _ => Node k sp cs end
  | KExprStmt => match cs with [c] => if is_none c then hole else Node k sp cs | _ => Node k sp cs end
  | KStmt => match cs with [c] => erase_stmt sp c | _ => Node k sp cs end
  | KArrow => match cs with [p; b; t] => Node k sp [p; erase_arrow_body b; t] | _ => Node k sp cs end
  | KStmts | KModuleItems => Node k sp (filter (fun c => negb (is_none c)) cs)
  | _ => Node k sp cs
  end.

Fixpoint erase (t : node) : node :=
  match t with Node k sp cs => erase_node k sp (map erase cs) end.

(** A program as it comes from the parser: no injected node, absent parts are [hole]s, and
    the layers [Expr], [Stmt], [ExprStmt] are not empty. *)
Definition injected_kind (k : kind) : bool :=
  match k with
  | KInjParen | KInjSeq | KTempSeq | KCounter _ | KTempAssign | KTempRead | KTempTest _
  | KTemplateFn _ | KTemplateCall | KBlock true => true
  | _ => false
  end.
Definition clean_node (k : kind) (sp : span) (cs : list node) : bool :=
  negb (injected_kind k) &&
  match k with
  | KNone => (lo sp =? 0) && (hi sp =? 0) && match cs with [] => true | _ => false end
  | KExpr | KStmt | KExprStmt | KStmts | KModuleItems => forallb (fun c => negb (is_none c)) cs
  | _ => true
  end.
Fixpoint clean (t : node) : bool :=
  match t with Node k sp cs => clean_node k sp cs && forallb clean cs end.

(** ** Erasing a clean tree *)

Lemma filter_all : forall A (p : A -> bool) l, forallb p l = true -> filter p l = l.
Proof.
  induction l as [|a l IH]; simpl; intros H; [reflexivity|].
  apply andb_true_iff in H as [Ha Hl]. now rewrite Ha, IH.
Qed.

Lemma clean_kind : forall t, clean t = true -> injected_kind (nkind t) = false.
Proof.
  intros [k sp cs] H. simpl in H. apply andb_true_iff in H as [H _].
  unfold clean_node in H. apply andb_true_iff in H as [H _]. now apply negb_true_iff in H.
Qed.

Theorem erase_clean : forall t, clean t = true -> erase t = t.
Proof.
  induction t as [k sp cs IH] using node_ind'. intros H. simpl in H.
  apply andb_true_iff in H as [Hn Hcs].
  assert (Hmap : map erase cs = cs).
  { clear Hn. induction cs as [|c cs IHcs]; [reflexivity|].
    inversion IH; subst. simpl in *. apply andb_true_iff in Hcs as [Hc Hcs].
    f_equal; auto. }
  simpl. rewrite Hmap. unfold clean_node in Hn. apply andb_true_iff in Hn as [Hi Hn].
  assert (Hkid : forall c, In c cs -> injected_kind (nkind c) = false).
  { intros c Hc. apply clean_kind. rewrite forallb_forall in Hcs. now apply Hcs. }
  destruct k; try reflexivity; try discriminate Hi; simpl.
  - now rewrite filter_all.
  - destruct cs as [|c [|? ?]]; try reflexivity. simpl in Hn. rewrite andb_true_r in Hn.
    specialize (Hkid c (or_introl eq_refl)). destruct c as [ck csp ccs]. unfold is_none in Hn.
    simpl in *. unfold erase_stmt. unfold is_none. simpl.
    destruct ck; try reflexivity; try discriminate.
    destruct injected; [discriminate|]. cbn [block_view].
    destruct ccs as [|c [|? ?]]; try reflexivity. destruct (stmts_view c) as [[? ?]|]; reflexivity.
  - now rewrite filter_all.
  - destruct cs as [|c [|? ?]]; try reflexivity. simpl in Hn. rewrite andb_true_r in Hn.
    specialize (Hkid c (or_introl eq_refl)). destruct c as [ck csp ccs]. unfold is_none in Hn.
    simpl in *. destruct ck; try reflexivity; try discriminate.
  - apply andb_true_iff in Hn as [Hs Hc]. apply andb_true_iff in Hs as [Hlo Hhi].
    destruct cs; [|discriminate]. apply N.eqb_eq in Hlo, Hhi. destruct sp. simpl in *. now subst.
  - destruct cs as [|c [|? ?]]; try reflexivity. simpl in Hn. rewrite andb_true_r in Hn.
    apply negb_true_iff in Hn. now rewrite Hn.
  - destruct cs as [|p [|b [|ty [|? ?]]]]; try reflexivity.
    specialize (Hkid b (or_intror (or_introl eq_refl))). destruct b as [bk bsp bcs]. simpl in *.
    destruct bk; try reflexivity. destruct injected; [discriminate|].
    unfold erase_arrow_body. cbn [block_view].
    destruct bcs as [|c [|? ?]]; try reflexivity. destruct (stmts_view c) as [[? ?]|]; reflexivity.
Qed.

(** ** The visitors do not touch what erasing keeps *)

(** Only statement counters *)
Definition sonly (l : list node) : Prop := Forall (fun x => exists i, x = counter_stmt (CS i)) l.

Lemma erase_counter_stmt : forall c, erase (counter_stmt c) = hole.
Proof. reflexivity. Qed.
Lemma erase_counter_expr : forall c, erase (counter_expr c) = hole.
Proof. reflexivity. Qed.

Definition nonhole (c : node) : bool := negb (is_none c).
Definition erase_list (l : list node) : list node := filter nonhole (map erase l).

Lemma erase_list_app : forall a b, erase_list (a ++ b) = (erase_list a ++ erase_list b)%list.
Proof. intros. unfold erase_list. now rewrite map_app, filter_app. Qed.
Lemma erase_list_sonly : forall l, sonly l -> erase_list l = [].
Proof.
  induction l as [|x l IH]; intros H; [reflexivity|].
  inversion H as [|? ? [i ->] Hl]; subst. unfold erase_list in *. simpl. now apply IH.
Qed.
Lemma erase_list_cons : forall x l, erase_list (x :: l) = (erase_list [x] ++ erase_list l)%list.
Proof. intros. change (x :: l) with ([x] ++ l)%list. apply erase_list_app. Qed.
Lemma erase_list_one : forall x y, erase x = erase y -> erase_list [x] = erase_list [y].
Proof. intros x y H. unfold erase_list. simpl. now rewrite H. Qed.

(** In an erased tree, whatever is absent is the [hole]. *)
Fixpoint noneok (t : node) : bool :=
  match t with
  | Node k sp cs =>
      (match k with
       | KNone => (lo sp =? 0) && (hi sp =? 0) && match cs with [] => true | _ => false end
       | _ => true
       end) && forallb noneok cs
  end.

Lemma noneok_hole : forall t, noneok t = true -> is_none t = true -> t = hole.
Proof.
  intros [k sp cs] H Hn. unfold is_none in Hn. simpl in *. destruct k; try discriminate.
  apply andb_true_iff in H as [H _]. apply andb_true_iff in H as [Hs Hc].
  apply andb_true_iff in Hs as [Hlo Hhi]. destruct cs; [|discriminate].
  apply N.eqb_eq in Hlo, Hhi. destruct sp. simpl in *. now subst.
Qed.

Lemma noneok_kids : forall t, noneok t = true -> forallb noneok (nkids t) = true.
Proof. intros [k sp cs] H. simpl in *. now apply andb_true_iff in H as [_ H]. Qed.

Lemma forallb_filter : forall A (p q : A -> bool) l, forallb p l = true -> forallb p (filter q l) = true.
Proof.
  induction l as [|x l IH]; simpl; intros H; [reflexivity|].
  apply andb_true_iff in H as [Hx Hl]. destruct (q x); simpl; auto. now rewrite Hx, IH.
Qed.

Lemma unwrap_expr_cases : forall c x, unwrap_expr c = Some x -> x = hole \/ In x (nkids c).
Proof.
  intros [ck csp ccs] x H. destruct ck; cbn [unwrap_expr nkids] in *; try discriminate.
  - inversion H; auto.
  - destruct ccs as [|y [|? ?]]; inversion H; subst. right; now left.
  - destruct ccs as [|z [|y [|? ?]]]; inversion H; subst. right; right; now left.
  - destruct ccs as [|y ?]; inversion H; subst. right; now left.
  - destruct ccs as [|y [|? ?]]; inversion H; subst. right; now left.
Qed.
Lemma erase_expr_cases : forall sp c,
  erase_expr sp c = hole \/ In (erase_expr sp c) (nkids c) \/ erase_expr sp c = Node KExpr sp [c].
Proof.
  intros sp c. unfold erase_expr. destruct (unwrap_expr c) as [x|] eqn:Hu; auto.
  destruct (is_block x); auto. apply unwrap_expr_cases in Hu as [->|Hu]; auto.
Qed.
Lemma erase_expr_not_block : forall sp cs, is_block (erase (Node KExpr sp cs)) = false.
Proof.
  intros sp cs. cbn [erase erase_node]. destruct (map erase cs) as [|c [|? ?]]; try reflexivity.
  unfold erase_expr. destruct (unwrap_expr c) as [x|]; [|reflexivity].
  destruct (is_block x) eqn:Hx; [reflexivity|assumption].
Qed.
Lemma is_expr_not_block : forall x, is_expr x = true -> is_block (erase x) = false.
Proof.
  intros [k sp cs] H. unfold is_expr in H. simpl in H. destruct k; try discriminate.
  apply erase_expr_not_block.
Qed.
Lemma not_block_view : forall b, is_block b = false -> erase_arrow_body b = b.
Proof.
  intros b H. unfold erase_arrow_body. destruct (block_view b) as [[[[? ?] ?] ?]|] eqn:Hb; [|reflexivity].
  apply block_view_inv in Hb. subst b. discriminate.
Qed.
Lemma erase_stmt_cases : forall sp c,
  erase_stmt sp c = hole \/
  (exists y, In y (nkids c) /\ In (erase_stmt sp c) (nkids y)) \/
  erase_stmt sp c = Node KStmt sp [c].
Proof.
  intros sp c. unfold erase_stmt. destruct (is_none c); auto.
  destruct (block_view c) as [[[[[] bsp] ssp] ss]|] eqn:Hb; auto.
  apply block_view_inv in Hb. subst c. destruct ss as [|x [|? ?]]; auto.
  right; left. eexists. split; [now left|]. now left.
Qed.
Lemma return_view_inv : forall t x, return_view t = Some x ->
  exists sp rsp, t = Node KStmt sp [Node KReturn rsp [x]].
Proof.
  intros t x H. unfold return_view in H. destruct (stmt_view t) as [[sp [k rsp cs]]|] eqn:Hs; [|discriminate].
  apply stmt_view_inv in Hs. subst t. destruct k; try discriminate.
  destruct cs as [|y [|? ?]]; try discriminate. inversion H; subst. eauto.
Qed.
Lemma erase_arrow_body_cases : forall b,
  erase_arrow_body b = b \/
  exists x y z, In x (nkids b) /\ In y (nkids x) /\ In z (nkids y) /\ In (erase_arrow_body b) (nkids z).
Proof.
  intros b. unfold erase_arrow_body.
  destruct (block_view b) as [[[[[] bsp] ssp] [|r [|? ?]]]|] eqn:Hb; auto.
  destruct (return_view r) as [x|] eqn:Hr; auto.
  apply block_view_inv in Hb. apply return_view_inv in Hr as (sp & rsp & ->). subst b.
  right. do 3 eexists. repeat (split; [now left|]). now left.
Qed.

Lemma noneok_kid : forall t c, noneok t = true -> In c (nkids t) -> noneok c = true.
Proof. intros t c H Hc. apply noneok_kids in H. rewrite forallb_forall in H. now apply H. Qed.

Lemma erase_node_noneok : forall k sp cs, forallb noneok cs = true -> noneok (erase_node k sp cs) = true.
Proof.
  intros k sp cs H.
  destruct k; try reflexivity; try (simpl; exact H); cbn [erase_node].
  - simpl. now apply forallb_filter.
  - destruct cs as [|c [|? ?]]; try (simpl; exact H).
    simpl in H. rewrite andb_true_r in H.
    destruct (erase_stmt_cases sp c) as [->|[(y & Hy & Hx)| ->]]; [reflexivity| |simpl; now rewrite H].
    eauto using noneok_kid.
  - simpl. now apply forallb_filter.
  - destruct cs as [|c [|? ?]]; try (simpl; exact H).
    simpl in H. rewrite andb_true_r in H.
    destruct (erase_expr_cases sp c) as [->|[Hx| ->]]; [reflexivity| |simpl; now rewrite H].
    eauto using noneok_kid.
  - destruct cs as [|c [|? ?]]; try (simpl; exact H). destruct (is_none c); [reflexivity|simpl; exact H].
  - destruct cs as [|p [|b [|ty [|? ?]]]]; try (simpl; exact H).
    simpl in *. apply andb_true_iff in H as [Hp H]. apply andb_true_iff in H as [Hb H].
    rewrite Hp, H. rewrite andb_true_r. simpl.
    destruct (erase_arrow_body_cases b) as [->|(x & y & z & Hx & Hy & Hz & Hw)]; [assumption|].
    eauto using noneok_kid.
Qed.

Lemma erase_noneok : forall t, noneok (erase t) = true.
Proof.
  induction t as [k sp cs IH] using node_ind'. simpl. apply erase_node_noneok.
  induction IH; simpl; [reflexivity|]. now rewrite H, IHIH.
Qed.

Lemma erase_paren_seq : forall c x, is_expr x = true -> erase (paren_seq c x) = erase x.
Proof.
  intros c x H. apply is_expr_not_block in H. unfold paren_seq, E, mk.
  cbn [erase map erase_node]. unfold erase_expr at 2. simpl. unfold erase_expr. simpl. rewrite H.
  now rewrite H.
Qed.
Lemma erase_wrap_true : forall b i x, is_expr x = true ->
  erase (E (mk KInjSeq [counter_expr (CB b i); increase_true_expr b i x])) = erase x.
Proof.
  intros b i x H. apply is_expr_not_block in H. unfold increase_true_expr, E, mk.
  cbn [erase map erase_node]. unfold erase_expr. simpl. rewrite H. simpl. rewrite H. simpl.
  now rewrite H.
Qed.

(** An injected block around statements that amount to [x]. *)
Lemma erase_inj_block : forall l x,
  erase_list l = erase_list [x] ->
  erase (mk KStmt [mk (KBlock true) [mk KStmts l]]) = erase x.
Proof.
  intros l x H. unfold mk. cbn [erase map erase_node].
  change (filter (fun c => negb (is_none c)) (map erase l)) with (erase_list l).
  rewrite H. unfold erase_list, erase_stmt. simpl. unfold nonhole.
  destruct (is_none (erase x)) eqn:Hx; simpl; [|reflexivity].
  symmetry. apply noneok_hole; [apply erase_noneok|assumption].
Qed.

Section Erasure.
Variable e : env.

Definition EV (v : vis) (t : node) (s : st) (t' : node) (s' : st) : Prop :=
  sonly (before s) -> erase t' = erase t /\ sonly (before s').
Definition EK (v : vis) (cs : list node) (s : st) (cs' : list node) (s' : st) : Prop :=
  sonly (before s) -> map erase cs' = map erase cs /\ sonly (before s').
Definition EI (ss : list node) (s : st) (ss' : list node) (s' : st) : Prop :=
  sonly (before s) -> erase_list ss' = erase_list ss /\ sonly (before s').

Lemma on_enter_with_span_facts : forall sp s s1 old cur, on_enter_with_span e sp s = (s1, old, cur) ->
  cov s1 = cov s /\ before s1 = before s /\ stack s1 = stack s /\ old = ign s.
Proof.
  intros sp s s1 old cur H. unfold on_enter_with_span in H.
  destruct (is_next (ign s)); inversion H; subst; auto.
Qed.
Lemma on_enter_facts : forall n sp s s1 old cur, on_enter e n sp s = (s1, old, cur) ->
  cov s1 = cov s /\ before s1 = before s /\ stack s1 = n :: stack s /\ old = ign s.
Proof.
  intros n sp s s1 old cur H. apply on_enter_with_span_facts in H. exact H.
Qed.

Lemma mark_sonly : forall sp s, sonly (before s) -> sonly (before (mark_prepend_stmt_counter e sp s)).
Proof.
  intros sp s H. unfold mark_prepend_stmt_counter, new_statement. simpl.
  apply Forall_app. split; [assumption|]. constructor; [|constructor]. eauto.
Qed.

Lemma covered_facts : forall x s x' s', covered e x s x' s' ->
  erase x' = erase x /\ (sonly (before s) -> sonly (before s')).
Proof.
  intros x s x' s' (s1 & H1 & H2).
  assert (Hb : sonly (before s) -> sonly (before s1)).
  { destruct H1; subst; auto using mark_sonly. }
  destruct H2 as [[-> H2]|H2].
  - split; [reflexivity|]. intros H. destruct H2; subst; auto using mark_sonly.
  - destruct H2 as [Hx H2]. unfold replace_expr_with_stmt_counter, new_statement in H2. inversion H2; subst.
    split; [now apply erase_paren_seq|]. simpl. auto.
Qed.

Lemma replace_branch_facts : forall x b s x' s',
  replace_expr_with_branch_counter e x b s = Ok (x', s') -> erase x' = erase x /\ before s' = before s.
Proof.
  intros x b s x' s' H. unfold replace_expr_with_branch_counter in H.
  destruct (is_expr x) eqn:Hx; [|discriminate]. cbn [negb] in H.
  apply bind_ok in H as [[c i] [_ H]]. inversion H; subst.
  auto using erase_paren_seq.
Qed.

Lemma cond_arm_facts : forall b x s x' s',
  cond_arm e b x s x' s' -> erase x' = erase x /\ before s' = before s.
Proof.
  intros b x s x' s' [[-> ->]|H]; [auto|]. eapply replace_branch_facts; eauto.
Qed.

Lemma prepend_to_block_facts : forall c b b', prepend_to_block c b = Some b' -> erase b' = erase b.
Proof.
  intros c b b' H. unfold prepend_to_block in H.
  destruct (block_view b) as [[[[i bsp] ssp] ss]|] eqn:Hb; [|discriminate].
  apply block_view_inv in Hb. inversion H; subst. reflexivity.
Qed.

Lemma create_fn_facts : forall id fn s fn' s',
  create_fn_instrumentation e id fn s = Ok (fn', s') -> erase fn' = erase fn /\ before s' = before s.
Proof.
  intros id [k sp cs] s fn' s' H. unfold create_fn_instrumentation in H.
  destruct k; try discriminate. destruct cs as [|p [|d [|b [|ty [|? ?]]]]]; try discriminate.
  destruct (new_function _ _ _ _) as [c i]. destruct (is_none b); [discriminate|].
  destruct (prepend_to_block (CF i) b) as [b'|] eqn:Hp; [|discriminate]. inversion H; subst.
  split; [|reflexivity]. simpl. now rewrite (prepend_to_block_facts _ _ _ Hp).
Qed.

Lemma accessor_facts : forall name sp s b b' s',
  accessor_body e name sp s b = Ok (b', s') -> erase b' = erase b /\ before s' = before s.
Proof.
  intros name sp s b b' s' H. unfold accessor_body in H.
  destruct (is_none b); [inversion H; subst; auto|].
  destruct (new_function _ _ _ _) as [c i].
  destruct (prepend_to_block (CF i) b) as [b''|] eqn:Hp; [|discriminate]. inversion H; subst.
  split; [|reflexivity]. apply (prepend_to_block_facts _ _ _ Hp).
Qed.

Lemma block_last_facts : forall cs cs', block_last cs = Some cs' -> map erase cs' = map erase cs.
Proof.
  induction cs as [|c cs IH]; intros cs' H; [discriminate|].
  destruct cs as [|c2 cs].
  - simpl in H. unfold to_block in H. destruct (stmt_view c) as [[sp x]|] eqn:Hv; [|discriminate].
    destruct (is_block x); inversion H; subst; [reflexivity|].
    cbn [map]. f_equal. apply erase_inj_block. reflexivity.
  - change (block_last (c :: c2 :: cs)) with (option_map (cons c) (block_last (c2 :: cs))) in H.
    destruct (block_last (c2 :: cs)) as [l|] eqn:Hl; [|discriminate]. inversion H; subst.
    cbn [map]. f_equal. now apply IH.
Qed.

Lemma erase_list_prefix : forall pre x x' rest rest',
  sonly pre -> erase x' = erase x -> erase_list rest' = erase_list rest ->
  erase_list ((pre ++ [x']) ++ rest') = erase_list (x :: rest).
Proof.
  intros pre x x' rest rest' Hp Hx Hr. rewrite !erase_list_app, (erase_list_sonly pre Hp).
  rewrite (erase_list_cons x), Hr. now rewrite (erase_list_one x' x Hx).
Qed.

Lemma sonly_nil : sonly []. Proof. constructor. Qed.

Lemma erase_congr : forall k sp cs cs', map erase cs' = map erase cs ->
  erase (Node k sp cs') = erase (Node k sp cs).
Proof. intros k sp cs cs' H. cbn [erase]. now rewrite H. Qed.

Lemma stmts_congr : forall sp ss ss', erase_list ss' = erase_list ss ->
  erase (Node KStmts sp ss') = erase (Node KStmts sp ss).
Proof.
  intros sp ss ss' H. cbn [erase]. cbn [erase_node].
  unfold erase_list, nonhole in H. now rewrite H.
Qed.

Lemma items_congr : forall sp ss ss', erase_list ss' = erase_list ss ->
  erase (Node KModuleItems sp ss') = erase (Node KModuleItems sp ss).
Proof.
  intros sp ss ss' H. cbn [erase]. cbn [erase_node].
  unfold erase_list, nonhole in H. now rewrite H.
Qed.

Lemma templates_facts : forall s tpl call s', get_coverage_templates s = (tpl, call, s') ->
  erase tpl = hole /\ erase call = hole /\ before s' = before s.
Proof. intros s tpl call s' H. unfold get_coverage_templates in H. inversion H; subst. auto. Qed.

Lemma arrow_expr_congr : forall sp params esp xs types ss' c,
  erase_list ss' = erase_list [counter_stmt c; Node KStmt esp [Node KReturn esp [Node KExpr esp xs]]] ->
  erase (Node KArrow sp [params; mk (KBlock true) [mk KStmts ss']; types]) =
  erase (Node KArrow sp [params; Node KExpr esp xs; types]).
Proof.
  intros sp params esp xs types ss' c H.
  pose proof (erase_expr_not_block esp xs) as Hb. unfold mk.
  remember (Node KExpr esp xs) as x eqn:Hx. clear Hx xs.
  unfold erase_list in H. unfold erase_arrow_body. cbn [erase map erase_node].
  change (filter (fun c => negb (is_none c)) (map erase ss')) with (filter nonhole (map erase ss')).
  rewrite H, (not_block_view _ Hb). reflexivity.
Qed.

Ltac fwd :=
  repeat match goal with
  | H : sonly ?a -> _, H' : sonly ?a |- _ => specialize (H H')
  | H : _ /\ _ |- _ => destruct H
  | H : on_enter e _ _ _ = (_, _, _) |- _ =>
      let C := fresh "Hc" in let B := fresh "Hb" in
      apply on_enter_facts in H as (C & B & _ & _)
  | H : on_enter_with_span e _ _ = (_, _, _) |- _ =>
      let C := fresh "Hc" in let B := fresh "Hb" in
      apply on_enter_with_span_facts in H as (C & B & _ & _)
  | B : before ?s1 = before ?s, H : sonly (before ?s) |- _ =>
      let P := fresh "Hs" in
      assert (P : sonly (before s1)) by (rewrite B; exact H); clear B
  | M : sonly (before (mark_prepend_stmt_counter e ?sp ?s1)) -> _, H : sonly (before ?s1) |- _ =>
      specialize (M (mark_sonly sp s1 H))
  | M : sonly [] -> _ |- _ => specialize (M sonly_nil)
  end.
Ltac norm := cbn [before on_exit pop push set_ign set_cov spawn clear_before] in *; fwd.

(** All visits at once. *)
Theorem erase_all :
  (forall v t s t' s', Vis e v t s t' s' -> EV v t s t' s') /\
  (forall v cs s cs' s', Kids e v cs s cs' s' -> EK v cs s cs' s') /\
  (forall ss s ss' s', Ins e ss s ss' s' -> EI ss s ss' s') /\
  (forall v b x s x' s', Wrap e v b x s x' s' -> EV v x s x' s') /\
  (forall b r cur x s x' s', Arm e b r cur x s x' s' -> EV VStmt x s x' s') /\
  (forall xs s xs' s', Items e xs s xs' s' -> EI xs s xs' s') /\
  (forall xs s xs' s', SItems e xs s xs' s' -> EI xs s xs' s').
Proof.
  apply Vis_all_ind; unfold EV, EK, EI; intros; norm;
    try (split; [reflexivity | assumption]);
    try (split; [apply erase_congr; congruence | now auto using mark_sonly]).
  - (* V_stmts *)
    split; [now apply stmts_congr | assumption].
  - (* V_fn *)
    apply create_fn_facts in H3 as [Hf Hb]. norm.
    split; [|assumption]. apply erase_congr. rewrite H1. simpl. now rewrite Hf.
  - (* V_accessor *)
    match goal with H : accessor_body _ _ _ _ _ = _ |- _ => apply accessor_facts in H as [Hf Hb] end.
    norm. split; [|assumption]. apply erase_congr.
    match goal with H : map erase cs' = _ |- _ => rewrite H end.
    rewrite !map_app. simpl. now rewrite Hf.
  - (* V_arrow_block *)
    split; [|assumption]. apply erase_congr. cbn [map]. do 2 f_equal. apply erase_congr.
    cbn [map]. f_equal. apply stmts_congr. rewrite erase_list_cons. simpl. assumption.
  - (* V_arrow_expr *)
    split; [|assumption]. eapply arrow_expr_congr. eassumption.
  - (* V_init *)
    match goal with H : covered _ _ _ _ _ |- _ => apply covered_facts in H as [Hf Hb] end.
    norm. split; [|assumption]. apply erase_congr.
    match goal with H : map erase cs' = _ |- _ => rewrite H end. cbn [map]. now rewrite Hf.
  - (* V_init_tagged *)
    split; [|assumption]. apply erase_congr.
    match goal with H : map erase cs' = _ |- _ => rewrite H end. cbn [map]. do 2 f_equal.
    apply erase_congr. cbn [map]. congruence.
  - (* V_loop *)
    match goal with H : block_last _ = _ |- _ => apply block_last_facts in H end.
    split; [|assumption]. apply erase_congr. congruence.
  - (* V_cond *)
    repeat match goal with H : cond_arm _ _ _ _ _ _ |- _ =>
      let E := fresh "He" in let B := fresh "Hb" in apply cond_arm_facts in H as [E B] end.
    norm. split; [|assumption]. apply erase_congr.
    match goal with H : map erase cs' = _ |- _ => rewrite H end. cbn [map]. congruence.
  - (* V_case *)
    split; [|assumption]. apply erase_congr.
    match goal with H : _ = map erase cs |- _ => rewrite <- H end. cbn [map]. do 2 f_equal.
  - (* V_if *)
    split; [|assumption]. apply erase_congr. cbn [map]. congruence.
  - (* V_with_block *)
    split; [|assumption]. apply erase_congr. cbn [map]. do 2 f_equal. apply erase_congr.
    cbn [map]. f_equal. apply erase_congr. cbn [map]. f_equal. now apply stmts_congr.
  - (* V_with_stmt *)
    split; [|now apply mark_sonly]. apply erase_congr. cbn [map]. do 2 f_equal.
    apply erase_inj_block. rewrite erase_list_app, erase_list_sonly by assumption.
    simpl app. now apply erase_list_one.
  - (* V_logical_new *)
    match goal with H : new_logical_branch _ _ _ = _ |- _ =>
      unfold new_logical_branch in H; destruct (new_branch _ _ _ _); inversion H; subst end.
    norm. split; [|assumption]. apply erase_congr. cbn [map]. congruence.
  - (* V_logical_inner *)
    split; [|assumption]. apply erase_congr. cbn [map]. congruence.
  - (* V_assign_pat *)
    split; [|assumption]. apply erase_congr. cbn [map]. congruence.
  - (* V_module_items *)
    match goal with H : get_coverage_templates _ = _ |- _ =>
      apply templates_facts in H as (Ht & Hk & Hb) end.
    norm. split; [|assumption]. apply items_congr. subst out.
    destruct items' as [|i is]; unfold erase_list in *; simpl in *; rewrite Ht, Hk; simpl; assumption.
  - (* V_script *)
    match goal with H : get_coverage_templates _ = _ |- _ =>
      apply templates_facts in H as (Ht & Hk & Hb) end.
    norm. split; [|assumption]. apply erase_congr. cbn [map]. f_equal. apply stmts_congr.
    unfold erase_list in *; simpl in *; rewrite Ht, Hk; simpl; assumption.
  - (* K_cons *) split; [cbn [map]; congruence|assumption].
  - (* I_injected *)
    split; [|assumption]. rewrite (erase_list_cons x ss'), (erase_list_cons x ss). congruence.
  - (* I_skip *)
    split; [|assumption]. rewrite (erase_list_cons x ss'), (erase_list_cons x ss). congruence.
  - (* I_visit *)
    split; [|assumption]. apply erase_list_prefix; [assumption| |assumption]. now apply erase_congr.
  - (* W_report *)
    split; [now apply erase_wrap_true|assumption].
  - (* W_leaf *)
    match goal with H : replace_expr_with_branch_counter _ _ _ _ = _ |- _ =>
      apply replace_branch_facts in H as [Hf Hb] end.
    norm. split; [|assumption]. rewrite Hf. now apply erase_congr.
  - (* A_block *)
    split; [|assumption]. apply erase_congr. cbn [map]. f_equal. apply erase_congr. cbn [map]. f_equal.
    apply stmts_congr. rewrite erase_list_cons. simpl. assumption.
  - (* A_stmt *)
    split; [|assumption]. apply erase_inj_block.
    rewrite !erase_list_app, (erase_list_sonly (before sv)) by assumption.
    simpl app. now apply erase_list_one.
  - (* M_directive *)
    split; [|assumption]. rewrite (erase_list_cons x xs'), (erase_list_cons x xs). congruence.
  - (* M_visit *)
    assert (Hs2 : sonly (before s2)).
    { match goal with H : s2 = s1 \/ _ |- _ => destruct H as [->|[esp ->]] end; auto using mark_sonly. }
    norm. split; [|assumption]. apply erase_list_prefix; [assumption| |assumption]. now apply erase_congr.
  - (* S_visit *)
    split; [|assumption].
    change (before s1 ++ Node k sp cs' :: xs')%list with (before s1 ++ [Node k sp cs'] ++ xs')%list.
    rewrite app_assoc. apply erase_list_prefix; [assumption| |assumption]. now apply erase_congr.
Qed.

End Erasure.

(** ** The instrumented program is the program plus injected code *)

Theorem erase_visit : forall e n v t s t' s',
  sonly (before s) -> visit e n v t s = Ok (t', s') -> erase t' = erase t.
Proof.
  intros e n v t s t' s' Hs H. apply visit_sound in H.
  apply (proj1 (erase_all e)) in H. now apply H.
Qed.

Theorem erase_instrument : forall e n path ism t t' c,
  clean t = true -> instrument e n path ism t = Ok (t', c) -> erase t' = t.
Proof.
  intros e n path ism t t' c Hc H. unfold instrument in H.
  apply bind_ok in H as [[t1 s1] [Hv H]]. inversion H; subst. clear H.
  unfold visit_program in Hv. destruct (should_ignore_file _ _ _).
  - inversion Hv; subst. now apply erase_clean.
  - apply bind_ok in Hv as [[t1 s2] [Hv H]]. inversion H; subst.
    apply erase_visit in Hv; [|constructor]. rewrite Hv. now apply erase_clean.
Qed.

Example erase_instrument_ex :
  clean ex_function = true /\
  match instrument plain_env 40 "f.js" None ex_function with
  | Ok (t', _) => clean t' = false /\ erase t' = ex_function
  | _ => False
  end.
Proof. vm_compute. auto. Qed.
