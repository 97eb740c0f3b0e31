(** C54: what turning reportLogic on changes.

    The option should only add truthiness counters to the operands of logical expressions.  It does not: an operand is no
    longer visited, so functions and branches inside of it lose their counters.  For programs whose operands contain nothing
    to instrument, the two outputs differ exactly in the truthiness counters. *)
From Coq Require Import NArith String List Bool Lia PeanoNat.
Import ListNotations.
From Verif Require Import Base IndexMap Decimal Oxide SourceCov Hints Ast Visitor VisitorEx.
Open Scope N_scope.

(** ** Programs whose operands contain nothing to instrument *)
Definition inert_kind (k : kind) : bool :=
  match k with
  | KExpr | KList | KNone | KTs | KIdent _ | KPropIdent _ | KStr _ | KParen | KSeq | KOther _ => true
  | KBin op => negb (is_logical_op op)
  | _ => false
  end.
Fixpoint inert (t : node) : bool := match t with Node k _ cs => inert_kind k && forallb inert cs end.
(** An operand of a logical expression or the default value of a parameter *)
Definition plain_operand (x : node) : bool := has_logical x || inert x.
Fixpoint plain_operands (t : node) : bool :=
  match t with
  | Node k _ cs =>
      match k with
      | KBin op => match cs with [l; r] => negb (is_logical_op op) || (plain_operand l && plain_operand r) | _ => true end
      | KAssignPat => match cs with [_; r] => plain_operand r | _ => true end
      | KVarDeclarator | KClassProp | KPrivateProp => match cs with _ :: v :: _ => negb (is_tagged_tpl v) | _ => true end
      | _ => true
      end && forallb plain_operands cs
  end.

(** ** The difference *)
(** A record without truthiness counts *)
Definition without_bt (fc : file_coverage) : file_coverage :=
  mkFC (fc_all fc) (fc_path fc) (fc_statement_map fc) (fc_fn_map fc) (fc_branch_map fc) (fc_s fc) (fc_f fc) (fc_b fc) None
    (fc_input_source_map fc).
Definition cov_without_bt (c : source_cov) : source_cov := mkSC (without_bt (sc_fc c)) (sc_s c) (sc_f c) (sc_b c).

(** [extends a b]: [b] is [a] with truthiness counters around operands (and in the embedded record) *)
Inductive extends : node -> node -> Prop :=
| ext_node k sp cs1 cs2 : extends_all cs1 cs2 -> extends (Node k sp cs1) (Node k sp cs2)
| ext_template f sp cs : extends (Node (KTemplateFn (without_bt f)) sp cs) (Node (KTemplateFn f) sp cs)
| ext_operand b i x : extends (paren_seq (CB b i) x) (E (mk KInjSeq [counter_expr (CB b i); increase_true_expr b i x]))
with extends_all : list node -> list node -> Prop :=
| exts_nil : extends_all [] []
| exts_cons a b l1 l2 : extends a b -> extends_all l1 l2 -> extends_all (a :: l1) (b :: l2).
Scheme extends_mut := Minimality for extends Sort Prop with extends_all_mut := Minimality for extends_all Sort Prop.
Combined Scheme extends_both_ind from extends_mut, extends_all_mut.

Lemma ext_refl : forall t, extends t t.
Proof. fix IH 1. intros [k sp cs]. constructor. induction cs; constructor; auto. Qed.
Lemma exts_refl l : extends_all l l.
Proof. induction l; constructor; auto using ext_refl. Qed.
Lemma exts_app a1 a2 b1 b2 : extends_all a1 a2 -> extends_all b1 b2 -> extends_all (a1 ++ b1) (a2 ++ b2).
Proof. induction 1; cbn; auto. constructor; auto. Qed.

(** ** Records *)
Definition sc_eq (a b : source_cov) : Prop := a = cov_without_bt b.
Lemma stmt_eq r a b : sc_eq a b -> sc_eq (fst (new_statement r a)) (fst (new_statement r b)) /\ snd (new_statement r a) = snd (new_statement r b).
Proof. intros ->. split; reflexivity. Qed.
Lemma fn_eq n d r a b : sc_eq a b -> sc_eq (fst (new_function n d r a)) (fst (new_function n d r b)) /\ snd (new_function n d r a) = snd (new_function n d r b).
Proof. intros ->. split; reflexivity. Qed.
Lemma branch_eq t r l2 a b : sc_eq a b -> sc_eq (fst (new_branch t r false a)) (fst (new_branch t r l2 b)) /\ snd (new_branch t r false a) = snd (new_branch t r l2 b).
Proof. intros ->. split; reflexivity. Qed.
Lemma freeze_eq a b : sc_eq a b -> sc_eq (freeze a) (freeze b).
Proof. intros ->. reflexivity. Qed.

(** ** Outcomes: without the option the visitors go deeper, so only that visit may run out of fuel *)
Definition follows {A B} (R : A -> B -> Prop) (m1 : res A) (m2 : res B) : Prop :=
  match m1, m2 with
  | Ok a, Ok b => R a b
  | Panic r1, Panic r2 => r1 = r2
  | OutOfFuel, _ => True
  | _, _ => False
  end.
Lemma bind_f {A B C D} (R : A -> B -> Prop) (Q : C -> D -> Prop) m1 m2 k1 k2 :
  follows R m1 m2 -> (forall a b, R a b -> follows Q (k1 a) (k2 b)) -> follows Q (bind m1 k1) (bind m2 k2).
Proof. destruct m1, m2; cbn; intros H K; try contradiction; auto. Qed.
Lemma bind_eq {A C D} (Q : C -> D -> Prop) (m : res A) k1 k2 :
  (forall a, m = Ok a -> follows Q (k1 a) (k2 a)) -> follows Q (bind m k1) (bind m k2).
Proof. destruct m; cbn; auto. Qed.
Lemma add_path_f n r a b : sc_eq a b -> follows (fun p q => sc_eq (fst p) (fst q) /\ snd p = snd q) (add_branch_path n r a) (add_branch_path n r b).
Proof.
  intros ->. unfold add_branch_path. cbn [sc_fc fc_branch_map fc_b].
  apply bind_eq. intros _ _. apply bind_eq. intros _ _. apply bind_eq. intros ? _. split; reflexivity.
Qed.

(** ** Operands are left alone by both visits *)
Section Inert.
Context (e : env).
Lemma inert_kids k sp cs : inert (Node k sp cs) = true -> forallb inert cs = true.
Proof. cbn. intros H. now apply andb_true_iff in H. Qed.
Lemma set_same s : mkSt (cov s) (before s) (stack s) (ign s) = s.
Proof. now destruct s. Qed.
Lemma inert_visit n : forall v t s, inert t = true -> visit e n v t s = Ok (t, s) \/ visit e n v t s = OutOfFuel.
Proof.
  induction n as [|n IH]; intros v t s H; [now right|]. cbn [visit].
  assert (Hl : forall v ts s, forallb inert ts = true -> visit_list (visit e n) v ts s = Ok (ts, s) \/ visit_list (visit e n) v ts s = OutOfFuel).
  { clear - IH. intros v ts. induction ts as [|t ts IHt]; intros s H; cbn; [now left|]. cbn in H. apply andb_true_iff in H as [H1 H2].
    destruct (IH v t s H1) as [->| ->]; cbn; [|now right]. destruct (IHt s H2) as [->| ->]; cbn; auto. }
  assert (Hc : forall v t s, inert t = true -> visit_children (visit e n) v t s = Ok (t, s) \/ visit_children (visit e n) v t s = OutOfFuel).
  { intros v0 [k sp cs] s0 H0. cbn [visit_children]. destruct (Hl v0 cs s0 (inert_kids _ _ _ H0)) as [->| ->]; cbn; auto. }
  assert (He : forall n' s0, on_exit (ign s0) (push n' s0) = s0) by (intros ? []; reflexivity).
  assert (Hb : forall v op f, (is_logical_op op) = false -> visit_bin_expr e (visit e n) v op f t s = Ok (t, s) \/ visit_bin_expr e (visit e n) v op f t s = OutOfFuel).
  { intros v0 op f Hop. unfold visit_bin_expr, on_enter_with_span. destruct (is_next (ign s)).
    - cbv beta iota. destruct (is_next (ign s)); rewrite ?Hop; (destruct (Hc v0 t (push NBinExpr s) H) as [->| ->]; cbn [bind]; [left|now right]); now rewrite He.
    - cbv beta iota. assert (forall i, on_exit (ign s) (push NBinExpr (set_ign i s)) = s) by (intros; now destruct s).
      destruct (is_next (hint e (nspan t))); rewrite ?Hop; (destruct (Hc v0 t (push NBinExpr (set_ign (hint e (nspan t)) s)) H) as [->| ->]; cbn [bind]; [left|now right]); congruence. }
  pose proof H as H0. destruct t as [k sp cs]. cbn in H0. apply andb_true_iff in H0 as [Hk _].
  assert (Hi : visit_instr e (visit e n) v (Node k sp cs) s = Ok (Node k sp cs, s) \/ visit_instr e (visit e n) v (Node k sp cs) s = OutOfFuel).
  { unfold visit_instr. cbn [nkind nspan] in *. destruct k; try discriminate Hk; auto. apply Hb. now apply negb_true_iff. }
  unfold visit_body. destruct v; auto. unfold visit_logical. cbn [nkind nspan] in *. destruct k; try discriminate Hk; auto.
  - unfold on_enter, on_enter_with_span. change (ign (push NExpr s)) with (ign s). destruct (is_next (ign s)).
    + destruct (Hc (VLogical branch) _ (push NExpr s) H) as [->| ->]; cbn [bind]; [left|now right]. now rewrite He.
    + destruct (Hc (VLogical branch) _ (set_ign (hint e sp) (push NExpr s)) H) as [->| ->]; cbn [bind]; [left|now right]. destruct s; reflexivity.
  - apply Hb. now apply negb_true_iff.
Qed.
End Inert.

(** ** Side by side *)
Section Sim.
Context (e1 e2 : env).
Hypothesis Hhint : forall sp, hint e1 sp = hint e2 sp.
Hypothesis Hrange : forall sp, range_of e1 sp = range_of e2 sp.
Hypothesis Hoff : e_report_logic e1 = false.
Hypothesis Hon : e_report_logic e2 = true.
Hypothesis Hmeth : e_ignore_methods e1 = e_ignore_methods e2.
Notation ok t := (plain_operands t = true).
Notation oks l := (forallb plain_operands l = true).

Definition st_rel (s1 s2 : st) : Prop := sc_eq (cov s1) (cov s2) /\ before s1 = before s2 /\ stack s1 = stack s2 /\ ign s1 = ign s2.
Definition out_rel (p q : node * st) : Prop := extends (fst p) (fst q) /\ st_rel (snd p) (snd q).
Definition outs_rel (p q : list node * st) : Prop := extends_all (fst p) (fst q) /\ st_rel (snd p) (snd q).
(** The node is the same in both runs *)
Definition same_rel (p q : node * st) : Prop := fst p = fst q /\ ok (fst p) /\ st_rel (snd p) (snd q).
Definition sames_rel (p q : list node * st) : Prop := fst p = fst q /\ oks (fst p) /\ st_rel (snd p) (snd q).

Lemma st_push n s1 s2 : st_rel s1 s2 -> st_rel (push n s1) (push n s2).
Proof. intros (A & B & C & D). split; [exact A|]. split; [exact B|]. split; [cbn; congruence|exact D]. Qed.
Lemma st_pop s1 s2 : st_rel s1 s2 -> st_rel (pop s1) (pop s2).
Proof. intros (A & B & C & D). split; [exact A|]. split; [exact B|]. split; [cbn; congruence|exact D]. Qed.
Lemma st_ign i s1 s2 : st_rel s1 s2 -> st_rel (set_ign i s1) (set_ign i s2).
Proof. intros (A & B & C & D). split; [exact A|]. split; [exact B|]. split; auto. Qed.
Lemma st_cov c1 c2 s1 s2 : sc_eq c1 c2 -> st_rel s1 s2 -> st_rel (set_cov c1 s1) (set_cov c2 s2).
Proof. intros K (A & B & C & D). split; [exact K|]. split; [exact B|]. split; auto. Qed.
Lemma st_clear s1 s2 : st_rel s1 s2 -> st_rel (clear_before s1) (clear_before s2).
Proof. intros (A & B & C & D). split; [exact A|]. split; [reflexivity|]. split; auto. Qed.
Lemma st_spawn i s1 s2 : st_rel s1 s2 -> st_rel (spawn s1 i) (spawn s2 i).
Proof. intros (A & B & C & D). split; [exact A|]. split; [reflexivity|]. split; auto. Qed.
Lemma st_exit o s1 s2 : st_rel s1 s2 -> st_rel (on_exit o s1) (on_exit o s2).
Proof. intros. unfold on_exit. apply st_pop, st_ign. auto. Qed.
Lemma st_mark a s1 s2 : st_rel s1 s2 -> st_rel (mark_prepend_stmt_counter e1 a s1) (mark_prepend_stmt_counter e2 a s2).
Proof.
  intros (A & B & C & D). unfold mark_prepend_stmt_counter. rewrite Hrange.
  destruct (stmt_eq (range_of e2 a) _ _ A) as [P Q].
  destruct (new_statement (range_of e2 a) (cov s1)) as [c1 i1], (new_statement (range_of e2 a) (cov s2)) as [c2 i2]. cbn [fst snd] in P, Q. subst i2.
  split; [exact P|]. split; [|split; auto]. cbn. congruence.
Qed.
Lemma enter_rel a s1 s2 : st_rel s1 s2 ->
  exists t1 t2 o c, on_enter_with_span e1 a s1 = (t1, o, c) /\ on_enter_with_span e2 a s2 = (t2, o, c) /\ st_rel t1 t2.
Proof.
  intros H. unfold on_enter_with_span. pose proof H as (A & B & C & D). rewrite D, Hhint.
  destruct (is_next (ign s2)); [exists s1, s2; eauto|]. eexists _, _, _, _. split; [reflexivity|]. split; [reflexivity|]. now apply st_ign.
Qed.
Lemma ok_kids t : ok t -> oks (nkids t).
Proof. destruct t as [k sp cs]. cbn. intros H. now apply andb_true_iff in H. Qed.

Section Step.
Context (rec1 rec2 : vis -> node -> st -> res (node * st)).
Hypothesis Hrec : forall v t s1 s2, ok t -> st_rel s1 s2 -> follows out_rel (rec1 v t s1) (rec2 v t s2).
Hypothesis Hinert : forall v t s, inert t = true -> rec1 v t s = Ok (t, s) \/ rec1 v t s = OutOfFuel.

Lemma list_rel v l : oks l -> forall s1 s2, st_rel s1 s2 -> follows outs_rel (visit_list rec1 v l s1) (visit_list rec2 v l s2).
Proof.
  induction l as [|a l IH]; intros O s1 s2 Hs; cbn [visit_list].
  - split; [constructor|exact Hs].
  - cbn in O. apply andb_true_iff in O as [O1 O2]. eapply bind_f; [apply Hrec; eauto|]. intros [a' u1] [b' u2] [P Q]. cbn [fst snd] in P, Q.
    eapply bind_f; [apply IH; eauto|]. intros [l1' w1] [l2' w2] [P' Q']. cbn [fst snd] in P', Q'.
    split; cbn; auto. constructor; auto.
Qed.
Lemma kids_rel v k sp cs s1 s2 : oks cs -> st_rel s1 s2 ->
  follows out_rel (visit_children rec1 v (Node k sp cs) s1) (visit_children rec2 v (Node k sp cs) s2).
Proof.
  intros O Hs. cbn [visit_children].
  eapply bind_f; [apply list_rel; eauto|]. intros [l1 w1] [l2 w2] [P Q]. split; cbn in *; auto. now constructor.
Qed.
Lemma children_rel v t s1 s2 : ok t -> st_rel s1 s2 -> follows out_rel (visit_children rec1 v t s1) (visit_children rec2 v t s2).
Proof. intros O Hs. destruct t as [k sp cs]. apply kids_rel; auto. now apply (ok_kids (Node k sp cs)). Qed.
Lemma inert_list v l s : forallb inert l = true -> visit_list rec1 v l s = Ok (l, s) \/ visit_list rec1 v l s = OutOfFuel.
Proof.
  revert s. induction l as [|t l IH]; intros s H; cbn; [now left|]. cbn in H. apply andb_true_iff in H as [H1 H2].
  destruct (Hinert v t s H1) as [->| ->]; cbn; [|now right]. destruct (IH s H2) as [->| ->]; cbn; auto.
Qed.
Lemma inert_children v t s : inert t = true -> visit_children rec1 v t s = Ok (t, s) \/ visit_children rec1 v t s = OutOfFuel.
Proof. destruct t as [k sp cs]. intros H. cbn [visit_children]. destruct (inert_list v cs s (inert_kids _ _ _ H)) as [->| ->]; cbn; auto. Qed.
Lemma insert_counters_rel l : oks l -> forall s1 s2, st_rel s1 s2 ->
  follows outs_rel (insert_stmts_counter e1 rec1 l s1) (insert_stmts_counter e2 rec2 l s2).
Proof.
  induction l as [|a l IH]; intros O s1 s2 Hs; cbn [insert_stmts_counter].
  - split; [constructor|exact Hs].
  - cbn in O. apply andb_true_iff in O as [O1 O2]. apply bind_f with (R := outs_rel).
    + destruct (is_injected_counter_stmt a).
      * split; cbn; auto using exts_refl.
      * unfold on_enter. destruct (enter_rel (nspan a) _ _ (st_push NStmt _ _ Hs)) as (t1 & t2 & o & c & -> & -> & Ht).
        destruct (is_next c).
        -- split; cbn [fst snd]; [apply exts_refl|]. now apply st_exit.
        -- eapply bind_f; [apply children_rel; [exact O1|apply st_spawn, Ht]|]. intros [a' u1] [b' u2] [P Q]. cbn [fst snd] in P, Q.
           pose proof Q as (Q1 & Q2 & _). split; cbn [fst snd].
           { rewrite Q2. apply exts_app; [apply exts_refl|]. repeat constructor; auto. } apply st_exit, st_cov; [exact Q1|exact Ht].
    + intros [n1 u1] [n2 u2] [P Q]. cbn [fst snd] in P, Q. eapply bind_f; [apply IH; eauto|].
      intros [r1 w1] [r2 w2] [P' Q']. cbn [fst snd] in P', Q'. split; cbn [fst snd]; auto. now apply exts_app.
Qed.
Lemma ok_paren c x : ok x -> ok (paren_seq c x).
Proof. intros H. cbn. now rewrite H. Qed.
Lemma stmt_counter_rel a s1 s2 : ok a -> st_rel s1 s2 ->
  same_rel (replace_expr_with_stmt_counter e1 a s1) (replace_expr_with_stmt_counter e2 a s2).
Proof.
  intros O Hs. unfold replace_expr_with_stmt_counter. pose proof Hs as (A & _). rewrite Hrange.
  destruct (stmt_eq (range_of e2 (nspan a)) _ _ A) as [P Q].
  destruct (new_statement _ (cov s1)) as [c1 i1], (new_statement _ (cov s2)) as [c2 i2].
  cbn [fst snd] in P, Q. subst i2. split; [reflexivity|]. split; [now apply ok_paren|now apply st_cov].
Qed.
Lemma branch_counter_rel a n s1 s2 : ok a -> st_rel s1 s2 ->
  follows same_rel (replace_expr_with_branch_counter e1 a n s1) (replace_expr_with_branch_counter e2 a n s2).
Proof.
  intros O Hs. unfold replace_expr_with_branch_counter. destruct (negb (is_expr a)); [reflexivity|]. rewrite Hrange.
  eapply bind_f; [apply add_path_f; apply Hs|].
  intros [c1 i1] [c2 i2] [P Q]. cbn [fst snd] in P, Q. subst i2. split; [reflexivity|]. split; [now apply ok_paren|now apply st_cov].
Qed.
Lemma wrap_bin_rel v n a s1 s2 : plain_operand a = true -> ok a -> st_rel s1 s2 ->
  follows out_rel (wrap_bin_expr_with_branch_counter e1 rec1 v n a s1) (wrap_bin_expr_with_branch_counter e2 rec2 v n a s2).
Proof.
  intros Ha O Hs. unfold wrap_bin_expr_with_branch_counter. cbv zeta. rewrite Hhint.
  destruct (negb (is_expr a)) eqn:Ex; [reflexivity|]. destruct (is_next (hint e2 (nspan a))); [split; cbn; auto using ext_refl|].
  unfold plain_operand in Ha. destruct (has_logical a).
  - eapply bind_f; [apply children_rel; [exact O|apply st_spawn, Hs]|]. intros [x1 u1] [x2 u2] [P Q]. cbn [fst snd] in P, Q.
    split; cbn [fst snd]; auto. apply st_cov; [apply Q|exact Hs].
  - rewrite Hoff, Hon. destruct (inert_children v a s1 Ha) as [->| ->]; [|exact I]. cbn [bind].
    unfold replace_expr_with_branch_counter. rewrite Ex, Hrange.
    eapply bind_f; [apply add_path_f; apply Hs|].
    intros [c1 i1] [c2 i2] [P Q]. cbn [fst snd] in P, Q. subst i2. split; cbn [fst snd]; [apply ext_operand|now apply st_cov].
Qed.
Lemma cover_rel v a s1 s2 : is_tagged_tpl a = false -> ok a -> st_rel s1 s2 ->
  follows (fun p q => same_rel p q /\ is_tagged_tpl (fst p) = false) (cover_statement e1 rec1 v a s1) (cover_statement e2 rec2 v a s2).
Proof.
  intros Ht O Hs. unfold cover_statement. cbv zeta. rewrite Ht.
  destruct (negb (is_expr a)); [reflexivity|].
  assert (Hsame : forall u1 u2, st_rel u1 u2 -> same_rel (a, u1) (a, u2) /\ is_tagged_tpl (fst (a, u1)) = false) by (intros; repeat split; auto; apply H).
  assert (Hctr : forall u1 u2, st_rel u1 u2 -> same_rel (replace_expr_with_stmt_counter e1 a u1) (replace_expr_with_stmt_counter e2 a u2) /\
    is_tagged_tpl (fst (replace_expr_with_stmt_counter e1 a u1)) = false).
  { intros u1 u2 Hu. split; [now apply stmt_counter_rel|]. unfold replace_expr_with_stmt_counter. now destruct (new_statement _ (cov u1)). }
  destruct (has_block a). { apply Hsame. now apply st_mark. }
  assert (Hu : st_rel (if has_stmt a then mark_prepend_stmt_counter e1 (nspan a) s1 else s1)
    (if has_stmt a then mark_prepend_stmt_counter e2 (nspan a) s2 else s2)).
  { destruct (has_stmt a); auto. now apply st_mark. }
  revert Hu. generalize (if has_stmt a then mark_prepend_stmt_counter e1 (nspan a) s1 else s1).
  generalize (if has_stmt a then mark_prepend_stmt_counter e2 (nspan a) s2 else s2).
  intros u2 u1 Hu. pose proof Hu as (_ & _ & Es & _). rewrite Es. destruct (stack u2) as [|parent ?]; [reflexivity|].
  destruct (_ && _).
  - destruct (nodes_get 3 _).
    + destruct (nodes_get 4 _) as [m|]; [|now apply Hsame]. destruct m; cbn [follows]; try (now apply Hsame); apply Hsame; now apply st_mark.
    + cbn [follows]. now apply Hctr.
  - destruct (has_expr a); cbn [follows]; [now apply Hctr|now apply Hsame].
Qed.
Lemma prepend_ok c a b : ok a -> prepend_to_block c a = Some b -> ok b.
Proof.
  intros O. unfold prepend_to_block, block_view. destruct a as [k sp cs]. destruct k; try discriminate.
  destruct cs as [|x [|? ?]]; try discriminate. unfold stmts_view. destruct x as [k xs xc]. destruct k; try discriminate.
  intros H. injection H as <-. cbn in O |- *. now rewrite O.
Qed.
Lemma create_fn_rel id f s1 s2 : ok f -> st_rel s1 s2 ->
  follows same_rel (create_fn_instrumentation e1 id f s1) (create_fn_instrumentation e2 id f s2).
Proof.
  intros O Hs. unfold create_fn_instrumentation. destruct f as [k sp cs].
  destruct k; try reflexivity.
  destruct cs as [|pp [|d [|b [|ty [|? ?]]]]]; try reflexivity. cbn [plain_operands] in O. cbn [andb forallb] in O.
  apply andb_true_iff in O as [O1 O]. apply andb_true_iff in O as [O2 O]. apply andb_true_iff in O as [O3 O].
  cbv zeta. rewrite !Hrange. pose proof Hs as (A & _).
  destruct (fn_eq (option_map fst id) (range_of e2 match id with Some (_, isp) => isp | None => sp end)
    (range_of e2 (if is_none b then sp else nspan b)) _ _ A) as [P Q].
  destruct (new_function _ _ _ (cov s1)) as [x1 i1], (new_function _ _ _ (cov s2)) as [x2 i2]. cbn [fst snd] in P, Q. subst i2.
  destruct (is_none b); [reflexivity|]. apply bind_eq. intros y Hy.
  destruct (prepend_to_block (CF i1) b) as [y'|] eqn:Ey; [|discriminate Hy]. injection Hy as <-.
  split; [reflexivity|]. split; [|now apply st_cov]. cbn [fst plain_operands andb forallb]. now rewrite O1, O2, O, (prepend_ok _ _ _ O3 Ey).
Qed.
Lemma enter_exit_rel n a s1 s2 k1 k2 b1 b2 : st_rel s1 s2 ->
  (forall u1 u2, st_rel u1 u2 -> follows out_rel (k1 u1) (k2 u2)) ->
  (forall c u1 u2, st_rel u1 u2 -> follows out_rel (b1 c u1) (b2 c u2)) ->
  follows out_rel (enter_exit e1 n a s1 k1 b1) (enter_exit e2 n a s2 k2 b2).
Proof.
  intros Hs Hk Hb. unfold enter_exit, on_enter.
  destruct (enter_rel a _ _ (st_push n _ _ Hs)) as (t1 & t2 & o & c & -> & -> & Ht).
  eapply bind_f with (R := out_rel).
  - destruct (is_next c); auto.
  - intros [x1 u1] [x2 u2] [P Q]. split; cbn in *; auto. now apply st_exit.
Qed.
Lemma ok_rel t s1 s2 : st_rel s1 s2 -> follows out_rel (Ok (t, s1)) (Ok (t, s2)).
Proof. split; cbn; auto using ext_refl. Qed.
Lemma ok_ext t1 t2 s1 s2 : extends t1 t2 -> st_rel s1 s2 -> follows out_rel (Ok (t1, s1)) (Ok (t2, s2)).
Proof. split; auto. Qed.
Lemma ignored_rel n : is_ignored_method e1 n = is_ignored_method e2 n.
Proof. unfold is_ignored_method. now rewrite Hmeth. Qed.
Lemma oks_cons a l : oks (a :: l) <-> ok a /\ oks l.
Proof. cbn. apply andb_true_iff. Qed.

Lemma expr_stmt_rel v t s1 s2 : ok t -> st_rel s1 s2 ->
  follows out_rel (visit_expr_stmt e1 rec1 v t s1) (visit_expr_stmt e2 rec2 v t s2).
Proof.
  intros O Hs. unfold visit_expr_stmt, on_enter.
  destruct (enter_rel (nspan t) _ _ (st_push NExprStmt _ _ Hs)) as (u1 & u2 & o & c & -> & -> & Ht).
  destruct (nkids t) as [|x [|? ?]]; try reflexivity. destruct (is_directive_expr x); [apply ok_rel; auto using st_exit|].
  eapply bind_f.
  - apply children_rel; [exact O|]. destruct (is_next c); [exact Ht|]. destruct (is_injected_counter_expr x); [exact Ht|]. now apply st_mark.
  - intros [y1 w1] [y2 w2] [P Q]. cbn [fst snd] in *. apply ok_ext; auto. now apply st_exit.
Qed.
Lemma cond_rel v t s1 s2 : ok t -> st_rel s1 s2 ->
  follows out_rel (visit_cond_expr e1 rec1 v t s1) (visit_cond_expr e2 rec2 v t s2).
Proof.
  intros O Hs. apply enter_exit_rel; auto using children_rel. intros c u1 u2 Hu. pose proof (ok_kids _ O) as K.
  destruct (nkids t) as [|x [|y [|z [|? ?]]]]; try reflexivity. apply oks_cons in K as [Kx K]. apply oks_cons in K as [Ky K]. apply oks_cons in K as [Kz _].
  rewrite Hrange. destruct (branch_eq CondExpr (range_of e2 (nspan t)) false _ _ (proj1 Hu)) as [P Q].
  destruct (new_branch CondExpr _ _ (cov u1)) as [x1 i1], (new_branch CondExpr _ _ (cov u2)) as [x' i2]. cbn [fst snd] in P, Q. subst i2. rewrite !Hhint.
  apply bind_f with (R := same_rel).
  { destruct (is_next _); [|apply branch_counter_rel; auto; now apply st_cov]. split; [reflexivity|]. split; [exact Ky|now apply st_cov]. }
  intros [a1 w1] [a2 w2] (Ea & Oa & Qa). cbn [fst snd] in *. subst a2. apply bind_f with (R := same_rel).
  { destruct (is_next _); [|apply branch_counter_rel; auto]. split; [reflexivity|]. split; [exact Kz|exact Qa]. }
  intros [b1 v1] [b2 v2] (Eb & Ob & Qb). cbn [fst snd] in *. subst b2. apply kids_rel; auto. cbn. now rewrite Kx, Oa, Ob.
Qed.
Lemma fn_decl_rel v t s1 s2 : ok t -> st_rel s1 s2 ->
  follows out_rel (visit_fn_decl e1 rec1 v t s1) (visit_fn_decl e2 rec2 v t s2).
Proof.
  intros O Hs. unfold visit_fn_decl. pose proof (ok_kids _ O) as K.
  destruct (nkids t) as [|x [|y [|? ?]]]; try reflexivity. apply oks_cons in K as [Kx K]. apply oks_cons in K as [Ky K].
  apply enter_exit_rel; auto using ok_rel. intros c u1 u2 Hu. apply bind_eq. intros i _.
  eapply bind_f; [apply create_fn_rel; eauto|]. intros [f1 w1] [f2 w2] (E & Of & Q). cbn [fst snd] in *. subst f2.
  apply kids_rel; auto. cbn. now rewrite Kx, Of.
Qed.
Lemma fn_expr_rel v t s1 s2 : ok t -> st_rel s1 s2 ->
  follows out_rel (visit_fn_expr e1 rec1 v t s1) (visit_fn_expr e2 rec2 v t s2).
Proof.
  intros O Hs. unfold visit_fn_expr. pose proof (ok_kids _ O) as K.
  destruct (nkids t) as [|x [|y [|? ?]]]; try reflexivity. apply oks_cons in K as [Kx K]. apply oks_cons in K as [Ky K].
  apply enter_exit_rel; auto using ok_rel. intros c u1 u2 Hu. cbv zeta.
  replace (match ident_view x with Some (name, _) => is_ignored_method e1 name | None => false end)
    with (match ident_view x with Some (name, _) => is_ignored_method e2 name | None => false end).
  2:{ destruct (ident_view x) as [[]|]; auto. now rewrite ignored_rel. }
  destruct (match ident_view x with Some (name, _) => _ | None => _ end); [apply ok_rel; auto|].
  eapply bind_f; [apply create_fn_rel; eauto|]. intros [f1 w1] [f2 w2] (E & Of & Q). cbn [fst snd] in *. subst f2.
  apply kids_rel; auto. cbn. now rewrite Kx, Of.
Qed.
Lemma class_method_rel v t s1 s2 : ok t -> st_rel s1 s2 ->
  follows out_rel (visit_class_method e1 rec1 v t s1) (visit_class_method e2 rec2 v t s2).
Proof.
  intros O Hs. unfold visit_class_method. apply enter_exit_rel; auto using ok_rel. intros c u1 u2 Hu. pose proof (ok_kids _ O) as K.
  destruct (nkids t) as [|x [|y [|? ?]]]; try reflexivity. apply oks_cons in K as [Kx K]. apply oks_cons in K as [Ky K].
  destruct (prop_ident_view x) as [[n i]|]; [|apply ok_rel; auto].
  rewrite ignored_rel. destruct (is_ignored_method e2 n); [apply ok_rel; auto|].
  eapply bind_f; [apply create_fn_rel; eauto|]. intros [f1 w1] [f2 w2] (E & Of & Q). cbn [fst snd] in *. subst f2.
  apply kids_rel; auto. cbn. now rewrite Kx, Of.
Qed.
Lemma method_prop_rel v t s1 s2 : ok t -> st_rel s1 s2 ->
  follows out_rel (visit_method_prop e1 rec1 v t s1) (visit_method_prop e2 rec2 v t s2).
Proof.
  intros O Hs. unfold visit_method_prop. pose proof (ok_kids _ O) as K.
  destruct (nkids t) as [|x [|y [|? ?]]]; try reflexivity. apply oks_cons in K as [Kx K]. apply oks_cons in K as [Ky K].
  apply enter_exit_rel; auto using ok_rel. intros c u1 u2 Hu.
  destruct (prop_ident_view x) as [[n i]|].
  - rewrite ignored_rel. destruct (is_ignored_method e2 n); [apply ok_rel; auto|].
    eapply bind_f; [apply create_fn_rel; eauto|]. intros [f1 w1] [f2 w2] (E & Of & Q). cbn [fst snd] in *. subst f2.
    apply kids_rel; auto. cbn. now rewrite Kx, Of.
  - eapply bind_f; [apply create_fn_rel; eauto|]. intros [f1 w1] [f2 w2] (E & Of & Q). cbn [fst snd] in *. subst f2.
    apply kids_rel; auto. cbn. now rewrite Kx, Of.
Qed.
Lemma map_last_rel f g : (forall a, ok a -> follows same_rel (f a) (g a)) ->
  forall l, oks l -> follows sames_rel (map_last f l) (map_last g l).
Proof.
  intros Hf. induction l as [|a l IH]; [reflexivity|]. intros K. apply oks_cons in K as [Ka K]. cbn [map_last]. destruct l as [|x l].
  - eapply bind_f; [apply Hf, Ka|]. intros [a' u1] [b' u2] (E & O & Q). cbn [fst snd] in *. subst b'. split; [reflexivity|]. split; auto. cbn. now rewrite O.
  - eapply bind_f; [apply IH, K|]. intros [a' u1] [b' u2] (E & O & Q). cbn [fst snd] in *. subst b'. split; [reflexivity|]. split; auto. cbn [fst forallb]. now rewrite Ka, O.
Qed.
Lemma accessor_body_rel n a s1 s2 x : st_rel s1 s2 -> ok x ->
  follows same_rel (accessor_body e1 n a s1 x) (accessor_body e2 n a s2 x).
Proof.
  intros Hs O. unfold accessor_body. destruct (is_none x); [split; [reflexivity|split; auto]|]. rewrite !Hrange.
  destruct (fn_eq (Some n) (range_of e2 a) (range_of e2 (nspan x)) _ _ (proj1 Hs)) as [P Q].
  destruct (new_function _ _ _ (cov s1)) as [x1 i1], (new_function _ _ _ (cov s2)) as [x2 i2]. cbn [fst snd] in P, Q. subst i2.
  apply bind_eq. intros y Hy. destruct (prepend_to_block (CF i1) x) as [y'|] eqn:Ey; [|discriminate Hy]. injection Hy as <-.
  split; [reflexivity|]. split; [exact (prepend_ok _ _ _ O Ey)|now apply st_cov].
Qed.
Lemma accessor_rel n v t s1 s2 : ok t -> st_rel s1 s2 ->
  follows out_rel (visit_accessor e1 rec1 n v t s1) (visit_accessor e2 rec2 n v t s2).
Proof.
  intros O Hs. unfold visit_accessor. apply enter_exit_rel; auto using ok_rel. intros c u1 u2 Hu. cbv zeta. pose proof (ok_kids _ O) as K.
  assert (Go : forall name a,
    follows out_rel (let* (cs, s2) := map_last (accessor_body e1 name a u1) (nkids t) in visit_children rec1 v (Node (nkind t) (nspan t) cs) s2)
      (let* (cs, s2) := map_last (accessor_body e2 name a u2) (nkids t) in visit_children rec2 v (Node (nkind t) (nspan t) cs) s2)).
  { intros name a. eapply bind_f; [apply map_last_rel; [|exact K]; intros; now apply accessor_body_rel|].
    intros [f1 w1] [f2 w2] (E & Of & Q). cbn [fst snd] in *. subst f2. now apply kids_rel. }
  destruct (nkids t) as [|x l]; [reflexivity|]. destruct (prop_ident_view x) as [[n1 i1]|]; [|apply Go].
  rewrite ignored_rel. destruct (is_ignored_method e2 n1); [apply ok_rel; auto|]. apply Go.
Qed.
Lemma block_ok a i b q ss : ok a -> block_view a = Some (i, b, q, ss) -> oks ss.
Proof.
  intros O. unfold block_view. destruct a as [k sp cs]. destruct k; try discriminate.
  destruct cs as [|x [|? ?]]; try discriminate. unfold stmts_view. destruct x as [k xs xc]. destruct k; try discriminate.
  intros H. injection H as <- <- <- <-. cbn in O. now rewrite andb_true_r in O.
Qed.
Lemma exts1 a b : extends a b -> extends_all [a] [b].
Proof. repeat constructor; auto. Qed.
Lemma ext_self k sp cs1 cs2 : extends_all cs1 cs2 -> extends (Node k sp cs1) (Node k sp cs2).
Proof. now constructor. Qed.
Lemma arrow_rel v t s1 s2 : ok t -> st_rel s1 s2 ->
  follows out_rel (visit_arrow_expr e1 rec1 v t s1) (visit_arrow_expr e2 rec2 v t s2).
Proof.
  intros O Hs. unfold visit_arrow_expr. apply enter_exit_rel; auto using ok_rel. intros c u1 u2 Hu. pose proof (ok_kids _ O) as K.
  destruct (nkids t) as [|x [|y [|z [|? ?]]]]; try reflexivity. apply oks_cons in K as [Kx K]. apply oks_cons in K as [Ky K]. apply oks_cons in K as [Kz _].
  cbv zeta. rewrite !Hrange.
  destruct (fn_eq None (range_of e2 (nspan t)) (range_of e2 (nspan y)) _ _ (proj1 Hu)) as [P Q].
  destruct (new_function _ _ _ (cov u1)) as [a1 i1], (new_function _ _ _ (cov u2)) as [a2 i2]. cbn [fst snd] in P, Q. subst i2.
  destruct (is_expr y).
  - eapply bind_f.
    + apply insert_counters_rel; [|apply st_cov; eauto]. cbn. now rewrite Ky.
    + intros [f1 w1] [f2 w2] [P' Q']. cbn [fst snd] in *. apply ok_ext; auto. apply ext_self. constructor; [apply ext_refl|]. constructor; [|apply exts_refl].
      apply ext_self, exts1, ext_self, P'.
  - apply bind_eq. intros [[[j b] q] ss] Hb. destruct (block_view y) as [r|] eqn:Ey; [|discriminate Hb]. injection Hb as ->.
    eapply bind_f; [apply insert_counters_rel; [exact (block_ok _ _ _ _ _ Ky Ey)|apply st_cov; eauto]|]. intros [f1 w1] [f2 w2] [P' Q']. cbn [fst snd] in *.
    apply ok_ext; auto. apply ext_self. constructor; [apply ext_refl|]. constructor; [|apply exts_refl].
    apply ext_self, exts1, ext_self. constructor; [apply ext_refl|exact P'].
Qed.
Lemma initialized_rel n v t s1 s2 : match nkids t with _ :: x :: _ => is_tagged_tpl x = false | _ => True end -> oks (nkids t) -> st_rel s1 s2 ->
  follows out_rel (visit_initialized e1 rec1 n v t s1) (visit_initialized e2 rec2 n v t s2).
Proof.
  intros Ht K Hs. unfold visit_initialized. apply enter_exit_rel; auto using ok_rel. intros c u1 u2 Hu.
  destruct (nkids t) as [|x [|y l]]; try reflexivity. apply oks_cons in K as [Kx K]. apply oks_cons in K as [Ky K].
  apply bind_f with (R := same_rel).
  - destruct (is_none y); [split; [reflexivity|split; auto]|].
    pose proof (cover_rel v y _ _ Ht Ky Hu) as C. destruct (cover_statement e1 rec1 v y u1), (cover_statement e2 rec2 v y u2); cbn in C |- *; tauto.
  - intros [f1 w1] [f2 w2] (E & Of & Q). cbn [fst snd] in *. subst f2. apply kids_rel; auto. cbn [forallb]. now rewrite Kx, Of, K.
Qed.
Lemma switch_rel t s1 s2 : ok t -> st_rel s1 s2 ->
  follows out_rel (visit_switch_stmt e1 rec1 t s1) (visit_switch_stmt e2 rec2 t s2).
Proof.
  intros O Hs. unfold visit_switch_stmt. apply enter_exit_rel; auto using ok_rel. intros c u1 u2 Hu. cbv zeta. rewrite !Hrange.
  pose proof (st_mark (nspan t) _ _ Hu) as Hm.
  destruct (branch_eq BSwitch (range_of e2 (nspan t)) false _ _ (proj1 Hm)) as [P Q].
  destruct (new_branch BSwitch _ _ (cov (mark_prepend_stmt_counter e1 _ u1))) as [x i1], (new_branch BSwitch _ _ (cov (mark_prepend_stmt_counter e2 _ u2))) as [x' i2].
  cbn [fst snd] in P, Q. subst i2.
  eapply bind_f; [apply children_rel; [exact O|apply st_spawn; apply st_cov; eauto]|]. intros [f1 w1] [f2 w2] [P' Q']. cbn [fst snd] in *.
  apply ok_ext; auto. apply st_cov; [apply Q'|]. now apply st_cov.
Qed.
Lemma stmts_view_ext a b : extends a b ->
  match stmts_view a, stmts_view b with Some (p, l1), Some (q, l2) => p = q /\ extends_all l1 l2 | None, None => True | _, _ => False end.
Proof. intros [k sp c1 c2 L|f sp cs|bb i x]; [|exact I|exact I]. destruct k; try exact I. split; auto. Qed.
Lemma case_rel b t s1 s2 : nkind t = KSwitchCase -> ok t -> st_rel s1 s2 ->
  follows out_rel (visit_switch_case e1 rec1 b t s1) (visit_switch_case e2 rec2 b t s2).
Proof.
  intros Hk O Hs. unfold visit_switch_case. apply enter_exit_rel; auto using ok_rel. intros c u1 u2 Hu. rewrite Hrange.
  eapply bind_f; [apply add_path_f; apply Hu|].
  intros [c1 i1] [c2 i2] [P Q]. cbn [fst snd] in P, Q. subst i2. destruct t as [k sp cs]. cbn in Hk. subst k. cbn [visit_children].
  pose proof (list_rel (VSwitch b) cs (ok_kids _ O) _ _ (st_cov _ _ _ _ P Hu)) as L.
  destruct (visit_list rec1 (VSwitch b) cs (set_cov c1 u1)) as [[l1 w1]|r1|], (visit_list rec2 (VSwitch b) cs (set_cov c2 u2)) as [[l2 w2]|r2|];
    cbn in L; try contradiction; try exact I; [|exact L]. destruct L as [L Q']. cbn [bind nkids fst snd] in *.
  destruct L as [|x1 x2 l1 l2 Hx L]; [reflexivity|]. destruct L as [|y1 y2 l1 l2 Hy L]; [reflexivity|]. destruct L; [|reflexivity].
  pose proof (stmts_view_ext _ _ Hy) as V. destruct (stmts_view y1) as [[q1 ss1]|], (stmts_view y2) as [[q2 ss2]|]; cbn [expect bind]; try contradiction; [|reflexivity].
  destruct V as [<- V]. apply ok_ext; auto. cbn [nkind nspan]. apply ext_self. constructor; auto. apply exts1, ext_self. constructor; [apply ext_refl|exact V].
Qed.
Lemma stmt_view_ok x sp y : ok x -> stmt_view x = Some (sp, y) -> ok y.
Proof.
  intros O. unfold stmt_view. destruct x as [k xs cs]. destruct k; try discriminate. destruct cs as [|u [|? ?]]; try discriminate.
  intros H. injection H as <- <-. cbn in O. now rewrite andb_true_r in O.
Qed.
Lemma wrap_counter_rel b r cur a s1 s2 : ok a -> st_rel s1 s2 ->
  follows out_rel (wrap_with_counter e1 rec1 b r cur a s1) (wrap_with_counter e2 rec2 b r cur a s2).
Proof.
  intros O Hs. unfold wrap_with_counter.
  eapply bind_f; [apply add_path_f; apply Hs|]. intros [c1 i1] [c2 i2] [P Q]. cbn [fst snd] in P, Q. subst i2. cbv zeta.
  apply bind_eq. intros [xsp y] Hy. destruct (stmt_view a) as [r'|] eqn:Ea; [|discriminate Hy]. injection Hy as ->.
  destruct (is_block y).
  - apply bind_eq. intros [[[j bb] q] ss] Hb. destruct (block_view y) as [r'|] eqn:Ey; [|discriminate Hb]. injection Hb as ->.
    eapply bind_f; [apply insert_counters_rel; [exact (block_ok _ _ _ _ _ (stmt_view_ok _ _ _ O Ea) Ey)|apply st_cov; eauto]|]. intros [f1 w1] [f2 w2] [P' Q']. cbn [fst snd] in *.
    apply ok_ext; auto. apply ext_self, exts1, ext_self, exts1, ext_self. constructor; [apply ext_refl|exact P'].
  - eapply bind_f; [apply Hrec; [exact O|apply st_spawn; apply st_cov; eauto]|]. intros [f1 w1] [f2 w2] [P' Q']. cbn [fst snd] in *.
    apply ok_ext; [|apply st_cov; [apply Q'|now apply st_cov]]. pose proof Q' as (_ & Eb & _). rewrite Eb.
    apply ext_self, exts1, ext_self, exts1, ext_self. constructor; [apply ext_refl|]. apply exts_app; [apply exts_refl|now apply exts1].
Qed.
Lemma if_rel v t s1 s2 : ok t -> st_rel s1 s2 ->
  follows out_rel (visit_if_stmt e1 rec1 v t s1) (visit_if_stmt e2 rec2 v t s2).
Proof.
  intros O Hs. unfold visit_if_stmt. apply enter_exit_rel; auto using ok_rel. intros c u1 u2 Hu. pose proof (ok_kids _ O) as K.
  destruct (nkids t) as [|x [|y [|z [|? ?]]]]; try reflexivity. apply oks_cons in K as [Kx K]. apply oks_cons in K as [Ky K]. apply oks_cons in K as [Kz _].
  cbv zeta. rewrite !Hrange. pose proof (st_mark (nspan t) _ _ Hu) as Hm.
  destruct (branch_eq BIf (range_of e2 (nspan t)) false _ _ (proj1 Hm)) as [P Q].
  destruct (new_branch BIf _ _ (cov (mark_prepend_stmt_counter e1 _ u1))) as [b1 i1], (new_branch BIf _ _ (cov (mark_prepend_stmt_counter e2 _ u2))) as [b2 i2].
  cbn [fst snd] in P, Q. subst i2.
  apply bind_f with (R := out_rel).
  { destruct c as [[]|]; try (apply ok_rel; now apply st_cov); apply wrap_counter_rel; auto; now apply st_cov. }
  intros [a1 w1] [a2 w2] [Pa Qa]. cbn [fst snd] in *.
  assert (Oz : ok (if is_absent z then mk KStmt [mk (KBlock true) [mk KStmts []]] else z)) by (now destruct (is_absent z)).
  apply bind_f with (R := out_rel).
  { destruct c as [[]|]; try (apply ok_rel; auto; fail); apply wrap_counter_rel; auto. }
  intros [c1 v1] [c2 v2] [Pb Qb]. cbn [fst snd] in *. eapply bind_f; [apply Hrec; eauto|].
  intros [d1 m1] [d2 m2] [Pd Qd]. cbn [fst snd] in *. apply ok_ext; auto. apply ext_self. repeat (constructor; auto).
Qed.
Lemma bin_rel v op f g t s1 s2 : (forall u1 u2, st_rel u1 u2 -> st_rel (fst (f u1)) (fst (g u2)) /\ snd (f u1) = snd (g u2)) ->
  nkind t = KBin op -> ok t -> st_rel s1 s2 -> follows out_rel (visit_bin_expr e1 rec1 v op f t s1) (visit_bin_expr e2 rec2 v op g t s2).
Proof.
  intros Hf Hk O Hs. unfold visit_bin_expr.
  destruct (enter_rel (nspan t) _ _ Hs) as (u1 & u2 & o & c & -> & -> & Ht).
  assert (Dflt : follows out_rel (let* (t', s2) := visit_children rec1 v t (push NBinExpr u1) in Ok (t', on_exit o s2))
    (let* (t', s2) := visit_children rec2 v t (push NBinExpr u2) in Ok (t', on_exit o s2))).
  { eapply bind_f; [apply children_rel; [exact O|apply st_push, Ht]|]. intros [f1 w1] [f2 w2] [P' Q']. cbn [fst snd] in *. apply ok_ext; auto using st_exit. }
  destruct (is_next c); [exact Dflt|]. destruct (is_logical_op op) eqn:Hop; [|exact Dflt].
  destruct t as [k sp cs]. cbn in Hk. subst k. cbn [nkids nkind nspan].
  destruct cs as [|x [|y [|? ?]]]; try reflexivity. cbn [plain_operands] in O. rewrite Hop in O. cbn [negb orb] in O.
  apply andb_true_iff in O as [Op K]. apply andb_true_iff in Op as [Px Py].
  apply oks_cons in K as [Kx K]. apply oks_cons in K as [Ky K].
  destruct (Hf _ _ (st_push NLogicalExpr _ _ Ht)) as [P Q].
  destruct (f (push NLogicalExpr u1)) as [a1 i1], (g (push NLogicalExpr u2)) as [a2 i2]. cbn [fst snd] in P, Q. subst i2.
  eapply bind_f; [apply wrap_bin_rel; eauto|]. intros [f1 w1] [f2 w2] [P' Q']. cbn [fst snd] in *.
  eapply bind_f; [apply wrap_bin_rel; eauto|]. intros [h1 m1] [h2 m2] [P2 Q2]. cbn [fst snd] in *.
  apply ok_ext; auto. apply ext_self. repeat (constructor; auto).
Qed.
Lemma new_logical_rel a : forall u1 u2, st_rel u1 u2 ->
  st_rel (fst (new_logical_branch e1 a u1)) (fst (new_logical_branch e2 a u2)) /\ snd (new_logical_branch e1 a u1) = snd (new_logical_branch e2 a u2).
Proof.
  intros u1 u2 Hu. unfold new_logical_branch. rewrite Hrange, Hoff.
  destruct (branch_eq BinaryExpr (range_of e2 a) (e_report_logic e2) _ _ (proj1 Hu)) as [P Q].
  destruct (new_branch BinaryExpr _ _ (cov u1)) as [x i1], (new_branch BinaryExpr _ _ (cov u2)) as [x' i2]. cbn [fst snd] in *. subst i2.
  split; auto. now apply st_cov.
Qed.
Lemma assign_pat_rel v t s1 s2 : nkind t = KAssignPat -> ok t -> st_rel s1 s2 ->
  follows out_rel (visit_assign_pat e1 rec1 v t s1) (visit_assign_pat e2 rec2 v t s2).
Proof.
  intros Hk O Hs. unfold visit_assign_pat. apply enter_exit_rel; auto using ok_rel. intros c u1 u2 Hu.
  destruct t as [k sp cs]. cbn in Hk. subst k. cbn [nkids nkind nspan].
  destruct cs as [|x [|y [|? ?]]]; try reflexivity. cbn [plain_operands] in O.
  apply andb_true_iff in O as [Py K]. apply oks_cons in K as [Kx K]. apply oks_cons in K as [Ky K]. rewrite Hrange.
  destruct (branch_eq DefaultArg (range_of e2 sp) false _ _ (proj1 Hu)) as [P Q].
  destruct (new_branch DefaultArg _ _ (cov u1)) as [x1 i1], (new_branch DefaultArg _ _ (cov u2)) as [x' i2]. cbn [fst snd] in *. subst i2.
  eapply bind_f; [apply wrap_bin_rel; [exact Py|exact Ky|apply st_cov; eauto]|]. intros [f1 w1] [f2 w2] [P' Q']. cbn [fst snd] in *.
  apply ok_ext; auto. apply ext_self. constructor; [apply ext_refl|now apply exts1].
Qed.
Lemma with_rel v t s1 s2 : ok t -> st_rel s1 s2 ->
  follows out_rel (visit_with_stmt e1 rec1 v t s1) (visit_with_stmt e2 rec2 v t s2).
Proof.
  intros O Hs. unfold visit_with_stmt. apply enter_exit_rel; auto using ok_rel. intros c u1 u2 Hu. cbv zeta.
  pose proof (st_mark (nspan t) _ _ Hu) as Hm. pose proof (ok_kids _ O) as K.
  destruct (nkids t) as [|x [|y [|? ?]]]; try reflexivity. apply oks_cons in K as [Kx K]. apply oks_cons in K as [Ky K].
  apply bind_eq. intros [xsp z] Hy. destruct (stmt_view y) as [r'|] eqn:Ea; [|discriminate Hy]. injection Hy as ->.
  destruct (is_block z).
  - apply bind_eq. intros [[[j bb] q] ss] Hb. destruct (block_view z) as [r'|] eqn:Ey; [|discriminate Hb]. injection Hb as ->.
    eapply bind_f; [apply insert_counters_rel; [exact (block_ok _ _ _ _ _ (stmt_view_ok _ _ _ Ky Ea) Ey)|exact Hm]|]. intros [f1 w1] [f2 w2] [P' Q']. cbn [fst snd] in *.
    apply ok_ext; auto. apply ext_self. constructor; [apply ext_refl|]. apply exts1, ext_self, exts1, ext_self, exts1, ext_self, P'.
  - eapply bind_f; [apply Hrec; [exact Ky|apply st_spawn, Hm]|]. intros [f1 w1] [f2 w2] [P' Q']. cbn [fst snd] in *.
    apply ok_ext; [|apply st_cov; [apply Q'|exact Hm]]. pose proof Q' as (_ & Eb & _). rewrite Eb.
    apply ext_self. constructor; [apply ext_refl|]. apply exts1, ext_self, exts1, ext_self, exts1, ext_self. apply exts_app; [apply exts_refl|now apply exts1].
Qed.
Lemma stmts_rel t s1 s2 : ok t -> st_rel s1 s2 ->
  follows out_rel (visit_stmts e1 rec1 t s1) (visit_stmts e2 rec2 t s2).
Proof.
  intros O Hs. unfold visit_stmts. eapply bind_f; [apply insert_counters_rel; [apply ok_kids, O|apply st_push, Hs]|].
  intros [f1 w1] [f2 w2] [P' Q']. cbn [fst snd] in *. apply ok_ext; [now apply ext_self|now apply st_pop].
Qed.
Lemma items_rel l : oks l -> forall s1 s2, st_rel s1 s2 ->
  follows outs_rel (visit_items e1 rec1 l s1) (visit_items e2 rec2 l s2).
Proof.
  induction l as [|a l IH]; intros O s1 s2 Hs; cbn [visit_items].
  - split; [constructor|exact Hs].
  - apply oks_cons in O as [O1 O2]. apply bind_f with (R := outs_rel).
    + destruct (directive_continue a).
      * split; cbn; auto using exts_refl.
      * cbv zeta. unfold on_enter. destruct (enter_rel (nspan a) _ _ (st_push (match nkind a with KModuleDecl => NModuleDecl | _ => NStmt end) _ _ Hs)) as (t1 & t2 & o & c & -> & -> & Ht).
        eapply bind_f.
        -- apply children_rel; [exact O1|]. destruct (export_const_span a); [|exact Ht]. now apply st_mark.
        -- intros [a' u1] [b' u2] [P Q]. cbn [fst snd] in P, Q. pose proof Q as (_ & Eb & _). split; cbn [fst snd].
           { rewrite Eb. apply exts_app; [apply exts_refl|now apply exts1]. } apply st_exit, st_clear, Q.
    + intros [n1 u1] [n2 u2] [P Q]. cbn [fst snd] in P, Q. eapply bind_f; [apply IH; eauto|].
      intros [r1 w1] [r2 w2] [P' Q']. cbn [fst snd] in P', Q'. split; cbn [fst snd]; auto. now apply exts_app.
Qed.
Lemma templates_rel s1 s2 : st_rel s1 s2 -> exists a b c u1 u2, get_coverage_templates s1 = (a, c, u1) /\ get_coverage_templates s2 = (b, c, u2) /\
  extends a b /\ st_rel u1 u2.
Proof.
  intros H. unfold get_coverage_templates. eexists _, _, _, _, _. split; [reflexivity|]. split; [reflexivity|].
  pose proof (freeze_eq _ _ (proj1 H)) as F. split.
  - apply ext_self, exts1. unfold sc_eq in F. rewrite F. apply ext_template.
  - now apply st_cov.
Qed.
Lemma module_items_rel t s1 s2 : ok t -> st_rel s1 s2 ->
  follows out_rel (visit_module_items e1 rec1 t s1) (visit_module_items e2 rec2 t s2).
Proof.
  intros O Hs. unfold visit_module_items. pose proof Hs as (A & B & C & D). cbv zeta. rewrite C.
  assert (Hl : forall a b l1 l2, extends a b -> extends_all l1 l2 -> forall c,
    extends_all (match l1 with [] => [a; c] | i :: is => i :: a :: c :: is end) (match l2 with [] => [b; c] | i :: is => i :: b :: c :: is end)).
  { intros a b l1 l2 Ha L c. destruct L; repeat (constructor; auto using ext_refl). }
  destruct (match rev (stack s2) with NProgram :: _ => true | _ => false end).
  - eapply bind_f; [apply items_rel; [apply ok_kids, O|exact Hs]|]. intros [f1 w1] [f2 w2] [P' Q']. cbn [fst snd] in *.
    destruct (templates_rel _ _ Q') as (a & b & c & u1 & u2 & -> & -> & Ha & Hu). apply ok_ext; auto. apply ext_self. now apply Hl.
  - eapply bind_f; [apply items_rel; [apply ok_kids, O|]; split; [exact A|split; [exact B|split; [reflexivity|exact D]]]|]. intros [f1 w1] [f2 w2] [P' Q']. cbn [fst snd] in *.
    destruct (templates_rel _ _ Q') as (a & b & c & u1 & u2 & -> & -> & Ha & Hu). apply ok_ext; [|now apply st_pop]. apply ext_self. now apply Hl.
Qed.
Lemma script_items_rel l : oks l -> forall s1 s2, st_rel s1 s2 ->
  follows outs_rel (visit_script_items rec1 l s1) (visit_script_items rec2 l s2).
Proof.
  induction l as [|a l IH]; intros O s1 s2 Hs; cbn [visit_script_items].
  - split; [constructor|exact Hs].
  - apply oks_cons in O as [O1 O2]. eapply bind_f; [apply children_rel; eauto|]. intros [a' u1] [b' u2] [P Q]. cbn [fst snd] in P, Q.
    eapply bind_f; [apply IH; [exact O2|apply st_clear, Q]|]. intros [l1' w1] [l2' w2] [P' Q']. cbn [fst snd] in P', Q'.
    split; cbn [fst snd]; auto. pose proof Q as (_ & Eb & _). rewrite Eb. apply exts_app; [apply exts_refl|]. constructor; auto.
Qed.
Lemma script_rel t s1 s2 : ok t -> st_rel s1 s2 ->
  follows out_rel (visit_script rec1 t s1) (visit_script rec2 t s2).
Proof.
  intros O Hs. unfold visit_script. pose proof (ok_kids _ O) as K.
  destruct (nkids t) as [|x [|? ?]]; try reflexivity. apply oks_cons in K as [Kx K].
  apply bind_eq. intros [q ss] Hq. destruct (stmts_view x) as [r|] eqn:Ex; [|discriminate Hq]. injection Hq as ->.
  assert (Os : oks ss). { destruct x as [k xs xc]. destruct k; try discriminate Ex. injection Ex as <- <-. exact (ok_kids _ Kx). }
  eapply bind_f; [apply script_items_rel; eauto|]. intros [f1 w1] [f2 w2] [P' Q']. cbn [fst snd] in *.
  destruct (templates_rel _ _ Q') as (a & b & c & u1 & u2 & -> & -> & Ha & Hu). apply ok_ext; auto. apply ext_self, exts1, ext_self.
  repeat (constructor; auto using ext_refl).
Qed.
Lemma skip_rel n a v t s1 s2 : ok t -> st_rel s1 s2 ->
  follows out_rel (visit_skip e1 rec1 n a v t s1) (visit_skip e2 rec2 n a v t s2).
Proof. intros. apply enter_exit_rel; auto using ok_rel, children_rel. Qed.
Lemma marked_rel n v t s1 s2 : ok t -> st_rel s1 s2 ->
  follows out_rel (visit_marked e1 rec1 n v t s1) (visit_marked e2 rec2 n v t s2).
Proof. intros O Hs. apply enter_exit_rel; auto using children_rel. intros. apply children_rel; auto. now apply st_mark. Qed.
Lemma marked_skip_rel n v t s1 s2 : ok t -> st_rel s1 s2 ->
  follows out_rel (visit_marked_skip e1 rec1 n v t s1) (visit_marked_skip e2 rec2 n v t s2).
Proof. intros O Hs. apply enter_exit_rel; auto using ok_rel. intros. apply children_rel; auto. now apply st_mark. Qed.
Lemma block_last_ok l m : oks l -> block_last l = Some m -> oks m.
Proof.
  revert m. induction l as [|a l IH]; [discriminate|]. intros m O H. apply oks_cons in O as [Oa O]. cbn in H. destruct l as [|b l].
  - destruct (to_block a) as [x|] eqn:Ex; [|discriminate]. injection H as <-. unfold to_block in Ex. destruct (stmt_view a) as [[q y]|]; [|discriminate].
    apply oks_cons. split; [|reflexivity]. destruct (is_block y); injection Ex as <-; auto. cbn. now rewrite Oa.
  - destruct (block_last (b :: l)) as [x|]; [|discriminate]. injection H as <-. apply oks_cons. auto.
Qed.
Lemma for_like_rel n v t s1 s2 : ok t -> st_rel s1 s2 ->
  follows out_rel (visit_for_like e1 rec1 n v t s1) (visit_for_like e2 rec2 n v t s2).
Proof.
  intros O Hs. apply enter_exit_rel; auto using ok_rel. intros c u1 u2 Hu. cbv zeta.
  apply bind_eq. intros l Hl. destruct (block_last (nkids t)) as [l'|] eqn:El; [|discriminate Hl]. injection Hl as ->.
  apply kids_rel; [exact (block_last_ok _ _ (ok_kids _ O) El)|]. now apply st_mark.
Qed.
Lemma logical_rel b t s1 s2 : ok t -> st_rel s1 s2 ->
  follows out_rel (visit_logical e1 rec1 b t s1) (visit_logical e2 rec2 b t s2).
Proof.
  intros O Hs. unfold visit_logical. destruct (nkind t) eqn:Hk; try (now apply children_rel).
  - unfold on_enter. destruct (enter_rel (nspan t) _ _ (st_push NExpr _ _ Hs)) as (u1 & u2 & o & c & -> & -> & Ht).
    eapply bind_f; [apply children_rel; eauto|]. intros [f1 w1] [f2 w2] [P' Q']. cbn [fst snd] in *. apply ok_ext; auto using st_exit.
  - apply bin_rel; auto.
Qed.
Lemma init_ok k sp cs : match k with KVarDeclarator | KClassProp | KPrivateProp => True | _ => False end -> ok (Node k sp cs) ->
  match cs with _ :: x :: _ => is_tagged_tpl x = false | _ => True end.
Proof.
  intros Hk O. cbn [plain_operands] in O. destruct k; try contradiction; apply andb_true_iff in O as [O _];
  (destruct cs as [|? [|? ?]]; [exact I|exact I|now apply negb_true_iff]).
Qed.
Lemma instr_rel v t s1 s2 : ok t -> st_rel s1 s2 ->
  follows out_rel (visit_instr e1 rec1 v t s1) (visit_instr e2 rec2 v t s2).
Proof.
  intros O Hs. unfold visit_instr. destruct (nkind t) eqn:Hk; try (now apply children_rel);
    auto using skip_rel, stmts_rel, fn_decl_rel, fn_expr_rel, arrow_rel, expr_stmt_rel, marked_rel, marked_skip_rel, cond_rel,
      class_method_rel, method_prop_rel, accessor_rel, for_like_rel, switch_rel, if_rel, with_rel, assign_pat_rel, ok_rel.
  - destruct v; auto using children_rel, script_rel.
  - destruct v; auto using children_rel, module_items_rel.
  - destruct v; auto using children_rel, skip_rel.
  - destruct v; auto using children_rel, skip_rel.
  - destruct v; auto using children_rel, skip_rel.
  - destruct v; auto using children_rel, case_rel.
  - apply enter_exit_rel; auto using children_rel.
  - destruct t as [k sp cs]. cbn in Hk. subst k. apply initialized_rel; auto; [now apply init_ok in O|now apply (ok_kids _ O)].
  - destruct (nkids t) as [|x [|y [|? ?]]]; try reflexivity. now apply skip_rel.
  - destruct t as [k sp cs]. cbn in Hk. subst k. apply initialized_rel; auto; [now apply init_ok in O|now apply (ok_kids _ O)].
  - destruct t as [k sp cs]. cbn in Hk. subst k. apply initialized_rel; auto; [now apply init_ok in O|now apply (ok_kids _ O)].
  - apply bin_rel; auto. apply new_logical_rel.
Qed.
Lemma body_rel v t s1 s2 : ok t -> st_rel s1 s2 ->
  follows out_rel (visit_body e1 rec1 v t s1) (visit_body e2 rec2 v t s2).
Proof. intros. unfold visit_body. destruct v; auto using instr_rel, logical_rel. Qed.
End Step.

Lemma visit_rel n : forall v t s1 s2, ok t -> st_rel s1 s2 -> follows out_rel (visit e1 n v t s1) (visit e2 n v t s2).
Proof. induction n as [|n IH]; intros; cbn [visit]; [exact I|]. apply body_rel; auto using inert_visit. Qed.
End Sim.

(** ** C54 *)
Definition with_logic (l : bool) (e : env) : env := mkEnv (e_comments e) (e_word e) (e_lookup e) l (e_ignore_methods e).

(** If operands contain nothing to instrument, the option adds truthiness counters to the operands and truthiness counts to
    the record and changes nothing else. *)
Theorem logic_only_adds_partial : forall e n path ism t, plain_operands t = true ->
  match instrument (with_logic false e) n path ism t with
  | Ok (a, c) => exists b d, instrument (with_logic true e) n path ism t = Ok (b, d) /\ extends a b /\ c = cov_without_bt d
  | Panic r => instrument (with_logic true e) n path ism t = Panic r
  | OutOfFuel => True
  end.
Proof.
  intros e n path ism t O. unfold instrument, visit_program. change (e_word (with_logic true e)) with (e_word (with_logic false e)).
  change (e_comments (with_logic true e)) with (e_comments (with_logic false e)).
  assert (Hi : st_rel (push NProgram (init_state (with_logic false e) path ism)) (push NProgram (init_state (with_logic true e) path ism))).
  { apply st_push. split; [reflexivity|]. split; [reflexivity|]. split; reflexivity. }
  destruct (should_ignore_file _ _ (nspan t)).
  - cbn [bind]. eexists _, _. split; [reflexivity|]. split; [apply ext_refl|apply Hi].
  - pose proof (visit_rel (with_logic false e) (with_logic true e) (fun _ => eq_refl) (fun _ => eq_refl) eq_refl eq_refl eq_refl n VCov t _ _ O Hi) as V.
    destruct (visit (with_logic false e) n VCov t _) as [[x1 u1]|r1|], (visit (with_logic true e) n VCov t _) as [[x2 u2]|r2|];
      cbn in V; try contradiction; cbn [bind]; auto.
    + destruct V as [V1 V2]. eexists _, _. split; [reflexivity|]. split; [exact V1|apply V2].
    + now rewrite V.
Qed.

(** The statement, function and branch counters of the two outputs are the same, in the same order. *)
Definition is_truth (c : counter) : bool := match c with CT _ _ => true | _ => false end.
Lemma counters_extends :
  (forall a b, extends a b -> filter (fun c => negb (is_truth c)) (counters a) = filter (fun c => negb (is_truth c)) (counters b)) /\
  (forall a b, extends_all a b -> filter (fun c => negb (is_truth c)) (flat_map counters a) = filter (fun c => negb (is_truth c)) (flat_map counters b)).
Proof.
  assert (F : forall (p : counter -> bool) l1 l2, filter p (l1 ++ l2) = (filter p l1 ++ filter p l2)%list).
  { intros p l1 l2. induction l1 as [|a l1 IH]; cbn; [reflexivity|]. rewrite IH. now destruct (p a). }
  apply extends_both_ind.
  - intros k sp c1 c2 _ IH. cbn [counters]. rewrite !F. now rewrite IH.
  - reflexivity.
  - intros b i x. unfold increase_true_expr, paren_seq, counter_expr, E, mk. cbn [counters flat_map].
    cbn [app]. rewrite !app_nil_r. cbn [filter is_truth negb]. f_equal. rewrite F. cbn. now rewrite app_nil_r.
  - reflexivity.
  - intros a b l1 l2 _ IHa _ IHl. cbn [flat_map]. rewrite !F. now rewrite IHa, IHl.
Qed.
Corollary logic_keeps_counters_partial : forall e n path ism t a c b d, plain_operands t = true ->
  instrument (with_logic false e) n path ism t = Ok (a, c) -> instrument (with_logic true e) n path ism t = Ok (b, d) ->
  filter (fun c => negb (is_truth c)) (counters a) = filter (fun c => negb (is_truth c)) (counters b).
Proof.
  intros e n path ism t a c b d O H1 H2. pose proof (logic_only_adds_partial e n path ism t O) as L. rewrite H1 in L.
  destruct L as (b' & d' & E2 & X & _). rewrite H2 in E2. injection E2 as <- <-. now apply counters_extends.
Qed.

(** ** Refutation and examples *)
(** [a || (() => 1)] *)
Definition ex_lost_function : node :=
  module_ 1 20 [T 1 17 KExprStmt [X 1 16 (KBin OpOr) [var 1 2 "a"; X 6 15 KParen [X 7 14 KArrow [list_ []; num 13 14; mk KTs []]]]]].
Theorem logic_loses_function_refuted : exists t,
  run_counters (with_logic false plain_env) t = Some [CS 0; CB 0 0; CB 0 1; CF 0; CS 1] /\
  run_counters (with_logic true plain_env) t = Some [CS 0; CB 0 0; CT 0 0; CB 0 1; CT 0 1].
Proof. exists ex_lost_function. split; vm_compute; reflexivity. Qed.
Example ex_function_plain : plain_operands ex_function = true.
Proof. reflexivity. Qed.
Example logic_only_adds_ex :
  run_counters (with_logic false plain_env) ex_function = Some [CF 0; CS 0; CB 0 0; CS 1; CB 0 1; CS 2; CB 1 0; CB 1 1] /\
  run_counters (with_logic true plain_env) ex_function = Some [CF 0; CS 0; CB 0 0; CS 1; CB 0 1; CS 2; CB 1 0; CT 1 0; CB 1 1; CT 1 1].
Proof. split; vm_compute; reflexivity. Qed.
