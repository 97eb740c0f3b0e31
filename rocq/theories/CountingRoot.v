(** Counters of a whole program against the record that is embedded in it (C29-C32). *)
From Coq Require Import NArith String List Bool Lia PeanoNat.
Import ListNotations.
From Verif Require Import Base IndexMap Oxide SourceCov SourceCovProofs Hints Ast Visitor VisitorRel
  VisitorEx Erase Counting.
Open Scope N_scope.

(** ** Specification *)

(** The top-level items of a module, the statements of a script. *)
Definition program_items (t : node) : option (list node) :=
  match t with
  | Node KModule _ [Node KModuleItems _ items] => Some items
  | Node KScript _ [Node KStmts _ body] => Some body
  | _ => None
  end.

(** The truthiness counters that the text contains: those of logical expressions and those of
    default values, the latter without a slot. *)
Definition truth_text (e : env) (fc : file_coverage) (b i : N) : bool :=
  e_report_logic e && has_row (fc_b fc) b i &&
  match im_get b (fc_branch_map fc) with
  | Some br => match b_type br with BinaryExpr | DefaultArg => true | _ => false end
  | None => false
  end.

Definition one (b : bool) : nat := if b then 1%nat else 0%nat.

(** The records of the initialising functions in a tree. *)
Fixpoint templates (t : node) : list file_coverage :=
  match t with
  | Node k _ cs =>
      ((match k with KTemplateFn fc => [fc] | _ => [] end) ++ flat_map templates cs)%list
  end.

(** ** The record of a reachable state *)

Section Root.
Variables (e : env) (path : string).

Lemma okst_wf : forall sc, okst e path sc -> wf_state sc.
Proof.
  intros sc (h & Hv & Hf & ->). apply (reachable_wf_state path (e_report_logic e) h _ (spec_returns [] h)).
  rewrite registration_spec, Hv. reflexivity.
Qed.

Lemma okst_init : forall ism, okst e path (cov (init_state e path ism)).
Proof.
  intros ism. exists [CSourceMap ism]. repeat split.
  - constructor; [exact I|constructor].
  - unfold init_state. cbn [cov]. rewrite <- spec_state_nil. unfold spec_state, set_input_source_map.
    rewrite !spec_record_alt. reflexivity.
Qed.

Lemma zeros_nil : forall A (l : list A), zeros l = [] -> l = [].
Proof. intros A [|x l] H; [reflexivity|discriminate]. Qed.

Lemma bm_get : forall h b, im_get b (spec_bm h) =
  option_map (fun x => bm_entry h b x) (nth_error (branches_of h) (N.to_nat b)).
Proof.
  intros h b. unfold spec_bm. rewrite (im_get_map _ _ _ _ (bm_entry h)), im_get_number_from.
  destruct (N.leb_spec 0 b); [|lia]. now rewrite N.sub_0_r.
Qed.

Lemma im_get_filter_number : forall (f : branch_type * range * bool -> bool) l k b,
  im_get b (filter (fun x => f (snd x)) (number_from k l)) =
  match im_get b (number_from k l) with Some x => if f x then Some x else None | None => None end.
Proof.
  intros f l. induction l as [|x l IH]; intros k b; [reflexivity|].
  cbn [number_from filter snd]. destruct (f x) eqn:Hf.
  - cbn [im_get]. change (eqb b k) with (b =? k). destruct (N.eqb_spec b k); [now rewrite Hf|apply IH].
  - rewrite IH. cbn [im_get]. change (eqb b k) with (b =? k). destruct (N.eqb_spec b k) as [->|]; [|reflexivity].
    rewrite Hf. rewrite im_get_number_from. destruct (N.leb_spec (k + 1) k); [lia|reflexivity].
Qed.

Lemma bt_get : forall h b, im_get b (spec_bt_rows h) =
  match nth_error (branches_of h) (N.to_nat b) with
  | Some x => if truthy_branch x then Some (zeros (paths_of b h)) else None
  | None => None
  end.
Proof.
  intros h b. unfold spec_bt_rows.
  rewrite (im_get_map _ _ _ _ (fun k (_ : branch_type * range * bool) => zeros (paths_of k h))).
  rewrite im_get_filter_number, im_get_number_from.
  destruct (N.leb_spec 0 b); [|lia]. rewrite N.sub_0_r.
  destruct (nth_error _ _) as [x|]; [|reflexivity]. destruct (truthy_branch x); reflexivity.
Qed.

Lemma frozen_b : forall sc b i, okst e path sc ->
  has_row (fc_b (sc_fc (freeze sc))) b i = has_row (fc_b (sc_fc sc)) b i /\
  (has_row (fc_b (sc_fc sc)) b i = true ->
   im_get b (fc_branch_map (sc_fc (freeze sc))) = im_get b (fc_branch_map (sc_fc sc))).
Proof.
  intros sc b i Hok. pose proof (okst_wf sc Hok) as W. destruct Hok as (h & Hv & Hf & ->).
  destruct (freeze_spec _ W) as (F1 & F2 & _). unfold has_row at 1.
  rewrite F1, F2. clear F1 F2. set (sc := spec_state _ _ _).
  destruct (pathless (fc_branch_map (sc_fc sc)) b) eqn:Hd; [|split; reflexivity].
  assert (Hr : has_row (fc_b (sc_fc sc)) b i = false).
  { subst sc. rewrite has_row_spec by assumption. unfold pathless, spec_state in Hd.
    rewrite spec_record_alt in Hd. cbn [sc_fc fc_branch_map] in Hd. rewrite bm_get in Hd.
    destruct (nth_error _ _) as [[[t l] f]|]; [|discriminate]. cbn in Hd. unfold has_paths in Hd. cbn in Hd.
    destruct (paths_of b h); [|discriminate]. apply N.ltb_ge. unfold lenN. simpl. lia. }
  rewrite Hr. split; [reflexivity|discriminate].
Qed.

Lemma frozen_slots : forall sc c, okst e path sc -> match c with CT _ _ => False | _ => True end ->
  slots e sc c = one (slot_exists (sc_fc (freeze sc)) c).
Proof.
  intros sc c Hok Hc. pose proof (okst_wf sc Hok) as W.
  destruct (freeze_spec _ W) as (_ & _ & _ & _ & _ & _ & Fs & _ & Ff & _).
  pose proof (fun b i => proj1 (frozen_b sc b i Hok)) as Fb.
  unfold slots, one, slot_exists. destruct c as [i|i|b i|b i]; [| | |contradiction].
  - rewrite Fs. destruct Hok as (h & Hv & Hf & ->). unfold spec_state. rewrite spec_record_alt.
    cbn [sc_s sc_fc fc_s]. rewrite im_get_number_from. destruct (N.leb_spec 0 i); [|lia].
    rewrite N.sub_0_r. destruct (nth_error _ _) eqn:Hn; destruct (N.ltb_spec i (lenN (stmts_of h))) as [Hl|Hl]; auto; exfalso.
    + apply nth_error_None in Hl || (assert (nth_error (zeros (stmts_of h)) (N.to_nat i) <> None) as Hx by congruence;
        apply nth_error_Some in Hx; rewrite zeros_length in Hx; unfold lenN in Hl; lia).
    + apply nth_error_None in Hn. rewrite zeros_length in Hn. unfold lenN in Hl. lia.
  - rewrite Ff. destruct Hok as (h & Hv & Hf & ->). unfold spec_state. rewrite spec_record_alt.
    cbn [sc_f sc_fc fc_f]. rewrite im_get_number_from. destruct (N.leb_spec 0 i); [|lia].
    rewrite N.sub_0_r. destruct (nth_error _ _) eqn:Hn; destruct (N.ltb_spec i (lenN (fns_of h))) as [Hl|Hl]; auto; exfalso.
    + assert (nth_error (zeros (fns_of h)) (N.to_nat i) <> None) as Hx by congruence;
        apply nth_error_Some in Hx; rewrite zeros_length in Hx; unfold lenN in Hl; lia.
    + apply nth_error_None in Hn. rewrite zeros_length in Hn. unfold lenN in Hl. lia.
  - now rewrite Fb.
Qed.

Lemma frozen_truth : forall sc b i, okst e path sc ->
  slots e sc (CT b i) = one (truth_text e (sc_fc (freeze sc)) b i).
Proof.
  intros sc b i Hok. destruct (frozen_b sc b i Hok) as [Fb Fm].
  unfold slots, one, truth_text. rewrite Fb.
  destruct (has_row (fc_b (sc_fc sc)) b i); [|now rewrite !andb_false_r].
  rewrite Fm by reflexivity. unfold btype, logical_type. rewrite !andb_true_r.
  destruct (im_get b (fc_branch_map (sc_fc sc))) as [br|]; reflexivity.
Qed.

(** Truthiness slots are there for logical expressions only. *)
Lemma frozen_truth_slot : forall sc b i, okst e path sc ->
  slot_exists (sc_fc (freeze sc)) (CT b i) =
  truth_text e (sc_fc (freeze sc)) b i &&
  match im_get b (fc_branch_map (sc_fc (freeze sc))) with
  | Some br => match b_type br with BinaryExpr => true | _ => false end
  | None => false
  end.
Proof.
  intros sc b i Hok. destruct (frozen_b sc b i Hok) as [Fb Fm].
  pose proof (okst_wf sc Hok) as W. destruct (freeze_spec _ W) as (F1 & F2 & F3 & _).
  unfold slot_exists, truth_text. rewrite Fb.
  destruct Hok as (h & Hv & Hf & ->). set (sc := spec_state _ _ _) in *.
  assert (Eb : fc_b_t (sc_fc sc) = spec_bt (e_report_logic e) h).
  { subst sc. unfold spec_state. now rewrite spec_record_alt. }
  assert (Em : fc_branch_map (sc_fc sc) = spec_bm h).
  { subst sc. unfold spec_state. now rewrite spec_record_alt. }
  assert (Hflag : forall x, nth_error (branches_of h) (N.to_nat b) = Some x ->
                  truthy_branch x = e_report_logic e && match fst (fst x) with BinaryExpr => true | _ => false end).
  { intros x Hx. apply nth_error_In in Hx. clear - Hx Hf. induction Hf as [|y h Hy Hf IH]; [contradiction|].
    destruct y as [l|n d l|t l f|b' l|m]; cbn in Hx; auto.
    destruct Hx as [<-|Hx]; auto. cbn. destruct t; try (now rewrite andb_false_r). subst f.
    now destruct (e_report_logic e). }
  assert (Hrow : has_row (fc_b (sc_fc sc)) b i = (i <? lenN (paths_of b h))).
  { subst sc. now rewrite has_row_spec. }
  destruct (has_row (fc_b (sc_fc sc)) b i) eqn:Hr.
  - rewrite (Fm eq_refl). rewrite Em, bm_get. rewrite Eb in F3. unfold spec_bt in F3.
    destruct (e_report_logic e) eqn:Hrl; cbn [orb andb] in *.
    + destruct (fc_b_t (sc_fc (freeze sc))) as [bt'|] eqn:Hbt'; [|contradiction].
      unfold has_row. rewrite F3, bt_get.
      assert (Hd : pathless (fc_branch_map (sc_fc sc)) b = false).
      { unfold pathless. rewrite Em, bm_get. destruct (nth_error _ _) as [[[t l] f]|]; [|reflexivity].
        cbn. unfold has_paths. cbn. destruct (paths_of b h); [|reflexivity].
        symmetry in Hrow. apply N.ltb_lt in Hrow. unfold lenN in Hrow. simpl in Hrow. lia. }
      rewrite Hd. destruct (nth_error _ _) as [x|] eqn:Hx; cbn [option_map]; [|reflexivity].
      rewrite (Hflag x eq_refl). destruct x as [[t l] f]. cbn.
      destruct t; try reflexivity. rewrite zeros_length. exact (eq_sym Hrow).
    + assert (existsb truthy_branch (branches_of h) = false) as Hno.
      { clear - Hf Hrl. induction Hf as [|y h Hy Hf IH]; [reflexivity|].
        destruct y as [l|n d l|t l f|b' l|m]; cbn; auto.
        fold (branches_of h). rewrite IH, orb_false_r. destruct t; try reflexivity. now rewrite Hy, Hrl. }
      rewrite Hno in F3. destruct (fc_b_t (sc_fc (freeze sc))); [contradiction|reflexivity].
  - rewrite andb_false_r. cbn [andb].
    destruct (fc_b_t (sc_fc (freeze sc))) as [bt'|]; [|reflexivity].
    destruct (fc_b_t (sc_fc sc)) as [bt|] eqn:Hbt; [|contradiction].
    unfold has_row. rewrite F3. destruct (pathless _ b); [reflexivity|].
    unfold spec_bt in Eb. destruct (_ || _); [|discriminate]. inversion Eb; subst bt.
    rewrite bt_get. destruct (nth_error _ _) as [x|]; [|reflexivity].
    destruct (truthy_branch x); [|reflexivity]. rewrite zeros_length. exact (eq_sym Hrow).
Qed.
End Root.

(** ** Nothing but the end of a program inserts an initialising function *)

Section Templates.
Variable e : env.
Notation gd := (good false).
Definition tpl (l : list node) : list file_coverage := flat_map templates l.

Lemma tpl_node : forall k sp cs, templates (Node k sp cs) =
  ((match k with KTemplateFn fc => [fc] | _ => [] end) ++ tpl cs)%list.
Proof. reflexivity. Qed.
Lemma tpl_cons : forall x l, tpl (x :: l) = (templates x ++ tpl l)%list. Proof. reflexivity. Qed.
Lemma tpl_nil : tpl [] = []. Proof. reflexivity. Qed.
Lemma tpl_app : forall a b, tpl (a ++ b) = (tpl a ++ tpl b)%list.
Proof. intros. apply flat_map_app. Qed.
Lemma tpl_counter_stmt : forall c, templates (counter_stmt c) = []. Proof. reflexivity. Qed.
Lemma tpl_sonly : forall l, sonly l -> tpl l = [].
Proof. intros l H. induction H as [|x l [i ->] _ IH]; [reflexivity|exact IH]. Qed.
Lemma tpl_paren_seq : forall c x, templates (paren_seq c x) = templates x.
Proof. intros. cbn. now rewrite !app_nil_r. Qed.

Lemma prepend_tpl : forall c b b', prepend_to_block c b = Some b' -> templates b' = templates b.
Proof.
  intros c b b' H. unfold prepend_to_block in H.
  destruct (block_view b) as [[[[i bsp] ssp] ss]|] eqn:Hb; [|discriminate].
  apply block_view_inv in Hb. inversion H; subst. reflexivity.
Qed.

Lemma create_fn_tpl : forall id fn s fn' s', create_fn_instrumentation e id fn s = Ok (fn', s') ->
  templates fn' = templates fn.
Proof.
  intros id [k sp cs] s fn' s' H. unfold create_fn_instrumentation in H.
  destruct k; try discriminate. destruct cs as [|p [|d [|b [|ty [|? ?]]]]]; try discriminate.
  destruct (new_function _ _ _ _) as [c i]. destruct (is_none b); [discriminate|].
  destruct (prepend_to_block (CF i) b) as [b'|] eqn:Hp; [|discriminate]. inversion H; subst.
  rewrite !tpl_node, !tpl_cons. now rewrite (prepend_tpl _ _ _ Hp).
Qed.

Lemma accessor_tpl : forall name sp s b b' s', accessor_body e name sp s b = Ok (b', s') ->
  templates b' = templates b.
Proof.
  intros name sp s b b' s' H. unfold accessor_body in H.
  destruct (is_none b); [inversion H; subst; auto|].
  destruct (new_function _ _ _ _) as [c i].
  destruct (prepend_to_block (CF i) b) as [b''|] eqn:Hp; [|discriminate]. inversion H; subst.
  now apply prepend_tpl in Hp.
Qed.

Lemma tpl_inj_block : forall l, templates (mk KStmt [mk (KBlock true) [mk KStmts l]]) = tpl l.
Proof. intros. unfold mk. rewrite !tpl_node, !tpl_cons, !tpl_node, !tpl_cons, !tpl_node, !tpl_nil.
  cbn [app]. now rewrite !app_nil_r. Qed.

Lemma block_last_tpl : forall cs cs', block_last cs = Some cs' -> tpl cs' = tpl cs.
Proof.
  induction cs as [|c cs IH]; intros cs' H; [discriminate|].
  destruct cs as [|c2 cs].
  - simpl in H. unfold to_block in H. destruct (stmt_view c) as [[sp x]|] eqn:Hv; [|discriminate].
    destruct (is_block x); inversion H; subst; [reflexivity|].
    rewrite tpl_cons, tpl_inj_block, tpl_nil, app_nil_r. reflexivity.
  - change (block_last (c :: c2 :: cs)) with (option_map (cons c) (block_last (c2 :: cs))) in H.
    destruct (block_last (c2 :: cs)) as [l|] eqn:Hl; [|discriminate]. inversion H; subst.
    rewrite !(tpl_cons c). now rewrite (IH l eq_refl).
Qed.

Lemma covered_tpl : forall x s x' s', covered e x s x' s' -> templates x' = templates x.
Proof.
  intros x s x' s' (s1 & H1 & [[-> H2]|[_ H2]]); [reflexivity|].
  unfold replace_expr_with_stmt_counter, new_statement in H2. inversion H2; subst.
  apply tpl_paren_seq.
Qed.

Lemma replace_branch_tpl : forall x b s x' s',
  replace_expr_with_branch_counter e x b s = Ok (x', s') -> templates x' = templates x.
Proof.
  intros x b s x' s' H. unfold replace_expr_with_branch_counter in H.
  destruct (is_expr x); [|discriminate]. cbn [negb] in H.
  apply bind_ok in H as [[c i] [_ H]]. inversion H; subst. apply tpl_paren_seq.
Qed.

Lemma cond_arm_tpl : forall b x s x' s', cond_arm e b x s x' s' -> templates x' = templates x.
Proof. intros b x s x' s' [[-> ->]|H]; [reflexivity|]. eapply replace_branch_tpl; eauto. Qed.

Definition TV (t t' : node) : Prop := gd t = true -> templates t' = templates t.
Definition TK (cs cs' : list node) : Prop := forallb gd cs = true -> tpl cs' = tpl cs.

Ltac gsplit :=
  repeat match goal with
  | H : forallb gd (_ :: _) = true |- _ => cbn [forallb] in H
  | H : _ && _ = true |- _ => apply andb_true_iff in H as [? ?]
  | H : gd (Node ?k ?sp ?cs) = true |- _ =>
      let N := fresh "Hn" in let G := fresh "Hg" in
      apply good_split in H as [N G]
  | H : forallb gd (_ ++ _) = true |- _ => rewrite forallb_app in H
  end.
Ltac prem := solve [ assumption | cbn [good forallb]; rewrite !andb_true_iff; auto 10
                   | rewrite forallb_app; cbn [good forallb]; rewrite !andb_true_iff; auto 10 ].
Ltac ih := repeat match goal with
  | H : forallb gd ?x = true -> _ |- _ => specialize (H ltac:(prem))
  | H : gd ?x = true -> _ |- _ => specialize (H ltac:(prem)) end.
Ltac t :=
  unfold mk in *;
  repeat (rewrite ?tpl_app, ?tpl_cons, ?tpl_node, ?tpl_nil, ?tpl_counter_stmt, ?tpl_inj_block in *; cbn [app] in *);
  rewrite ?app_nil_r in *; try congruence.

Theorem tpl_all :
  (forall v t s t' s', Vis e v t s t' s' -> TV t t') /\
  (forall v cs s cs' s', Kids e v cs s cs' s' -> TK cs cs') /\
  (forall ss s ss' s', Ins e ss s ss' s' -> TK ss ss') /\
  (forall v b x s x' s', Wrap e v b x s x' s' -> TV x x') /\
  (forall b r cur x s x' s', Arm e b r cur x s x' s' -> TV x x') /\
  (forall xs s xs' s', Items e xs s xs' s' -> sonly (before s) -> TK xs xs') /\
  (forall xs s xs' s', SItems e xs s xs' s' -> sonly (before s) -> TK xs xs').
Proof.
  apply Vis_all_ind; unfold TV, TK; intros; gsplit.
  - ih. t.
  - reflexivity.
  - ih. t.
  - reflexivity.
  - ih. t.
  - ih. t.
  - ih. t.
  - (* V_fn *)
    match goal with H : create_fn_instrumentation _ _ _ _ = _, G : gd fn = true |- _ =>
      destruct (create_fn_shape e false _ _ _ _ _ H G) as (? & _); apply create_fn_tpl in H end.
    ih. t.
  - (* V_accessor *)
    match goal with H : accessor_body _ _ _ _ _ = _, G : gd body = true |- _ =>
      destruct (accessor_shape e false _ _ _ _ _ _ H G) as (? & _); apply accessor_tpl in H end.
    ih. t.
  - ih. t.
  - (* V_arrow_expr *)
    match goal with H : forallb gd [_; _] = true -> _ |- _ =>
      specialize (H ltac:(cbn [forallb]; rewrite good_counter_stmt; cbn [good forallb]; rewrite !andb_true_iff;
        unfold node_ok; simpl; auto 10)) end.
    t.
  - (* V_init *)
    match goal with H : covered _ _ _ _ _, G : gd value = true |- _ =>
      pose proof (covered_shape e false _ _ _ _ H G); apply covered_tpl in H end.
    ih. t.
  - (* V_init_tagged *)
    match goal with H : Vis _ _ tpl0 _ _ _ |- _ =>
      destruct (proj1 (shape_all e false) _ _ _ _ _ H ltac:(assumption)) as (? & _) end.
    ih. t.
  - (* V_loop *)
    match goal with H : block_last _ = _ |- _ =>
      pose proof (block_last_shape false _ _ H Hg); apply block_last_tpl in H end.
    ih. t.
  - (* V_cond *)
    match goal with H : cond_arm _ _ con _ _ _, G : gd con = true |- _ =>
      destruct (cond_arm_shape e false _ _ _ _ _ H G) as (? & _); apply cond_arm_tpl in H end.
    match goal with H : cond_arm _ _ alt _ _ _, G : gd alt = true |- _ =>
      destruct (cond_arm_shape e false _ _ _ _ _ H G) as (? & _); apply cond_arm_tpl in H end.
    ih. t.
  - (* V_switch *) ih. t.
  - (* V_case *) ih. t.
  - (* V_if *) ih. t.
  - ih. t.
  - (* V_with_stmt *)
    assert (Hs : sonly (before sv)) by (eapply spawned_sonly_vis; [eassumption|reflexivity]).
    apply tpl_sonly in Hs. ih. t; rewrite Hs; t.
  - ih. t.
  - ih. t.
  - ih. t.
  - ih. t.
  - discriminate.
  - discriminate.
  - reflexivity.
  - ih. t.
  - reflexivity.
  - ih. t.
  - ih. t.
  - (* I_visit *)
    assert (Hs : sonly (before sv)) by (eapply spawned_sonly; [eassumption|reflexivity]).
    apply tpl_sonly in Hs. ih. t; rewrite Hs; t.
  - reflexivity.
  - ih. t.
  - (* W_report *)
    unfold increase_true_expr, counter_expr, E. t.
  - (* W_leaf *)
    match goal with H : replace_expr_with_branch_counter _ _ _ _ = _ |- _ =>
      apply replace_branch_tpl in H end. ih. t.
  - reflexivity.
  - ih. t.
  - reflexivity.
  - (* A_stmt *)
    assert (Hs : sonly (before sv)) by (eapply spawned_sonly_vis; [eassumption|reflexivity]).
    apply tpl_sonly in Hs. ih. t; rewrite Hs; t.
  - reflexivity.
  - match goal with H : sonly _ -> _, G : sonly _ |- _ => specialize (H G) end. ih. t.
  - (* M_visit *)
    match goal with H : on_enter e _ _ _ = (_, _, _) |- _ => apply on_enter_facts in H as (_ & Hb & _) end.
    assert (Hs1 : sonly (before s1)) by now rewrite Hb.
    assert (Hs2 : sonly (before s2)) by (destruct H1 as [->|[? ->]]; auto using mark_sonly).
    assert (Hs : sonly (before s3)).
    { eapply (proj1 (proj2 (erase_all e))); eauto. }
    specialize (H5 sonly_nil). apply tpl_sonly in Hs. ih. t; rewrite Hs; t.
  - reflexivity.
  - assert (Hs : sonly (before s1)).
    { eapply (proj1 (proj2 (erase_all e))); eauto. }
    specialize (H2 sonly_nil). apply tpl_sonly in Hs. ih. t; rewrite Hs; t.
Qed.
End Templates.

(** ** Whole programs *)

Lemma items_before : forall e xs s xs' s', Items e xs s xs' s' -> before s = [] -> before s' = [].
Proof.
  intros e xs s xs' s' H. induction H; intros Hb; auto.
Qed.
Lemma sitems_before : forall e xs s xs' s', SItems e xs s xs' s' -> before s = [] -> before s' = [].
Proof. intros e xs s xs' s' H. induction H; intros Hb; auto. Qed.

Lemma module_inv : forall e sp isp items s t' s',
  Vis e VCov (Node KModule sp [Node KModuleItems isp items]) s t' s' ->
  exists s0 items' s1 tpl call s2,
    cov s0 = cov s /\ before s0 = before s /\ Items e items s0 items' s1 /\
    get_coverage_templates s1 = (tpl, call, s2) /\ cov s' = cov s2 /\
    t' = Node KModule sp [Node KModuleItems isp
           (match items' with [] => [tpl; call] | i :: is => i :: tpl :: call :: is end)].
Proof.
  intros e sp isp items s t' s' H. inversion H; subst; try discriminate.
  match goal with H : Kids _ _ [_] _ _ _ |- _ => inversion H; subst end.
  match goal with H : Kids _ _ [] _ _ _ |- _ => inversion H; subst end.
  match goal with H : Vis _ _ _ _ _ _ |- _ => inversion H; subst; try discriminate end.
  all: try (match goal with H : VCov = VLogical _ |- _ => discriminate end).
  do 6 eexists. repeat (split; [eassumption|]). reflexivity.
Qed.

Lemma script_inv : forall e sp ssp body s t' s',
  Vis e VCov (Node KScript sp [Node KStmts ssp body]) s t' s' ->
  exists body' s1 tpl call,
    SItems e body s body' s1 /\ get_coverage_templates s1 = (tpl, call, s') /\
    t' = Node KScript sp [Node KStmts ssp (tpl :: call :: body')].
Proof.
  intros e sp ssp body s t' s' H. inversion H; subst; try discriminate.
  do 4 eexists. repeat (split; [eassumption|]). reflexivity.
Qed.

Lemma clean_templates : forall t, clean t = true -> templates t = [].
Proof.
  induction t as [k sp cs IH] using node_ind'. intros H. cbn [clean] in H. apply andb_true_iff in H as [Hn Hc].
  cbn [templates]. assert (Hk : flat_map templates cs = []).
  { clear Hn. induction cs as [|x cs IHcs]; [reflexivity|]. inversion IH; subst. cbn [forallb] in Hc.
    apply andb_true_iff in Hc as [Hx Hc]. cbn [flat_map]. rewrite H1, IHcs by assumption. reflexivity. }
  rewrite Hk. unfold clean_node in Hn. destruct k; try reflexivity. discriminate.
Qed.
Lemma clean_occ : forall c t, clean t = true -> occ c t = 0%nat.
Proof.
  intros c. induction t as [k sp cs IH] using node_ind'. intros H. cbn [clean] in H.
  apply andb_true_iff in H as [Hn Hc].
  cbn [occ]. assert (Hk : list_sum (map (occ c) cs) = 0%nat).
  { clear Hn. induction cs as [|x cs IHcs]; [reflexivity|]. inversion IH; subst. cbn [forallb] in Hc.
    apply andb_true_iff in Hc as [Hx Hc]. cbn [map list_sum fold_right]. rewrite H1 by assumption.
    now apply IHcs. }
  rewrite Hk. unfold clean_node in Hn. destruct k; try reflexivity. discriminate.
Qed.

Lemma program_account : forall e n path ism strict c t items t' sc,
  program_items t = Some items -> forallb (good strict) items = true -> clean t = true ->
  instrument e n path ism t = Ok (t', sc) ->
  exists sc0, okst e path sc0 /\ sc = freeze sc0 /\
    law strict c (occ c t') (slots e sc0 c).
Proof.
  intros e n path ism strict c t items t' sc Hi Hg Hcl H. unfold instrument in H.
  apply bind_ok in H as [[t1 s1] [Hv H]]. inversion H; subst. clear H.
  pose proof (okst_init e path ism) as Hok.
  assert (Hz : slots e (cov (init_state e path ism)) c = 0%nat).
  { unfold slots. destruct c as [i|i|b i|b i]; cbn; try (now destruct i); try reflexivity.
    now rewrite !andb_false_r. }
  unfold visit_program in Hv. destruct (should_ignore_file _ _ _).
  { inversion Hv; subst. exists (cov (init_state e path ism)).
    split; [assumption|]. split; [unfold init_state, sc_new, set_input_source_map; now destruct (e_report_logic e)|].
    rewrite Hz, clean_occ by assumption. unfold law. now destruct exact_count. }
  apply bind_ok in Hv as [[t1 s2] [Hv H]]. inversion H; subst. clear H.
  apply visit_sound in Hv.
  assert (Hoc : occl c items = 0%nat).
  { assert (Hall : forallb clean items = true).
    { destruct t as [k sp cs]. destruct k; try discriminate; destruct cs as [|[k2 sp2 cs2] [|? ?]]; try discriminate;
      destruct k2; try discriminate; inversion Hi; subst; cbn [clean forallb] in Hcl;
      repeat (apply andb_true_iff in Hcl as [? Hcl] || apply andb_true_iff in Hcl as [Hcl ?]);
      repeat match goal with H : _ && _ = true |- _ => apply andb_true_iff in H as [? ?] end; assumption. }
    clear - Hall. induction items as [|x l IH]; [reflexivity|]. cbn [forallb] in Hall.
    apply andb_true_iff in Hall as [Hx Hl]. rewrite occl_cons, clean_occ, IH by assumption. reflexivity. }
  destruct t as [k sp cs]. destruct k; try discriminate; destruct cs as [|[k2 sp2 cs2] [|? ?]]; try discriminate;
      destruct k2; try discriminate; inversion Hi; subst; clear Hi.
  - apply module_inv in Hv as (s0 & items' & sa & tp & ca & sb & Hc0 & Hb0 & Hit & Ht & Hcv & ->).
    assert (Hb : before sa = []) by (eapply items_before; [eassumption|]; rewrite Hb0; reflexivity).
    apply (proj1 (proj2 (proj2 (proj2 (proj2 (proj2 (count_all e path strict c))))))) in Hit.
    destruct (Hit ltac:(rewrite Hc0; exact Hok) Hg) as (Hok1 & _ & Hl). rewrite Hb, Hc0, Hb0 in Hl.
    cbn [cov before push init_state] in Hl.
    change (slots e (set_input_source_map ism (sc_new path (e_report_logic e))) c = 0%nat) in Hz.
    rewrite Hz, Hoc, !occl_nil in Hl. rewrite !Nat.add_0_r in Hl.
    inversion Ht; subst. exists (cov sa). split; [assumption|]. split; [cbn [cov pop]; rewrite Hcv; reflexivity|].
    rewrite !occ_node, occl_cons, occ_node.
    assert (Hx : forall f, occl c (match items' with [] => [mk KStmt [mk (KTemplateFn f) []]; mk KStmt [mk KTemplateCall []]]
       | i :: is => i :: mk KStmt [mk (KTemplateFn f) []] :: mk KStmt [mk KTemplateCall []] :: is end) = occl c items').
    { intros f. destruct items' as [|i is]; [reflexivity|]. rewrite !occl_cons. cbn. reflexivity. }
    rewrite Hx. rewrite occl_nil. rewrite !Nat.add_0_r in *. cbn. exact Hl.
  - apply script_inv in Hv as (body' & sa & tp & ca & Hit & Ht & ->).
    pose proof (sitems_before _ _ _ _ _ Hit eq_refl) as Hb.
    apply (proj2 (proj2 (proj2 (proj2 (proj2 (proj2 (count_all e path strict c))))))) in Hit.
    destruct (Hit Hok Hg) as (Hok1 & _ & Hl). rewrite Hb in Hl. cbn [cov before push init_state] in Hl.
    change (slots e (set_input_source_map ism (sc_new path (e_report_logic e))) c = 0%nat) in Hz.
    rewrite Hz, Hoc, !occl_nil in Hl. rewrite !Nat.add_0_r in Hl.
    inversion Ht; subst. exists (cov sa). split; [assumption|]. split; [reflexivity|].
    rewrite !occ_node, occl_cons, occ_node, !occl_cons. cbn. fold (occl c body').
    rewrite !Nat.add_0_r in *. exact Hl.
Qed.

(** C29-C32: how often each counter occurs in the output. *)
Theorem counters_account : forall e n path ism t items t' sc,
  program_items t = Some items -> forallb (good false) items = true -> clean t = true ->
  instrument e n path ism t = Ok (t', sc) ->
  (forall i, (occ (CS i) t' <= one (slot_exists (sc_fc sc) (CS i)))%nat) /\
  (forall i, occ (CF i) t' = one (slot_exists (sc_fc sc) (CF i))) /\
  (forall b i, occ (CB b i) t' = one (slot_exists (sc_fc sc) (CB b i))) /\
  (forall b i, occ (CT b i) t' = one (truth_text e (sc_fc sc) b i)).
Proof.
  intros e n path ism t items t' sc Hi Hg Hcl H.
  pose proof (fun c => program_account e n path ism false c t items t' sc Hi Hg Hcl H) as P.
  repeat split; intros.
  - destruct (P (CS i)) as (sc0 & Hok & -> & L). rewrite <- (frozen_slots e path) by auto. exact L.
  - destruct (P (CF i)) as (sc0 & Hok & -> & L). rewrite <- (frozen_slots e path) by auto. exact L.
  - destruct (P (CB b i)) as (sc0 & Hok & -> & L). rewrite <- (frozen_slots e path) by auto. exact L.
  - destruct (P (CT b i)) as (sc0 & Hok & -> & L). rewrite <- (frozen_truth e path) by auto. exact L.
Qed.

(** C32: if no discriminant or case test of a switch contains statements, every statement of
    the record is counted exactly once. *)
Theorem statement_counters_exact : forall e n path ism t items t' sc,
  program_items t = Some items -> forallb (good true) items = true -> clean t = true ->
  instrument e n path ism t = Ok (t', sc) ->
  forall i, occ (CS i) t' = one (slot_exists (sc_fc sc) (CS i)).
Proof.
  intros e n path ism t items t' sc Hi Hg Hcl H i.
  destruct (program_account e n path ism true (CS i) t items t' sc Hi Hg Hcl H) as (sc0 & Hok & -> & L).
  rewrite <- (frozen_slots e path) by auto. exact L.
Qed.

(** C30: truthiness slots belong to logical expressions. *)
Theorem truth_slots : forall e n path ism t items t' sc,
  program_items t = Some items -> forallb (good false) items = true -> clean t = true ->
  instrument e n path ism t = Ok (t', sc) ->
  forall b i, slot_exists (sc_fc sc) (CT b i) =
    truth_text e (sc_fc sc) b i &&
    match im_get b (fc_branch_map (sc_fc sc)) with
    | Some br => match b_type br with BinaryExpr => true | _ => false end
    | None => false
    end.
Proof.
  intros e n path ism t items t' sc Hi Hg Hcl H b i.
  destruct (program_account e n path ism false (CT b i) t items t' sc Hi Hg Hcl H) as (sc0 & Hok & -> & _).
  now apply (frozen_truth_slot e path).
Qed.

(** C29 *)
Theorem no_dangling_counter : forall e n path ism t items t' sc c,
  program_items t = Some items -> forallb (good false) items = true -> clean t = true ->
  instrument e n path ism t = Ok (t', sc) ->
  match c with CT _ _ => False | _ => True end ->
  (0 < occ c t')%nat -> slot_exists (sc_fc sc) c = true.
Proof.
  intros e n path ism t items t' sc c Hi Hg Hcl H Hc Hp.
  destruct (counters_account e n path ism t items t' sc Hi Hg Hcl H) as (A & B & D & _).
  destruct c as [i|i|b i|b i]; [specialize (A i)|specialize (B i)|specialize (D b i)|contradiction];
    unfold one in *; destruct (slot_exists _ _); auto; lia.
Qed.

(** C31 *)
Theorem no_counter_twice : forall e n path ism t items t' sc c,
  program_items t = Some items -> forallb (good false) items = true -> clean t = true ->
  instrument e n path ism t = Ok (t', sc) -> (occ c t' <= 1)%nat.
Proof.
  intros e n path ism t items t' sc c Hi Hg Hcl H.
  destruct (counters_account e n path ism t items t' sc Hi Hg Hcl H) as (A & B & D & F).
  assert (H1 : forall b, (one b <= 1)%nat) by (intros []; simpl; lia).
  destruct c as [i|i|b i|b i]; rewrite ?B, ?D, ?F; auto. eapply Nat.le_trans; [apply A|auto].
Qed.

(** C30: without default values no truthiness counter dangles. *)
Theorem no_dangling_truth_counter_partial : forall e n path ism t items t' sc b i,
  program_items t = Some items -> forallb (good false) items = true -> clean t = true ->
  instrument e n path ism t = Ok (t', sc) ->
  (forall k br, im_get k (fc_branch_map (sc_fc sc)) = Some br -> b_type br <> DefaultArg) ->
  occ (CT b i) t' = one (slot_exists (sc_fc sc) (CT b i)).
Proof.
  intros e n path ism t items t' sc b i Hi Hg Hcl H Hd.
  destruct (counters_account e n path ism t items t' sc Hi Hg Hcl H) as (_ & _ & _ & F).
  rewrite F, (truth_slots e n path ism t items t' sc Hi Hg Hcl H). unfold one, truth_text.
  destruct (im_get b _) as [br|] eqn:Hb; [|now rewrite !andb_false_r].
  specialize (Hd b br Hb). destruct (b_type br); try congruence; rewrite ?andb_false_r, ?andb_true_r; reflexivity.
Qed.

(** Exactly one record is embedded in the output, and it is the one the theorems speak of. *)
Theorem embedded_record : forall e n path ism t items t' sc,
  program_items t = Some items -> forallb (good false) items = true -> clean t = true ->
  instrument e n path ism t = Ok (t', sc) ->
  templates t' =
  if should_ignore_file (e_word e) (e_comments e) (nspan t) then [] else [sc_fc sc].
Proof.
  intros e n path ism t items t' sc Hi Hg Hcl H. unfold instrument in H.
  apply bind_ok in H as [[t1 s1] [Hv H]]. inversion H; subst. clear H.
  unfold visit_program in Hv. destruct (should_ignore_file _ _ _).
  { inversion Hv; subst. now apply clean_templates. }
  apply bind_ok in Hv as [[t1 s2] [Hv H]]. inversion H; subst. clear H.
  apply visit_sound in Hv.
  pose proof (clean_templates t Hcl) as Ht0.
  destruct t as [k sp cs]. destruct k; try discriminate; destruct cs as [|[k2 sp2 cs2] [|? ?]]; try discriminate;
      destruct k2; try discriminate; inversion Hi; subst; clear Hi;
      rewrite tpl_node, tpl_cons, tpl_node in Ht0; cbn [app] in Ht0; rewrite tpl_nil, app_nil_r in Ht0.
  - apply module_inv in Hv as (s0 & items' & sa & tp & ca & sb & Hc0 & Hb0 & Hit & Ht & Hcv & ->).
    apply (proj1 (proj2 (proj2 (proj2 (proj2 (proj2 (tpl_all e))))))) in Hit; [|rewrite Hb0; constructor].
    specialize (Hit Hg). inversion Ht; subst.
    rewrite tpl_node, tpl_cons, tpl_node. cbn [app]. rewrite tpl_nil, app_nil_r.
    cbn [cov pop]. rewrite Hcv. destruct items' as [|i is]; [reflexivity|].
    rewrite tpl_cons, Ht0 in Hit. apply app_eq_nil in Hit as [H1 H2].
    rewrite !tpl_cons, H1, H2. reflexivity.
  - apply script_inv in Hv as (body' & sa & tp & ca & Hit & Ht & ->).
    apply (proj2 (proj2 (proj2 (proj2 (proj2 (proj2 (tpl_all e))))))) in Hit; [|constructor].
    specialize (Hit Hg). inversion Ht; subst.
    rewrite tpl_node, tpl_cons, tpl_node. cbn [app]. rewrite tpl_nil, app_nil_r.
    rewrite !tpl_cons, Hit, Ht0. reflexivity.
Qed.

(** ** Examples *)

Definition account (e : env) (t : node) (cs : list counter) : option (list (counter * nat * bool)) :=
  match instrument e 40 "f.js" None t with
  | Ok (t', sc) => Some (map (fun c => (c, occ c t', slot_exists (sc_fc sc) c)) cs)
  | _ => None
  end.

Example ex_function_account :
  match program_items ex_function with Some items => forallb (good true) items | None => false end = true /\
  clean ex_function = true /\
  account logic_env ex_function [CS 2; CS 3; CF 0; CF 1; CB 0 1; CB 0 2; CB 1 1; CT 0 0; CT 1 1; CT 1 2] =
  Some [(CS 2, 1%nat, true); (CS 3, 0%nat, false); (CF 0, 1%nat, true); (CF 1, 0%nat, false);
        (CB 0 1, 1%nat, true); (CB 0 2, 0%nat, false); (CB 1 1, 1%nat, true);
        (CT 0 0, 0%nat, false); (CT 1 1, 1%nat, true); (CT 1 2, 0%nat, false)].
Proof. vm_compute. repeat split; reflexivity. Qed.

(** C30 does not hold: with reportLogic, a default value is given a truthiness counter that has
    no slot (create_assign_pat in visitor, new_branch with [false]). *)
Theorem truth_counter_dangles_refuted : exists e t items t' sc b i,
  program_items t = Some items /\ forallb (good true) items = true /\ clean t = true /\
  instrument e 40 "f.js" None t = Ok (t', sc) /\
  (0 < occ (CT b i) t')%nat /\ slot_exists (sc_fc sc) (CT b i) = false.
Proof.
  exists logic_env, ex_default. do 5 eexists. split; [reflexivity|]. split; [reflexivity|].
  split; [reflexivity|]. split; [vm_compute; reflexivity|].
  instantiate (1 := 0). instantiate (1 := 0). vm_compute. auto.
Qed.

(** [switch (f`x`) {}] *)
Definition ex_switch_tagged : node :=
  module_ 1 18 [T 1 18 KSwitch [X 9 13 KTaggedTpl [var 9 10 "f"; at_ 10 13 (KOther 1) []]; list_ []]].

(** C32 does not hold: the statement counter of a tagged template in the discriminant of a
    switch statement is registered but not inserted. *)
Theorem slot_without_counter_refuted : exists e t items t' sc i,
  program_items t = Some items /\ forallb (good false) items = true /\ clean t = true /\
  instrument e 40 "f.js" None t = Ok (t', sc) /\
  slot_exists (sc_fc sc) (CS i) = true /\ occ (CS i) t' = 0%nat.
Proof.
  exists plain_env, ex_switch_tagged. do 4 eexists. split; [reflexivity|]. split; [reflexivity|].
  split; [reflexivity|]. split; [vm_compute; reflexivity|].
  instantiate (1 := 1). vm_compute. auto.
Qed.
