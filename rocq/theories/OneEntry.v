(** C39: every function and branch of the table belongs to its own place in the source. *)
From Coq Require Import NArith String List Bool Lia PeanoNat.
Import ListNotations.
From Verif Require Import Base IndexMap Oxide SourceCov Hints Ast Visitor VisitorRel VisitorEx Erase Counting.
Open Scope N_scope.

(** A function (its body's location) or a branch (its kind and location) *)
Inductive place := PFn (loc : range) | PBranch (t : branch_type) (loc : range).

(** The places of a table *)
Definition fn_place (f : func) : place := PFn (f_loc f).
Definition branch_place (b : branch) : list place :=
  match b_loc b with Some l => [PBranch (b_type b) l] | None => [] end.
Definition table_places (fc : file_coverage) : list place :=
  (map (fun kf => fn_place (snd kf)) (fc_fn_map fc) ++
   flat_map (fun kb => branch_place (snd kb)) (fc_branch_map fc))%list.

(** The places of a program: named and unnamed functions with a body, methods, arrows and
    accessors; branching nodes *)
Section Sites.
Variable e : env.
Definition body_site (b : node) : list place := if is_none b then [] else [PFn (range_of e (nspan b))].
Definition fn_site (fn : node) : list place :=
  match nkids fn with [_; _; b; _] => body_site b | _ => [] end.
Definition own_sites (k : kind) (sp : span) (cs : list node) : list place :=
  match k, cs with
  | (KFnDecl | KFnExpr | KClassMethod | KMethodProp), [_; fn] => fn_site fn
  | KArrow, [_; b; _] => [PFn (range_of e (nspan b))]
  | (KGetter | KSetter), _ => match rev cs with b :: _ => body_site b | [] => [] end
  | KIf, _ => [PBranch BIf (range_of e sp)]
  | KSwitch, _ => [PBranch BSwitch (range_of e sp)]
  | KCond, _ => [PBranch CondExpr (range_of e sp)]
  | KBin op, _ => if is_logical_op op then [PBranch BinaryExpr (range_of e sp)] else []
  | KAssignPat, _ => [PBranch DefaultArg (range_of e sp)]
  | _, _ => []
  end.
Fixpoint sites (t : node) : list place :=
  match t with Node k sp cs => (own_sites k sp cs ++ flat_map sites cs)%list end.
End Sites.

(** No variable, field or private field is initialised with a tagged template. *)
Fixpoint no_tagged_init (t : node) : bool :=
  match t with
  | Node k _ cs =>
      (if init_kind k then match cs with _ :: v :: _ => negb (is_tagged_tpl v) | _ => true end else true)
      && forallb no_tagged_init cs
  end.

Section Count.
Variable e : env.
Variable p : place -> bool.
Notation nti := no_tagged_init.

Definition cnt (l : list place) : nat := length (filter p l).
Lemma cnt_app : forall a b, cnt (a ++ b) = (cnt a + cnt b)%nat.
Proof. intros a b. unfold cnt. now rewrite filter_app, app_length. Qed.
Definition total (sc : source_cov) : nat := cnt (table_places (sc_fc sc)).
Definition S1 (t : node) : nat := cnt (sites e t).
Definition SL (ts : list node) : nat := cnt (flat_map (sites e) ts).

Lemma S1_node : forall k sp cs, S1 (Node k sp cs) = (cnt (own_sites e k sp cs) + SL cs)%nat.
Proof. intros. unfold S1, SL. cbn [sites]. apply cnt_app. Qed.
Lemma SL_cons : forall t ts, SL (t :: ts) = (S1 t + SL ts)%nat.
Proof. intros. unfold SL. cbn [flat_map]. apply cnt_app. Qed.
Lemma SL_nil : SL [] = 0%nat. Proof. reflexivity. Qed.
Lemma SL_app : forall a b, SL (a ++ b) = (SL a + SL b)%nat.
Proof. intros. unfold SL. rewrite flat_map_app. apply cnt_app. Qed.
Lemma S1_counter : forall c, S1 (counter_stmt c) = 0%nat. Proof. reflexivity. Qed.

(** ** Tables *)
Lemma cnt_flat_insert : forall V (g : V -> list place) k v (m : imap N V),
  (cnt (flat_map (fun kv => g (snd kv)) (im_insert k v m)) <=
   cnt (g v) + cnt (flat_map (fun kv => g (snd kv)) m))%nat.
Proof.
  intros V g k v m. induction m as [|[k' v'] m IH].
  - cbn. rewrite app_nil_r. unfold cnt. simpl. lia.
  - cbn [im_insert]. destruct (eqb k k'); cbn [flat_map snd]; rewrite !cnt_app; lia.
Qed.
Lemma cnt_flat_update : forall V (g : V -> list place) k f (m : imap N V), (forall v, g (f v) = g v) ->
  cnt (flat_map (fun kv => g (snd kv)) (im_update k f m)) = cnt (flat_map (fun kv => g (snd kv)) m).
Proof.
  intros V g k f m Hf. induction m as [|[k' v'] m IH]; [reflexivity|].
  cbn [im_update]. destruct (eqb k k'); cbn [flat_map snd]; rewrite !cnt_app; [now rewrite Hf|now rewrite IH].
Qed.
Lemma cnt_flat_retain : forall V (g : V -> list place) q (m : imap N V),
  (cnt (flat_map (fun kv => g (snd kv)) (im_retain q m)) <= cnt (flat_map (fun kv => g (snd kv)) m))%nat.
Proof.
  intros V g q m. unfold im_retain. induction m as [|[k' v'] m IH]; [auto|].
  cbn [filter fst snd flat_map]. destruct (q k' v'); cbn [flat_map snd]; rewrite !cnt_app; lia.
Qed.

Lemma total_stmt : forall r sc sc' i, new_statement r sc = (sc', i) -> total sc' = total sc.
Proof. intros r sc sc' i H. now inversion H; subst. Qed.
Lemma total_fn : forall n d l sc sc' i, new_function n d l sc = (sc', i) ->
  (total sc' <= total sc + cnt [PFn l])%nat.
Proof.
  intros n d l sc sc' i H. inversion H; subst. unfold total, table_places.
  cbn [sc_fc set_fns fc_fn_map fc_branch_map]. rewrite !cnt_app.
  assert (E : forall m, map (fun kf : N * func => fn_place (snd kf)) m =
     flat_map (fun kf => (fun f => [fn_place f]) (snd kf)) m).
  { induction m as [|x m IH]; [reflexivity|]. cbn [map flat_map app]. now rewrite IH. }
  rewrite !E.
  pose proof (cnt_flat_insert _ (fun f => [fn_place f]) (sc_f sc)
    (mkFunc (fn_name_or_anonymous n (sc_f sc)) d l (line (rstart l))) (fc_fn_map (sc_fc sc))) as K.
  unfold fn_place in K at 2. cbn [f_loc] in K. lia.
Qed.
Lemma total_branch : forall t l f sc sc' i, new_branch t l f sc = (sc', i) ->
  (total sc' <= total sc + cnt [PBranch t l])%nat.
Proof.
  intros t l f sc sc' i H. inversion H; subst. unfold total, table_places. cbn [sc_fc set_branches fc_fn_map fc_branch_map freeze].
  rewrite !cnt_app.
  pose proof (cnt_flat_insert _ branch_place (sc_b sc)
    (mkBranch (Some l) t [] (Some (line (rstart l)))) (fc_branch_map (sc_fc sc))) as K.
  unfold branch_place in K at 2. cbn [b_loc b_type] in K. lia.
Qed.
Lemma total_path : forall b r sc sc' i, add_branch_path b r sc = Ok (sc', i) -> total sc' = total sc.
Proof.
  intros b r sc sc' i H. unfold add_branch_path in H.
  apply bind_ok in H as [x1 [_ H]]. apply bind_ok in H as [x2 [_ H]]. apply bind_ok in H as [x3 [_ H]].
  inversion H; subst. unfold total, table_places. cbn [sc_fc set_branches fc_fn_map fc_branch_map freeze]. rewrite !cnt_app. f_equal.
  apply cnt_flat_update. reflexivity.
Qed.
Lemma total_freeze : forall sc, (total (freeze sc) <= total sc)%nat.
Proof.
  intros sc. unfold total, table_places, freeze. cbn [sc_fc set_branches fc_fn_map fc_branch_map freeze]. rewrite !cnt_app.
  pose proof (cnt_flat_retain _ branch_place (fun _ b => has_paths b) (fc_branch_map (sc_fc sc))). lia.
Qed.
Lemma total_mark : forall sp s, total (cov (mark_prepend_stmt_counter e sp s)) = total (cov s).
Proof. reflexivity. Qed.

(** ** Helpers *)
Lemma prepend_S1 : forall c b b', prepend_to_block c b = Some b' ->
  S1 b' = S1 b /\ nti b' = nti b /\ nspan b' = nspan b /\ is_none b' = is_none b.
Proof.
  intros c b b' H. unfold prepend_to_block in H.
  destruct (block_view b) as [[[[bi bsp] ssp] ss]|] eqn:Hv; [|discriminate]. inversion H; subst.
  apply block_view_inv in Hv. subst b. auto.
Qed.
Lemma create_fn_total : forall id fn s fn' s', create_fn_instrumentation e id fn s = Ok (fn', s') ->
  (total (cov s') <= total (cov s) + cnt (fn_site e fn))%nat /\ S1 fn' = S1 fn /\ nti fn' = nti fn.
Proof.
  intros id [k sp cs] s fn' s' H. unfold create_fn_instrumentation in H.
  destruct k; try discriminate. destruct cs as [|pa [|d [|bd [|ty [|? ?]]]]]; try discriminate.
  destruct (new_function _ _ _ _) as [c i] eqn:Hf. destruct (is_none bd) eqn:Hno; [discriminate|].
  destruct (prepend_to_block (CF i) bd) as [b'|] eqn:Hp; [|discriminate]. inversion H; subst.
  apply total_fn in Hf. apply prepend_S1 in Hp as (A & B & _).
  unfold fn_site, body_site. cbn [nkids cov set_cov]. rewrite Hno.
  split; [exact Hf|]. rewrite !S1_node, !SL_cons, A. cbn [own_sites nti]. split; [reflexivity|].
  cbn [no_tagged_init forallb init_kind]. now rewrite B.
Qed.
Lemma accessor_total : forall name sp s bd b' s', accessor_body e name sp s bd = Ok (b', s') ->
  (total (cov s') <= total (cov s) + cnt (body_site e bd))%nat /\ S1 b' = S1 bd /\ nti b' = nti bd.
Proof.
  intros name sp s bd b' s' H. unfold accessor_body in H. unfold body_site.
  destruct (is_none bd); [inversion H; subst; auto using Nat.le_add_r|].
  destruct (new_function _ _ _ _) as [c i] eqn:Hf.
  destruct (prepend_to_block (CF i) bd) as [b''|] eqn:Hp; [|discriminate]. inversion H; subst.
  apply total_fn in Hf. apply prepend_S1 in Hp as (A & B & _). auto.
Qed.
Lemma paren_seq_S1 : forall c x, S1 (paren_seq c x) = S1 x /\ nti (paren_seq c x) = nti x.
Proof.
  intros c x. unfold paren_seq, counter_expr, E, mk. rewrite !S1_node, !SL_cons, !S1_node. cbn.
  split; [|now rewrite !andb_true_r]. rewrite !app_nil_r. apply Nat.add_0_r.
Qed.
Lemma covered_total : forall x s x' s', covered e x s x' s' ->
  total (cov s') = total (cov s) /\ S1 x' = S1 x /\ nti x' = nti x.
Proof.
  intros x s x' s' (s1 & H1 & H2).
  assert (total (cov s1) = total (cov s)) by (destruct H1; subst; reflexivity).
  destruct H2 as [[-> H2]|[_ H2]]; [destruct H2; subst; auto|].
  unfold replace_expr_with_stmt_counter in H2. destruct (new_statement _ _) as [c i] eqn:Hs.
  inversion H2; subst. apply total_stmt in Hs. cbn [cov set_cov].
  split; [congruence|]. apply paren_seq_S1.
Qed.
Lemma replace_total : forall b x s x' s', replace_expr_with_branch_counter e x b s = Ok (x', s') ->
  total (cov s') = total (cov s) /\ S1 x' = S1 x /\ nti x' = nti x.
Proof.
  intros b x s x' s' H. unfold replace_expr_with_branch_counter in H.
  destruct (negb (is_expr x)); [discriminate|].
  apply bind_ok in H as [[c i] [Hp H]]. inversion H; subst. apply total_path in Hp.
  split; [exact Hp|]. apply paren_seq_S1.
Qed.
Lemma cond_arm_total : forall b x s x' s', cond_arm e b x s x' s' ->
  total (cov s') = total (cov s) /\ S1 x' = S1 x /\ nti x' = nti x.
Proof. intros b x s x' s' [[-> ->]|H]; [auto|eapply replace_total; eauto]. Qed.
Lemma block_last_total : forall cs cs', block_last cs = Some cs' ->
  SL cs' = SL cs /\ forallb nti cs' = forallb nti cs.
Proof.
  induction cs as [|c cs IH]; intros cs' H; [discriminate|].
  destruct cs as [|c2 cs].
  - simpl in H. unfold to_block in H. destruct (stmt_view c) as [[sp x]|] eqn:Hv; [|discriminate].
    apply stmt_view_inv in Hv. subst c.
    destruct (is_block x); inversion H; subst; [auto|].
    rewrite !SL_cons. unfold mk. rewrite !S1_node, !SL_cons, !S1_node, !SL_cons, !S1_node, !SL_cons, !SL_nil.
    rewrite !S1_node, !SL_cons, !SL_nil. cbn [own_sites cnt filter length].
    split; [unfold cnt; simpl; lia|]. cbn. now rewrite !andb_true_r.
  - change (option_map (cons c) (block_last (c2 :: cs)) = Some cs') in H.
    destruct (block_last (c2 :: cs)) as [r|] eqn:E; [|discriminate]. inversion H; subst.
    destruct (IH _ eq_refl) as [A B]. rewrite SL_cons, A, (SL_cons c (c2 :: cs)). split; [reflexivity|].
    cbn [forallb] in *. now rewrite B.
Qed.
Lemma nti_split : forall k sp cs, nti (Node k sp cs) = true ->
  (init_kind k = true -> match cs with _ :: v :: _ => is_tagged_tpl v = false | _ => True end) /\
  forallb nti cs = true.
Proof.
  intros k sp cs H. cbn [no_tagged_init] in H. apply andb_true_iff in H as [A B]. split; [|exact B].
  intros Hi. rewrite Hi in A. destruct cs as [|? [|v ?]]; auto. now apply negb_true_iff.
Qed.

Definition LV (t : node) (s s' : st) : Prop :=
  nti t = true -> (total (cov s') <= total (cov s) + S1 t)%nat.
Definition LK (ts : list node) (s s' : st) : Prop :=
  forallb nti ts = true -> (total (cov s') <= total (cov s) + SL ts)%nat.

Ltac rwst :=
  repeat match goal with
  | H : on_enter e _ _ _ = (_, _, _) |- _ =>
      let C := fresh "Hc" in apply on_enter_facts in H as (C & _)
  | H : on_enter_with_span e _ _ = (_, _, _) |- _ =>
      let C := fresh "Hc" in apply on_enter_with_span_facts in H as (C & _)
  end;
  cbn [cov before on_exit pop push set_ign set_cov spawn clear_before] in *.
Ltac gsplit :=
  repeat match goal with
  | H : forallb nti (_ :: _) = true |- _ => cbn [forallb] in H
  | H : _ && _ = true |- _ => apply andb_true_iff in H as [? ?]
  | H : nti (Node ?k ?sp ?cs) = true |- _ =>
      let N := fresh "Hn" in let G := fresh "Hg" in apply nti_split in H as [N G]
  | H : forallb nti (_ ++ _) = true |- _ => rewrite forallb_app in H
  end.
Ltac prem := solve [ assumption
  | cbn [no_tagged_init init_kind forallb]; rewrite ?andb_true_iff; repeat split; solve [assumption|reflexivity|congruence]
  | rewrite forallb_app; cbn [no_tagged_init init_kind forallb]; rewrite ?andb_true_iff; repeat split; solve [assumption|reflexivity|congruence]].
Ltac ih H := match type of H with _ -> (_ <= _)%nat => specialize (H ltac:(prem)) end.
Ltac rw_all := repeat first
  [ rewrite total_mark | rewrite S1_node | rewrite SL_cons | rewrite SL_app | rewrite SL_nil | rewrite S1_counter
  | match goal with H : context [S1 (Node _ _ _)] |- _ => rewrite S1_node in H end
  | match goal with H : context [SL (_ :: _)] |- _ => rewrite SL_cons in H end
  | match goal with H : context [SL (_ ++ _)] |- _ => rewrite SL_app in H end
  | match goal with H : context [SL []] |- _ => rewrite SL_nil in H end
  | match goal with H : context [S1 (counter_stmt _)] |- _ => rewrite S1_counter in H end
  | match goal with H : context [total (cov (mark_prepend_stmt_counter _ _ _))] |- _ => rewrite total_mark in H end ].
Ltac t := rw_all; repeat match goal with Hc : cov ?a = cov ?b |- _ => rewrite Hc in *; clear Hc end;
  cbn [own_sites nspan] in *; change (cnt []) with 0%nat in *; lia.

Theorem total_all :
  (forall v t s t' s', Vis e v t s t' s' -> LV t s s') /\
  (forall v cs s cs' s', Kids e v cs s cs' s' -> LK cs s s') /\
  (forall ss s ss' s', Ins e ss s ss' s' -> LK ss s s') /\
  (forall v b x s x' s', Wrap e v b x s x' s' -> LV x s s') /\
  (forall b r cur x s x' s', Arm e b r cur x s x' s' -> LV x s s') /\
  (forall xs s xs' s', Items e xs s xs' s' -> LK xs s s') /\
  (forall xs s xs' s', SItems e xs s xs' s' -> LK xs s s').
Proof.
  apply Vis_all_ind; unfold LV, LK; intros; rwst; gsplit.
  - ih H1. t.
  - t.
  - ih H1. t.
  - t.
  - ih H3. t.
  - ih H5. t.
  - ih H1. t.
  - (* V_fn *) destruct (create_fn_total _ _ _ _ _ H3) as (? & ? & ?). ih H5.
    assert (cnt (own_sites e k sp [key; fn]) = cnt (fn_site e fn)) by (destruct k; try discriminate; reflexivity).
    t.
  - (* V_accessor *) destruct (accessor_total _ _ _ _ _ _ H3) as (? & ? & ?). ih H5.
    assert (own_sites e k sp (pre ++ [body]) = body_site e body)
      by (destruct k; try discriminate; cbn [own_sites]; now rewrite rev_app_distr).
    rw_all. rewrite H12. t.
  - (* V_arrow_block *) apply total_fn in H2. ih H4. t.
  - (* V_arrow_expr *) apply total_fn in H2. ih H4. t.
  - (* V_init *) destruct (covered_total _ _ _ _ H3) as (? & ? & ?). ih H5. t.
  - (* V_init_tagged *)
    exfalso. specialize (Hn H0). unfold is_tagged_tpl in Hn. cbn [expr_view] in Hn.
    match goal with H : nkind tpl = _ |- _ => rewrite H in Hn end. discriminate.
  - (* V_loop *) destruct (block_last_total _ _ H3) as (? & ?). ih H5. t.
  - (* V_cond *)
    apply total_branch in H2.
    destruct (cond_arm_total _ _ _ _ _ H3) as (? & ? & ?). destruct (cond_arm_total _ _ _ _ _ H4) as (? & ? & ?).
    cbn [cov set_cov] in *. ih H6. t.
  - (* V_switch *) apply total_branch in H2. ih H4. t.
  - (* V_case *) apply total_path in H1. ih H3. t.
  - (* V_if *) apply total_branch in H2. ih H4. ih H6. ih H8. cbn [cov set_cov] in *. t.
  - (* V_with_block *) ih H3. t.
  - (* V_with_stmt *) ih H4. t.
  - (* V_bin *) ih H1. t.
  - (* V_logical_new *)
    unfold new_logical_branch in H3. destruct (new_branch _ _ _ _) as [c i] eqn:Hnb. inversion H3; subst.
    cbn [cov push set_cov] in *. apply total_branch in Hnb. ih H5. ih H7.
    rw_all. cbn [own_sites]. rewrite H0. t.
  - (* V_logical_inner *) ih H3. ih H5. t.
  - (* V_assign_pat *) apply total_branch in H2. ih H4. t.
  - (* V_module_items *)
    unfold get_coverage_templates in H3. inversion H3; subst. ih H2. cbn [cov set_cov] in *.
    pose proof (total_freeze (cov s1)). rewrite H5. clear H3. t.
  - (* V_script *)
    unfold get_coverage_templates in H1. inversion H1; subst. ih H0. cbn [cov set_cov] in *.
    pose proof (total_freeze (cov s1)). clear H1. t.
  - t.
  - ih H0. ih H2. t.
  - t.
  - ih H1. t.
  - ih H3. t.
  - ih H3. ih H5. t.
  - t.
  - ih H2. t.
  - apply total_path in H3. t.
  - destruct (replace_total _ _ _ _ _ H4) as (? & ? & ?). ih H3. t.
  - t.
  - apply total_path in H. ih H1. t.
  - apply total_path in H. t.
  - apply total_path in H0. ih H2. t.
  - t.
  - ih H1. t.
  - (* M_visit *)
    assert (total (cov s2) = total (cov s1)) by (destruct H1 as [->|[? ->]]; reflexivity).
    ih H3. ih H5. t.
  - t.
  - ih H0. ih H2. t.
Qed.
End Count.

(** In a program without tagged-template initialisers, the functions and branches recorded at a
    location are at most as many as the program has there. *)
Theorem one_entry_per_site_partial : forall e n path ism t t' c,
  instrument e n path ism t = Ok (t', c) -> no_tagged_init t = true ->
  forall p, (length (filter p (table_places (sc_fc c))) <= length (filter p (sites e t)))%nat.
Proof.
  intros e n path ism t t' c H Hn p. unfold instrument in H.
  apply bind_ok in H as [[t1 s] [H H1]]. inversion H1; subst. clear H1.
  unfold visit_program in H. destruct (should_ignore_file _ _ _).
  - inversion H; subst. cbn. lia.
  - apply bind_ok in H as [[t1 s2] [H H1]]. inversion H1; subst. clear H1. apply visit_sound in H.
    apply (proj1 (total_all e p)) in H. specialize (H Hn). unfold total, cnt, S1 in H. exact H.
Qed.

(** So if no two functions or branches of the program share a location, each has at most one entry. *)
Theorem entries_distinct_partial : forall e n path ism t t' c,
  instrument e n path ism t = Ok (t', c) -> no_tagged_init t = true ->
  NoDup (sites e t) -> NoDup (table_places (sc_fc c)).
Proof.
  intros e n path ism t t' c H Hn Hd.
  assert (Hdec : forall x y : place, {x = y} + {x <> y}) by (repeat decide equality).
  apply (NoDup_count_occ Hdec). intros x.
  assert (E : forall l, count_occ Hdec l x = length (filter (fun y => if Hdec y x then true else false) l)).
  { induction l as [|y l IH]; [reflexivity|]. cbn. destruct (Hdec y x); cbn; now rewrite IH. }
  rewrite E. pose proof (one_entry_per_site_partial _ _ _ _ _ _ _ H Hn (fun y => if Hdec y x then true else false)).
  pose proof (proj1 (NoDup_count_occ Hdec _) Hd x). rewrite E in *. lia.
Qed.

(** [const f = tag(() => {})`x`]: the arrow function in the tag is visited twice and gets two
    entries. *)
Definition ex_tagged_init : node :=
  module_ 1 60 [let_ 1 60 VConst [declarator 7 50 "f" (X 11 50 KTaggedTpl
    [X 11 40 (KOther 1) [X 15 30 KArrow [list_ []; block 21 30 []; mk KTs []]]; mk KTs []; mk (KOther 2) []])]].
Theorem tagged_init_registered_twice_refuted : exists e t t' c,
  instrument e 20 "f.js" None t = Ok (t', c) /\ NoDup (sites e t) /\
  table_places (sc_fc c) = [PFn (range_of e (mkSpan 21 30)); PFn (range_of e (mkSpan 21 30))].
Proof.
  exists plain_env, ex_tagged_init. eexists _, _. split; [vm_compute; reflexivity|]. split; [|reflexivity].
  repeat constructor. intros [].
Qed.

Example one_entry_ex :
  no_tagged_init ex_function = true /\ NoDup (sites plain_env ex_function) /\
  match instrument plain_env 20 "f.js" None ex_function with
  | Ok (_, c) => table_places (sc_fc c) = sites plain_env ex_function
  | _ => False end.
Proof.
  split; [reflexivity|]. split; [|vm_compute; reflexivity].
  vm_compute. repeat constructor; cbn; intros H; repeat (destruct H as [H|H]; [discriminate|]); destruct H.
Qed.
