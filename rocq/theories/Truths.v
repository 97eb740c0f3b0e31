(** The truthiness counters of [reportLogic] (C51): where they sit, what they count. *)
From Coq Require Import NArith ZArith String List Bool Lia PeanoNat.
Import ListNotations.
From Verif Require Import Base IndexMap Oxide SourceCov Hints Ast Visitor VisitorRel VisitorEx Erase Counting
  Sem SemErase SemProps Account Accurate.
From Verif Require JsHost.
Open Scope N_scope.

(** ** Where truthiness counters sit *)

(** An operand of a logical expression: the counter of the path, then the expression with the
    increment of the truthiness counter (macros/instrumentation_counter_helper.rs:150-207,
    instrument/create_increase_true_expr.rs:11-59) *)
Definition operand (b i : N) (x : node) : node :=
  E (mk KInjSeq [counter_expr (CB b i); increase_true_expr b i x]).

Definition is_truth (k : kind) : bool := match k with KCounter (CT _ _) => true | _ => false end.

(** Every truthiness counter belongs to an operand, beside the counter of the same path. *)
Inductive Tame : node -> Prop :=
| T_node : forall k sp cs, is_truth k = false -> TameL cs -> Tame (Node k sp cs)
| T_operand : forall b i x, Tame x -> Tame (operand b i x)
with TameL : list node -> Prop :=
| TL_nil : TameL []
| TL_cons : forall t ts, Tame t -> TameL ts -> TameL (t :: ts).
Scheme Tame_mut := Minimality for Tame Sort Prop
with TameL_mut := Minimality for TameL Sort Prop.
Combined Scheme Tame_all_ind from Tame_mut, TameL_mut.

Lemma TameL_app : forall a b, TameL (a ++ b) <-> TameL a /\ TameL b.
Proof.
  induction a as [|x a IH]; intros b.
  - cbn. split; [intros; split; [constructor|assumption]|tauto].
  - cbn [app]. split.
    + intros H. inversion H; subst. apply IH in H3 as [? ?]. split; [constructor; assumption|assumption].
    + intros [H K]. inversion H; subst. constructor; [assumption|]. apply IH. auto.
Qed.
Lemma TameL_in : forall l t, TameL l -> In t l -> Tame t.
Proof. intros l t H. induction H as [|x l Hx _ IH]; intros K; [contradiction|]. destruct K as [->|K]; auto. Qed.

(** A tagged template that is an initialiser is visited twice (F6), and so would be the code
    injected into it. *)
Definition tagged_init (k : kind) (cs : list node) : bool :=
  init_kind k && match cs with _ :: Node KExpr _ [Node KTaggedTpl _ _] :: _ => true | _ => false end.
Fixpoint once (t : node) : bool :=
  match t with Node k _ cs => negb (tagged_init k cs) && forallb once cs end.

Definition pre_node (k : kind) (cs : list node) : bool := negb (is_truth k) && negb (tagged_init k cs).
Fixpoint pre (t : node) : bool := match t with Node k _ cs => pre_node k cs && forallb pre cs end.
Lemma pre_inv : forall k sp cs, pre (Node k sp cs) = true ->
  is_truth k = false /\ tagged_init k cs = false /\ forallb pre cs = true.
Proof.
  intros k sp cs H. cbn [pre] in H. apply andb_true_iff in H as [H K]. unfold pre_node in H.
  apply andb_true_iff in H as [H1 H2]. apply negb_true_iff in H1, H2. auto.
Qed.
Lemma pre_intro : forall k sp cs, is_truth k = false -> tagged_init k cs = false -> forallb pre cs = true ->
  pre (Node k sp cs) = true.
Proof. intros k sp cs H K L. cbn [pre]. unfold pre_node. now rewrite H, K, L. Qed.
Lemma pre_tame : forall t, pre t = true -> Tame t.
Proof.
  induction t as [k sp cs IH] using node_ind'. intros H. apply pre_inv in H as (H & _ & K). constructor; [assumption|].
  clear H. induction IH as [|c cs Hh _ IHcs]; [constructor|]. cbn [forallb] in K.
  apply andb_true_iff in K as [K1 K2]. constructor; auto.
Qed.
Lemma pre_list_tame : forall l, forallb pre l = true -> TameL l.
Proof. induction l as [|t l IH]; intros H; [constructor|]. cbn [forallb] in H. apply andb_true_iff in H as [? ?]. constructor; auto using pre_tame. Qed.
Lemma clean_pre : forall t, clean t = true -> once t = true -> pre t = true.
Proof.
  induction t as [k sp cs IH] using node_ind'. intros H O.
  pose proof (clean_kind _ H) as Hk. cbn [nkind] in Hk.
  cbn [clean] in H. apply andb_true_iff in H as [_ H].
  cbn [once] in O. apply andb_true_iff in O as [O1 O2]. apply negb_true_iff in O1.
  apply pre_intro; [destruct k; try reflexivity; discriminate|assumption|]. clear Hk O1.
  induction IH as [|c cs Hh _ IHcs]; [reflexivity|]. cbn [forallb] in *.
  apply andb_true_iff in H as [? ?]. apply andb_true_iff in O2 as [? ?]. rewrite Hh, IHcs; auto.
Qed.

Lemma counter_stmt_pre : forall c, match c with CT _ _ => false | _ => true end = true -> pre (counter_stmt c) = true.
Proof. intros [] H; try discriminate; reflexivity. Qed.
Lemma sonly_tame : forall l, sonly l -> TameL l.
Proof. intros l H. induction H as [|x l (i & ->) _ IH]; [constructor|]. constructor; [|assumption]. now apply pre_tame. Qed.
Lemma sonly_pre : forall l, sonly l -> forallb pre l = true.
Proof. intros l H. induction H as [|x l (i & ->) _ IH]; [reflexivity|]. exact IH. Qed.
Lemma paren_seq_pre : forall c x, match c with CT _ _ => false | _ => true end = true -> pre x = true -> pre (paren_seq c x) = true.
Proof. intros [] x H K; try discriminate; cbn; rewrite K; reflexivity. Qed.

Section Visit.
Variable e : env.

Lemma covered_pre : forall x s x' s', covered e x s x' s' -> pre x = true -> pre x' = true.
Proof.
  intros x s x' s' (s1 & _ & [[-> _]|[_ H]]) K; [assumption|].
  unfold replace_expr_with_stmt_counter in H. destruct (new_statement _ _) as [c i]. inversion H; subst.
  now apply paren_seq_pre.
Qed.
Lemma replace_branch_shape : forall x b s x' s', replace_expr_with_branch_counter e x b s = Ok (x', s') ->
  exists i, x' = paren_seq (CB b i) x.
Proof.
  intros x b s x' s' H. unfold replace_expr_with_branch_counter in H.
  destruct (is_expr x); [|discriminate]. cbn [negb] in H. apply bind_ok in H as [[c i] [_ H]]. inversion H; subst. eauto.
Qed.
Lemma cond_arm_pre : forall b x s x' s', cond_arm e b x s x' s' -> pre x = true -> pre x' = true.
Proof.
  intros b x s x' s' [[-> _]|H] K; [assumption|]. apply replace_branch_shape in H as (i & ->). now apply paren_seq_pre.
Qed.
Lemma prepend_pre : forall c b b', match c with CT _ _ => false | _ => true end = true ->
  prepend_to_block c b = Some b' -> pre b = true -> pre b' = true.
Proof.
  intros c b b' Hc H K. unfold prepend_to_block in H.
  destruct (block_view b) as [[[[i bsp] ssp] ss]|] eqn:Hb; [|discriminate].
  apply block_view_inv in Hb. inversion H; subst. apply pre_inv in K as (_ & _ & K). cbn [forallb] in K.
  rewrite andb_true_r in K. apply pre_inv in K as (_ & _ & K).
  apply pre_intro; [reflexivity|reflexivity|]. cbn [forallb]. rewrite andb_true_r.
  apply pre_intro; [reflexivity|reflexivity|]. cbn [forallb]. now rewrite counter_stmt_pre.
Qed.
Lemma create_fn_pre : forall id fn s fn' s',
  create_fn_instrumentation e id fn s = Ok (fn', s') -> pre fn = true -> pre fn' = true.
Proof.
  intros id [k sp cs] s fn' s' H K. unfold create_fn_instrumentation in H.
  destruct k; try discriminate. destruct cs as [|p [|d [|b [|ty [|? ?]]]]]; try discriminate.
  destruct (new_function _ _ _ _) as [c i]. destruct (is_none b); [discriminate|].
  destruct (prepend_to_block (CF i) b) as [b'|] eqn:Hp; [|discriminate]. inversion H; subst.
  apply pre_inv in K as (_ & _ & K). cbn [forallb] in K. rewrite !andb_true_iff in K. destruct K as (K1 & K2 & K3 & K4 & _).
  apply pre_intro; [reflexivity|reflexivity|]. cbn [forallb]. rewrite K1, K2, K4, (prepend_pre (CF i) _ _ eq_refl Hp K3). reflexivity.
Qed.
Lemma accessor_pre : forall name sp s b b' s', accessor_body e name sp s b = Ok (b', s') -> pre b = true -> pre b' = true.
Proof.
  intros name sp s b b' s' H K. unfold accessor_body in H.
  destruct (is_none b); [inversion H; subst; auto|].
  destruct (new_function _ _ _ _) as [c i].
  destruct (prepend_to_block (CF i) b) as [b''|] eqn:Hp; [|discriminate]. inversion H; subst.
  now apply (prepend_pre (CF i) _ _ eq_refl Hp).
Qed.
Lemma block_last_pre : forall cs cs', block_last cs = Some cs' -> forallb pre cs = true -> forallb pre cs' = true.
Proof.
  induction cs as [|c cs IH]; intros cs' H K; [discriminate|]. cbn [forallb] in K. apply andb_true_iff in K as [K1 K2].
  destruct cs as [|c2 cs].
  - cbn [block_last] in H. unfold to_block in H. destruct (stmt_view c) as [[sp x]|] eqn:Hv; [|discriminate].
    destruct (is_block x); inversion H; subst; cbn [forallb]; [now rewrite K1|].
    rewrite !andb_true_r. unfold mk. repeat (apply pre_intro; [reflexivity|reflexivity|]; cbn [forallb]; rewrite ?andb_true_r).
    exact K1.
  - change (block_last (c :: c2 :: cs)) with (option_map (cons c) (block_last (c2 :: cs))) in H.
    destruct (block_last (c2 :: cs)) as [l|] eqn:Hl; [|discriminate]. inversion H; subst.
    cbn [forallb]. rewrite K1. now apply IH.
Qed.


Lemma mark_sonly' : forall sp s, sonly (before s) -> sonly (before (mark_prepend_stmt_counter e sp s)).
Proof. exact (mark_sonly e). Qed.

Definition TV (t : node) (s : st) (t' : node) (s' : st) : Prop :=
  pre t = true -> sonly (before s) -> Tame t' /\ sonly (before s').
Definition TK (cs : list node) (s : st) (cs' : list node) (s' : st) : Prop :=
  forallb pre cs = true -> sonly (before s) -> TameL cs' /\ sonly (before s').

Ltac pr := repeat match goal with
  | H : pre (Node _ _ _) = true |- _ => apply pre_inv in H as (? & ? & H)
  | H : forallb pre (_ :: _) = true |- _ => cbn [forallb] in H
  | H : forallb pre (_ ++ _) = true |- _ => rewrite forallb_app in H
  | H : (_ && _)%bool = true |- _ => apply andb_true_iff in H as [? ?]
  | H : forallb pre [] = true |- _ => clear H
  end.
Ltac bf := repeat match goal with
  | H : on_enter e _ _ _ = (_, _, _) |- _ =>
      let C := fresh "Hc" in let B := fresh "Hb" in apply (on_enter_facts e) in H as (C & B & _ & _)
  | H : on_enter_with_span e _ _ = (_, _, _) |- _ =>
      let C := fresh "Hc" in let B := fresh "Hb" in apply (on_enter_with_span_facts e) in H as (C & B & _ & _)
  | B : before ?s1 = before ?s, H : sonly (before ?s) |- _ =>
      let P := fresh "Hs" in assert (P : sonly (before s1)) by (rewrite B; exact H); clear B
  | H : covered e ?x ?s ?y ?s' |- _ =>
      let P := fresh "Hp" in let Q := fresh "Hq" in
      pose proof (covered_pre x s y s' H) as P; pose proof (proj2 (covered_facts e x s y s' H)) as Q; clear H
  | H : cond_arm e ?b ?x ?s ?y ?s' |- _ =>
      let P := fresh "Hp" in let Q := fresh "Hb" in
      pose proof (cond_arm_pre b x s y s' H) as P; pose proof (proj2 (cond_arm_facts e b x s y s' H)) as Q; clear H
  | H : create_fn_instrumentation e ?id ?f ?s = Ok (?f', ?s') |- _ =>
      let P := fresh "Hp" in let Q := fresh "Hb" in
      pose proof (create_fn_pre id f s f' s' H) as P; pose proof (proj2 (create_fn_facts e id f s f' s' H)) as Q; clear H
  | H : accessor_body e ?n ?sp ?s ?f = Ok (?f', ?s') |- _ =>
      let P := fresh "Hp" in let Q := fresh "Hb" in
      pose proof (accessor_pre n sp s f f' s' H) as P; pose proof (proj2 (accessor_facts e n sp s f f' s' H)) as Q; clear H
  | H : block_last _ = Some _ |- _ => apply block_last_pre in H; [|assumption]
  | H : new_logical_branch _ _ _ = _ |- _ =>
      unfold new_logical_branch in H; destruct (new_branch _ _ _ _); inversion H; subst; clear H
  | H : pre ?x = true -> pre _ = true, K : pre ?x = true |- _ => specialize (H K)
  | H : sonly (before ?x) -> sonly _, K : sonly (before ?x) |- _ => specialize (H K)
  end.
Ltac side := cbn [before on_exit pop push set_ign set_cov spawn clear_before forallb app]; rewrite ?forallb_app; cbn [forallb];
  repeat (apply andb_true_iff; split); auto using mark_sonly', sonly_nil, counter_stmt_pre.
Ltac go := repeat match goal with
  | H : TV ?t ?s ?t' ?s' |- _ =>
      let A := fresh "Ht" in let B := fresh "Hs" in
      assert (A : Tame t' /\ sonly (before s')) by (apply H; side); clear H; destruct A as [A B]
  | H : TK ?t ?s ?t' ?s' |- _ =>
      let A := fresh "Ht" in let B := fresh "Hs" in
      assert (A : TameL t' /\ sonly (before s')) by (apply H; side); clear H; destruct A as [A B]
  end.
Ltac norm := cbn [before on_exit pop push set_ign set_cov spawn clear_before] in *.

Lemma counter_stmt_tame : forall c, match c with CT _ _ => false | _ => true end = true -> Tame (counter_stmt c).
Proof. intros. now apply pre_tame, counter_stmt_pre. Qed.
Lemma templates_pre : forall s tpl call s', get_coverage_templates s = (tpl, call, s') -> Tame tpl /\ Tame call.
Proof.
  intros s tpl call s' H. unfold get_coverage_templates in H. inversion H; subst. split; apply pre_tame; reflexivity.
Qed.
Ltac tm := repeat match goal with
  | H : TameL ?l |- TameL ?l => exact H
  | H : Tame ?l |- Tame ?l => exact H
  | H : pre ?l = true |- Tame ?l => exact (pre_tame l H)
  | H : forallb pre ?l = true |- TameL ?l => exact (pre_list_tame l H)
  | |- Tame (counter_stmt _) => apply counter_stmt_tame; reflexivity
  | |- Tame (Node _ _ _) => apply T_node; [solve [assumption|reflexivity]|]
  | |- Tame (mk _ _) => apply T_node; [solve [assumption|reflexivity]|]
  | |- TameL (_ :: _) => apply TL_cons
  | |- TameL [] => apply TL_nil
  | |- TameL (_ ++ _) => apply TameL_app; split
  | H : sonly ?l |- TameL ?l => exact (sonly_tame l H)
  end.

Theorem tame_all :
  (forall v t s t' s', Vis e v t s t' s' -> TV t s t' s') /\
  (forall v cs s cs' s', Kids e v cs s cs' s' -> TK cs s cs' s') /\
  (forall ss s ss' s', Ins e ss s ss' s' -> TK ss s ss' s') /\
  (forall v b x s x' s', Wrap e v b x s x' s' -> TV x s x' s') /\
  (forall b r cur x s x' s', Arm e b r cur x s x' s' -> TV x s x' s') /\
  (forall xs s xs' s', Items e xs s xs' s' -> TK xs s xs' s') /\
  (forall xs s xs' s', SItems e xs s xs' s' -> TK xs s xs' s').
Proof.
  apply Vis_all_ind; intros; intros Hpre Hson; pr; norm; bf; norm; go; norm;
    try (split; [constructor; [assumption|now auto using pre_list_tame]|now auto]);
    try (split; [solve [tm]|solve [auto using mark_sonly']]).
  - (* V_init_tagged *) exfalso. destruct tpl as [kt st ct]. cbn [nkind] in *. subst kt.
    unfold tagged_init in *. match goal with H : init_kind k = true |- _ => rewrite H in * end. discriminate.
  - (* V_cond *) bf. go. split; [tm|assumption].
  - (* V_case *)
    match goal with H : TameL [_; _] |- _ => inversion H as [|? ? A B]; subst; inversion B as [|? ? C _]; subst end.
    inversion C; subst. split; [tm|assumption].
  - (* V_module_items *)
    match goal with H : get_coverage_templates _ = _ |- _ =>
      pose proof (templates_pre _ _ _ _ H) as [? ?]; apply templates_facts in H as (_ & _ & Hb) end.
    bf. split; [|assumption]. apply T_node; [assumption|]. subst out. destruct items' as [|i is]; [tm|].
    match goal with H : TameL (_ :: _) |- _ => inversion H; subst end. tm.
  - (* V_script *)
    match goal with H : get_coverage_templates _ = _ |- _ =>
      pose proof (templates_pre _ _ _ _ H) as [? ?]; apply templates_facts in H as (_ & _ & Hb) end.
    bf. split; [tm|assumption].
  - (* W_report *) split; [|assumption]. apply T_operand. now apply pre_tame.
  - (* W_leaf *)
    match goal with H : replace_expr_with_branch_counter _ _ _ _ = _ |- _ =>
      pose proof (replace_branch_shape _ _ _ _ _ H) as (i & ->); apply replace_branch_facts in H as [_ Hb] end.
    bf. split; [|assumption]. unfold paren_seq, counter_expr, E. tm.
  - (* M_visit *)
    assert (Hs2 : sonly (before s2)).
    { match goal with H : s2 = s1 \/ (exists esp, s2 = _) |- _ => destruct H as [->|[esp ->]] end; auto using mark_sonly'. }
    go. split; [tm|assumption].
Qed.
End Visit.

(** Every truthiness counter of the output belongs to an operand. *)
Theorem truths_in_operands : forall e n path ism t t' c,
  clean t = true -> once t = true -> instrument e n path ism t = Ok (t', c) -> Tame t'.
Proof.
  intros e n path ism t t' c Hc Ho H. unfold instrument in H.
  apply bind_ok in H as [[t1 s1] [Hv H]]. inversion H; subst. clear H.
  unfold visit_program in Hv. destruct (should_ignore_file _ _ _).
  { inversion Hv; subst. apply pre_tame. now apply clean_pre. }
  apply bind_ok in Hv as [[t1 s2] [Hv H]]. inversion H; subst. clear H.
  apply visit_sound in Hv. apply (proj1 (tame_all e)) in Hv. apply Hv; [now apply clean_pre|]. constructor.
Qed.

(** ** What they count *)

Section Run.
Variable h : host.
Variables b i : N.
Notation state := (state h).
Notation den := (den h).
Notation res := (completion (hV h) (hR h) * state)%type.

(** [k] more passes than truths, at least *)
Definition Ahead (k : nat) (s : state) : Prop :=
  (cn (CT b i) (cnt h s) + k <= cn (CB b i) (cnt h s))%nat /\ TameL (funs h s).

Lemma Ah_set_hs : forall k w s, Ahead k s -> Ahead k (set_hs h w s). Proof. auto. Qed.
Lemma Ah_set_tmp : forall k w s, Ahead k s -> Ahead k (set_tmp h w s). Proof. auto. Qed.
Lemma Ah_log : forall k sp ev s, Ahead k s -> Ahead k (log h sp ev s).
Proof. intros k sp ev s H. unfold log. destruct (_ && _); exact H. Qed.
Lemma Ah_add_fun : forall k t s, Tame t -> Ahead k s -> Ahead k (add_fun h t s).
Proof. intros k t s Ht [H K]. split; [exact H|]. apply TameL_app. split; [exact K|]. constructor; [assumption|constructor]. Qed.
Lemma Ah_tick : forall k c s, match c with CT _ _ => false | _ => true end = true -> Ahead k s -> Ahead k (tick h c s).
Proof.
  intros k c s Hc [H K]. split; [|exact K]. cbn [tick cnt]. rewrite !cn_cons. destruct c; try discriminate; cbn [counter_eqb]; try lia.
Qed.


Definition D (d : den) : Prop := forall k cx s, Ahead k s -> Ahead k (snd (d cx s)).

Lemma Ah_bindr : forall k (r : res) f, Ahead k (snd r) -> (forall v s, Ahead k s -> Ahead k (snd (f v s))) ->
  Ahead k (snd (bindr h r f)).
Proof. intros k [c s] f H K. unfold bindr. destruct c; try exact H. now apply K. Qed.
Lemma Ah_bindv : forall k (r : res) f, Ahead k (snd r) -> (forall v s, Ahead k s -> Ahead k (snd (f v s))) ->
  Ahead k (snd (bindv h r f)).
Proof. intros k r f H K. unfold bindv. apply Ah_bindr; [assumption|]. intros [v|r'] s Hs; [auto|exact Hs]. Qed.

Lemma tame_kids : forall k sp cs, Tame (Node k sp cs) -> is_expr (Node k sp cs) = false -> TameL cs.
Proof. intros k sp cs H K. inversion H; subst; [assumption|discriminate]. Qed.
Lemma TameL2 : forall x y, TameL [x; y] -> Tame x /\ Tame y.
Proof. intros x y H. split; apply (TameL_in _ _ H); cbn; auto. Qed.
Lemma fn_tame : forall t, Tame t -> TameL (map snd (fn_of t)).
Proof.
  intros t H. unfold fn_of.
  assert (G : forall d, Tame d -> TameL (map snd match d with
                   | Node KFnDecl _ [id; fn] => match nkind id with KIdent x => [(x, fn)] | _ => [] end
                   | _ => [] end)).
  { intros [k sp cs] Hd. destruct k; try constructor. destruct cs as [|id [|fn [|]]]; try constructor.
    destruct (nkind id); try constructor; [|constructor].
    apply tame_kids in Hd; [|reflexivity]. now apply TameL2 in Hd. }
  assert (P : forall k sp d, Tame (Node k sp [d]) -> is_expr (Node k sp [d]) = false -> Tame d).
  { intros k sp d Hd Hk. apply tame_kids in Hd; [|assumption]. apply (TameL_in _ _ Hd). now left. }
  destruct t as [k sp cs]. destruct k; try constructor; destruct cs as [|d [|]]; try constructor; cbn [decl_view].
  - destruct d as [k2 sp2 cs2]. destruct k2; try constructor. destruct cs2 as [|d2 [|]]; try constructor.
    apply G. apply P in H; [|reflexivity]. apply P in H; [assumption|reflexivity].
  - destruct d as [k2 sp2 cs2]. destruct k2; try constructor. destruct cs2 as [|d2 [|]]; constructor.
  - apply G. apply P in H; [assumption|reflexivity].
Qed.
Lemma fns_tame : forall ss, TameL ss -> TameL (map snd (fns_of ss)).
Proof.
  intros ss H. induction H as [|t ts Ht _ IH]; [constructor|]. rewrite fns_of_cons. apply TameL_app. auto using fn_tame.
Qed.
Lemma case_tame : forall t, Tame t -> TameL (case_stmts t).
Proof.
  intros [k sp cs] H. destruct k; try constructor. destruct cs as [|c1 [|[k2 sp2 ss] [|]]]; try constructor; destruct k2; try constructor.
  apply tame_kids in H; [|reflexivity]. apply TameL2 in H as [_ H]. now apply tame_kids in H.
Qed.
Lemma cases_tame : forall t, Tame t -> TameL (flat_map case_stmts (case_list t)).
Proof.
  intros [k sp cs] H. destruct k; try constructor. cbn [case_list]. apply tame_kids in H; [|reflexivity].
  induction H as [|c cs Hc _ IH]; [constructor|]. cbn [flat_map]. apply TameL_app. auto using case_tame.
Qed.

Section Fuel.
Variable call : nat -> hX h -> hV h -> state -> res.
Hypothesis Hcall : forall k f x v s, Ahead k s -> Ahead k (snd (call f x v s)).
Variable fuel : nat.

Lemma strat_ah : forall n k0 self cs ds k a s, (self_closable k0 = true -> Tame self) -> TameL cs ->
  Forall D ds -> Ahead k s -> Ahead k (snd (strat h call n k0 self cs ds a s)).
Proof.
  induction n as [|n IH]; intros k0 self cs ds k a s Hself Hcs Hds Hs.
  { cbn [strat]. destruct a; exact Hs. }
  assert (Hans : forall kk an s1, Ahead k s1 ->
    Ahead k (snd (let (a', w) := h_resume h kk an (hs h s1) in strat h call n k0 self cs ds a' (set_hs h w s1)))).
  { intros kk an s1 H1. destruct (h_resume h kk an (hs h s1)) as [a' w]. apply IH; auto. }
  cbn [strat]. destruct a as [c|j m x v kk|j kk|f x v kk].
  - exact Hs.
  - destruct (nth_error ds j) as [d|] eqn:Hd; [|exact Hs].
    apply nth_error_In in Hd. rewrite Forall_forall in Hds. specialize (Hds d Hd k (mkCtx h x m [] v) s Hs).
    destruct (d (mkCtx h x m [] v) s) as [c s1]. destruct (final h c); [exact Hds|]. now apply Hans.
  - assert (Hgo : forall code, Tame code -> Ahead k (snd
       (let (a', w) := h_resume h kk (AnsF (length (funs h s))) (hs h (add_fun h code s)) in
        strat h call n k0 self cs ds a' (set_hs h w (add_fun h code s))))).
    { intros code Hc. apply Hans. now apply Ah_add_fun. }
    destruct j as [j|].
    + destruct (closable k0 j); [|exact Hs]. destruct (nth_error cs j) as [c|] eqn:Hc; [|exact Hs].
      apply Hgo. apply nth_error_In in Hc. eapply TameL_in; eauto.
    + destruct (self_closable k0) eqn:Hk; [|exact Hs]. auto.
  - pose proof (Hcall k f x v s Hs) as H1. destruct (call f x v s) as [c s1]. destruct (final h c); [exact H1|]. now apply Hans.
Qed.
Lemma simple_ah : forall k a s, Ahead k s -> Ahead k (snd (simple h call fuel a s)).
Proof. intros k a s Hs. apply strat_ah; auto; [discriminate|constructor]. Qed.
Lemma getv_ah : forall k r s, Ahead k s -> Ahead k (snd (getv h call fuel r s)).
Proof.
  intros k [v|r] s Hs; [exact Hs|]. cbn [getv]. destruct (h_get h r (hs h s)) as [a w].
  apply Ah_bindr; [now apply simple_ah|]. intros [v|r'] s1 H1; exact H1.
Qed.
Lemma valued_ah : forall d, D d -> D (valued h call fuel d).
Proof. intros d Hd k cx s Hs. unfold valued. apply Ah_bindr; [now apply Hd|]. intros. now apply getv_ah. Qed.
Lemma opaque_ah : forall k0 sp cs ds k cx s, Tame (Node k0 sp cs) -> TameL cs -> Forall D ds -> Ahead k s ->
  Ahead k (snd (opaque h call fuel k0 sp cs ds cx s)).
Proof. intros. unfold opaque. destruct (h_start h k0 _ _ _ _ _ _) as [a w]. apply strat_ah; auto. Qed.
Lemma run_list_ah : forall ds, Forall D ds -> D (run_list h ds).
Proof.
  induction ds as [|d ds IH]; intros Hds k cx s Hs; [exact Hs|]. inversion Hds; subst.
  cbn [run_list]. apply Ah_bindr; [now apply H1|]. intros. now apply IH.
Qed.
Lemma seq_vals_ah : forall ds, Forall D ds -> D (seq_vals h call fuel ds).
Proof.
  induction ds as [|d ds IH]; intros Hds k cx s Hs; [exact Hs|]. inversion Hds; subst. specialize (IH H2).
  destruct ds as [|d2 ds]; [now apply valued_ah|]. change (Ahead k (snd (bindr h (valued h call fuel d cx s) (fun _ s1 => seq_vals h call fuel (d2 :: ds) cx s1)))).
  apply Ah_bindr; [now apply valued_ah|]. intros. now apply IH.
Qed.
Lemma hoist_ah : forall fs x k s, TameL (map snd fs) -> Ahead k s -> Ahead k (hoist h fs x s).
Proof.
  induction fs as [|[n c] fs IH]; intros x k s Hf Hs; [exact Hs|]. inversion Hf; subst.
  cbn [hoist]. apply IH; [assumption|]. apply Ah_set_hs. now apply Ah_add_fun.
Qed.
Lemma enter_block_ah : forall ds fs x k s, TameL (map snd fs) -> Ahead k s -> Ahead k (snd (enter_block h ds fs x s)).
Proof.
  intros ds fs x k s Hf Hs. unfold enter_block. destruct ds as [|p ds]; [now apply hoist_ah|].
  destruct (h_scope h [] (p :: ds) x (hs h s)) as [x1 w]. now apply hoist_ah.
Qed.
Lemma enter_fn_ah : forall a c x k s, Ahead k s -> Ahead k (snd (enter_fn h a c x s)).
Proof. intros. unfold enter_fn. destruct (h_scope _ _ _ _ _) as [x1 w]. assumption. Qed.
Lemma finish_ah : forall k r, Ahead k (snd r) -> Ahead k (snd (finish_fn h r)).
Proof. intros k [c s] H. destruct c; exact H. Qed.
Lemma sem_stmts_ah : forall cs ds, TameL cs -> Forall D ds -> D (sem_stmts h cs ds).
Proof.
  intros cs ds Hc Hds k cx s Hs. unfold sem_stmts.
  pose proof (enter_block_ah (lex_names cs) (fns_of cs) (cx_sc h cx) k s (fns_tame cs Hc) Hs) as H1.
  destruct (enter_block h _ _ _ s) as [x s1]. destruct (cx_mode h cx); now apply run_list_ah.
Qed.
Lemma sem_fn_ah : forall sp p bd db, match p with Some dp => D dp | None => True end -> D db ->
  D (sem_fn h call fuel sp p bd db).
Proof.
  intros sp p bd db Hp Hb k cx s Hs. unfold sem_fn.
  pose proof (enter_fn_ah (directives bd) (var_names bd) (cx_sc h cx) k s Hs) as H1.
  destruct (enter_fn h _ _ _ s) as [x s1]. cbn [snd] in H1.
  apply Ah_bindr.
  { destruct p; [now apply Hp|exact H1]. }
  intros v s2 H2. destruct (is_expr bd).
  - apply finish_ah, Ah_bindv; [|auto]. apply valued_ah; [assumption|]. now repeat apply Ah_log.
  - apply finish_ah, Hb. now apply Ah_log.
Qed.
Lemma loop_ah : forall n test update body ls per k,
  (forall d, test = Some d -> D d) -> (forall d, update = Some d -> D d) -> D body ->
  (forall x s, Ahead k s -> Ahead k (snd (per x s))) ->
  forall cx s, Ahead k s -> Ahead k (snd (loop h call fuel n test update body ls cx per s)).
Proof.
  induction n as [|n IH]; intros test update body ls per k Ht Hu Hb Hp cx s Hs; [exact Hs|].
  cbn [loop]. apply Ah_bindv.
  { destruct test as [d|]; [apply valued_ah; auto|exact Hs]. }
  intros v s1 H1. destruct (match test with Some _ => h_truthy h v | None => true end); [|exact H1].
  pose proof (Hb k (rd h cx) s1 H1) as H2. destruct (body (rd h cx) s1) as [c s2].
  destruct (goes_on h ls c); [|exact H2].
  pose proof (Hp (cx_sc h cx) s2 H2) as H3. destruct (per (cx_sc h cx) s2) as [x s3].
  apply Ah_bindr; [destruct update as [d|]; [apply valued_ah; auto|exact H3]|].
  intros. now apply IH.
Qed.
Lemma do_loop_ah : forall n test body ls k, D test -> D body ->
  forall cx s, Ahead k s -> Ahead k (snd (do_loop h call fuel n test body ls cx s)).
Proof.
  induction n as [|n IH]; intros test body ls k Ht Hb cx s Hs; [exact Hs|].
  cbn [do_loop]. pose proof (Hb k (rd h cx) s Hs) as H2. destruct (body (rd h cx) s) as [c s2].
  destruct (goes_on h ls c); [|exact H2].
  apply Ah_bindv; [now apply valued_ah|]. intros v s3 H3. destruct (h_truthy h v); [|exact H3]. now apply IH.
Qed.
Lemma opt_ah : forall t d d', D d -> opt h t d = Some d' -> D d'.
Proof. intros t d d' H K. unfold opt in K. destruct (is_none t); [discriminate|]. now inversion K; subst. Qed.
Lemma sem_for_ah : forall x1 x2 x3 di dt du db, D di -> D dt -> D du -> D db -> D (sem_for h call fuel x1 x2 x3 di dt du db).
Proof.
  intros x1 x2 x3 di dt du db Hi Ht Hu Hb k cx s Hs. unfold sem_for.
  pose proof (enter_block_ah (lex_decl x1) [] (cx_sc h cx) k s ltac:(constructor) Hs) as H1.
  destruct (enter_block h (lex_decl x1) [] (cx_sc h cx) s) as [x s1]. cbn [snd] in H1.
  apply Ah_bindr; [destruct (is_expr x1); [now apply valued_ah|now apply Hi]|].
  intros v s2 H2.
  set (per := match lex_decl x1 with [] => fun x s => (x, s) | _ => copy_scope h end).
  assert (Hper : forall x s, Ahead k s -> Ahead k (snd (per x s))).
  { intros x0 s0 H0. unfold per. destruct (lex_decl x1); [exact H0|]. unfold copy_scope. destruct (h_copy _ _ _). exact H0. }
  pose proof (Hper x s2 H2) as H3. destruct (per x s2) as [x4 s3].
  apply loop_ah; auto; intros d Hd; [exact (opt_ah _ _ _ Ht Hd)|exact (opt_ah _ _ _ Hu Hd)].
Qed.
Lemma find_case_ah : forall ds cx n k s, Forall D ds -> Ahead k s -> Ahead k (snd (find_case h ds cx n s)).
Proof.
  induction ds as [|d ds IH]; intros cx n k s Hds Hs; [exact Hs|]. inversion Hds; subst.
  cbn [find_case]. pose proof (H1 k (in_mode h MMatch (cx_in h cx) cx) s Hs) as K.
  destruct (d _ s) as [[] s1]; try exact K. now apply IH.
Qed.
Lemma sem_cases_ah : forall cs ds, Forall D ds -> D (sem_cases h cs ds).
Proof.
  intros cs ds Hds k cx s Hs. unfold sem_cases. pose proof (find_case_ah ds cx 0 k s Hds Hs) as H1.
  destruct (find_case h ds cx 0 s) as [[c|ht] s1]; [exact H1|]. cbn [snd] in H1.
  destruct (match ht with Some i => Some i | None => default_index cs 0 end) as [j|]; [|exact H1].
  apply run_list_ah; [|exact H1]. now apply Forall_skipn.
Qed.
Lemma sem_switch_ah : forall cases dd dc, Tame cases -> D dd -> D dc -> D (sem_switch h call fuel cases dd dc).
Proof.
  intros cases dd dc Hf Hd Hc k cx s Hs. unfold sem_switch. apply Ah_bindv; [now apply valued_ah|].
  intros v s1 H1.
  pose proof (enter_block_ah (lex_names (flat_map case_stmts (case_list cases))) _ (cx_sc h cx) k s1
    (fns_tame _ (cases_tame _ Hf)) H1) as H2.
  destruct (enter_block h _ _ _ s1) as [x s2]. pose proof (Hc k (mkCtx h x MSwitch [] v) s2 H2) as H3.
  destruct (dc _ s2) as [c s3]. exact H3.
Qed.
Lemma sem_try_ah : forall hd fin db dh df, D db -> D dh -> D df -> D (sem_try h hd fin db dh df).
Proof.
  intros hd fin db dh df Hb Hh Hf k cx s Hs. unfold sem_try.
  set (r := match db (rd h cx) s with
            | (CThrow v, s1) => if is_none hd then (CThrow v, s1) else dh (in_mode h (MBind VLet) v cx) s1
            | r => r end).
  assert (Hr : Ahead k (snd r)).
  { unfold r. pose proof (Hb k (rd h cx) s Hs) as H1. destruct (db (rd h cx) s) as [[] s1]; try exact H1.
    destruct (is_none hd); [exact H1|]. now apply Hh. }
  destruct (is_none fin || final h (fst r)); [exact Hr|]. apply Ah_bindr; [apply Hf; exact Hr|]. auto.
Qed.

Lemma sem_labeled_ah : forall l db, D db -> D (sem_labeled h l db).
Proof.
  intros l db Hd k cx s Hs. unfold sem_labeled. destruct (label_of l) as [x|]; [|exact Hs].
  pose proof (Hd k (mkCtx h (cx_sc h cx) MRead (x :: cx_labs h cx) (h_undef h)) s Hs) as H.
  destruct (db _ s) as [c s1]. destruct c as [| |[y|]| | | | |]; exact H.
Qed.
Ltac ah := repeat first
  [ assumption
  | match goal with
    | |- Ahead _ (snd (bindr _ _ _)) => apply Ah_bindr; [|intros ? ? ?]
    | |- Ahead _ (snd (bindv _ _ _)) => apply Ah_bindv; [|intros ? ? ?]
    | |- Ahead _ (snd (valued _ _ _ _ _ _)) => apply valued_ah
    | |- Ahead _ (snd (if ?c then _ else _)) => destruct c
    | |- Ahead _ (snd (_, _)) => cbn [snd]
    | |- Ahead _ (log _ _ _ _) => apply Ah_log
    | H : D ?d |- Ahead _ (snd (?d _ _)) => apply H
    end ].
Lemma sem_case_ah : forall sp t dt db, D dt -> D db -> D (sem_case h call fuel sp t dt db).
Proof. intros sp t dt db Ht Hb k cx s Hs. unfold sem_case. destruct (cx_mode h cx); try exact Hs; ah. Qed.
Lemma sem_declarator_ah : forall sp t dn di, D dn -> D di -> D (sem_declarator h call fuel sp t dn di).
Proof.
  intros sp t dn di Hn Hi k cx s Hs. unfold sem_declarator. destruct (is_none t); [|ah].
  destruct (cx_mode h cx) as [| |[]| | | | |]; ah.
Qed.
Lemma sem_logical_ah : forall op sp dl dr, D dl -> D dr -> D (sem_logical h call fuel op sp dl dr).
Proof. intros op sp dl dr Hl Hr k cx s Hs. unfold sem_logical. ah. Qed.
Lemma sem_cond_ah : forall sp dt dc da, D dt -> D dc -> D da -> D (sem_cond h call fuel sp dt dc da).
Proof. intros sp dt dc da Ht Hc Ha k cx s Hs. unfold sem_cond. ah. Qed.
Lemma sem_if_ah : forall sp a dt dc da, D dt -> D dc -> D da -> D (sem_if h call fuel sp a dt dc da).
Proof. intros sp a dt dc da Ht Hc Ha k cx s Hs. unfold sem_if. ah. Qed.
Lemma sem_assign_ah : forall sp dl dr, D dl -> D dr -> D (sem_assign_pat h call fuel sp dl dr).
Proof. intros sp dl dr Hl Hr k cx s Hs. unfold sem_assign_pat. ah. Qed.
Lemma sem_with_ah : forall dobj db, D dobj -> D db -> D (sem_with h call fuel dobj db).
Proof.
  intros dobj db Ho Hb k cx s Hs. unfold sem_with. ah. destruct (h_with h _ _ _) as [[ex|x] w]; [assumption|]. ah.
Qed.
Lemma iter_dens_ah : forall ds, Forall D ds -> Forall D (iter_dens h ds).
Proof.
  intros ds H. destruct ds as [|a [|c [|d [|]]]]; cbn [iter_dens]; try constructor.
  - now inversion H.
  - inversion H; subst. inversion H3; subst. inversion H5; subst.
    repeat (apply Forall_cons; [try assumption|]); [|apply Forall_nil]. intros k cx s Hs. now apply H6.
Qed.
Lemma field_dens_ah : forall sp ds, Forall D ds -> Forall D (field_dens h call fuel sp ds).
Proof.
  intros sp ds H. destruct ds as [|a [|c ds]]; cbn [field_dens]; try assumption.
  inversion H; subst. inversion H3; subst. repeat (apply Forall_cons; [try assumption|]); [|assumption].
  intros k cx s Hs. unfold field_init. ah.
Qed.

Notation evl := (ev h call fuel).

(** A node that is not a truthiness counter keeps what its children keep. *)
Lemma node_ah : forall k0 sp cs, is_truth k0 = false -> TameL cs -> Forall D (map evl cs) -> D (evl (Node k0 sp cs)).
Proof.
  intros k0 sp cs Hk Hcs Hds k cx s Hs.
  assert (Hself : Tame (Node k0 sp cs)) by now constructor.
  assert (Hst : Ahead k (log h sp (EStmt sp) s)) by now apply Ah_log.
  change (evl (Node k0 sp cs)) with (sem h call fuel k0 sp cs (map evl cs)).
  assert (Hop : forall ds s, Forall D ds -> Ahead k s -> Ahead k (snd (opaque h call fuel k0 sp cs ds cx s)))
    by (intros; now apply opaque_ah).
  unfold sem.
  destruct k0; try discriminate Hk; try exact Hs; try (apply Hop; assumption); try (now apply seq_vals_ah); try (now apply sem_stmts_ah).
  all: try (destruct (cx_mode h cx); solve [exact Hs|apply Hop; assumption|now apply run_list_ah|now apply sem_cases_ah]).
  all: try (destruct (is_logical_op op); [|apply Hop; assumption]).
  all: try (apply Hop; [first [now apply iter_dens_ah|now apply field_dens_ah]|assumption]).
  all: destruct cs as [|c1 [|c2 [|c3 [|c4 [|c5 cs]]]]]; cbn [map] in *; try exact Hs; try exact Hst;
    repeat match goal with K : Forall D (_ :: _) |- _ => inversion K; clear K; subst end;
    repeat match goal with K : Forall D [] |- _ => clear K end.
  all: try solve [ah].
  all: try solve [now apply sem_try_ah|now apply sem_labeled_ah|now apply sem_for_ah|now apply do_loop_ah|now apply sem_with_ah
    |now apply sem_case_ah|now apply sem_declarator_ah|now apply sem_if_ah|now apply sem_cond_ah|now apply sem_logical_ah
    |now apply sem_assign_ah].
  all: try (match goal with |- context [enter_fn h ?a ?v ?x ?s] =>
      let Q := fresh "Q" in pose proof (enter_fn_ah a v x k s Hs) as Q; destruct (enter_fn h a v x s) as [? ?]; cbn [snd] in Q end; solve [ah]).
  all: try (apply Ah_tick; [destruct c; try reflexivity; discriminate|assumption]).
  all: try (destruct (h_test h n (tmp h s) (cx_sc h cx) (hs h s)) as [a w]; now apply simple_ah).
  all: try (destruct (cx_mode h cx); solve [exact Hs|ah|now apply sem_fn_ah|apply Hop; [auto|assumption]]).
  - apply loop_ah; auto; intros d Hd; inversion Hd; subst; assumption.
  - apply sem_switch_ah; auto. apply (TameL_in _ _ Hcs). now right; left.
Qed.

Lemma nodes_ah : forall k0 cs, is_truth k0 = false -> TameL cs -> Forall D (map evl cs) -> D (evl (E (mk k0 cs))).
Proof.
  intros k0 cs H K L. apply node_ah; [reflexivity| |].
  - constructor; [now constructor|constructor].
  - constructor; [|constructor]. now apply node_ah.
Qed.
Lemma leaf_ah : forall k0, is_truth k0 = false -> D (evl (E (mk k0 []))).
Proof. intros k0 H. apply nodes_ah; [assumption|constructor|constructor]. Qed.
Lemma validate_ah : D (evl validate_true_non_trivial).
Proof.
  assert (L : forall k0, is_truth k0 = false -> D (evl (E (mk k0 [])))) by exact leaf_ah.
  unfold validate_true_non_trivial.
  repeat match goal with
  | |- D (evl (E (mk _ []))) => apply L; reflexivity
  | |- D (evl (E (mk _ (_ :: _)))) => apply nodes_ah; [reflexivity|repeat constructor|cbn [map]; repeat apply Forall_cons; try apply Forall_nil]
  end.
Qed.

Lemma Ah_less : forall k j s, (j <= k)%nat -> Ahead k s -> Ahead j s.
Proof. intros k j s H [A B]. split; [lia|exact B]. Qed.
Lemma Ah_pass : forall k b0 i0 s, Ahead k s ->
  Ahead (if counter_eqb (CB b i) (CB b0 i0) then S k else k) (tick h (CB b0 i0) s).
Proof.
  intros k b0 i0 s [H K]. split; [|exact K]. cbn [tick cnt]. rewrite !cn_cons. cbn [counter_eqb].
  destruct ((b =? b0) && (i =? i0)); lia.
Qed.
Lemma Ah_truth : forall k b0 i0 s, Ahead (if counter_eqb (CB b i) (CB b0 i0) then S k else k) s ->
  Ahead k (tick h (CT b0 i0) s).
Proof.
  intros k b0 i0 s [H K]. split; [|exact K]. cbn [tick cnt]. rewrite !cn_cons. cbn [counter_eqb] in *.
  destruct ((b =? b0) && (i =? i0)); lia.
Qed.

Lemma operand_ah : forall b0 i0 x, D (evl x) -> D (evl (operand b0 i0 x)).
Proof.
  intros b0 i0 x Hx k cx s Hs.
  set (inc := increase_true_expr b0 i0 x).
  change (Ahead k (snd (valued h call fuel (evl inc) cx (tick h (CB b0 i0) s)))).
  pose proof (Ah_pass k b0 i0 s Hs) as H1. revert H1. generalize (tick h (CB b0 i0) s). clear s Hs. intros s Hs.
  set (k1 := if counter_eqb (CB b i) (CB b0 i0) then S k else k) in *.
  assert (Hle : (k <= k1)%nat) by (unfold k1; destruct (counter_eqb _ _); lia).
  set (cnd := E (mk KInjParen [E (mk KCond [validate_true_non_trivial; counter_expr (CT b0 i0); E (mk KNullLit [])])])).
  assert (Hc : forall cx s, Ahead k1 s -> Ahead k (snd (valued h call fuel (evl cnd) cx s))).
  { intros cx0 s0 H0. unfold valued. apply Ah_bindr; [|intros; now apply getv_ah].
    change (evl cnd (rd h cx0) s0) with
      (sem_cond h call fuel dummy_span (evl validate_true_non_trivial) (evl (counter_expr (CT b0 i0)))
         (evl (E (mk KNullLit []))) (rd h cx0) s0).
    unfold sem_cond. unfold bindv.
    pose proof (valued_ah _ validate_ah k1 (rd h cx0) s0 H0) as H2.
    destruct (valued h call fuel (evl validate_true_non_trivial) (rd h cx0) s0) as [c s1]. cbn [snd] in H2.
    assert (H3 : Ahead k s1) by (eapply Ah_less; eauto).
    destruct c as [[v|r]| | | | | | |]; try exact H3. unfold bindr. cbn [fst snd].
    destruct (h_truthy h v).
    - change (Ahead k (tick h (CT b0 i0) s1)). now apply Ah_truth.
    - exact H3. }
  unfold valued at 1. apply Ah_bindr; [|intros; now apply getv_ah].
  change (evl inc (rd h cx) s) with
    (bindr h (valued h call fuel (fun cx s => bindv h (valued h call fuel (evl x) cx s)
                (fun v s1 => (CNorm (RVal v), set_tmp h v s1))) (rd h cx) s)
       (fun _ s1 => bindr h (valued h call fuel (evl cnd) (rd h cx) s1)
          (fun _ s2 => (CNorm (RVal (tmp h s2)), s2)))).
  assert (Ha : Ahead k1 (snd (valued h call fuel (fun cx s => bindv h (valued h call fuel (evl x) cx s)
                (fun v s1 => (CNorm (RVal v), set_tmp h v s1))) (rd h cx) s))).
  { apply valued_ah; [|assumption]. intros k2 cx2 s2 H2. apply Ah_bindv; [now apply valued_ah|]. intros v s3 H3. exact H3. }
  destruct (valued h call fuel (fun cx s => bindv h (valued h call fuel (evl x) cx s)
                (fun v s1 => (CNorm (RVal v), set_tmp h v s1))) (rd h cx) s) as [c s1]. cbn [snd] in Ha.
  assert (H3 : Ahead k s1) by (eapply Ah_less; eauto).
  destruct c as [r| | | | | | |]; try exact H3. unfold bindr at 1. cbn [fst snd].
  apply Ah_bindr; [now apply Hc|]. intros v s2 H2. exact H2.
Qed.

Theorem tame_ah : (forall t, Tame t -> D (evl t)) /\ (forall ts, TameL ts -> Forall D (map evl ts)).
Proof.
  apply Tame_all_ind.
  - intros k0 sp cs Hk Hcs IH. now apply node_ah.
  - intros b0 i0 x Hx IH. now apply operand_ah.
  - constructor.
  - intros t ts _ IH _ IHs. now constructor.
Qed.
End Fuel.

Lemma run_ah : forall n t, Tame t -> D (run h n t).
Proof.
  induction n as [|n IH]; intros t Ht k cx s Hs; cbn [run].
  - apply tame_ah; auto.
  - apply tame_ah; auto. intros k0 f x v s0 H0. cbn beta.
    destruct (nth_error (funs h s0) f) as [code|] eqn:Hf; [|exact H0].
    apply IH; [|assumption]. apply nth_error_In in Hf. exact (TameL_in _ _ (proj2 H0) Hf).
Qed.
End Run.

(** In every run of the output, every truthiness counter is at most the counter of its path. *)
Theorem truths_at_most_passes : forall e n path ism t t' c,
  clean t = true -> once t = true -> instrument e n path ism t = Ok (t', c) ->
  forall h fuel x w b i,
    (count_occ counter_dec (cnt h (snd (run_program h fuel t' x w))) (CT b i) <=
     count_occ counter_dec (cnt h (snd (run_program h fuel t' x w))) (CB b i))%nat.
Proof.
  intros e n path ism t t' c Hc Ho H h fuel x w b i. rewrite <- !cn_count.
  pose proof (truths_in_operands e n path ism t t' c Hc Ho H) as Ht.
  unfold run_program.
  destruct (run_ah h b i fuel t' Ht 0%nat (mkCtx h x MRead [] (h_undef h)) (mkState h w [] [] [] (h_undef h))) as [A _].
  { split; [cbn; lia|constructor]. }
  lia.
Qed.

(** What one evaluation of an operand does: the expression is evaluated once, after the path is
    counted; the value comes out unchanged; the truthiness counter is incremented exactly if the
    value is truthy, not an empty array and not an empty plain object.  The four tests are
    [!Array.isArray(v)], [v.length], [Object.getPrototypeOf(v) !== Object.prototype] and
    [Object.values(v).length] (create_increase_true_expr.rs:61-189).  An exception or other
    abrupt end of the expression skips the increment. *)
Theorem operand_counts : forall h call fuel b i x cx s c s1,
  valued h call fuel (ev h call fuel x) cx (tick h (CB b i) s) = (c, s1) ->
  match c with
  | CNorm (RVal v) =>
      forall test : N -> hV h,
      (forall n, n < 4 -> h_test h n v (cx_sc h cx) (hs h s1) = (ADone (CNorm (RVal (test n))), hs h s1)) ->
      ev h call fuel (operand b i x) cx s =
      (CNorm (RVal v),
       if h_truthy h v && (h_truthy h (test 0) || h_truthy h (test 1)) && (h_truthy h (test 2) || h_truthy h (test 3))
       then tick h (CT b i) (set_tmp h v s1) else set_tmp h v s1)
  | CNorm (RRef _) => False
  | c => ev h call fuel (operand b i x) cx s = (c, s1)
  end.
Proof.
  intros h call fuel b i x cx s c s1 H.
  set (evl := ev h call fuel) in *.
  set (inc := increase_true_expr b i x).
  set (cnd := E (mk KInjParen [E (mk KCond [validate_true_non_trivial; counter_expr (CT b i); E (mk KNullLit [])])])).
  assert (He : evl (operand b i x) cx s = valued h call fuel (evl inc) cx (tick h (CB b i) s)) by reflexivity.
  assert (Hi : forall s, valued h call fuel (evl inc) cx s = bindr h
    (bindr h (valued h call fuel (fun cx s => bindv h (valued h call fuel (evl x) cx s)
                (fun v s1 => (CNorm (RVal v), set_tmp h v s1))) (rd h cx) s)
       (fun _ s1 => bindr h (valued h call fuel (evl cnd) (rd h cx) s1)
          (fun _ s2 => (CNorm (RVal (tmp h s2)), s2)))) (getv h call fuel)) by reflexivity.
  rewrite He, Hi, assign_val. clear He Hi. rewrite H. clear inc.
  destruct c as [[v|r]| | | | | | | ]; try reflexivity.
  2:{ unfold valued, bindr in H. destruct (evl x (rd h cx) (tick h (CB b i) s)) as [c0 s0]. cbn [fst snd] in H.
      destruct c0; try discriminate. apply getv_val in H as [v Hv]. discriminate. }
  intros test Ht. clear H s.
  set (s := set_tmp h v s1).
  assert (T : forall n cx0, n < 4 -> cx_sc h cx0 = cx_sc h cx ->
    valued h call fuel (evl (E (mk (KTempTest n) []))) cx0 s = (CNorm (RVal (test n)), s)).
  { intros n cx0 Hn Hcx. unfold valued.
    assert (Hev : evl (E (mk (KTempTest n) [])) (rd h cx0) s =
      (let (a, w) := h_test h n v (cx_sc h cx0) (hs h s1) in simple h call fuel a (set_hs h w s))) by reflexivity.
    rewrite Hev, Hcx, (Ht n Hn). unfold simple.
    assert (Hs : set_hs h (hs h s1) s = s) by (unfold s; now destruct s1). rewrite Hs.
    destruct fuel; reflexivity. }
  assert (B : forall op y z r u cx0, is_logical_op op = true ->
    valued h call fuel (evl y) (rd h cx0) s = (CNorm (RVal r), s) ->
    valued h call fuel (evl z) (rd h cx0) s = (CNorm (RVal u), s) ->
    valued h call fuel (evl (E (mk (KBin op) [y; z]))) cx0 s = (CNorm (RVal (if stop_left h op r then r else u)), s)).
  { intros op y z r u cx0 Hop Hy Hz. unfold valued at 1.
    assert (Hev : evl (E (mk (KBin op) [y; z])) (rd h cx0) s =
      if is_logical_op op then sem_logical h call fuel op dummy_span (evl y) (evl z) (rd h cx0) s
      else opaque h call fuel (KBin op) dummy_span [y; z] [evl y; evl z] (rd h cx0) s) by reflexivity.
    rewrite Hev, Hop. unfold sem_logical. change (log h dummy_span (EOper dummy_span false) s) with s.
    rewrite Hy. unfold bindv, bindr at 2. cbn [fst snd].
    destruct (stop_left h op r); [reflexivity|].
    change (log h dummy_span (EOper dummy_span true) s) with s. rewrite Hz. reflexivity. }
  assert (P : forall y cx0, valued h call fuel (evl (E (mk KParen [y]))) cx0 s = valued h call fuel (evl y) cx0 s) by reflexivity.
  assert (V : exists u, valued h call fuel (evl validate_true_non_trivial) (rd h cx) s = (CNorm (RVal u), s) /\
    h_truthy h u = h_truthy h v && ((h_truthy h (test 0) || h_truthy h (test 1)) && (h_truthy h (test 2) || h_truthy h (test 3)))).
  { eexists. split.
    - unfold validate_true_non_trivial. apply B; [reflexivity|reflexivity|].
      apply B; [reflexivity| |]; rewrite P; (apply B; [reflexivity| |]); apply T; solve [lia|reflexivity].
    - assert (A1 : forall r u, h_truthy h (if stop_left h OpAnd r then r else u) = h_truthy h r && h_truthy h u).
      { intros r u. cbn [stop_left]. destruct (h_truthy h r) eqn:Er; cbn [negb]; [reflexivity|now rewrite Er]. }
      assert (O1 : forall r u, h_truthy h (if stop_left h OpOr r then r else u) = h_truthy h r || h_truthy h u).
      { intros r u. cbn [stop_left]. destruct (h_truthy h r) eqn:Er; [now rewrite Er|reflexivity]. }
      rewrite A1, A1, O1, O1. reflexivity. }
  destruct V as (u & V & Hu).
  unfold bindv, bindr at 3. cbn [fst snd]. unfold bindr at 2. cbn [fst snd]. fold s.
  assert (C : valued h call fuel (evl cnd) (rd h cx) s =
    (if h_truthy h u then (uv h, tick h (CT b i) s) else (uv h, s))).
  { unfold valued at 1.
    assert (Hev : evl cnd (rd h (rd h cx)) s =
      sem_cond h call fuel dummy_span (evl validate_true_non_trivial) (evl (counter_expr (CT b i)))
         (evl (E (mk KNullLit []))) (rd h cx) s) by reflexivity.
    rewrite Hev. unfold sem_cond. rewrite V. unfold bindv, bindr at 2. cbn [fst snd].
    destruct (h_truthy h u); reflexivity. }
  rewrite C, Hu, andb_assoc.
  destruct (h_truthy h v && (h_truthy h (test 0) || h_truthy h (test 1)) && (h_truthy h (test 2) || h_truthy h (test 3))); reflexivity.
Qed.

(** ** Examples *)

(** [ex_calls] of [SemProps], with [reportLogic]: [a || 7] is evaluated once, with [a = 0]. *)
Example truths_ex :
  clean ex_calls && once ex_calls = true /\
  match instrument logic_env 40 "f.js" None ex_calls with
  | Ok (t', _) =>
      map (count_occ counter_dec (cnt _ (snd (run_program pure_toy 9 t' tt w0)))) [CB 1 0; CT 1 0; CB 1 1; CT 1 1] =
      [1%nat; 0%nat; 1%nat; 1%nat]
  | _ => False
  end.
Proof. split; [reflexivity|]. vm_compute. reflexivity. Qed.

(** Which values tell: the number 7, a non-empty array; not 0, the empty array or [{}] *)
Definition telling (l : JsHost.lit) : option (list counter) :=
  let w := JsHost.world0 l in
  match ev JsHost.js (fun _ _ _ s => (CStuck, s)) 9 (operand 4 1 (E (mk (KIdent "args") [])))
          (mkCtx JsHost.js 0%nat MRead [] JsHost.VUndef) (mkState JsHost.js w [] [] [] JsHost.VUndef) with
  | (CNorm (RVal v), s) => if JsHost.looks l v w || match l with JsHost.LObj _ => true | _ => false end then Some (cnt JsHost.js s) else None
  | _ => None
  end.
Example operand_ex :
  map telling [JsHost.LNum 7%Z; JsHost.LNum 0%Z; JsHost.LArr [JsHost.LNum 0%Z]; JsHost.LArr []; JsHost.LObj [];
               JsHost.LObj [("a"%string, JsHost.LNum 0%Z)]; JsHost.LStr ""] =
  [Some [CT 4 1; CB 4 1]; Some [CB 4 1]; Some [CT 4 1; CB 4 1]; Some [CB 4 1]; Some [CB 4 1];
   Some [CT 4 1; CB 4 1]; Some [CB 4 1]].
Proof. vm_compute. reflexivity. Qed.
