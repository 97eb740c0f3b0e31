(** C40: directive prologues.  C42: initialisers whose value gets its name from the binding. *)
From Coq Require Import NArith String List Bool Lia PeanoNat.
Import ListNotations.
From Verif Require Import Base IndexMap Oxide SourceCov Hints Ast Visitor VisitorRel VisitorEx.
Open Scope N_scope.

(** A statement consisting of a string literal *)
Definition string_stmt (x : node) : Prop := exists sp1 sp2 sp3 sp4 text cs,
  x = Node KStmt sp1 [Node KExprStmt sp2 [Node KExpr sp3 [Node (KStr text) sp4 cs]]].
Definition is_string_stmt (x : node) : bool :=
  match x with
  | Node KStmt _ [Node KExprStmt _ [Node KExpr _ [Node (KStr _) _ _]]] => true
  | _ => false
  end.
(** The directives at the head of a statement list *)
Fixpoint prologue (l : list node) : list node :=
  match l with x :: l' => if is_string_stmt x then x :: prologue l' else [] | [] => [] end.

Lemma string_stmt_continue : forall x, string_stmt x -> directive_continue x = true.
Proof. intros x (sp1 & sp2 & sp3 & sp4 & text & cs & ->). reflexivity. Qed.

Lemma items_prologue : forall e rec ds items s out s', Forall string_stmt ds ->
  visit_items e rec (ds ++ items) s = Ok (out, s') ->
  exists out', visit_items e rec items s = Ok (out', s') /\ out = (ds ++ out')%list.
Proof.
  intros e rec ds. induction ds as [|d ds IH]; intros items s out s' F H; [eauto|].
  inversion F; subst. cbn [app visit_items] in H. rewrite string_stmt_continue in H by assumption.
  cbn [bind] in H. apply bind_ok in H as [[rest s2] [H1 H]]. inversion H; subst.
  apply IH in H1 as (o & A & ->); [|assumption]. exists o. auto.
Qed.

(** Module: the coverage function and its call are put behind the first element, so exactly the
    first directive keeps its place. *)
Theorem module_prologue_layout : forall e n sp d ds items s t' s',
  visit e (S n) VCov (Node KModuleItems sp (d :: ds ++ items)) s = Ok (t', s') ->
  Forall string_stmt (d :: ds) ->
  exists record rest, t' = Node KModuleItems sp
    (d :: mk KStmt [mk (KTemplateFn record) []] :: mk KStmt [mk KTemplateCall []] :: ds ++ rest).
Proof.
  intros e n sp d ds items s t' s' H F. cbn [visit visit_body visit_instr nkind] in H.
  unfold visit_module_items in H. cbn [nkids nkind nspan] in H.
  match type of H with context [visit_items e _ _ ?s0] => generalize dependent s0 end. intros s0 H.
  apply bind_ok in H as [[items' s1] [Hi H]].
  apply (items_prologue e _ (d :: ds)) in Hi as (out' & _ & ->); [|assumption].
  unfold get_coverage_templates in H. inversion H; subst. eexists _, out'. reflexivity.
Qed.

(** A prologue of at most one directive survives in a module. *)
Theorem module_single_directive_partial : forall e n sp d items s t' s',
  visit e (S n) VCov (Node KModuleItems sp (d :: items)) s = Ok (t', s') ->
  string_stmt d -> prologue (nkids t') = [d].
Proof.
  intros e n sp d items s t' s' H Hd.
  destruct (module_prologue_layout e n sp d [] items s t' s' H) as (r & rest & ->); [now constructor|].
  destruct Hd as (sp1 & sp2 & sp3 & sp4 & text & cs & ->). reflexivity.
Qed.

(** Script: the coverage function comes first, so no directive keeps its place. *)
Theorem script_layout : forall e n sp ssp body s t' s',
  visit e (S n) VCov (Node KScript sp [Node KStmts ssp body]) s = Ok (t', s') ->
  exists record rest, t' = Node KScript sp [Node KStmts ssp
    (mk KStmt [mk (KTemplateFn record) []] :: mk KStmt [mk KTemplateCall []] :: rest)].
Proof.
  intros e n sp ssp body s t' s' H. cbn [visit visit_body visit_instr nkind] in H.
  unfold visit_script in H. cbn [nkids nkind nspan] in H.
  cbn [stmts_view expect bind] in H. apply bind_ok in H as [[body' s1] [_ H]].
  unfold get_coverage_templates in H. inversion H; subst. eexists _, _. reflexivity.
Qed.

(** Function: the counter comes first. *)
Theorem function_layout : forall e ident sp params decorators bi bsp ssp ss types s fn' s',
  create_fn_instrumentation e ident
    (Node KFunction sp [params; decorators; Node (KBlock bi) bsp [Node KStmts ssp ss]; types]) s = Ok (fn', s') ->
  fn' = Node KFunction sp [params; decorators;
          Node (KBlock bi) bsp [Node KStmts ssp (counter_stmt (CF (sc_f (cov s))) :: ss)]; types].
Proof.
  intros e ident sp params decorators bi bsp ssp ss types s fn' s' H.
  unfold create_fn_instrumentation in H. cbn [is_none nkind prepend_to_block block_view stmts_view] in H.
  destruct (new_function _ _ _ _) as [c i] eqn:Hf. inversion Hf; subst. inversion H; subst. reflexivity.
Qed.

(** ["use strict"; "use client"; x;] *)
Definition str_stmt (a b : N) (text : string) : node := T a b KExprStmt [X a b (KStr text) []].
Definition ex_directives : list node :=
  [str_stmt 1 13 "use strict"; str_stmt 14 26 "use client"; T 30 32 KExprStmt [var 30 31 "x"]].
Definition list_of (r : res (node * source_cov)) : list node :=
  match r with Ok (Node _ _ [Node _ _ l], _) => l | _ => [] end.
(** [function f() { "use strict"; }] *)
Definition ex_strict_fn : node :=
  T 1 40 KFnDecl [at_ 10 11 (KIdent "f") []; fn_ 1 40 [] (block 15 40 [str_stmt 17 29 "use strict"])].
Definition fn_stmts (t : node) : list node :=
  match t with Node KStmt _ [Node KFnDecl _ [_; Node KFunction _ [_; _; Node (KBlock _) _ [Node KStmts _ l]; _]]] => l
  | _ => [] end.

Theorem prologue_displaced_refuted : exists ds f,
  length (prologue ds) = 2%nat /\
  prologue (list_of (instrument plain_env 20 "f.js" None (module_ 1 50 ds))) = firstn 1 ds /\
  prologue (list_of (instrument plain_env 20 "f.js" None (script_ 1 50 ds))) = [] /\
  length (prologue (fn_stmts f)) = 1%nat /\
  exists f', last (list_of (instrument plain_env 20 "f.js" None (script_ 1 50 [f]))) (mk KNone []) = f' /\
    nkind f' = KStmt /\ length (fn_stmts f') = 2%nat /\ prologue (fn_stmts f') = [].
Proof.
  exists ex_directives, ex_strict_fn. split; [reflexivity|]. split; [reflexivity|]. split; [reflexivity|].
  split; [reflexivity|]. eexists. split; [reflexivity|]. split; [|split]; reflexivity.
Qed.

(** ** C42 *)

(** A function, arrow or class expression: it gets a name when it stands directly in a binding. *)
Definition takes_name (x : node) : Prop := exists sp y, x = Node KExpr sp [y] /\
  (nkind y = KFnExpr \/ nkind y = KArrow \/ nkind y = KClassExpr).

Lemma vis_head : forall e v t s t' s', Vis e v t s t' s' -> nkind t' = nkind t /\ nspan t' = nspan t.
Proof. intros e v t s t' s' H. destruct H; auto. Qed.

Lemma kids_head : forall e v cs s cs' s', Kids e v cs s cs' s' ->
  Forall2 (fun c c' => nkind c' = nkind c /\ nspan c' = nspan c) cs cs'.
Proof.
  fix IH 7. intros e v cs s cs' s' H. destruct H; constructor.
  - eapply vis_head; eauto.
  - eapply IH; eauto.
Qed.

Lemma cover_takes_name : forall e rec v x s x' s', takes_name x -> hd_error (stack s) = Some NVarDeclarator ->
  cover_statement e rec v x s = Ok (x', s') -> x' = x.
Proof.
  intros e rec v x s x' s' (sp & y & -> & Hk) Hst H. unfold cover_statement in H.
  cbn [is_expr nkind negb] in H.
  assert (Ht : is_tagged_tpl (Node KExpr sp [y]) = false).
  { unfold is_tagged_tpl. cbn. destruct Hk as [-> | [-> | ->]]; reflexivity. }
  rewrite Ht in H. destruct (has_block _); [inversion H; subst; reflexivity|].
  assert (Hh : has_hoisting (Node KExpr sp [y]) = true).
  { unfold has_hoisting. destruct y as [k ysp ycs]. cbn [nkind] in Hk. cbn.
    destruct Hk as [-> | [-> | ->]]; reflexivity. }
  rewrite Hh in H.
  assert (Hs1 : forall b : bool, stack (if b then mark_prepend_stmt_counter e sp s else s) = stack s)
    by (intros []; reflexivity).
  cbn [nspan] in H. rewrite !Hs1 in H. destruct (stack s) as [|p stk] eqn:Es; [discriminate|].
  cbn [hd_error] in Hst. inversion Hst; subst p. cbn [andb] in H.
  destruct (nodes_get 3 (NVarDeclarator :: stk)) as [n3|] eqn:E3.
  - destruct (nodes_get 4 _) as [[]|]; inversion H; subst; reflexivity.
  - exfalso. unfold nodes_get in E3. cbn [length] in E3.
    destruct (3 <=? S (length stk))%nat eqn:El.
    + apply Nat.leb_le in El. apply nth_error_None in E3. cbn [length] in E3. lia.
    + apply nth_error_None in E3. cbn [length] in E3. lia.
Qed.

(** A declarator keeps a function, arrow or class initialiser directly in its place. *)
Theorem declarator_keeps_name : forall e n v sp name x s t' s', is_instr v = true ->
  visit e (S n) v (Node KVarDeclarator sp [name; x]) s = Ok (t', s') -> takes_name x ->
  exists name' x', t' = Node KVarDeclarator sp [name'; x'] /\ takes_name x' /\
    match nkids x, nkids x' with [y], [y'] => nkind y' = nkind y | _, _ => False end.
Proof.
  intros e n v sp name x s t' s' Hv H Hx.
  assert (H' : visit_initialized e (visit e n) NVarDeclarator v (Node KVarDeclarator sp [name; x]) s = Ok (t', s')).
  { destruct v; try discriminate; exact H. }
  clear H. unfold visit_initialized, enter_exit in H'.
  destruct (on_enter e NVarDeclarator _ s) as [[s1 old] cur] eqn:He.
  assert (Hst : hd_error (stack s1) = Some NVarDeclarator).
  { unfold on_enter, on_enter_with_span in He. cbn [ign push] in He.
    destruct (is_next (ign s)); inversion He; subst; reflexivity. }
  apply bind_ok in H' as [[t1 s2] [H H']]. inversion H'; subst. clear H'.
  destruct (is_next cur).
  - inversion H; subst. exists name, x. repeat split; auto.
    destruct Hx as (? & y & -> & _). reflexivity.
  - cbn [nkids] in H. assert (Hno : is_none x = false) by (destruct Hx as (? & ? & -> & _); reflexivity).
    rewrite Hno in H. apply bind_ok in H as [[x1 s3] [Hc H]].
    apply cover_takes_name in Hc; [|assumption|assumption]. subst x1.
    apply children_sound with (e := e) in H as [cs' [-> Hk]]; [|intros; eapply visit_sound; eauto].
    cbn [nkind nspan nkids] in Hk |- *.
    inversion Hk; subst. match goal with H : Kids _ _ [_] _ _ _ |- _ => inversion H; subst end.
    match goal with H : Kids _ _ [] _ _ _ |- _ => inversion H; subst end.
    match goal with H : Vis _ _ x _ _ _ |- _ => rename H into Hvx end.
    exists t', t'0. split; [reflexivity|].
    destruct Hx as (xsp & y & -> & Hy).
    assert (Hkx : exists y' sa sb, t'0 = Node KExpr xsp [y'] /\ Vis e v y sa y' sb).
    { inversion Hvx; subst; try discriminate;
      match goal with H : Kids _ _ [y] _ _ _ |- _ => inversion H; subst end;
      match goal with H : Kids _ _ [] _ _ _ |- _ => inversion H; subst end; eauto. }
    destruct Hkx as (y' & sa & sb & -> & Hy'). apply vis_head in Hy' as [Hyk _]. split.
    + exists xsp, y'. rewrite Hyk. auto.
    + cbn. exact Hyk.
Qed.

(** Class fields and default values are wrapped, so the inferred name is lost. *)
Definition arrow_ (a b : N) : node := X a b KArrow [list_ []; num (b - 1) b; mk KTs []].
Definition ex_class_field : node :=
  at_ 30 45 KClassProp [at_ 30 31 (KPropIdent "x") []; arrow_ 34 44; mk KTs []; list_ []].
Definition ex_default_arrow : node := at_ 30 45 KAssignPat [at_ 30 31 (KIdent "x") []; arrow_ 34 44].
Definition second (r : res (node * st)) : option node :=
  match r with Ok (t', _) => nth_error (nkids t') 1 | _ => None end.
Theorem field_and_default_lose_name_refuted : exists field default x,
  nth_error (nkids field) 1 = Some x /\ nth_error (nkids default) 1 = Some x /\ takes_name x /\
  (forall t, In t [field; default] -> exists x',
     second (visit plain_env 20 VCov t (init_state plain_env "f.js" None)) = Some x' /\ ~ takes_name x').
Proof.
  exists ex_class_field, ex_default_arrow, (arrow_ 34 44).
  split; [reflexivity|]. split; [reflexivity|]. split.
  { eexists _, _. split; [reflexivity|]. auto. }
  intros t [<-|[<-|[]]]; (eexists; split; [vm_compute; reflexivity|]);
    intros (sp & y & Hx & Hy); inversion Hx; subst y; destruct Hy as [Hy|[Hy|Hy]]; discriminate.
Qed.

(** [const f = () => 1] *)
Example declarator_keeps_name_ex :
  takes_name (arrow_ 34 44) /\
  match second (visit plain_env 20 VCov (declarator 30 45 "f" (arrow_ 34 44)) (init_state plain_env "f.js" None)) with
  | Some x' => nkind x' = KExpr /\ map nkind (nkids x') = [KArrow]
  | None => False end.
Proof. split; [eexists _, _; split; [reflexivity|]; auto|]. vm_compute. auto. Qed.
