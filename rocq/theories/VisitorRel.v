(** The visitor as a relation: one constructor per way a hook can return.  [visit] is
    sound for it ([visit_sound]); the properties of the instrumenter are proved by
    induction over the relation.  The relation may allow more than the function (for
    instance it forgets which comment made a hook skip a node): it is a proof device,
    not a second model. *)
From Coq Require Import NArith String List Bool Lia PeanoNat.
Import ListNotations.
From Verif Require Import Base IndexMap Oxide SourceCov Hints Ast Visitor.
Open Scope N_scope.

Definition is_instr (v : vis) : bool := match v with VLogical _ => false | _ => true end.

(** Kinds without a hook in the instrumenting visitors. *)
Definition plain_kind (v : vis) (k : kind) : bool :=
  match k with
  | KModule | KModuleDecl | KStmt | KExpr | KList | KNone | KFunction | KClassExpr | KClass
  | KParen | KSeq | KInjParen | KInjSeq | KTempSeq | KIdent _ | KPropIdent _ | KStr _ | KCounter _ | KTempAssign | KTempRead
  | KTempTest _ | KNullLit | KTemplateFn _ | KTemplateCall | KOther _ => true
  | KSwitchCase => match v with VSwitch _ => false | _ => true end
  | KModuleItems | KScript | KExportDefaultDecl | KExportDecl | KDebugger =>
      match v with VCov => false | _ => true end
  | _ => false
  end.

Definition plain (v : vis) (k : kind) : bool :=
  if is_instr v then plain_kind v k
  else match k with KExpr | KBin _ => false | _ => true end.

(** Kinds whose hook may put a statement counter into [before]. *)
Definition marking (k : kind) : bool :=
  match k with
  | KExprStmt | KBreak | KContinue | KReturn | KLabeled | KTaggedTpl | KTry | KThrow
  | KVarDeclarator | KClassProp | KPrivateProp | KFor | KForIn | KForOf | KWhile | KDoWhile
  | KSwitch | KIf | KWith | KModuleItems | KScript => true
  | _ => false
  end.

(** Kinds whose hook always ends with [on_exit] and may walk over the children (not arrow
    functions; not [||], [&&], [??]). *)
Definition enter_kind (k : kind) : bool :=
  match k with
  | KBlock _ | KFnDecl | KFnExpr | KExprStmt | KBreak | KContinue | KReturn | KLabeled
  | KTaggedTpl | KTry | KThrow | KCond | KVarDecl _ | KVarDeclarator | KClassProp | KPrivateProp
  | KClassDecl | KClassMethod | KMethodProp | KGetter | KSetter | KFor | KForIn | KForOf | KWhile
  | KDoWhile | KSwitch | KIf | KWith | KAssignPat | KSwitchCase | KExportDecl
  | KExportDefaultDecl | KDebugger => true
  | _ => false
  end.
Definition keep_kind (k : kind) : bool :=
  match k with KArrow => true | _ => enter_kind k end.
Lemma enter_keep : forall k, enter_kind k = true -> keep_kind k = true.
Proof. intros [] H; exact H || discriminate. Qed.
Global Hint Resolve enter_keep : core.
Definition fn_kind (k : kind) : bool :=
  match k with KFnDecl | KFnExpr | KClassMethod | KMethodProp => true | _ => false end.
Definition loop_kind (k : kind) : bool :=
  match k with KFor | KForIn | KForOf | KWhile | KDoWhile => true | _ => false end.
Definition init_kind (k : kind) : bool :=
  match k with KVarDeclarator | KClassProp | KPrivateProp => true | _ => false end.
(** Kinds whose hook puts a statement counter into [before] and then only walks over the
    children *)
Definition marked_kind (k : kind) : bool :=
  match k with
  | KExprStmt | KBreak | KContinue | KReturn | KLabeled | KTaggedTpl | KTry | KThrow => true
  | _ => false
  end.
(** Kinds whose hook may do nothing but walk over the children *)
Definition walks (k : kind) (cs : list node) : bool :=
  match k with
  | KBlock _ | KExprStmt | KBreak | KContinue | KReturn | KLabeled | KCond | KVarDecl _ | KClassDecl
  | KExportDecl | KExportDefaultDecl | KDebugger => true
  | KVarDeclarator | KClassProp | KPrivateProp => match cs with _ :: v :: _ => is_none v | _ => false end
  | _ => false
  end.
(** Initialisers whose counter is put before the enclosing statement *)
Definition ahead (k : kind) (x : node) : bool :=
  has_block x || has_stmt x || (has_hoisting x && match k with KVarDeclarator => true | _ => false end).
Definition accessor_kind (k : kind) : bool :=
  match k with KGetter | KSetter => true | _ => false end.

(** The name a function takes from its key *)
Definition key_name (key : node) (name : string) : Prop :=
  name = "anonymous"%string \/ nkind key = KIdent name \/ nkind key = KPropIdent name.
Lemma ident_key : forall id nm isp, ident_view id = Some (nm, isp) -> key_name id nm.
Proof. intros [k sp cs] nm isp H. unfold ident_view, key_name in *. cbn [nkind] in *. destruct k; inversion H; auto. Qed.
Lemma prop_key : forall id nm isp, prop_ident_view id = Some (nm, isp) -> key_name id nm.
Proof. intros [k sp cs] nm isp H. unfold prop_ident_view, key_name in *. cbn [nkind] in *. destruct k; inversion H; auto. Qed.

Section Rel.
Variable e : env.

Notation on_enter := (on_enter e).
Notation mark := (mark_prepend_stmt_counter e).

(** [cover_statement] without the tagged template case *)
Definition covered (x : node) (s : st) (x' : node) (s' : st) : Prop :=
  exists s1, (s1 = s \/ s1 = mark (nspan x) s) /\
    ((x' = x /\ (s' = s1 \/ s' = mark (nspan x) s1)) \/
     (is_expr x = true /\ replace_expr_with_stmt_counter e x s1 = (x', s'))).

(** An arm of a conditional expression *)
Definition cond_arm (b : N) (x : node) (s : st) (x' : node) (s' : st) : Prop :=
  (x' = x /\ s' = s) \/ replace_expr_with_branch_counter e x b s = Ok (x', s').

Inductive Vis : vis -> node -> st -> node -> st -> Prop :=
| V_plain : forall v k sp cs s cs' s',
    plain v k = true -> Kids v cs s cs' s' ->
    Vis v (Node k sp cs) s (Node k sp cs') s'
| V_ts : forall v sp cs s, is_instr v = true -> Vis v (Node KTs sp cs) s (Node KTs sp cs) s
| V_logical_expr : forall b sp cs s s1 old cur cs' s2,
    on_enter NExpr sp s = (s1, old, cur) ->
    Kids (VLogical b) cs s1 cs' s2 ->
    Vis (VLogical b) (Node KExpr sp cs) s (Node KExpr sp cs') (on_exit old s2)
| V_keep : forall v n k sp esp cs s s1 old cur,
    is_instr v = true -> keep_kind k = true ->
    on_enter n esp s = (s1, old, cur) ->
    Vis v (Node k sp cs) s (Node k sp cs) (on_exit old s1)
| V_enter : forall v n k sp esp cs s s1 old cur cs' s2,
    is_instr v = true -> enter_kind k = true ->
    on_enter n esp s = (s1, old, cur) ->
    Kids v cs s1 cs' s2 ->
    walks k cs = true ->
    Vis v (Node k sp cs) s (Node k sp cs') (on_exit old s2)
| V_marked : forall v n k sp cs s s1 old cur cs' s2,
    is_instr v = true -> enter_kind k = true -> marking k = true ->
    on_enter n sp s = (s1, old, cur) -> is_next cur = false ->
    Kids v cs (mark sp s1) cs' s2 ->
    marked_kind k = true ->
    Vis v (Node k sp cs) s (Node k sp cs') (on_exit old s2)
| V_stmts : forall v sp ss s ss' s1,
    is_instr v = true -> Ins ss (push NStmts s) ss' s1 ->
    Vis v (Node KStmts sp ss) s (Node KStmts sp ss') (pop s1)
| V_fn : forall v n k sp esp key fn s s1 old cur ident fn' s2 cs' s3,
    is_instr v = true -> fn_kind k = true ->
    on_enter n esp s = (s1, old, cur) -> is_next cur = false ->
    create_fn_instrumentation e ident fn s1 = Ok (fn', s2) ->
    Kids v [key; fn'] s2 cs' s3 ->
    (forall nm isp, ident = Some (nm, isp) -> key_name key nm) ->
    Vis v (Node k sp [key; fn]) s (Node k sp cs') (on_exit old s3)
| V_accessor : forall v n k sp name nsp pre body s s1 old cur body' s2 cs' s3,
    is_instr v = true -> accessor_kind k = true ->
    on_enter n sp s = (s1, old, cur) -> is_next cur = false ->
    accessor_body e name nsp s1 body = Ok (body', s2) ->
    Kids v (pre ++ [body']) s2 cs' s3 ->
    (forall key rest, pre ++ [body] = key :: rest -> key_name key name) ->
    Vis v (Node k sp (pre ++ [body])) s (Node k sp cs') (on_exit old s3)
| V_arrow_block : forall v sp params bi bsp ssp ss types s s1 old cur c index ss' s2,
    is_instr v = true ->
    on_enter NArrowExpr sp s = (s1, old, cur) -> is_next cur = false ->
    new_function None (range_of e sp) (range_of e bsp) (cov s1) = (c, index) ->
    Ins ss (set_cov c s1) ss' s2 ->
    Vis v (Node KArrow sp [params; Node (KBlock bi) bsp [Node KStmts ssp ss]; types]) s
      (Node KArrow sp [params; Node (KBlock bi) bsp [Node KStmts ssp (counter_stmt (CF index) :: ss')]; types])
      (on_exit old s2)
| V_arrow_expr : forall v sp params esp xs types s s1 old cur c index ss' s2,
    is_instr v = true ->
    on_enter NArrowExpr sp s = (s1, old, cur) -> is_next cur = false ->
    new_function None (range_of e sp) (range_of e esp) (cov s1) = (c, index) ->
    Ins [counter_stmt (CF index); Node KStmt esp [Node KReturn esp [Node KExpr esp xs]]]
      (set_cov c s1) ss' s2 ->
    Vis v (Node KArrow sp [params; Node KExpr esp xs; types]) s
      (Node KArrow sp [params; mk (KBlock true) [mk KStmts ss']; types])
      (on_exit old s2)
| V_init : forall v n k sp name value rest s s1 old cur value' s2 cs' s3,
    is_instr v = true -> init_kind k = true ->
    on_enter n sp s = (s1, old, cur) -> is_next cur = false ->
    covered value s1 value' s2 ->
    Kids v (name :: value' :: rest) s2 cs' s3 ->
    is_expr value = true /\ (ahead k value = false -> before s2 = before s1) ->
    Vis v (Node k sp (name :: value :: rest)) s (Node k sp cs') (on_exit old s3)
| V_init_tagged : forall v n k sp name vsp tpl rest s s1 old cur tpl' s2 cs' s3,
    is_instr v = true -> init_kind k = true ->
    on_enter n sp s = (s1, old, cur) -> is_next cur = false ->
    Vis v tpl (mark vsp s1) tpl' s2 ->
    Kids v (name :: Node KExpr vsp [tpl'] :: rest) s2 cs' s3 ->
    nkind tpl = KTaggedTpl ->
    Vis v (Node k sp (name :: Node KExpr vsp [tpl] :: rest)) s (Node k sp cs') (on_exit old s3)
| V_loop : forall v n k sp cs s s1 old cur cs1 cs' s2,
    is_instr v = true -> loop_kind k = true ->
    on_enter n sp s = (s1, old, cur) -> is_next cur = false ->
    block_last cs = Some cs1 ->
    Kids v cs1 (mark sp s1) cs' s2 ->
    Vis v (Node k sp cs) s (Node k sp cs') (on_exit old s2)
| V_cond : forall v sp test con alt s s1 old cur c b con' s3 alt' s4 cs' s5,
    is_instr v = true ->
    on_enter NCondExpr sp s = (s1, old, cur) -> is_next cur = false ->
    new_branch CondExpr (range_of e sp) false (cov s1) = (c, b) ->
    cond_arm b con (set_cov c s1) con' s3 ->
    cond_arm b alt s3 alt' s4 ->
    Kids v [test; con'; alt'] s4 cs' s5 ->
    Vis v (Node KCond sp [test; con; alt]) s (Node KCond sp cs') (on_exit old s5)
| V_switch : forall v sp cs s s1 old cur c b cs' sv,
    is_instr v = true ->
    on_enter NSwitchStmt sp s = (s1, old, cur) -> is_next cur = false ->
    new_branch BSwitch (range_of e sp) false (cov (mark sp s1)) = (c, b) ->
    Kids (VSwitch b) cs (spawn (set_cov c (mark sp s1)) cur) cs' sv ->
    Vis v (Node KSwitch sp cs) s (Node KSwitch sp cs')
      (on_exit old (set_cov (cov sv) (set_cov c (mark sp s1))))
| V_case : forall b sp cs s s1 old cur c i test' ssp ss' s2,
    on_enter NSwitchCase sp s = (s1, old, cur) -> is_next cur = false ->
    add_branch_path b (range_of e sp) (cov s1) = Ok (c, i) ->
    Kids (VSwitch b) cs (set_cov c s1) [test'; Node KStmts ssp ss'] s2 ->
    Vis (VSwitch b) (Node KSwitchCase sp cs) s
      (Node KSwitchCase sp [test'; Node KStmts ssp (counter_stmt (CB b i) :: ss')])
      (on_exit old s2)
| V_if : forall v sp test con alt s s1 old cur c b con' s4 alt' s5 test' s6,
    is_instr v = true ->
    on_enter NIfStmt sp s = (s1, old, cur) -> is_next cur = false ->
    new_branch BIf (range_of e sp) false (cov (mark sp s1)) = (c, b) ->
    Arm b (range_of e sp) cur con (set_cov c (mark sp s1)) con' s4 ->
    Arm b (range_of e sp) cur alt s4 alt' s5 ->
    Vis v test s5 test' s6 ->
    Vis v (Node KIf sp [test; con; alt]) s (Node KIf sp [test'; con'; alt']) (on_exit old s6)
| V_with_block : forall v sp obj wsp bi bsp ssp ss s s1 old cur ss' s3,
    is_instr v = true ->
    on_enter NWithStmt sp s = (s1, old, cur) -> is_next cur = false ->
    Ins ss (mark sp s1) ss' s3 ->
    Vis v (Node KWith sp [obj; Node KStmt wsp [Node (KBlock bi) bsp [Node KStmts ssp ss]]]) s
      (Node KWith sp [obj; Node KStmt wsp [Node (KBlock bi) bsp [Node KStmts ssp ss']]]) (on_exit old s3)
| V_with_stmt : forall v sp obj wsp x s s1 old cur body' sv,
    is_instr v = true ->
    on_enter NWithStmt sp s = (s1, old, cur) -> is_next cur = false ->
    is_block x = false ->
    Vis VStmt (Node KStmt wsp [x]) (spawn (mark sp s1) cur) body' sv ->
    Vis v (Node KWith sp [obj; Node KStmt wsp [x]]) s
      (Node KWith sp [obj; mk KStmt [mk (KBlock true) [mk KStmts (before sv ++ [body'])]]])
      (on_exit old (set_cov (cov sv) (mark sp s1)))
| V_bin : forall v op sp cs s s1 old cur cs' s2,
    on_enter_with_span e sp s = (s1, old, cur) ->
    Kids v cs (push NBinExpr s1) cs' s2 ->
    Vis v (Node (KBin op) sp cs) s (Node (KBin op) sp cs') (on_exit old s2)
| V_logical_new : forall v op sp l r s s1 old cur s2 b l' s3 r' s4,
    is_instr v = true -> is_logical_op op = true ->
    on_enter_with_span e sp s = (s1, old, cur) -> is_next cur = false ->
    new_logical_branch e sp (push NLogicalExpr s1) = (s2, b) ->
    Wrap v b l s2 l' s3 -> Wrap v b r s3 r' s4 ->
    Vis v (Node (KBin op) sp [l; r]) s (Node (KBin op) sp [l'; r']) s4
| V_logical_inner : forall b op sp l r s s1 old cur l' s3 r' s4,
    is_logical_op op = true ->
    on_enter_with_span e sp s = (s1, old, cur) -> is_next cur = false ->
    Wrap (VLogical b) b l (push NLogicalExpr s1) l' s3 -> Wrap (VLogical b) b r s3 r' s4 ->
    Vis (VLogical b) (Node (KBin op) sp [l; r]) s (Node (KBin op) sp [l'; r']) s4
| V_assign_pat : forall v sp l r s s1 old cur c b r' s2,
    is_instr v = true ->
    on_enter NAssignPat sp s = (s1, old, cur) -> is_next cur = false ->
    new_branch DefaultArg (range_of e sp) false (cov s1) = (c, b) ->
    Wrap v b r (set_cov c s1) r' s2 ->
    Vis v (Node KAssignPat sp [l; r]) s (Node KAssignPat sp [l; r']) (on_exit old s2)
| V_module_items : forall sp items s s0 items' s1 tpl call s2 out s3,
    cov s0 = cov s -> before s0 = before s ->
    Items items s0 items' s1 ->
    get_coverage_templates s1 = (tpl, call, s2) ->
    out = match items' with [] => [tpl; call] | i :: is => i :: tpl :: call :: is end ->
    cov s3 = cov s2 -> before s3 = before s2 ->
    Vis VCov (Node KModuleItems sp items) s (Node KModuleItems sp out) s3
| V_script : forall sp ssp body s body' s1 tpl call s2,
    SItems body s body' s1 ->
    get_coverage_templates s1 = (tpl, call, s2) ->
    Vis VCov (Node KScript sp [Node KStmts ssp body]) s
      (Node KScript sp [Node KStmts ssp (tpl :: call :: body')]) s2
with Kids : vis -> list node -> st -> list node -> st -> Prop :=
| K_nil : forall v s, Kids v [] s [] s
| K_cons : forall v t ts s t' s1 ts' s2,
    Vis v t s t' s1 -> Kids v ts s1 ts' s2 -> Kids v (t :: ts) s (t' :: ts') s2
with Ins : list node -> st -> list node -> st -> Prop :=
| I_nil : forall s, Ins [] s [] s
| I_injected : forall x ss s ss' s',
    is_injected_counter_stmt x = true -> Ins ss s ss' s' -> Ins (x :: ss) s (x :: ss') s'
| I_skip : forall x ss s s1 old cur ss' s',
    is_injected_counter_stmt x = false ->
    on_enter NStmt (nspan x) s = (s1, old, cur) -> is_next cur = true ->
    Ins ss (on_exit old s1) ss' s' -> Ins (x :: ss) s (x :: ss') s'
| I_visit : forall k sp cs ss s s1 old cur cs' sv ss' s',
    is_injected_counter_stmt (Node k sp cs) = false ->
    on_enter NStmt sp s = (s1, old, cur) -> is_next cur = false ->
    Kids VStmt cs (spawn s1 cur) cs' sv ->
    Ins ss (on_exit old (set_cov (cov sv) s1)) ss' s' ->
    Ins (Node k sp cs :: ss) s ((before sv ++ [Node k sp cs']) ++ ss') s'
with Wrap : vis -> N -> node -> st -> node -> st -> Prop :=
| W_next : forall v b x s, is_next (hint e (nspan x)) = true -> Wrap v b x s x s
| W_nested : forall v b k sp cs s cs' sv,
    is_next (hint e sp) = false -> has_logical (Node k sp cs) = true ->
    Kids (VLogical b) cs (spawn s (hint e sp)) cs' sv ->
    Wrap v b (Node k sp cs) s (Node k sp cs') (set_cov (cov sv) s)
| W_report : forall v b x s c i,
    is_expr x = true ->
    is_next (hint e (nspan x)) = false -> has_logical x = false -> e_report_logic e = true ->
    add_branch_path b (range_of e (nspan x)) (cov s) = Ok (c, i) ->
    Wrap v b x s (E (mk KInjSeq [counter_expr (CB b i); increase_true_expr b i x])) (set_cov c s)
| W_leaf : forall v b k sp cs s cs' s1 x' s2,
    is_next (hint e sp) = false -> has_logical (Node k sp cs) = false -> e_report_logic e = false ->
    Kids v cs s cs' s1 ->
    replace_expr_with_branch_counter e (Node k sp cs') b s1 = Ok (x', s2) ->
    Wrap v b (Node k sp cs) s x' s2
with Arm : N -> range -> option ignore_scope -> node -> st -> node -> st -> Prop :=
| A_keep : forall b r cur x s, cur = Some IIf \/ cur = Some IElse -> Arm b r cur x s x s
| A_block : forall b r cur sp bi bsp ssp ss s c i ss' s2,
    add_branch_path b r (cov s) = Ok (c, i) ->
    Ins ss (set_cov c s) ss' s2 ->
    Arm b r cur (Node KStmt sp [Node (KBlock bi) bsp [Node KStmts ssp ss]]) s
      (Node KStmt sp [Node (KBlock bi) bsp [Node KStmts ssp (counter_stmt (CB b i) :: ss')]]) s2
| A_none : forall b r cur sp s c i,
    add_branch_path b r (cov s) = Ok (c, i) ->
    Arm b r cur (Node KNone sp []) s
      (mk KStmt [mk (KBlock true) [mk KStmts [counter_stmt (CB b i)]]]) (set_cov c s)
| A_stmt : forall b r cur sp x s c i x' sv,
    is_block x = false ->
    add_branch_path b r (cov s) = Ok (c, i) ->
    Vis VStmt (Node KStmt sp [x]) (spawn (set_cov c s) cur) x' sv ->
    Arm b r cur (Node KStmt sp [x]) s
      (mk KStmt [mk (KBlock true) [mk KStmts ([counter_stmt (CB b i)] ++ before sv ++ [x'])]])
      (set_cov (cov sv) (set_cov c s))
with Items : list node -> st -> list node -> st -> Prop :=
| M_nil : forall s, Items [] s [] s
| M_directive : forall x xs s xs' s',
    directive_continue x = true -> Items xs s xs' s' -> Items (x :: xs) s (x :: xs') s'
| M_visit : forall k sp cs xs n s s1 old cur s2 cs' s3 xs' s',
    directive_continue (Node k sp cs) = false ->
    on_enter n sp s = (s1, old, cur) ->
    (s2 = s1 \/ exists esp, s2 = mark esp s1) ->
    Kids VCov cs s2 cs' s3 ->
    Items xs (on_exit old (clear_before s3)) xs' s' ->
    (s2 = s1 \/ exists esp, export_const_span (Node k sp cs) = Some esp /\ s2 = mark esp s1) ->
    Items (Node k sp cs :: xs) s ((before s3 ++ [Node k sp cs']) ++ xs') s'
with SItems : list node -> st -> list node -> st -> Prop :=
| S_nil : forall s, SItems [] s [] s
| S_visit : forall k sp cs xs s cs' s1 xs' s',
    Kids VCov cs s cs' s1 ->
    SItems xs (clear_before s1) xs' s' ->
    SItems (Node k sp cs :: xs) s (before s1 ++ Node k sp cs' :: xs') s'.

(** ** Soundness *)

Section Sound.
Variable rec : vis -> node -> st -> res (node * st).
Hypothesis Hrec : forall v t s t' s', rec v t s = Ok (t', s') -> Vis v t s t' s'.

Ltac okb H := apply bind_ok in H; destruct H as [[? ?] [? H]].

Lemma kids_sound : forall v ts s ts' s', visit_list rec v ts s = Ok (ts', s') -> Kids v ts s ts' s'.
Proof.
  induction ts as [|t ts IH]; intros s ts' s' H; simpl in H.
  - inversion H; subst. constructor.
  - okb H. okb H. inversion H; subst. econstructor; eauto.
Qed.

Lemma children_sound : forall v t s t' s', visit_children rec v t s = Ok (t', s') ->
  exists cs', t' = Node (nkind t) (nspan t) cs' /\ Kids v (nkids t) s cs' s'.
Proof.
  intros v [k sp cs] s t' s' H. simpl in H. okb H. inversion H; subst.
  exists l. split; [reflexivity|]. now apply kids_sound.
Qed.

Lemma ins_sound : forall ss s ss' s', insert_stmts_counter e rec ss s = Ok (ss', s') -> Ins ss s ss' s'.
Proof.
  induction ss as [|x ss IH]; intros s ss' s' H; simpl in H.
  - inversion H; subst. constructor.
  - apply bind_ok in H as [[new s1] [Hx H]]. apply bind_ok in H as [[rest s2] [Hr H]].
    inversion H; subst. clear H. apply IH in Hr.
    destruct (is_injected_counter_stmt x) eqn:Hi.
    + inversion Hx; subst. now apply I_injected.
    + destruct (on_enter NStmt (nspan x) s) as [[s1' old] cur] eqn:He.
      destruct (is_next cur) eqn:Hn.
      * inversion Hx; subst. eapply I_skip; eauto.
      * apply bind_ok in Hx as [[x' sv] [Hv Hx]]. inversion Hx; subst. clear Hx.
        apply children_sound in Hv as [cs' [-> Hk]]. destruct x as [k sp cs]. simpl in *.
        eapply I_visit; eauto.
Qed.

Lemma wrap_sound : forall v b x s x' s',
  wrap_bin_expr_with_branch_counter e rec v b x s = Ok (x', s') -> Wrap v b x s x' s'.
Proof.
  intros v b x s x' s' H. unfold wrap_bin_expr_with_branch_counter in H.
  destruct (is_expr x) eqn:He; [|discriminate]. cbn [negb] in H.
  destruct (is_next (hint e (nspan x))) eqn:Hn.
  { inversion H; subst. now apply W_next. }
  destruct (has_logical x) eqn:Hl.
  - apply bind_ok in H as [[y sv] [Hv H]]. inversion H; subst. clear H.
    apply children_sound in Hv as [cs' [-> Hk]]. destruct x as [k sp cs]. simpl in *.
    apply W_nested; auto.
  - destruct (e_report_logic e) eqn:Hr.
    + apply bind_ok in H as [[c i] [Ha H]]. inversion H; subst. apply W_report; auto.
    + apply bind_ok in H as [[y s1] [Hv H]].
      apply children_sound in Hv as [cs' [-> Hk]]. destruct x as [k sp cs]. simpl in *.
      eapply W_leaf; eauto.
Qed.

Lemma arm_block_sound : forall b r cur x s x' s',
  wrap_with_counter e rec b r cur x s = Ok (x', s') -> Arm b r cur x s x' s'.
Proof.
  intros b r cur x s x' s' H. unfold wrap_with_counter in H.
  apply bind_ok in H as [[c i] [Ha H]].
  destruct (stmt_view x) as [[sp y]|] eqn:Hv; [|discriminate]. cbn [expect bind] in H.
  apply stmt_view_inv in Hv. subst x.
  destruct (is_block y) eqn:Hk.
  - destruct (block_view y) as [[[[bi bsp] ssp] ss]|] eqn:Hb; [|discriminate]. cbn [expect bind] in H.
    apply block_view_inv in Hb. subst y.
    apply bind_ok in H as [[ss' s2] [Hi H]]. inversion H; subst.
    eapply A_block; eauto. now apply ins_sound.
  - apply bind_ok in H as [[y' sv] [Hv H]]. inversion H; subst.
    eapply A_stmt; eauto.
Qed.

Lemma items_sound : forall xs s xs' s', visit_items e rec xs s = Ok (xs', s') -> Items xs s xs' s'.
Proof.
  induction xs as [|x xs IH]; intros s xs' s' H; simpl in H.
  - inversion H; subst. constructor.
  - apply bind_ok in H as [[new s1] [Hx H]]. apply bind_ok in H as [[rest s2] [Hr H]].
    inversion H; subst. clear H. apply IH in Hr.
    destruct (directive_continue x) eqn:Hd.
    + inversion Hx; subst. now apply M_directive.
    + destruct (on_enter match nkind x with KModuleDecl => NModuleDecl | _ => NStmt end (nspan x) s)
        as [[s1' old] cur] eqn:He.
      apply bind_ok in Hx as [[x' s3] [Hv Hx]]. inversion Hx; subst. clear Hx.
      apply children_sound in Hv as [cs' [-> Hk]].
      remember (match export_const_span x with
                | Some esp => mark esp s1' | None => s1' end) as s2' eqn:Hs2.
      assert (Hm : s2' = s1' \/ exists esp, s2' = mark esp s1')
        by (destruct (export_const_span x); subst; eauto).
      assert (Hm2 : s2' = s1' \/ exists esp, export_const_span x = Some esp /\ s2' = mark esp s1')
        by (destruct (export_const_span x); subst; eauto).
      destruct x as [k sp cs]. simpl nkids in *. simpl nspan in *. simpl nkind in *.
      eapply M_visit; eauto.
Qed.

Lemma sitems_sound : forall xs s xs' s', visit_script_items rec xs s = Ok (xs', s') -> SItems xs s xs' s'.
Proof.
  induction xs as [|x xs IH]; intros s xs' s' H; simpl in H.
  - inversion H; subst. constructor.
  - apply bind_ok in H as [[x' s1] [Hx H]]. apply bind_ok in H as [[rest s2] [Hr H]].
    inversion H; subst. clear H. apply IH in Hr.
    apply children_sound in Hx as [cs' [-> Hk]]. destruct x as [k sp cs].
    eapply S_visit; eauto.
Qed.

Lemma cover_sound : forall v x s x' s', cover_statement e rec v x s = Ok (x', s') ->
  covered x s x' s' /\ is_expr x = true /\
    (forall k, match stack s with NVarDeclarator :: _ => k = KVarDeclarator | _ => True end ->
               ahead k x = false -> before s' = before s) \/
  exists tpl tpl', x = Node KExpr (nspan x) [tpl] /\ x' = Node KExpr (nspan x) [tpl'] /\
    Vis v tpl (mark (nspan x) s) tpl' s' /\ nkind tpl = KTaggedTpl.
Proof.
  intros v x s x' s' H. unfold cover_statement in H.
  destruct (is_expr x) eqn:Hex; [|discriminate]. cbn [negb] in H.
  destruct (is_tagged_tpl x) eqn:Ht.
  - right. unfold is_tagged_tpl in Ht. destruct (expr_view x) as [[sp y]|] eqn:Hx; [|discriminate].
    apply expr_view_inv in Hx. subst x. cbn [nspan] in *. simpl in H.
    apply bind_ok in H as [[l s1] [Hl H]]. inversion H; subst.
    apply bind_ok in Hl as [[t' s2] [Hv Hl]]. inversion Hl; subst.
    eexists _, _. repeat split; [now apply Hrec|].
    destruct (nkind y); try discriminate; reflexivity.
  - left. split; [|split; [reflexivity|]].
    + unfold covered. destruct (has_block x).
      { inversion H; subst. exists s. split; [now left|]. left. split; [reflexivity|now right]. }
      cbv zeta in H. remember (if has_stmt x then mark (nspan x) s else s) as s1 eqn:Hs1.
      exists s1. split; [destruct (has_stmt x); auto|]. clear Hs1.
      destruct (stack s1) as [|parent ?] eqn:Hst; [discriminate|].
      destruct (has_hoisting x && match parent with NVarDeclarator => true | _ => false end).
      * destruct (nodes_get 3 (parent :: l)).
        -- destruct (nodes_get 4 (parent :: l)) as [[]|]; inversion H; subst; auto.
        -- inversion H. auto.
      * destruct (has_expr x); inversion H; subst; auto.
    + intros k Hk Ha. unfold ahead in Ha. apply orb_false_iff in Ha as [Ha Hh]. apply orb_false_iff in Ha as [Hb Hs].
      rewrite Hb, Hs in H. cbv zeta in H. destruct (stack s) as [|parent ?]; [discriminate|].
      assert (Hp : has_hoisting x && match parent with NVarDeclarator => true | _ => false end = false).
      { destruct parent; try apply andb_false_r. subst k. exact Hh. }
      rewrite Hp in H. unfold replace_expr_with_stmt_counter in H.
      destruct (has_expr x); [|now inversion H].
      destruct (new_statement (range_of e (nspan x)) (cov s)). now inversion H.
Qed.

Lemma on_enter_stack : forall n sp s s1 old cur, on_enter n sp s = (s1, old, cur) -> stack s1 = n :: stack s.
Proof.
  intros n sp s s1 old cur H. unfold Visitor.on_enter, on_enter_with_span in H. cbv zeta in H.
  destruct (is_next (ign (push n s))); inversion H; subst; reflexivity.
Qed.

Lemma enter_exit_ok : forall n sp s sk bd t' s',
  enter_exit e n sp s sk bd = Ok (t', s') ->
  exists s1 old cur s2, on_enter n sp s = (s1, old, cur) /\ s' = on_exit old s2 /\
    ((is_next cur = true /\ sk s1 = Ok (t', s2)) \/ (is_next cur = false /\ bd cur s1 = Ok (t', s2))).
Proof.
  intros n sp s sk bd t' s' H. unfold enter_exit in H.
  destruct (on_enter n sp s) as [[s1 old] cur] eqn:He.
  apply bind_ok in H as [[t1 s2] [Hb H]]. inversion H; subst.
  exists s1, old, cur, s2. repeat split.
  destruct (is_next cur); auto.
Qed.

Ltac ee H := apply enter_exit_ok in H;
  destruct H as (s1 & old & cur & s2 & He & -> & [[Hn H]|[Hn H]]).

Lemma map_last_ok : forall (f : node -> res (node * st)) cs cs' s,
  map_last f cs = Ok (cs', s) ->
  exists pre body body', cs = (pre ++ [body])%list /\ cs' = (pre ++ [body'])%list /\ f body = Ok (body', s).
Proof.
  induction cs as [|c cs IH]; intros cs' s H; [discriminate|].
  destruct cs as [|c2 cs].
  - simpl in H. apply bind_ok in H as [[b' s1] [Hb H]]. inversion H; subst.
    exists [], c, b'. auto.
  - change (map_last f (c :: c2 :: cs)) with
      (let* (cs'', s) := map_last f (c2 :: cs) in Ok (c :: cs'', s)) in H.
    apply bind_ok in H as [[l s1] [Hb H]]. inversion H; subst.
    apply IH in Hb as (pre & body & body' & -> & -> & Hf).
    exists (c :: pre), body, body'. auto.
Qed.

(** Turn an equation for [visit_children] into [Kids]. *)
Ltac kids H := apply children_sound in H; destruct H as [cs'' [-> H]]; simpl in H |- *.

Lemma instr_sound : forall v t s t' s', is_instr v = true ->
  visit_instr e rec v t s = Ok (t', s') -> Vis v t s t' s'.
Proof.
  intros v [k sp cs] s t' s' Hv H. unfold visit_instr in H. cbn [nkind nspan nkids] in H.
  assert (Hplain : plain_kind v k = true -> visit_children rec v (Node k sp cs) s = Ok (t', s') ->
                   Vis v (Node k sp cs) s t' s').
  { intros Hp Hc. kids Hc. apply V_plain; auto. unfold plain. now rewrite Hv. }
  assert (Hskip : forall n esp, enter_kind k = true -> walks k cs = true ->
            visit_skip e rec n esp v (Node k sp cs) s = Ok (t', s') -> Vis v (Node k sp cs) s t' s').
  { intros n esp Hk Hw Hs. unfold visit_skip in Hs. ee Hs.
    - inversion Hs; subst. eapply V_keep; eauto.
    - kids Hs. eapply V_enter; eauto. }
  assert (Hmarked : forall n, enter_kind k = true -> marking k = true -> marked_kind k = true -> walks k cs = true ->
            visit_marked e rec n v (Node k sp cs) s = Ok (t', s') -> Vis v (Node k sp cs) s t' s').
  { intros n Hk Hm Hmk Hw Hs. unfold visit_marked in Hs. ee Hs; kids Hs.
    - eapply V_enter; eauto.
    - eapply V_marked; eauto. }
  assert (Hmarkskip : forall n, enter_kind k = true -> marking k = true -> marked_kind k = true ->
            visit_marked_skip e rec n v (Node k sp cs) s = Ok (t', s') -> Vis v (Node k sp cs) s t' s').
  { intros n Hk Hm Hmk Hs. unfold visit_marked_skip in Hs. ee Hs.
    - inversion Hs; subst. eapply V_keep; eauto.
    - kids Hs. eapply V_marked; eauto. }
  assert (Hloop : forall n, loop_kind k = true ->
            visit_for_like e rec n v (Node k sp cs) s = Ok (t', s') -> Vis v (Node k sp cs) s t' s').
  { intros n Hk Hs. unfold visit_for_like in Hs. ee Hs.
    - inversion Hs; subst. eapply V_keep; eauto. destruct k; auto; discriminate.
    - apply bind_ok in Hs as [cs1 [Hb Hs]]. cbn [nkids] in Hb.
      destruct (block_last cs) as [cs1'|] eqn:Hbl; [|discriminate]. inversion Hb; subst.
      kids Hs. eapply V_loop; eauto. }
  assert (Hinit : forall n, init_kind k = true -> (n = NVarDeclarator -> k = KVarDeclarator) ->
            visit_initialized e rec n v (Node k sp cs) s = Ok (t', s') -> Vis v (Node k sp cs) s t' s').
  { intros n Hk Hnk Hs. unfold visit_initialized in Hs. ee Hs.
    - inversion Hs; subst. eapply V_keep; eauto. destruct k; auto; discriminate.
    - cbn [nkids nspan nkind] in Hs. destruct cs as [|name [|value rest]]; try discriminate.
      apply bind_ok in Hs as [[value' s3] [Hc Hs]].
      destruct (is_none value) eqn:Hno.
      + inversion Hc; subst. kids Hs. eapply V_enter; eauto; destruct k; auto; discriminate.
      + apply cover_sound in Hc as [(Hc & Hex & Hah)|(tpl & tpl' & Hx & -> & Hvt & Htk)].
        * kids Hs. eapply V_init; eauto. split; [assumption|]. apply Hah.
          rewrite (on_enter_stack _ _ _ _ _ _ He). destruct n; auto.
        * kids Hs. rewrite Hx. eapply V_init_tagged; eauto. }
  destruct k; try (apply Hplain; [reflexivity|exact H]).
  - (* KScript *)
    destruct v; try (apply Hplain; [reflexivity|exact H]).
    unfold visit_script in H. cbn [nkids nspan nkind] in H.
    destruct cs as [|b0 [|? ?]]; try discriminate.
    destruct (stmts_view b0) as [[ssp body]|] eqn:Hsv; [|discriminate]. cbn [expect bind] in H.
    apply stmts_view_inv in Hsv. subst b0.
    apply bind_ok in H as [[body' s1] [Hi H]].
    destruct (get_coverage_templates s1) as [[tpl call] s2] eqn:Hg. inversion H; subst.
    eapply V_script; eauto. now apply sitems_sound.
  - (* KModuleItems *)
    destruct v; try (apply Hplain; [reflexivity|exact H]).
    unfold visit_module_items in H. cbn [nkind nspan nkids] in H.
    apply bind_ok in H as [[items' s1] [Hi H]].
    destruct (get_coverage_templates s1) as [[tpl call] s2] eqn:Hg. inversion H; subst. clear H.
    apply items_sound in Hi.
    destruct (match rev (stack s) with NProgram :: _ => true | _ => false end).
    + eapply V_module_items with (s0 := s); [..|exact Hi|exact Hg| | |]; reflexivity.
    + eapply V_module_items with (3 := Hi) (4 := Hg); reflexivity.
  - (* KExportDecl *) destruct v; try (apply Hplain; [reflexivity|exact H]); eapply Hskip; eauto.
  - destruct v; try (apply Hplain; [reflexivity|exact H]); eapply Hskip; eauto.
  - (* KStmts *)
    unfold visit_stmts in H. cbn [nkind nspan nkids] in H.
    apply bind_ok in H as [[ss' s1] [Hi H]]. inversion H; subst.
    apply V_stmts; auto. now apply ins_sound.
  - (* KTs *) inversion H; subst. now apply V_ts.
  - (* KBlock *) eapply Hskip; eauto.
  - (* KExprStmt *)
    unfold visit_expr_stmt in H. cbn [nkind nspan nkids] in H.
    destruct (on_enter NExprStmt sp s) as [[s1 old] cur] eqn:He.
    destruct cs as [|x [|? ?]]; try discriminate.
    destruct (is_directive_expr x).
    + inversion H; subst. eapply V_keep; eauto.
    + apply bind_ok in H as [[t1 s3] [Hc H]]. inversion H; subst. clear H. kids Hc.
      destruct (is_next cur) eqn:Hn; [eapply V_enter; eauto|].
      destruct (is_injected_counter_expr x); [eapply V_enter; eauto|eapply V_marked; eauto].
  - eapply Hmarked; eauto.
  - eapply Hmarked; eauto.
  - eapply Hmarked; eauto.
  - eapply Hmarkskip; eauto.
  - eapply Hmarkskip; eauto.
  - (* KDebugger *) destruct v; try (apply Hplain; [reflexivity|exact H]); eapply Hskip; eauto.
  - eapply Hmarked; eauto.
  - eapply Hloop; eauto.
  - eapply Hloop; eauto.
  - eapply Hloop; eauto.
  - eapply Hloop; eauto.
  - eapply Hloop; eauto.
  - (* KIf *)
    unfold visit_if_stmt in H. ee H.
    + inversion H; subst. eapply V_keep; eauto.
    + cbn [nkids nspan nkind] in H. destruct cs as [|test [|con [|alt [|? ?]]]]; try discriminate.
      destruct (new_branch BIf (range_of e sp) false (cov (mark sp s1))) as [c b] eqn:Hb.
      apply bind_ok in H as [[con' s4] [Hc H]]. apply bind_ok in H as [[alt' s5] [Ha H]].
      apply bind_ok in H as [[test' s6] [Ht H]]. inversion H; subst. clear H.
      eapply V_if; eauto.
      * destruct cur as [[]|]; try (apply arm_block_sound; exact Hc).
        inversion Hc; subst. apply A_keep; auto.
      * assert (Hw : wrap_with_counter e rec b (range_of e sp) cur
                   (if is_absent alt then mk KStmt [mk (KBlock true) [mk KStmts []]] else alt) s4 = Ok (alt', s5) ->
                 Arm b (range_of e sp) cur alt s4 alt' s5).
        { intros Hw. destruct (is_absent alt) eqn:Hno.
          - unfold is_absent in Hno. destruct alt as [ak asp acs].
            destruct ak; try discriminate. destruct acs; [|discriminate].
            unfold wrap_with_counter in Hw. cbn in Hw.
            apply bind_ok in Hw as [[c' i] [Hp Hw]]. inversion Hw; subst. now apply A_none.
          - now apply arm_block_sound. }
        destruct cur as [[]|]; try (apply Hw; exact Ha).
        inversion Ha; subst. apply A_keep; auto.
  - (* KSwitch *)
    unfold visit_switch_stmt in H. ee H.
    + inversion H; subst. eapply V_keep; eauto.
    + cbn [nspan] in H.
      destruct (new_branch BSwitch (range_of e sp) false (cov (mark sp s1))) as [c b] eqn:Hb.
      apply bind_ok in H as [[t1 sv] [Hc H]]. inversion H; subst. clear H. kids Hc.
      eapply V_switch; eauto.
  - (* KSwitchCase *)
    destruct v; try (apply Hplain; [reflexivity|exact H]).
    unfold visit_switch_case in H. ee H.
    + inversion H; subst. eapply V_keep; eauto.
    + cbn [nspan] in H. apply bind_ok in H as [[c i] [Ha H]].
      apply bind_ok in H as [[t1 s3] [Hc H]]. kids Hc.
      cbn [nkids] in H. destruct cs'' as [|test' [|cn [|? ?]]]; try discriminate.
      destruct (stmts_view cn) as [[ssp ss']|] eqn:Hsv; [|discriminate]. cbn [expect bind nkind nspan] in H.
      apply stmts_view_inv in Hsv. subst cn.
      inversion H; subst. eapply V_case; eauto.
  - (* KWith *)
    unfold visit_with_stmt in H. ee H.
    + inversion H; subst. eapply V_keep; eauto.
    + cbn [nkids nspan nkind] in H.
      destruct cs as [|obj [|body [|? ?]]]; try discriminate.
      destruct (stmt_view body) as [[wsp y]|] eqn:Hsv; [|discriminate]. cbn [expect bind] in H.
      apply stmt_view_inv in Hsv. subst body.
      destruct (is_block y) eqn:Hk.
      * destruct (block_view y) as [[[[bi bsp] ssp] ss]|] eqn:Hb; [|discriminate]. cbn [expect bind] in H.
        apply block_view_inv in Hb. subst y.
        apply bind_ok in H as [[ss' s3] [Hi H]]. inversion H; subst.
        eapply V_with_block; eauto. now apply ins_sound.
      * apply bind_ok in H as [[body' sv] [Hb H]]. inversion H; subst.
        eapply V_with_stmt; eauto.
  - (* KVarDecl *)
    ee H; kids H; eapply V_enter; eauto.
  - eapply Hinit; eauto; discriminate.
  - (* KFnDecl *)
    unfold visit_fn_decl in H. cbn [nkids nspan nkind] in H.
    destruct cs as [|id [|fn [|? ?]]]; try discriminate.
    ee H.
    + inversion H; subst. eapply V_keep; eauto.
    + apply bind_ok in H as [ident [Hid H]].
      apply bind_ok in H as [[fn' s3] [Hf H]]. kids H. eapply V_fn; eauto.
      intros nm isp E. inversion E; subst. destruct (ident_view id) as [[? ?]|] eqn:Ev; inversion Hid; subst. eapply ident_key; eauto.
  - (* KFnExpr *)
    unfold visit_fn_expr in H. cbn [nkids nspan nkind] in H.
    destruct cs as [|id [|fn [|? ?]]]; try discriminate.
    ee H.
    + inversion H; subst. eapply V_keep; eauto.
    + cbv zeta in H.
      destruct (match ident_view id with Some (name, _) => is_ignored_method e name | None => false end).
      * inversion H; subst. eapply V_keep; eauto.
      * apply bind_ok in H as [[fn' s3] [Hf H]]. kids H. eapply V_fn; eauto. intros. eapply ident_key; eauto.
  - (* KArrow *)
    unfold visit_arrow_expr in H. ee H.
    + inversion H; subst. eapply V_keep; eauto.
    + cbn [nkids nspan nkind] in H.
      destruct cs as [|params [|body [|types [|? ?]]]]; try discriminate.
      destruct (new_function None (range_of e sp) (range_of e (nspan body)) (cov s1)) as [c index] eqn:Hf.
      destruct (is_expr body) eqn:Hk.
      * unfold is_expr in Hk. destruct body as [bk esp xs]. cbn [nkind nspan] in *.
        destruct bk; try discriminate.
        apply bind_ok in H as [[ss' s3] [Hi H]]. inversion H; subst.
        eapply V_arrow_expr; eauto. now apply ins_sound.
      * destruct (block_view body) as [[[[bi bsp] ssp] ss]|] eqn:Hb; [|discriminate].
        cbn [expect bind] in H. apply block_view_inv in Hb. subst body. cbn [nspan] in Hf.
        apply bind_ok in H as [[ss' s3] [Hi H]]. inversion H; subst.
        eapply V_arrow_block; eauto. now apply ins_sound.
  - (* KClassDecl *)
    destruct cs as [|? [|c [|? ?]]]; try discriminate. eapply Hskip; eauto.
  - eapply Hinit; eauto; discriminate.
  - eapply Hinit; eauto; discriminate.
  - (* KClassMethod *)
    unfold visit_class_method in H. ee H.
    + inversion H; subst. eapply V_keep; eauto.
    + cbn [nkids nspan nkind] in H. destruct cs as [|key [|fn [|? ?]]]; try discriminate.
      destruct (prop_ident_view key) as [[name isp]|] eqn:Ek.
      * destruct (is_ignored_method e name).
        -- inversion H; subst. eapply V_keep; eauto.
        -- apply bind_ok in H as [[fn' s3] [Hf H]]. kids H. eapply V_fn; eauto.
           intros nm isp' E. inversion E; subst. eapply prop_key; eauto.
      * inversion H; subst; eapply V_keep; eauto.
  - (* KMethodProp *)
    unfold visit_method_prop in H. cbn [nkids nspan nkind] in H.
    destruct cs as [|key [|fn [|? ?]]]; try discriminate.
    ee H.
    + inversion H; subst. eapply V_keep; eauto.
    + destruct (prop_ident_view key) as [[name isp]|] eqn:Ek.
      * destruct (is_ignored_method e name).
        -- inversion H; subst. eapply V_keep; eauto.
        -- apply bind_ok in H as [[fn' s3] [Hf H]]. kids H. eapply V_fn; eauto.
           intros nm isp' E. inversion E; subst. eapply prop_key; eauto.
      * apply bind_ok in H as [[fn' s3] [Hf H]]. kids H. eapply V_fn; eauto.
        intros nm isp' E. inversion E; subst. now left.
  - (* KGetter *)
    unfold visit_accessor in H. ee H.
    + inversion H; subst. eapply V_keep; eauto.
    + assert (Hgo : forall name nsp, (forall key rest, cs = key :: rest -> key_name key name) ->
         (let* (cs0, s0) := map_last (accessor_body e name nsp s1) cs in
          visit_children rec v (Node KGetter sp cs0) s0) = Ok (t', s2) ->
          Vis v (Node KGetter sp cs) s t' (on_exit old s2)).
      { intros name nsp Hk Hg. apply bind_ok in Hg as [[cs0 s0] [Hm Hg]].
        apply map_last_ok in Hm as (pre & body & body' & -> & -> & Hb). kids Hg.
        eapply V_accessor; eauto. }
      cbn [nkids nspan nkind] in H. cbv zeta in H.
      destruct cs as [|key cs]; try discriminate.
      destruct (prop_ident_view key) as [[name isp]|] eqn:Ek; [|eapply Hgo; [intros; now left|exact H]].
      destruct (is_ignored_method e name).
      * inversion H; subst. eapply V_keep; eauto.
      * eapply Hgo; [intros key' rest' E; inversion E; subst; eapply prop_key; eauto|exact H].
  - (* KSetter *)
    unfold visit_accessor in H. ee H.
    + inversion H; subst. eapply V_keep; eauto.
    + assert (Hgo : forall name nsp, (forall key rest, cs = key :: rest -> key_name key name) ->
         (let* (cs0, s0) := map_last (accessor_body e name nsp s1) cs in
          visit_children rec v (Node KSetter sp cs0) s0) = Ok (t', s2) ->
          Vis v (Node KSetter sp cs) s t' (on_exit old s2)).
      { intros name nsp Hk Hg. apply bind_ok in Hg as [[cs0 s0] [Hm Hg]].
        apply map_last_ok in Hm as (pre & body & body' & -> & -> & Hb). kids Hg.
        eapply V_accessor; eauto. }
      cbn [nkids nspan nkind] in H. cbv zeta in H.
      destruct cs as [|key cs]; try discriminate.
      destruct (prop_ident_view key) as [[name isp]|] eqn:Ek; [|eapply Hgo; [intros; now left|exact H]].
      destruct (is_ignored_method e name).
      * inversion H; subst. eapply V_keep; eauto.
      * eapply Hgo; [intros key' rest' E; inversion E; subst; eapply prop_key; eauto|exact H].
  - (* KCond *)
    unfold visit_cond_expr in H. ee H.
    + kids H. eapply V_enter; eauto.
    + cbn [nkids nspan nkind] in H. destruct cs as [|test [|con [|alt [|? ?]]]]; try discriminate.
      destruct (new_branch CondExpr (range_of e sp) false (cov s1)) as [c b] eqn:Hb.
      apply bind_ok in H as [[con' s3] [Hc H]]. apply bind_ok in H as [[alt' s4] [Ha H]].
      kids H. eapply V_cond with (con' := con') (s3 := s3) (alt' := alt') (s4 := s4); eauto; unfold cond_arm.
      * destruct (is_next (hint e (nspan con))); [left; now inversion Hc|now right].
      * destruct (is_next (hint e (nspan alt))); [left; now inversion Ha|now right].
  - eapply Hmarkskip; eauto.
  - (* KBin *)
    unfold visit_bin_expr in H. cbn [nkids nspan nkind] in H.
    destruct (on_enter_with_span e sp s) as [[s1 old] cur] eqn:He.
    destruct (is_next cur) eqn:Hn.
    + apply bind_ok in H as [[t1 s2] [Hc H]]. inversion H; subst. kids Hc. eapply V_bin; eauto.
    + destruct (is_logical_op op) eqn:Hop.
      * destruct cs as [|l [|r [|? ?]]]; try discriminate.
        destruct (new_logical_branch e sp (push NLogicalExpr s1)) as [s2 b] eqn:Hb.
        apply bind_ok in H as [[l' s3] [Hl H]]. apply bind_ok in H as [[r' s4] [Hr H]].
        inversion H; subst. eapply V_logical_new; eauto using wrap_sound.
      * apply bind_ok in H as [[t1 s2] [Hc H]]. inversion H; subst. kids Hc. eapply V_bin; eauto.
  - (* KAssignPat *)
    unfold visit_assign_pat in H. ee H.
    + inversion H; subst. eapply V_keep; eauto.
    + cbn [nkids nspan nkind] in H. destruct cs as [|l [|r [|? ?]]]; try discriminate.
      destruct (new_branch DefaultArg (range_of e sp) false (cov s1)) as [c b] eqn:Hb.
      apply bind_ok in H as [[r' s3] [Hr H]]. inversion H; subst.
      eapply V_assign_pat; eauto using wrap_sound.
Qed.

Lemma logical_sound : forall b t s t' s',
  visit_logical e rec b t s = Ok (t', s') -> Vis (VLogical b) t s t' s'.
Proof.
  intros b [k sp cs] s t' s' H. unfold visit_logical in H. cbn [nkind nspan] in H.
  assert (Hplain : plain (VLogical b) k = true ->
     visit_children rec (VLogical b) (Node k sp cs) s = Ok (t', s') -> Vis (VLogical b) (Node k sp cs) s t' s').
  { intros Hp Hc. kids Hc. now apply V_plain. }
  destruct k; try (apply Hplain; [reflexivity|exact H]).
  - destruct (on_enter NExpr sp s) as [[s1 old] cur] eqn:He.
    apply bind_ok in H as [[t1 s2] [Hc H]]. inversion H; subst. kids Hc.
    eapply V_logical_expr; eauto.
  - unfold visit_bin_expr in H. cbn [nkids nspan nkind] in H.
    destruct (on_enter_with_span e sp s) as [[s1 old] cur] eqn:He.
    destruct (is_next cur) eqn:Hn.
    + apply bind_ok in H as [[t1 s2] [Hc H]]. inversion H; subst. kids Hc. eapply V_bin; eauto.
    + destruct (is_logical_op op) eqn:Hop.
      * destruct cs as [|l [|r [|? ?]]]; try discriminate.
        apply bind_ok in H as [[l' s3] [Hl H]]. apply bind_ok in H as [[r' s4] [Hr H]].
        inversion H; subst. eapply V_logical_inner; eauto using wrap_sound.
      * apply bind_ok in H as [[t1 s2] [Hc H]]. inversion H; subst. kids Hc. eapply V_bin; eauto.
Qed.
End Sound.

Lemma visit_sound : forall n v t s t' s', visit e n v t s = Ok (t', s') -> Vis v t s t' s'.
Proof.
  induction n as [|n IH]; intros v t s t' s' H; [discriminate|].
  simpl in H. unfold visit_body in H.
  destruct v; try (eapply instr_sound; eauto; reflexivity).
  eapply logical_sound; eauto.
Qed.
End Rel.

Scheme Vis_mut := Minimality for Vis Sort Prop
  with Kids_mut := Minimality for Kids Sort Prop
  with Ins_mut := Minimality for Ins Sort Prop
  with Wrap_mut := Minimality for Wrap Sort Prop
  with Arm_mut := Minimality for Arm Sort Prop
  with Items_mut := Minimality for Items Sort Prop
  with SItems_mut := Minimality for SItems Sort Prop.
Combined Scheme Vis_all_ind from Vis_mut, Kids_mut, Ins_mut, Wrap_mut, Arm_mut, Items_mut, SItems_mut.
