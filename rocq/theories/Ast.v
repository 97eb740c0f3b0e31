(** Syntax trees.

    A uniform model of the part of the SWC AST the instrumenter works on: a node is a
    kind, a span and its children in the field order in which SWC's derived visitors
    walk them.  Enum layers without a visitor hook anywhere in the code base ([Decl],
    [Pat], [ModuleItem], ...) are transparent; the ones with a hook or a role ([Expr],
    [Stmt], [ModuleDecl], [Vec<Stmt>], [Vec<ModuleItem>]) are explicit wrapper nodes.
    Child layouts:

    - [KModule]: [KModuleItems]; [KScript]: [KStmts]
    - [KModuleItems]: list of [KStmt] / [KModuleDecl]; [KModuleDecl]: one child
    - [KStmts]: list of [KStmt]; [KStmt], [KExpr]: one child (the enum variant)
    - [KBlock]: [KStmts]; [KExprStmt], [KThrow]: expr; [KReturn]: expr or [KNone]
    - [KIf]: test, cons, alt or [KNone]; loops: ..., body (last child)
    - [KSwitch]: discriminant, [KList] of [KSwitchCase]; [KSwitchCase]: test or [KNone], [KStmts]
    - [KWith]: obj, body; [KLabeled]: label, body; [KTry]: block, handler, finalizer
    - [KVarDecl]: [KList] of [KVarDeclarator]; [KVarDeclarator]: name, init or [KNone]
    - [KFnDecl], [KFnExpr]: ident or [KNone], [KFunction]
    - [KFunction]: [KList] params, [KList] decorators, [KBlock] or [KNone], types
    - [KArrow]: [KList] params, [KBlock] or [KExpr], types
    - [KClassDecl], [KClassExpr]: ident or [KNone], [KClass]
    - [KClass]: [KList] decorators, [KList] members, super class or [KNone], types
    - [KClassProp], [KPrivateProp]: key, value or [KNone], types, [KList] decorators
    - [KClassMethod], [KMethodProp]: key, [KFunction]
    - [KGetter]: key, types, [KBlock] or [KNone]
    - [KSetter]: key, this param, param, [KBlock] or [KNone]
    - [KCond]: test, cons, alt; [KBin]: left, right; [KAssignPat]: left, right
    - [KTaggedTpl]: tag, types, template; [KParen]: expr; [KSeq]: exprs

    [KBlock] carries a label telling whether the instrumenter made the block; nothing in the
    visitors depends on it.

    Every other node type is [KOther]; a node of TypeScript's type language that the
    instrumenting visitors skip ([noop_visit_mut_type!]) is [KTs]. *)
From Coq Require Import NArith String List Bool Lia PeanoNat.
Import ListNotations.
From Verif Require Import Base Oxide Hints.
Open Scope N_scope.

(** An increment of a counter slot: [cov().s[i]++], [cov().f[i]++], [cov().b[b][i]++],
    [cov().bT[b][i]++] *)
Inductive counter := CS (i : N) | CF (i : N) | CB (b i : N) | CT (b i : N).

Inductive binop := OpOr | OpAnd | OpNullish | OpOther (n : N).
Inductive varkind := VVar | VLet | VConst.

Inductive kind :=
(* roots, wrappers, lists *)
| KModule | KScript | KModuleItems | KModuleDecl | KExportDecl | KExportDefaultDecl
| KStmt | KStmts | KExpr | KList | KNone | KTs
(* statements *)
| KBlock (injected : bool) | KExprStmt | KBreak | KContinue | KReturn | KThrow | KTry | KDebugger | KLabeled
| KFor | KForIn | KForOf | KWhile | KDoWhile | KIf | KSwitch | KSwitchCase | KWith
| KVarDecl (vk : varkind) | KVarDeclarator
(* functions and classes *)
| KFnDecl | KFnExpr | KFunction | KArrow
| KClassDecl | KClassExpr | KClass | KClassProp | KPrivateProp | KClassMethod
| KMethodProp | KGetter | KSetter
(* expressions and patterns *)
| KCond | KTaggedTpl | KBin (op : binop) | KAssignPat | KParen | KSeq
| KIdent (sym : string) | KPropIdent (sym : string) | KStr (value : string)
(* injected code; [KInjParen], [KInjSeq], [KTempSeq] are ordinary parenthesised and sequence
   expressions, labelled so that erasing them can be stated *)
| KInjParen | KInjSeq | KTempSeq
| KCounter (c : counter)            (* create_increase_counter_expr *)
| KTempAssign                       (* cov().temp = expr *)
| KTempRead                         (* cov().temp *)
| KTempTest (n : N)                 (* side-effect free test of cov().temp *)
| KNullLit
| KTemplateFn (fc : file_coverage)  (* function cov_..() { .. } with the embedded data *)
| KTemplateCall                     (* cov_..() *)
(* everything else *)
| KOther (tag : N).

Inductive node := Node (k : kind) (sp : span) (cs : list node).

Definition nkind (t : node) : kind := match t with Node k _ _ => k end.
Definition nspan (t : node) : span := match t with Node _ sp _ => sp end.
Definition nkids (t : node) : list node := match t with Node _ _ cs => cs end.

Lemma node_ind' : forall P : node -> Prop,
  (forall k sp cs, Forall P cs -> P (Node k sp cs)) -> forall t, P t.
Proof.
  intros P H. fix IH 1. intros [k sp cs]. apply H.
  induction cs as [|c cs IHcs]; constructor; [apply IH | apply IHcs].
Qed.

(** Views *)
Definition is_none (t : node) : bool := match nkind t with KNone => true | _ => false end.
Definition is_absent (t : node) : bool := match t with Node KNone _ [] => true | _ => false end.
Definition is_block (t : node) : bool := match nkind t with KBlock _ => true | _ => false end.
Definition is_expr (t : node) : bool := match nkind t with KExpr => true | _ => false end.

Definition stmts_view (t : node) : option (span * list node) :=
  match t with Node KStmts ssp ss => Some (ssp, ss) | _ => None end.
Definition block_view (t : node) : option (bool * span * span * list node) :=
  match t with
  | Node (KBlock i) bsp [c] =>
      match stmts_view c with Some (ssp, ss) => Some (i, bsp, ssp, ss) | None => None end
  | _ => None
  end.
(** The variant inside a statement *)
Definition stmt_view (t : node) : option (span * node) :=
  match t with Node KStmt sp [x] => Some (sp, x) | _ => None end.
Definition expr_view (t : node) : option (span * node) :=
  match t with Node KExpr sp [x] => Some (sp, x) | _ => None end.

Lemma stmts_view_inv : forall t ssp ss, stmts_view t = Some (ssp, ss) -> t = Node KStmts ssp ss.
Proof. intros [[] sp cs] ssp ss H; try discriminate. now inversion H. Qed.
Lemma block_view_inv : forall t i bsp ssp ss, block_view t = Some (i, bsp, ssp, ss) ->
  t = Node (KBlock i) bsp [Node KStmts ssp ss].
Proof.
  intros [[] sp cs] i bsp ssp ss H; try discriminate.
  destruct cs as [|c [|? ?]]; try discriminate. cbn [block_view] in H.
  destruct (stmts_view c) as [[? ?]|] eqn:Hc; [|discriminate]. inversion H; subst.
  apply stmts_view_inv in Hc. now subst.
Qed.
Lemma stmt_view_inv : forall t sp x, stmt_view t = Some (sp, x) -> t = Node KStmt sp [x].
Proof.
  intros [[] sp cs] sp' x H; try discriminate.
  destruct cs as [|c [|? ?]]; try discriminate. now inversion H.
Qed.
Lemma expr_view_inv : forall t sp x, expr_view t = Some (sp, x) -> t = Node KExpr sp [x].
Proof.
  intros [[] sp cs] sp' x H; try discriminate.
  destruct cs as [|c [|? ?]]; try discriminate. now inversion H.
Qed.

(** Does a node of a kind in [p] occur in the tree? *)
Fixpoint occurs (p : kind -> bool) (t : node) : bool :=
  match t with Node k _ cs => p k || existsb (occurs p) cs end.

Definition is_logical_op (op : binop) : bool :=
  match op with OpOther _ => false | _ => true end.

(** ** Injected pieces *)

Definition mk (k : kind) (cs : list node) : node := Node k dummy_span cs.
Definition E (x : node) : node := mk KExpr [x].

(** instrument/create_increase_counter_expr.rs:7-63.  The expression is
    [Update(Member(Member(Call(cov)))) ] (one [Member] more for branches); nothing inside
    it has a visitor hook, so it is a leaf here. *)
Definition counter_expr (c : counter) : node := E (mk (KCounter c) []).

(** [Stmt::Expr(ExprStmt { span: DUMMY_SP, expr })] *)
Definition counter_stmt (c : counter) : node := mk KStmt [mk KExprStmt [counter_expr c]].

(** instrument/create_increase_true_expr.rs:61-189 [validate_true_non_trivial] *)
Definition validate_true_non_trivial : node :=
  E (mk (KBin OpAnd)
    [E (mk KTempRead []);
     E (mk (KBin OpAnd)
       [E (mk KParen [E (mk (KBin OpOr) [E (mk (KTempTest 0) []); E (mk (KTempTest 1) [])])]);
        E (mk KParen [E (mk (KBin OpOr) [E (mk (KTempTest 2) []); E (mk (KTempTest 3) [])])])])]).

(** instrument/create_increase_true_expr.rs:11-59 *)
Definition increase_true_expr (b i : N) (e : node) : node :=
  E (mk KTempSeq
    [E (mk KTempAssign [e]);
     E (mk KInjParen [E (mk KCond [validate_true_non_trivial; counter_expr (CT b i); E (mk KNullLit [])])]);
     E (mk KTempRead [])]).

(** macros/instrumentation_counter_helper.rs:50-56 *)
Definition paren_seq (c : counter) (e : node) : node :=
  E (mk KInjParen [E (mk KInjSeq [counter_expr c; e])]).

(** macros/instrumentation_counter_helper.rs:210-227: the nesting of [Member]s distinguishes
    [cov().s[i]++] and [cov().f[i]++] (recognised) from branch counters (not recognised).
    The callee is compared with an identifier that has no position, so an expression of
    the user's program is never recognised. *)
Definition is_sf_counter (k : kind) : bool :=
  match k with KCounter (CS _ | CF _) => true | _ => false end.
Definition is_injected_counter_expr (x : node) : bool :=
  match expr_view x with Some (_, y) => is_sf_counter (nkind y) | None => false end.

(** The expression of an expression statement *)
Definition expr_stmt_view (s : node) : option node :=
  match stmt_view s with
  | Some (_, Node KExprStmt _ [x]) => Some x
  | _ => None
  end.

(** 230-236 *)
Definition is_injected_counter_stmt (s : node) : bool :=
  match expr_stmt_view s with Some x => is_injected_counter_expr x | None => false end.
