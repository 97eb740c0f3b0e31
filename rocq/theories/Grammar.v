(** C67: the output of the instrumenter is a program of the grammar. *)
From Coq Require Import NArith String List Bool Lia PeanoNat.
Import ListNotations.
From Verif Require Import Base IndexMap Oxide SourceCov Hints Ast Visitor VisitorRel VisitorEx Erase OneEntry FixtureRun Fixtures.
Open Scope N_scope.

(** ** Specification *)
Definition expr_kind (k : kind) : bool :=
  match k with
  | KFnExpr | KArrow | KClassExpr | KCond | KTaggedTpl | KBin _ | KParen | KSeq | KIdent _ | KStr _ | KOther _
  | KInjParen | KInjSeq | KTempSeq | KCounter _ | KTempAssign | KTempRead | KTempTest _ | KNullLit => true
  | _ => false
  end.
Definition stmt_kind (k : kind) : bool :=
  match k with
  | KBlock _ | KExprStmt | KBreak | KContinue | KReturn | KThrow | KTry | KDebugger | KLabeled
  | KFor | KForIn | KForOf | KWhile | KDoWhile | KIf | KSwitch | KWith | KVarDecl _ | KFnDecl | KClassDecl
  | KTemplateFn _ | KTemplateCall | KOther _ => true
  | _ => false
  end.
(** Statements which are no declarations: the bodies of [if], loops, [with] and labels.  A function is one
    in sloppy code. *)
Definition body_kind (k : kind) : bool :=
  stmt_kind k && match k with KVarDecl VVar => true | KVarDecl _ | KClassDecl | KTemplateFn _ => false | _ => true end.
Definition member_kind (k : kind) : bool :=
  match k with KClassProp | KPrivateProp | KClassMethod | KOther _ => true | _ => false end.

(** What the parent of a node sees of it: its kind and, of a statement or a list, the kinds of its parts *)
Definition face : Type := kind * list kind.
Definition face_of (t : node) : face :=
  (nkind t, match nkind t with KStmt | KList => map nkind (nkids t) | _ => [] end).
Definition is_e (f : face) : bool := match fst f with KExpr => true | _ => false end.
Definition is_s (f : face) : bool := match fst f with KStmt => true | _ => false end.
Definition is_0 (f : face) : bool := match fst f with KNone => true | _ => false end.
Definition is_b (f : face) : bool := match fst f with KBlock _ => true | _ => false end.
Definition is_id (f : face) : bool := match fst f with KIdent _ => true | _ => false end.
Definition is_ss (f : face) : bool := match fst f with KStmts => true | _ => false end.
Definition is_body (f : face) : bool := match f with (KStmt, [k]) => body_kind k | _ => false end.
Definition is_list_of (p : kind -> bool) (f : face) : bool := match f with (KList, ks) => forallb p ks | _ => false end.
Definition any (k : kind) : bool := true.
Definition is_case (k : kind) : bool := match k with KSwitchCase => true | _ => false end.
Definition is_declarator (k : kind) : bool := match k with KVarDeclarator => true | _ => false end.
Definition is_class (f : face) : bool := match fst f with KClass => true | _ => false end.
Definition is_fn (f : face) : bool := match fst f with KFunction => true | _ => false end.
Definition is_item (f : face) : bool := match fst f with KStmt | KModuleDecl => true | _ => false end.

(** The children of a node of each kind *)
Definition rule (k : kind) (fs : list face) : bool :=
  match k with
  | KModule => match fs with [(KModuleItems, _)] => true | _ => false end
  | KScript => match fs with [b] => is_ss b | _ => false end
  | KModuleItems => forallb is_item fs
  | KModuleDecl | KExportDecl | KExportDefaultDecl => match fs with [_] => true | _ => false end
  | KStmts => forallb is_s fs
  | KStmt => match fs with [(k, _)] => stmt_kind k | _ => false end
  | KExpr => match fs with [(k, _)] => expr_kind k | _ => false end
  | KNone | KBreak | KContinue | KDebugger => match k, fs with KNone, _ :: _ => false | _, _ => true end
  | KBlock _ => match fs with [b] => is_ss b | _ => false end
  | KExprStmt | KThrow | KParen | KInjParen | KTempAssign => match fs with [x] => is_e x | _ => false end
  | KReturn => match fs with [x] => is_e x || is_0 x | _ => false end
  | KTry => match fs with [b; _; f] => is_b b && (is_b f || is_0 f) | _ => false end
  | KLabeled => match fs with [_; s] => is_body s | _ => false end
  | KFor => match fs with [_; t; u; s] => (is_e t || is_0 t) && (is_e u || is_0 u) && is_body s | _ => false end
  | KForIn | KForOf => match fs with [_; x; s] => is_e x && is_body s | _ => false end
  | KWhile | KDoWhile | KWith => match fs with [x; s] => is_e x && is_body s | _ => false end
  | KIf => match fs with [x; s; a] => is_e x && is_body s && (is_0 a || is_body a) | _ => false end
  | KSwitch => match fs with [x; l] => is_e x && is_list_of is_case l | _ => false end
  | KSwitchCase => match fs with [x; b] => (is_e x || is_0 x) && is_ss b | _ => false end
  | KVarDecl _ => match fs with [l] => is_list_of is_declarator l | _ => false end
  | KVarDeclarator => match fs with [_; x] => is_e x || is_0 x | _ => false end
  | KFnDecl => match fs with [i; f] => is_id i && is_fn f | _ => false end
  | KFnExpr => match fs with [i; f] => (is_id i || is_0 i) && is_fn f | _ => false end
  | KFunction => match fs with [p; d; b; _] => is_list_of any p && is_list_of any d && (is_b b || is_0 b) | _ => false end
  | KArrow => match fs with [p; b; _] => is_list_of any p && (is_b b || is_e b) | _ => false end
  | KClassDecl => match fs with [i; c] => is_id i && is_class c | _ => false end
  | KClassExpr => match fs with [i; c] => (is_id i || is_0 i) && is_class c | _ => false end
  | KClass => match fs with [d; m; s; _] => is_list_of any d && is_list_of member_kind m && (is_e s || is_0 s) | _ => false end
  | KClassProp | KPrivateProp => match fs with [_; x; _; d] => (is_e x || is_0 x) && is_list_of any d | _ => false end
  | KClassMethod | KMethodProp => match fs with [_; f] => is_fn f | _ => false end
  | KGetter => match fs with [_; _; b] => is_b b || is_0 b | _ => false end
  | KSetter => match fs with [_; _; _; b] => is_b b || is_0 b | _ => false end
  | KCond => match fs with [x; y; z] => is_e x && is_e y && is_e z | _ => false end
  | KTaggedTpl => match fs with [x; _; _] => is_e x | _ => false end
  | KBin _ => match fs with [x; y] => is_e x && is_e y | _ => false end
  | KAssignPat => match fs with [_; x] => is_e x | _ => false end
  | KSeq | KInjSeq | KTempSeq => match fs with _ :: _ :: _ => forallb is_e fs | _ => false end
  | KCounter _ | KTempRead | KNullLit | KTemplateFn _ | KTemplateCall => match fs with [] => true | _ => false end
  | KList | KTs | KIdent _ | KPropIdent _ | KStr _ | KTempTest _ | KOther _ => true
  end.
Fixpoint grammatical (t : node) : bool :=
  match t with Node k _ cs => rule k (map face_of cs) && forallb grammatical cs end.

(** ** Faces *)
Lemma gram_node : forall k sp cs, grammatical (Node k sp cs) = rule k (map face_of cs) && forallb grammatical cs.
Proof. reflexivity. Qed.
Lemma faces_kinds : forall a b, map face_of a = map face_of b -> map nkind a = map nkind b.
Proof.
  induction a as [|x a IH]; intros [|y b] H; try discriminate; [reflexivity|]. cbn [map] in *. injection H as H1 H2 H3.
  f_equal; auto.
Qed.
Lemma face_node : forall k sp sp' cs cs', map face_of cs' = map face_of cs -> face_of (Node k sp' cs') = face_of (Node k sp cs).
Proof. intros k sp sp' cs cs' H. unfold face_of. cbn [nkind nkids]. rewrite (faces_kinds _ _ H). reflexivity. Qed.
Lemma face_flat : forall k sp sp' cs cs', match k with KStmt | KList => false | _ => true end = true -> face_of (Node k sp' cs') = face_of (Node k sp cs).
Proof. intros k sp sp' cs cs' H. unfold face_of. cbn [nkind nkids]. destruct k; try reflexivity; discriminate. Qed.
Lemma gram_same : forall k sp sp' cs cs', grammatical (Node k sp cs) = true -> map face_of cs' = map face_of cs -> forallb grammatical cs' = true ->
  grammatical (Node k sp' cs') = true.
Proof. intros k sp sp' cs cs' H F G. rewrite gram_node in *. apply andb_true_iff in H as [H _]. now rewrite F, H, G. Qed.
Lemma gram_kids : forall k sp cs, grammatical (Node k sp cs) = true -> forallb grammatical cs = true.
Proof. intros k sp cs H. rewrite gram_node in H. now apply andb_true_iff in H as [_ H]. Qed.

Definition ok (t : node) : Prop := grammatical t = true.
Definition oks (ts : list node) : Prop := forallb grammatical ts = true.
Definition stmts_ok (ts : list node) : Prop := oks ts /\ forallb (fun t => is_s (face_of t)) ts = true.
Definition items_ok (ts : list node) : Prop := oks ts /\ forallb (fun t => is_item (face_of t)) ts = true.
Lemma forallb_map : forall A B (f : A -> B) p l, forallb p (map f l) = forallb (fun x => p (f x)) l.
Proof. intros A B f p l. induction l as [|x l IH]; [reflexivity|]. cbn. now rewrite IH. Qed.
Lemma stmts_node : forall sp ss, ok (Node KStmts sp ss) <-> stmts_ok ss.
Proof. intros sp ss. unfold ok, stmts_ok, oks. rewrite gram_node, andb_true_iff. cbn [rule]. rewrite forallb_map. tauto. Qed.
Lemma items_node : forall sp ss, ok (Node KModuleItems sp ss) <-> items_ok ss.
Proof. intros sp ss. unfold ok, items_ok, oks. rewrite gram_node, andb_true_iff. cbn [rule]. rewrite forallb_map. tauto. Qed.
Lemma block_node : forall i bsp ssp ss, ok (Node (KBlock i) bsp [Node KStmts ssp ss]) <-> stmts_ok ss.
Proof.
  intros i bsp ssp ss. unfold ok. rewrite gram_node. cbn [map rule face_of nkind is_ss fst andb forallb]. rewrite andb_true_r. apply stmts_node.
Qed.
Lemma stmts_app : forall a b, stmts_ok (a ++ b) <-> stmts_ok a /\ stmts_ok b.
Proof. intros a b. unfold stmts_ok, oks. rewrite !forallb_app, !andb_true_iff. tauto. Qed.
Lemma stmts_cons : forall a b, stmts_ok (a :: b) <-> ok a /\ is_s (face_of a) = true /\ stmts_ok b.
Proof. intros a b. unfold stmts_ok, oks, ok. cbn [forallb]. rewrite !andb_true_iff. tauto. Qed.
Lemma items_app : forall a b, items_ok (a ++ b) <-> items_ok a /\ items_ok b.
Proof. intros a b. unfold items_ok, oks. rewrite !forallb_app, !andb_true_iff. tauto. Qed.
Lemma items_cons : forall a b, items_ok (a :: b) <-> ok a /\ is_item (face_of a) = true /\ items_ok b.
Proof. intros a b. unfold items_ok, oks, ok. cbn [forallb]. rewrite !andb_true_iff. tauto. Qed.
Lemma stmts_nil : stmts_ok []. Proof. split; reflexivity. Qed.
Lemma items_nil : items_ok []. Proof. split; reflexivity. Qed.
Lemma stmts_items : forall a, stmts_ok a -> items_ok a.
Proof.
  intros a [H1 H2]. split; [exact H1|]. rewrite forallb_forall in *. intros x Hx. specialize (H2 x Hx).
  unfold is_s, is_item in *. destruct (fst (face_of x)); auto.
Qed.
Lemma counter_ok : forall c, stmts_ok [counter_stmt c].
Proof. intros c. split; reflexivity. Qed.
Lemma oks_cons : forall a b, oks (a :: b) <-> ok a /\ oks b.
Proof. intros a b. unfold oks, ok. cbn [forallb]. rewrite andb_true_iff. tauto. Qed.
Lemma ok_node : forall k sp cs, ok (Node k sp cs) <-> rule k (map face_of cs) = true /\ oks cs.
Proof. intros k sp cs. unfold ok, oks. rewrite gram_node, andb_true_iff. tauto. Qed.
Lemma paren_ok : forall c x, ok x -> is_e (face_of x) = true -> ok (paren_seq c x) /\ is_e (face_of (paren_seq c x)) = true.
Proof. intros c x H He. split; [|reflexivity]. unfold ok in *. cbn. rewrite H. cbn in *. unfold is_e in *. cbn in *. rewrite He. reflexivity. Qed.
Lemma true_ok : forall b i x, ok x -> is_e (face_of x) = true -> ok (E (mk KInjSeq [counter_expr (CB b i); increase_true_expr b i x])).
Proof. intros b i x H He. unfold ok in *. cbn. rewrite H. unfold is_e in *. cbn in *. rewrite He. reflexivity. Qed.

Section Visits.
Variable e : env.
Lemma mark_ok : forall sp s, stmts_ok (before s) -> stmts_ok (before (mark_prepend_stmt_counter e sp s)).
Proof.
  intros sp s H. unfold mark_prepend_stmt_counter. destruct (new_statement _ _) as [c i]. cbn [before]. apply stmts_app. split; [exact H|apply counter_ok].
Qed.
Lemma prepend_ok : forall c b b', prepend_to_block c b = Some b' -> ok b -> ok b' /\ face_of b' = face_of b.
Proof.
  intros c b b' H Hb. unfold prepend_to_block in H. destruct (block_view b) as [[[[i bsp] ssp] ss]|] eqn:Hv; [|discriminate].
  apply block_view_inv in Hv. injection H as <-. subst b. split; [|reflexivity]. apply block_node in Hb. apply block_node.
  change (counter_stmt c :: ss) with ([counter_stmt c] ++ ss). apply stmts_app. split; [apply counter_ok|exact Hb].
Qed.
Lemma create_fn_ok : forall id fn s fn' s', create_fn_instrumentation e id fn s = Ok (fn', s') -> ok fn ->
  ok fn' /\ face_of fn' = face_of fn /\ before s' = before s.
Proof.
  intros id fn s fn' s' H Hf. destruct fn as [k sp cs]. unfold create_fn_instrumentation in H. destruct k; try discriminate.
  destruct cs as [|p [|d [|b [|ty [|? ?]]]]]; try discriminate. destruct (new_function _ _ _ _) as [c i]. destruct (is_none b); [discriminate|].
  destruct (prepend_to_block (CF i) b) as [b'|] eqn:Hp; try discriminate. injection H as <- <-.
  apply ok_node in Hf as [R O]. rewrite !oks_cons in O. destruct O as (O1 & O2 & O3 & O4 & _).
  destruct (prepend_ok _ _ _ Hp O3) as [O F]. split; [|split; reflexivity]. apply ok_node. cbn [map] in *. rewrite F. split; [exact R|].
  rewrite !oks_cons. repeat split; auto.
Qed.
Lemma accessor_ok : forall name sp s b b' s', accessor_body e name sp s b = Ok (b', s') -> ok b ->
  ok b' /\ face_of b' = face_of b /\ before s' = before s.
Proof.
  intros name sp s b b' s' H Hb. unfold accessor_body in H. destruct (is_none b); [injection H as <- <-; auto|].
  destruct (new_function _ _ _ _) as [c i]. destruct (prepend_to_block (CF i) b) as [b''|] eqn:Hp; try discriminate. injection H as <- <-.
  destruct (prepend_ok _ _ _ Hp Hb) as [O F]. auto.
Qed.
Lemma expr_face : forall x y, is_e (face_of x) = true -> is_e (face_of y) = true -> face_of x = face_of y.
Proof. intros [k sp cs] [k' sp' cs'] H H'. unfold is_e, face_of in *. cbn [fst nkind nkids] in *. destruct k; try discriminate H. destruct k'; try discriminate H'. reflexivity. Qed.
Lemma is_expr_face : forall x, is_expr x = is_e (face_of x).
Proof. reflexivity. Qed.
Lemma covered_ok : forall x s x' s', covered e x s x' s' -> ok x -> is_e (face_of x) = true -> stmts_ok (before s) ->
  ok x' /\ face_of x' = face_of x /\ stmts_ok (before s').
Proof.
  intros x s x' s' (s1 & Hs1 & Hx) O He B.
  assert (B1 : stmts_ok (before s1)) by (destruct Hs1 as [->| ->]; [exact B|now apply mark_ok]).
  destruct Hx as [[-> Hs]|[_ Hx]].
  - split; [exact O|]. split; [reflexivity|]. destruct Hs as [->| ->]; [exact B1|now apply mark_ok].
  - unfold replace_expr_with_stmt_counter in Hx. destruct (new_statement _ _) as [c i]. injection Hx as <- <-.
    destruct (paren_ok (CS i) x O He) as [P1 P2]. split; [exact P1|]. split; [now apply expr_face|exact B1].
Qed.
Lemma replace_ok : forall b x s x' s', replace_expr_with_branch_counter e x b s = Ok (x', s') -> ok x ->
  ok x' /\ face_of x' = face_of x /\ before s' = before s.
Proof.
  intros b x s x' s' H O. unfold replace_expr_with_branch_counter in H. destruct (is_expr x) eqn:He; [|discriminate]. cbn [negb] in H.
  apply bind_ok in H as [[c i] [_ H]]. injection H as <- <-. destruct (paren_ok (CB b i) x O He) as [P1 P2].
  split; [exact P1|]. split; [now apply expr_face|reflexivity].
Qed.
Lemma arm_ok : forall b x s x' s', cond_arm e b x s x' s' -> ok x -> ok x' /\ face_of x' = face_of x /\ before s' = before s.
Proof. intros b x s x' s' [[-> ->]|H] O; [auto|]. eapply replace_ok; eauto. Qed.
Lemma body_block : forall sp i b, is_body (face_of (Node KStmt sp [Node (KBlock i) b []])) = true.
Proof. reflexivity. Qed.
Lemma to_block_ok : forall x x', to_block x = Some x' -> ok x -> is_body (face_of x) = true -> ok x' /\ is_body (face_of x') = true.
Proof.
  intros x x' H O B. unfold to_block in H. destruct (stmt_view x) as [[sp y]|] eqn:Hv; [|discriminate]. apply stmt_view_inv in Hv. subst x.
  destruct (is_block y); injection H as <-; [auto|]. split; [|reflexivity]. unfold mk. apply ok_node. split; [reflexivity|]. rewrite oks_cons. split; [|reflexivity].
  apply block_node. rewrite stmts_cons. split; [exact O|]. split; [reflexivity|apply stmts_nil].
Qed.
Lemma loop_ok : forall k sp cs cs', loop_kind k = true -> block_last cs = Some cs' -> ok (Node k sp cs) -> ok (Node k sp cs').
Proof.
  intros k sp cs cs' Hk H O. apply ok_node in O as [R O]. apply ok_node.
  destruct k; try discriminate Hk; cbn [rule] in *;
  repeat (match type of R with context [map face_of ?l] => destruct l as [|? l]; cbn [map] in R; try discriminate R end);
  rewrite !andb_true_iff in R; rewrite !oks_cons in O; cbn [block_last option_map] in H;
  match type of H with context [to_block ?x] => destruct (to_block x) as [x'|] eqn:Hx; [|discriminate] end; cbn [option_map] in H; injection H as <-;
  (apply to_block_ok in Hx as [X1 X2]; [|tauto|tauto]); cbn [map]; rewrite !andb_true_iff, !oks_cons; repeat split; tauto.
Qed.

Definition CV (t : node) (s : st) (t' : node) (s' : st) : Prop :=
  ok t -> stmts_ok (before s) -> ok t' /\ face_of t' = face_of t /\ stmts_ok (before s').
Definition CK (cs : list node) (s : st) (cs' : list node) (s' : st) : Prop :=
  oks cs -> stmts_ok (before s) -> oks cs' /\ map face_of cs' = map face_of cs /\ stmts_ok (before s').
Definition CI (ss : list node) (s : st) (ss' : list node) (s' : st) : Prop :=
  stmts_ok ss -> stmts_ok (before s) -> stmts_ok ss' /\ stmts_ok (before s').
Definition CW (x : node) (s : st) (x' : node) (s' : st) : Prop :=
  ok x -> is_e (face_of x) = true -> stmts_ok (before s) -> ok x' /\ is_e (face_of x') = true /\ stmts_ok (before s').
Definition CA (x : node) (s : st) (x' : node) (s' : st) : Prop :=
  ok x -> is_0 (face_of x) || is_body (face_of x) = true -> stmts_ok (before s) ->
  ok x' /\ is_0 (face_of x') || is_body (face_of x') = true /\ (is_body (face_of x) = true -> is_body (face_of x') = true) /\ stmts_ok (before s').
Definition CM (xs : list node) (s : st) (xs' : list node) (s' : st) : Prop :=
  items_ok xs -> stmts_ok (before s) -> items_ok xs' /\ stmts_ok (before s').

Ltac rwst :=
  repeat match goal with
  | H : on_enter e _ _ _ = (_, _, _) |- _ => let C := fresh "Hc" in let B := fresh "Hb" in apply on_enter_facts in H as (C & B & _ & _)
  | H : on_enter_with_span e _ _ = (_, _, _) |- _ => let C := fresh "Hc" in let B := fresh "Hb" in apply on_enter_with_span_facts in H as (C & B & _ & _)
  end;
  cbn [cov before on_exit pop push set_ign set_cov spawn clear_before] in *;
  repeat match goal with
    | H : before ?a = before ?b, K : stmts_ok (before ?b) |- _ =>
        lazymatch goal with _ : stmts_ok (before a) |- _ => fail | _ => assert (stmts_ok (before a)) by (now rewrite H) end
    end.
Theorem grammar_all :
  (forall v t s t' s', Vis e v t s t' s' -> CV t s t' s') /\
  (forall v cs s cs' s', Kids e v cs s cs' s' -> CK cs s cs' s') /\
  (forall ss s ss' s', Ins e ss s ss' s' -> CI ss s ss' s') /\
  (forall v b x s x' s', Wrap e v b x s x' s' -> CW x s x' s') /\
  (forall b r cur x s x' s', Arm e b r cur x s x' s' -> CA x s x' s') /\
  (forall xs s xs' s', Items e xs s xs' s' -> CM xs s xs' s') /\
  (forall xs s xs' s', SItems e xs s xs' s' -> CI xs s xs' s').
Proof.
  assert (KK : forall k sp cs cs' (B B' : Prop), ok (Node k sp cs) -> B -> (oks cs -> B -> oks cs' /\ map face_of cs' = map face_of cs /\ B') ->
            ok (Node k sp cs') /\ face_of (Node k sp cs') = face_of (Node k sp cs) /\ B').
  { intros k sp cs cs' B B' O HB H. apply ok_node in O as [R O]. destruct (H O HB) as (O' & F & HB'). split; [|split; [now apply face_node|exact HB']].
    apply ok_node. now rewrite F. }
  apply Vis_all_ind; unfold CV, CK, CI, CW, CA, CM; intros; rwst.
  all: try match goal with |- ok (Node ?k ?sp _) /\ _ => solve [eapply KK; eauto using mark_ok] end.
  all: try solve [auto].
  - (* V_stmts *) rewrite stmts_node in *. destruct H1 as [A B]; auto.
  - (* V_fn *) match goal with H : ok (Node k sp _) |- _ => apply ok_node in H as [R O] end. rewrite !oks_cons in O. destruct O as (O1 & O2 & O3).
    match goal with H : create_fn_instrumentation _ _ _ _ = _ |- _ => apply create_fn_ok in H as (F1 & F2 & F3); [|exact O2] end.
    rwst.
    match goal with H : oks _ -> _ -> _ |- _ => destruct H as (P1 & P2 & P3); [rewrite !oks_cons; auto|assumption|] end.
    cbn [map] in *. rewrite F2 in P2. split; [|split; [now apply face_node|exact P3]]. apply ok_node. now rewrite P2.
  - (* V_accessor *) match goal with H : ok (Node k sp _) |- _ => apply ok_node in H as [R O] end. unfold oks in O. rewrite forallb_app, andb_true_iff in O. destruct O as [O1 O2].
    cbn [forallb] in O2. rewrite andb_true_r in O2.
    match goal with H : accessor_body _ _ _ _ _ = _ |- _ => apply accessor_ok in H as (F1 & F2 & F3); [|exact O2] end.
    rwst.
    match goal with H : oks _ -> _ -> _ |- _ => destruct H as (P1 & P2 & P3); [unfold oks; rewrite forallb_app, O1; cbn; now rewrite F1|assumption|] end.
    assert (F : map face_of (pre ++ [body']) = map face_of (pre ++ [body])) by (rewrite !map_app; cbn [map]; now rewrite F2).
    rewrite F in P2. split; [|split; [now apply face_node|exact P3]]. apply ok_node. now rewrite P2.
  - (* V_arrow_block *) match goal with H : ok (Node KArrow _ _) |- _ => apply ok_node in H as [R O] end. rewrite !oks_cons in O. destruct O as (O1 & O2 & O3 & _).
    apply block_node in O2. destruct H4 as [A B]; auto. split; [|split; [now apply face_flat|exact B]].
    apply ok_node. split; [exact R|]. rewrite !oks_cons. repeat split; auto.
    apply block_node. change (counter_stmt (CF index) :: ss') with ([counter_stmt (CF index)] ++ ss'). apply stmts_app. split; [apply counter_ok|exact A].
  - (* V_arrow_expr *) match goal with H : ok (Node KArrow _ _) |- _ => apply ok_node in H as [R O] end. rewrite !oks_cons in O. destruct O as (O1 & O2 & O3 & _).
    destruct H4 as [A B]; auto.
    { rewrite stmts_cons. split; [reflexivity|]. split; [reflexivity|]. rewrite stmts_cons. split; [|split; [reflexivity|apply stmts_nil]].
      apply ok_node. split; [reflexivity|]. rewrite oks_cons. split; [|reflexivity]. apply ok_node. split; [reflexivity|]. rewrite oks_cons. split; [exact O2|reflexivity]. }
    split; [|split; [now apply face_flat|exact B]]. apply ok_node. split.
    + cbn in R |- *. now rewrite andb_true_r in R |- *.
    + rewrite !oks_cons. repeat split; auto. now apply block_node.
  - (* V_init *) match goal with H : ok (Node k sp _) |- _ => apply ok_node in H as [R O] end. rewrite !oks_cons in O. destruct O as (O1 & O2 & O3).
    match goal with H : is_expr value = true /\ _ |- _ => destruct H as [He _] end.
    match goal with H : covered _ _ _ _ _ |- _ => apply covered_ok in H as (F1 & F2 & F3); [|exact O2|exact He|assumption] end.
    match goal with H : oks _ -> _ -> _ |- _ => destruct H as (P1 & P2 & P3); [rewrite !oks_cons; auto|exact F3|] end.
    cbn [map] in P2. rewrite F2 in P2. split; [|split; [now apply face_node|exact P3]]. apply ok_node. now rewrite P2.
  - (* V_init_tagged *) match goal with H : ok (Node k sp _) |- _ => apply ok_node in H as [R O] end. rewrite !oks_cons in O. destruct O as (O1 & O2 & O3).
    assert (X := O2). apply ok_node in X as [R2 O4]. rewrite oks_cons in O4. destruct O4 as [O4 _].
    match goal with H : ok tpl -> _ |- _ => destruct H as (F1 & F2 & F3); [exact O4|now apply mark_ok|] end.
    match goal with H : oks _ -> _ -> _ |- _ => destruct H as (P1 & P2 & P3); [|exact F3|] end.
    { rewrite !oks_cons. repeat split; auto. apply ok_node. split; [cbn [map] in *; now rewrite F2|]. rewrite oks_cons. split; [exact F1|reflexivity]. }
    split; [|split; [now apply face_node|exact P3]]. apply ok_node. now rewrite P2.
  - (* V_loop *) match goal with H : ok (Node k sp cs) |- _ => eapply loop_ok in H; [|eassumption|eassumption] end.
    assert (MO : stmts_ok (before (mark_prepend_stmt_counter e sp s1))) by (now apply mark_ok).
    match goal with H : oks cs1 -> _ -> _, O : ok (Node k sp cs1) |- _ => destruct (KK _ _ _ _ _ _ O MO H) as (P1 & P2 & P3) end.
    split; [exact P1|]. split; [apply face_flat; destruct k; try reflexivity; discriminate|exact P3].
  - (* V_cond *) match goal with H : ok (Node KCond sp _) |- _ => apply ok_node in H as [R O] end. rewrite !oks_cons in O. destruct O as (O1 & O2 & O3 & _).
    apply arm_ok in H3 as (F1 & F2 & F3); [|exact O2]. apply arm_ok in H4 as (F4 & F5 & F6); [|exact O3]. cbn [before set_cov] in F3.
    destruct H6 as (P1 & P2 & P3); [rewrite !oks_cons; repeat split; auto|rewrite F6, F3; assumption|].
    cbn [map] in *. rewrite F2, F5 in P2. split; [|split; [now apply face_flat|exact P3]]. apply ok_node. now rewrite P2.
  - (* V_switch *) match goal with H : ok (Node KSwitch sp _) |- _ => apply ok_node in H as [R O] end.
    destruct H4 as (P1 & P2 & P3); [exact O|apply stmts_nil|].
    split; [apply ok_node; now rewrite P2|]. split; [now apply face_flat|now apply mark_ok].
  - (* V_if *) match goal with H : ok (Node KIf sp _) |- _ => apply ok_node in H as [R O] end. rewrite !oks_cons in O. destruct O as (O1 & O2 & O3 & _).
    cbn [map rule] in R. rewrite !andb_true_iff in R. destruct R as [[R1 R2] R3].
    destruct H4 as (P1 & P2 & P3 & P4); [exact O2|rewrite R2; apply orb_true_r|now apply mark_ok|].
    destruct H6 as (Q1 & Q2 & Q3 & Q4); [exact O3|exact R3|exact P4|].
    destruct H8 as (T1 & T2 & T3); [exact O1|exact Q4|].
    split; [|split; [now apply face_flat|exact T3]]. apply ok_node. cbn [map rule]. rewrite T2, R1, (P3 R2), Q2, !oks_cons. repeat split; auto.
  - (* V_with_block *) match goal with H : ok (Node KWith sp _) |- _ => apply ok_node in H as [R O] end. rewrite !oks_cons in O. destruct O as (O1 & O2 & _).
    apply ok_node in O2 as [_ O2]. rewrite oks_cons in O2. destruct O2 as [O2 _]. apply block_node in O2.
    destruct H3 as [P1 P2]; [exact O2|now apply mark_ok|].
    split; [|split; [now apply face_flat|exact P2]]. apply ok_node. split; [exact R|]. rewrite !oks_cons. split; [exact O1|]. split; [|reflexivity].
    apply ok_node. split; [reflexivity|]. rewrite oks_cons. split; [now apply block_node|reflexivity].
  - (* V_with_stmt *) match goal with H : ok (Node KWith sp _) |- _ => apply ok_node in H as [R O] end. rewrite !oks_cons in O. destruct O as (O1 & O2 & _).
    destruct H4 as (P1 & P2 & P3); [exact O2|apply stmts_nil|].
    split; [|split; [now apply face_flat|now apply mark_ok]].
    apply ok_node. split; [cbn [map rule] in R |- *; apply andb_true_iff in R as [R _]; now rewrite R|]. rewrite !oks_cons. split; [exact O1|]. split; [|reflexivity].
    apply ok_node. split; [reflexivity|]. rewrite oks_cons. split; [|reflexivity]. apply block_node. apply stmts_app. split; [exact P3|].
    rewrite stmts_cons. split; [exact P1|]. split; [now rewrite P2|apply stmts_nil].
  - (* V_logical_new *) match goal with H : ok (Node (KBin op) sp _) |- _ => apply ok_node in H as [R O] end. rewrite !oks_cons in O. destruct O as (O1 & O2 & _).
    cbn [map rule] in R. rewrite !andb_true_iff in R. destruct R as [R1 R2].
    assert (B : before s2 = before s1). { unfold new_logical_branch in *. destruct (new_branch _ _ _ _). match goal with H : (_, _) = (s2, b) |- _ => injection H as <- _ end. reflexivity. }
    match goal with H : ok l -> _ |- _ => destruct H as (P1 & P2 & P3); [exact O1|exact R1|now rewrite B|] end.
    match goal with H : ok r -> _ |- _ => destruct H as (Q1 & Q2 & Q3); [exact O2|exact R2|exact P3|] end.
    split; [|split; [now apply face_flat|exact Q3]]. apply ok_node. cbn [map rule]. rewrite P2, Q2, !oks_cons. repeat split; auto.
  - (* V_logical_inner *) match goal with H : ok (Node (KBin op) sp _) |- _ => apply ok_node in H as [R O] end. rewrite !oks_cons in O. destruct O as (O1 & O2 & _).
    cbn [map rule] in R. rewrite !andb_true_iff in R. destruct R as [R1 R2].
    match goal with H : ok l -> _ |- _ => destruct H as (P1 & P2 & P3); [exact O1|exact R1|assumption|] end.
    match goal with H : ok r -> _ |- _ => destruct H as (Q1 & Q2 & Q3); [exact O2|exact R2|exact P3|] end.
    split; [|split; [now apply face_flat|exact Q3]]. apply ok_node. cbn [map rule]. rewrite P2, Q2, !oks_cons. repeat split; auto.
  - (* V_assign_pat *) match goal with H : ok (Node KAssignPat sp _) |- _ => apply ok_node in H as [R O] end. rewrite !oks_cons in O. destruct O as (O1 & O2 & _).
    cbn [map rule] in R.
    match goal with H : ok r -> _ |- _ => destruct H as (Q1 & Q2 & Q3); [exact O2|exact R|assumption|] end.
    split; [|split; [now apply face_flat|exact Q3]]. apply ok_node. cbn [map rule]. rewrite Q2, !oks_cons. repeat split; auto.
  - (* V_module_items *) match goal with H : get_coverage_templates _ = _ |- _ => injection H as <- <- <- end. cbn [before set_cov cov] in *.
    match goal with H : ok (Node KModuleItems _ _) |- _ => apply items_node in H; rename H into O end.
    match goal with H : items_ok _ -> _ |- _ => destruct H as [P1 P2]; [exact O|assumption|] end.
    match goal with H : out = _ |- _ => rewrite H end. match goal with H : before s3 = _ |- _ => rewrite H end.
    split; [|split; [now apply face_flat|exact P2]]. apply items_node. destruct items' as [|i is]; [split; reflexivity|].
    rewrite !items_cons in *. destruct P1 as (A & B & C). repeat split; auto; apply C.
  - (* V_script *) match goal with H : get_coverage_templates _ = _ |- _ => injection H as <- <- <- end. cbn [before set_cov cov] in *.
    match goal with H : ok (Node KScript _ _) |- _ => apply ok_node in H as [R O] end. rewrite oks_cons in O. destruct O as [O _]. apply stmts_node in O.
    match goal with H : stmts_ok _ -> _ |- _ => destruct H as [P1 P2]; [exact O|assumption|] end.
    split; [|split; [now apply face_flat|exact P2]]. apply ok_node. split; [reflexivity|]. rewrite oks_cons. split; [|reflexivity]. apply stmts_node.
    rewrite !stmts_cons. repeat split; auto; apply P1.
  - (* K_cons *) rewrite !oks_cons in *. match goal with H : ok t /\ _ |- _ => destruct H as [O1 O2] end.
    destruct H0 as (P1 & P2 & P3); [exact O1|assumption|]. destruct H2 as (Q1 & Q2 & Q3); [exact O2|exact P3|]. cbn [map]. rewrite P2, Q2. auto.
  - (* I_injected *) rewrite stmts_cons in *. destruct H1 as [P1 P2]; [tauto|assumption|]. tauto.
  - (* I_skip *) rewrite stmts_cons in *. match goal with H : stmts_ok ss -> _ |- _ => destruct H as [P1 P2]; [tauto|assumption|] end. tauto.
  - (* I_visit *) match goal with H : stmts_ok (_ :: ss) |- _ => rewrite stmts_cons in H; destruct H as (O1 & O2 & O3) end.
    match goal with H : oks cs -> _ -> _ |- _ => destruct (KK _ _ _ _ _ _ O1 stmts_nil H) as (P1 & P2 & P3) end.
    match goal with H : stmts_ok ss -> _ |- _ => destruct H as [Q1 Q2]; [exact O3|assumption|] end.
    rewrite !stmts_app, stmts_cons, P2. split; [|exact Q2]. repeat split; auto; try apply P3; apply Q1.
  - (* W_nested *) match goal with H : oks cs -> _ -> _ |- _ => match goal with O : ok (Node k sp cs) |- _ => destruct (KK _ _ _ _ _ _ O stmts_nil H) as (P1 & P2 & P3) end end.
    rewrite P2. auto.
  - (* W_report *) split; [now apply true_ok|]. split; [reflexivity|assumption].
  - (* W_leaf *) match goal with H : oks cs -> _ -> _, O : ok (Node k sp cs), B : stmts_ok (before s) |- _ => destruct (KK _ _ _ _ _ _ O B H) as (P1 & P2 & P3) end.
    match goal with H : replace_expr_with_branch_counter _ _ _ _ = _ |- _ => apply replace_ok in H as (F1 & F2 & F3); [|exact P1] end.
    rewrite F2, P2, F3. auto.
  - (* A_block *) match goal with H : ok (Node KStmt sp _) |- _ => apply ok_node in H as [R O] end. rewrite oks_cons in O. destruct O as [O _]. apply block_node in O.
    destruct H1 as [P1 P2]; [exact O|assumption|]. split; [|auto].
    apply ok_node. split; [exact R|]. rewrite oks_cons. split; [|reflexivity]. apply block_node.
    change (counter_stmt (CB b i) :: ss') with ([counter_stmt (CB b i)] ++ ss'). apply stmts_app. split; [apply counter_ok|exact P1].
  - (* A_stmt *) destruct H2 as (P1 & P2 & P3); [assumption|apply stmts_nil|]. split; [|auto].
    apply ok_node. split; [reflexivity|]. rewrite oks_cons. split; [|reflexivity]. apply block_node. rewrite !stmts_app.
    split; [apply counter_ok|]. split; [exact P3|]. rewrite stmts_cons. split; [exact P1|]. split; [now rewrite P2|apply stmts_nil].
  - (* M_directive *) rewrite items_cons in *. match goal with H : items_ok xs -> _ |- _ => destruct H as [P1 P2]; [tauto|assumption|] end. tauto.
  - (* M_visit *) match goal with H : items_ok (_ :: xs) |- _ => rewrite items_cons in H; destruct H as (O1 & O2 & O3) end.
    assert (B : stmts_ok (before s2)) by (match goal with H : s2 = s1 \/ exists esp, s2 = _ |- _ => destruct H as [->|[esp ->]]; [assumption|now apply mark_ok] end).
    match goal with H : oks cs -> _ -> _ |- _ => destruct (KK _ _ _ _ _ _ O1 B H) as (P1 & P2 & P3) end.
    match goal with H : items_ok xs -> _ |- _ => destruct H as [Q1 Q2]; [exact O3|apply stmts_nil|] end.
    rewrite !items_app, items_cons, P2. split; [|exact Q2]. apply stmts_items in P3. repeat split; auto; try apply P3; apply Q1.
  - (* S_visit *) match goal with H : stmts_ok (_ :: xs) |- _ => rewrite stmts_cons in H; destruct H as (O1 & O2 & O3) end.
    match goal with H : oks cs -> _ -> _, B : stmts_ok (before s) |- _ => destruct (KK _ _ _ _ _ _ O1 B H) as (P1 & P2 & P3) end.
    match goal with H : stmts_ok xs -> _ |- _ => destruct H as [Q1 Q2]; [exact O3|apply stmts_nil|] end.
    rewrite !stmts_app, stmts_cons, P2. split; [|exact Q2]. repeat split; auto; try apply P3; apply Q1.
Qed.
End Visits.

(** A program of the grammar becomes a program of the grammar: every part of it stands where a part of
    its sort is allowed, a declaration never where only a statement is. *)
Theorem output_grammatical : forall e n path ism t t' c,
  instrument e n path ism t = Ok (t', c) -> grammatical t = true -> grammatical t' = true.
Proof.
  intros e n path ism t t' c H G. unfold instrument, visit_program in H.
  destruct (should_ignore_file (e_word e) (e_comments e) (nspan t)).
  - cbn [bind] in H. injection H as <- <-. exact G.
  - apply bind_ok in H as [[t2 s2] [H Hr]]. injection Hr as <- <-. apply bind_ok in H as [[t3 s3] [H Hr]]. injection Hr as <- <-.
    apply visit_sound in H. apply (proj1 (grammar_all e) _ _ _ _ _ H G). apply stmts_nil.
Qed.

(** The programs of the repository's own tests are in the grammar; [if (a) let b = 1;], an expression as
    the body of a loop and a statement as an operand are not. *)
Example grammar_ex :
  (forall x o ts, In (x, o, ts) suites -> grammatical (fx_tree x) = true) /\
  (forall x ts, In (x, ts) generators -> grammatical (fx_tree x) = true) /\
  (forall x, In x generate_only -> grammatical (fx_tree x) = true) /\
  grammatical (script_ 1 20 [T 1 20 KIf [var 1 2 "a"; let_ 3 9 VLet [declarator 3 8 "b" (num 7 8)]; none]]) = false /\
  grammatical (script_ 1 20 [T 1 20 KWhile [var 1 2 "a"; var 3 4 "b"]]) = false /\
  grammatical (script_ 1 20 [T 1 20 KExprStmt [X 1 9 (KBin OpOr) [var 1 2 "a"; T 3 4 KBreak []]]]) = false.
Proof.
  assert (A : forallb (fun p => grammatical (fx_tree (fst (fst p)))) suites = true) by (vm_compute; reflexivity).
  assert (B : forallb (fun p => grammatical (fx_tree (fst p))) generators = true) by (vm_compute; reflexivity).
  assert (C : forallb (fun p => grammatical (fx_tree p)) generate_only = true) by (vm_compute; reflexivity).
  rewrite forallb_forall in A, B, C. split; [intros x o ts H; exact (A _ H)|]. split; [intros x ts H; exact (B _ H)|].
  split; [intros x H; exact (C _ H)|]. split; [reflexivity|]. split; reflexivity.
Qed.
