(** Balanced programs: programs in which every increment of a counter sits where the event it
    stands for is about to happen or has just happened.  Running a balanced program increments
    the counters exactly as often as the events happen ([run_balanced]). *)
From Coq Require Import NArith String List Bool Lia PeanoNat.
Import ListNotations.
From Verif Require Import Base Oxide Hints Ast Counting Sem.
Open Scope N_scope.

(** The truthiness counters of [reportLogic] do not stand for events. *)
Definition seen (c : counter) : bool := match c with CT _ _ => false | _ => true end.

Definition nowhere (sp : span) : bool := (lo sp =? 0) && (hi sp =? 0).

(** An event with the counters that stand for it *)
Notation entry := (event * list counter)%type.
Definition here (sp : span) (ev : event) (cs : list counter) : list entry :=
  if nowhere sp then [] else [(ev, cs)].
Definition lit (sp : span) (cs : list counter) : Prop := nowhere sp = true -> cs = [].

(** Nodes that pass nothing and make no event *)
Definition still (k : kind) (cs : list node) : bool :=
  match k with
  | KModule | KScript | KExportDefaultDecl | KModuleDecl | KStmt | KExpr | KList | KNone | KTs
  | KBlock _ | KDebugger | KVarDecl _ | KFnDecl | KFnExpr | KClassDecl | KClassExpr | KClass
  | KClassMethod | KMethodProp | KTaggedTpl | KParen | KSeq | KIdent _ | KPropIdent _ | KStr _
  | KInjParen | KInjSeq | KTempSeq | KTempAssign | KTempRead | KTempTest _ | KNullLit
  | KTemplateFn _ | KTemplateCall | KOther _ => true
  | KBin op => negb (is_logical_op op)
  | KVarDeclarator => match cs with [_; i] => is_none i | _ => false end
  | _ => false
  end.
(** Nodes that do just what their only child does *)
Definition layer (k : kind) : bool :=
  match k with KExpr | KParen | KInjParen | KModuleDecl | KStmt | KBlock _ => true | _ => false end.
Definition stmts_kind (k : kind) : bool := match k with KStmts | KModuleItems => true | _ => false end.
Definition field_kind (k : kind) : bool := match k with KClassProp | KPrivateProp => true | _ => false end.
(** Statements other than [if], labelled statements and declarations, by number of children *)
Definition stmt_arity (k : kind) (n : nat) : bool :=
  match k with
  | KExprStmt | KReturn | KThrow | KBreak | KContinue => Nat.eqb n 1
  | KWhile | KDoWhile | KSwitch | KWith => Nat.eqb n 2
  | KForIn | KForOf | KTry => Nat.eqb n 3
  | KFor => Nat.eqb n 4
  | _ => false
  end.
Definition is_list (t : node) : bool := match nkind t with KList => true | _ => false end.
Definition template_stmt (t : node) : bool :=
  match t with Node KStmt _ [Node (KTemplateFn _ | KTemplateCall) _ []] => true | _ => false end.

(** [Acc l due adv t]: [l] are the events of [t] in the order of the text.  When [t] is
    evaluated, the counters [due] belong to an event that just happened and are incremented at
    once; the counters [adv] have just been incremented and belong to events that happen at
    once. *)
Inductive Acc : list entry -> list counter -> list counter -> node -> Prop :=
| A_still : forall k sp cs l, still k cs = true -> AccK l cs -> Acc l [] [] (Node k sp cs)
| A_layer : forall k sp d l due adv, layer k = true -> (adv = [] \/ is_list d = false) ->
    Acc l due adv d -> Acc l due adv (Node k sp [d])
| A_stmts : forall k sp cs l due, stmts_kind k = true -> AccL l due [] cs -> Acc l due [] (Node k sp cs)
| A_counter : forall c sp, Acc [] (if seen c then [c] else []) [] (Node (KCounter c) sp [])
| A_injseq : forall sp x y l1 l2 due, Acc l1 due [] x -> Acc l2 [] [] y ->
    Acc (l1 ++ l2) due [] (Node KInjSeq sp [x; y])
| A_stmt : forall k sp cs l adv, stmt_arity k (length cs) = true -> lit sp adv -> AccK l cs ->
    Acc (here sp (EStmt sp) adv ++ l) [] adv (Node k sp cs)
| A_labeled : forall sp n d l1 l2 adv0 adv, label_of n <> None -> lit sp adv0 ->
    (adv = [] \/ is_list d = false) -> Acc l1 [] [] n -> Acc l2 [] adv d ->
    Acc (here sp (EStmt sp) adv0 ++ l1 ++ l2) [] (adv0 ++ adv) (Node KLabeled sp [n; d])
| A_export : forall sp d l adv0 adv, lit sp adv0 -> (adv = [] \/ is_list d = false) -> Acc l [] adv d ->
    Acc (here sp (EStmt sp) adv0 ++ l) [] (adv0 ++ adv) (Node KExportDecl sp [d])
| A_vardecl : forall vk sp d l adv, Acc l [] adv d -> Acc l [] adv (Node (KVarDecl vk) sp [d])
| A_list : forall sp d ds l1 l2 adv, (adv = [] \/ is_list d = false) -> Acc l1 [] adv d -> AccK l2 ds ->
    Acc (l1 ++ l2) [] adv (Node KList sp (d :: ds))
| A_declarator : forall sp n i l1 l2 due adv, is_none i = false -> lit sp (adv ++ due) ->
    Acc l1 [] [] n -> Acc l2 due [] i ->
    Acc (here sp (EInit sp) (adv ++ due) ++ l1 ++ l2) [] adv (Node KVarDeclarator sp [n; i])
| A_field : forall k sp n i rest l1 l2 l3 due, field_kind k = true -> lit sp due ->
    Acc l1 [] [] n -> Acc l2 due [] i -> AccK l3 rest ->
    Acc (here sp (EInit sp) due ++ l1 ++ l2 ++ l3) [] [] (Node k sp (n :: i :: rest))
| A_if : forall sp t c a l1 l2 l3 adv d1 d2, lit sp adv -> lit sp d1 -> lit sp d2 ->
    (is_none a = true -> d2 = []) -> Acc l1 [] [] t -> Acc l2 d1 [] c -> Acc l3 d2 [] a ->
    Acc (here sp (EStmt sp) adv ++ here sp (EArm sp false) d1 ++ here sp (EArm sp true) d2 ++ l1 ++ l2 ++ l3)
      [] adv (Node KIf sp [t; c; a])
| A_cond : forall sp t c a l1 l2 l3 d1 d2, lit sp d1 -> lit sp d2 ->
    Acc l1 [] [] t -> Acc l2 d1 [] c -> Acc l3 d2 [] a ->
    Acc (here sp (ECond sp false) d1 ++ here sp (ECond sp true) d2 ++ l1 ++ l2 ++ l3)
      [] [] (Node KCond sp [t; c; a])
| A_logic : forall op sp x y l1 l2 d1 d2, is_logical_op op = true -> lit sp d1 -> lit sp d2 ->
    Acc l1 d1 [] x -> Acc l2 d2 [] y ->
    Acc (here sp (EOper sp false) d1 ++ here sp (EOper sp true) d2 ++ l1 ++ l2) [] [] (Node (KBin op) sp [x; y])
| A_assign : forall sp x y l1 l2 d, lit sp d -> Acc l1 [] [] x -> Acc l2 d [] y ->
    Acc (here sp (EDefault sp) d ++ l1 ++ l2) [] [] (Node KAssignPat sp [x; y])
| A_case : forall sp t b l1 l2 d, lit sp d -> Acc l1 [] [] t -> Acc l2 d [] b ->
    Acc (here sp (ECase sp) d ++ l1 ++ l2) [] [] (Node KSwitchCase sp [t; b])
| A_fn : forall sp p ds b ty l1 l2 l3 l4 d, lit sp d -> is_expr b = false ->
    Acc l1 [] [] p -> Acc l2 [] [] ds -> Acc l3 d [] b -> Acc l4 [] [] ty ->
    Acc (here sp (EFn sp) d ++ l1 ++ l2 ++ l3 ++ l4) [] [] (Node KFunction sp [p; ds; b; ty])
| A_arrow : forall sp p b ty l1 l2 l3 d, lit sp d -> (is_expr b = true -> d = []) ->
    Acc l1 [] [] p -> Acc l2 d [] b -> Acc l3 [] [] ty ->
    Acc (here sp (EFn sp) d ++ l1 ++ (if is_expr b then here (nspan b) (EStmt (nspan b)) [] else []) ++ l2 ++ l3)
      [] [] (Node KArrow sp [p; b; ty])
| A_getter : forall sp k0 ty b l1 l2 l3 d, lit sp d -> is_expr b = false ->
    Acc l1 [] [] k0 -> Acc l2 [] [] ty -> Acc l3 d [] b ->
    Acc (here sp (EFn sp) d ++ l1 ++ l2 ++ l3) [] [] (Node KGetter sp [k0; ty; b])
| A_setter : forall sp k0 ty p b l1 l2 l3 l4 d, lit sp d -> is_expr b = false ->
    Acc l1 [] [] k0 -> Acc l2 [] [] ty -> Acc l3 [] [] p -> Acc l4 d [] b ->
    Acc (here sp (EFn sp) d ++ l1 ++ l2 ++ l3 ++ l4) [] [] (Node KSetter sp [k0; ty; p; b])
with AccK : list entry -> list node -> Prop :=
| AK_nil : AccK [] []
| AK_cons : forall l1 l2 t ts, Acc l1 [] [] t -> AccK l2 ts -> AccK (l1 ++ l2) (t :: ts)
with AccL : list entry -> list counter -> list counter -> list node -> Prop :=
| L_nil : AccL [] [] [] []
| L_due : forall l c due ss, seen c = true -> AccL l due [] ss -> AccL l (c :: due) [] (counter_stmt c :: ss)
| L_adv : forall l c adv ss, seen c = true -> AccL l [] (adv ++ [c]) ss -> AccL l [] adv (counter_stmt c :: ss)
| L_skip : forall l adv t ss, template_stmt t = true -> AccL l [] adv ss -> AccL l [] adv (t :: ss)
| L_item : forall l1 l2 adv t ss, (adv = [] \/ is_list t = false) -> Acc l1 [] adv t -> AccL l2 [] [] ss ->
    AccL (l1 ++ l2) [] adv (t :: ss).

Scheme Acc_mut := Minimality for Acc Sort Prop
with AccK_mut := Minimality for AccK Sort Prop
with AccL_mut := Minimality for AccL Sort Prop.
Combined Scheme Acc_all_ind from Acc_mut, AccK_mut, AccL_mut.

(** ** Counting *)
Definition cn (c : counter) (l : list counter) : nat := length (filter (counter_eqb c) l).
Lemma cn_app : forall c a b, cn c (a ++ b) = (cn c a + cn c b)%nat.
Proof. intros. unfold cn. now rewrite filter_app, app_length. Qed.
Lemma cn_nil : forall c, cn c [] = 0%nat. Proof. reflexivity. Qed.
Lemma cn_cons : forall c x l, cn c (x :: l) = ((if counter_eqb c x then 1 else 0) + cn c l)%nat.
Proof. intros. unfold cn. cbn [filter]. destruct (counter_eqb c x); reflexivity. Qed.

(** The counters in the text are the ones in the entries. *)
Definition tot (c : counter) (l : list entry) : nat := cn c (flat_map snd l).
Lemma tot_app : forall c a b, tot c (a ++ b) = (tot c a + tot c b)%nat.
Proof. intros. unfold tot. now rewrite flat_map_app, cn_app. Qed.
Lemma tot_here : forall c sp ev cs, lit sp cs -> tot c (here sp ev cs) = cn c cs.
Proof.
  intros c sp ev cs H. unfold here. destruct (nowhere sp) eqn:E.
  - now rewrite (H E).
  - unfold tot. cbn. now rewrite app_nil_r.
Qed.
Lemma lit_nil : forall sp, lit sp []. Proof. intros sp _. reflexivity. Qed.
Global Hint Resolve lit_nil : core.

Definition occs (c : counter) (ts : list node) : nat := list_sum (map (occ c) ts).
Lemma occs_cons : forall c t ts, occs c (t :: ts) = (occ c t + occs c ts)%nat.
Proof. reflexivity. Qed.
Lemma occs_nil : forall c, occs c [] = 0%nat.
Proof. reflexivity. Qed.
Lemma occ_plain : forall c k sp cs, match k with KCounter _ => false | _ => true end = true ->
  occ c (Node k sp cs) = occs c cs.
Proof. intros c k sp cs H. unfold occs. destruct k; try reflexivity. discriminate. Qed.
Lemma seen_eqb : forall c c', seen c = true -> seen c' = false -> counter_eqb c c' = false.
Proof. intros [] [] H K; try reflexivity; discriminate. Qed.

Theorem acc_counts : forall c, seen c = true ->
  (forall l due adv t, Acc l due adv t -> (occ c t + cn c adv = cn c due + tot c l)%nat) /\
  (forall l ts, AccK l ts -> occs c ts = tot c l) /\
  (forall l due adv ts, AccL l due adv ts -> (occs c ts + cn c adv = cn c due + tot c l)%nat).
Proof.
  intros c Hc.
  assert (P : forall k sp cs, match k with KCounter _ => false | _ => true end = true ->
    occ c (Node k sp cs) = occs c cs) by apply occ_plain.
  assert (Q : forall c0, occ c (counter_stmt c0) = if counter_eqb c c0 then 1%nat else 0%nat).
  { intros c0. unfold counter_stmt, counter_expr, E, mk. rewrite !P by reflexivity.
    rewrite !occs_cons, occs_nil. rewrite !P by reflexivity.
    rewrite !occs_cons, occs_nil. rewrite !P by reflexivity.
    rewrite !occs_cons, occs_nil. cbn [occ map list_sum fold_right]. destruct (counter_eqb c c0); reflexivity. }
  apply Acc_all_ind; intros; rewrite ?cn_app, ?cn_nil, ?tot_app, ?cn_cons in *.
  - rewrite P; [lia|]. destruct k; try reflexivity; discriminate.
  - rewrite P; [|destruct k; try reflexivity; discriminate]. rewrite occs_cons, occs_nil. lia.
  - rewrite P; [lia|]. destruct k; try reflexivity; discriminate.
  - cbn [occ map list_sum fold_right]. destruct (seen c0) eqn:E.
    + rewrite cn_cons, cn_nil. unfold tot. cbn. lia.
    + rewrite (seen_eqb c c0) by assumption. unfold tot. cbn. lia.
  - rewrite P, !occs_cons, occs_nil by reflexivity. lia.
  - rewrite P, tot_here by (assumption || (destruct k; try reflexivity; discriminate)). lia.
  - rewrite P, !occs_cons, occs_nil, tot_here by (reflexivity || assumption). lia.
  - rewrite P, !occs_cons, occs_nil, tot_here by (reflexivity || assumption). lia.
  - rewrite P, !occs_cons, occs_nil by (reflexivity || assumption). lia.
  - rewrite P, !occs_cons by (reflexivity || assumption). lia.
  - rewrite P, !occs_cons, occs_nil, tot_here by (reflexivity || assumption). rewrite cn_app. lia.
  - rewrite P, !occs_cons, tot_here by (assumption || (destruct k; try reflexivity; discriminate)). lia.
  - rewrite P, !occs_cons, occs_nil, !tot_here by (reflexivity || assumption). lia.
  - rewrite P, !occs_cons, occs_nil, !tot_here by (reflexivity || assumption). lia.
  - rewrite P, !occs_cons, occs_nil, !tot_here by (reflexivity || assumption). lia.
  - rewrite P, !occs_cons, occs_nil, !tot_here by (reflexivity || assumption). lia.
  - rewrite P, !occs_cons, occs_nil, !tot_here by (reflexivity || assumption). lia.
  - rewrite P, !occs_cons, occs_nil, !tot_here by (reflexivity || assumption). lia.
  - rewrite P, !occs_cons, occs_nil, !tot_here by (reflexivity || assumption).
    assert (T : tot c (if is_expr b then here (nspan b) (EStmt (nspan b)) [] else []) = 0%nat).
    { destruct (is_expr b); [now rewrite tot_here|reflexivity]. }
    lia.
  - rewrite P, !occs_cons, occs_nil, !tot_here by (reflexivity || assumption). lia.
  - rewrite P, !occs_cons, occs_nil, !tot_here by (reflexivity || assumption). lia.
  - reflexivity.
  - rewrite occs_cons. lia.
  - reflexivity.
  - rewrite occs_cons, Q. lia.
  - rewrite occs_cons, Q. rewrite cn_nil in *. lia.
  - rewrite occs_cons. replace (occ c t) with 0%nat; [lia|].
    destruct t as [[] sp [|[[] sp2 [|]] [|]]]; try discriminate; reflexivity.
  - rewrite occs_cons. lia.
Qed.

(** ** Running *)
Section Run.
Variable h : host.
Variable A : event -> list counter.
Notation state := (state h).
Notation den := (den h).
Notation ctx := (ctx h).

Definition agree (l : list entry) : Prop := Forall (fun p => A (fst p) = snd p) l.
Lemma agree_app : forall a b, agree (a ++ b) <-> agree a /\ agree b.
Proof. intros. apply Forall_app. Qed.

Definition code_ok (t : node) : Prop := exists l, Acc l [] [] t /\ agree l.
Definition codes (ts : list node) : Prop := Forall code_ok ts.

(** All increments belong to events that happened, up to the ones due and in advance. *)
Definition Bal (s : state) (due adv : list counter) : Prop :=
  forall c, seen c = true ->
  (cn c (cnt h s) + cn c due = cn c (flat_map A (evs h s)) + cn c adv)%nat.
Definition Inv (s : state) (due adv : list counter) : Prop := Bal s due adv /\ codes (funs h s).
Notation I s := (Inv s [] []).

Lemma Inv_set_hs : forall w s due adv, Inv s due adv -> Inv (set_hs h w s) due adv.
Proof. intros w s due adv [H K]. split; [exact H|exact K]. Qed.
Lemma Inv_set_tmp : forall v s due adv, Inv s due adv -> Inv (set_tmp h v s) due adv.
Proof. intros w s due adv [H K]. split; [exact H|exact K]. Qed.
Lemma Inv_add_fun : forall t s due adv, code_ok t -> Inv s due adv -> Inv (add_fun h t s) due adv.
Proof. intros t s due adv Ht [H K]. split; [exact H|]. apply Forall_app. auto. Qed.
Lemma Inv_pay : forall c s due adv, Inv s (c :: due) adv -> Inv (tick h c s) due adv.
Proof.
  intros c s due adv [H K]. split; [|exact K]. intros c' Hc'. specialize (H c' Hc').
  cbn [tick cnt evs]. rewrite cn_cons in *. lia.
Qed.
Lemma Inv_ahead : forall c s due adv, Inv s due adv -> Inv (tick h c s) due (adv ++ [c]).
Proof.
  intros c s due adv [H K]. split; [|exact K]. intros c' Hc'. specialize (H c' Hc').
  cbn [tick cnt evs]. rewrite cn_app, !cn_cons, cn_nil in *. lia.
Qed.
Lemma Inv_unseen : forall c s due adv, seen c = false -> Inv s due adv -> Inv (tick h c s) due adv.
Proof.
  intros c s due adv Hu [H K]. split; [|exact K]. intros c' Hc'. specialize (H c' Hc').
  cbn [tick cnt evs]. rewrite cn_cons, seen_eqb by assumption. lia.
Qed.
(** An event uses up counters in advance and makes counters due. *)
Lemma Inv_log : forall sp ev s cs due adv due' adv', lit sp cs -> agree (here sp ev cs) ->
  Inv s due adv -> (forall c, cn c cs + cn c due + cn c adv' = cn c due' + cn c adv)%nat ->
  Inv (log h sp ev s) due' adv'.
Proof.
  intros sp ev s cs due adv due' adv' Hl Ha [H K] E. unfold lit, here in *. unfold log, nowhere in *.
  destruct ((lo sp =? 0) && (hi sp =? 0)).
  - split; [|exact K]. intros c Hc. specialize (H c Hc). specialize (E c). rewrite (Hl eq_refl), cn_nil in E. lia.
  - split; [|exact K]. intros c Hc. specialize (H c Hc). specialize (E c). cbn [cnt evs flat_map].
    inversion Ha as [|? ? Ha1 _]; subst. cbn [fst snd] in Ha1. rewrite Ha1, cn_app. lia.
Qed.
Lemma log_due : forall sp ev s cs, lit sp cs -> agree (here sp ev cs) -> I s -> Inv (log h sp ev s) cs [].
Proof. intros. eapply Inv_log; eauto; intros; rewrite ?cn_nil; lia. Qed.
Lemma log_adv : forall sp ev s cs, lit sp cs -> agree (here sp ev cs) -> Inv s [] cs -> I (log h sp ev s).
Proof. intros. eapply Inv_log; eauto; intros; rewrite ?cn_nil; lia. Qed.
Lemma log_adv2 : forall sp ev s cs adv, lit sp cs -> agree (here sp ev cs) -> Inv s [] (cs ++ adv) -> Inv (log h sp ev s) [] adv.
Proof. intros. eapply Inv_log; eauto; intros; rewrite ?cn_app, ?cn_nil; lia. Qed.
Lemma log_none : forall sp ev s, agree (here sp ev []) -> I s -> I (log h sp ev s).
Proof. intros. eapply log_adv; eauto. Qed.
Lemma log_none_due : forall sp ev s due, agree (here sp ev []) -> Inv s due [] -> Inv (log h sp ev s) due [].
Proof. intros. eapply Inv_log; eauto. Qed.

(** Meanings that keep the balance *)
Definition D (due adv : list counter) (d : den) : Prop :=
  forall cx s, Inv s due adv -> I (snd (d cx s)).
Definition decl_mode (cx : ctx) : Prop :=
  match cx_mode h cx with MDecl _ | MIter _ => True | _ => False end.
Notation res := (completion (hV h) (hR h) * state)%type.
Definition Ir (r : res) : Prop := I (snd r).

Lemma Ir_bindr : forall (r : res) f, Ir r -> (forall v s, I s -> Ir (f v s)) -> Ir (bindr h r f).
Proof. intros [c s] f H K. unfold bindr. destruct c; try exact H. now apply K. Qed.
Lemma Ir_bindv : forall (r : res) f, Ir r -> (forall v s, I s -> Ir (f v s)) -> Ir (bindv h r f).
Proof. intros r f H K. unfold bindv. apply Ir_bindr; [assumption|]. intros [v|r'] s Hs; [auto|exact Hs]. Qed.
Lemma Ir_pair : forall (c : completion (hV h) (hR h)) s, I s -> Ir (c, s).
Proof. auto. Qed.
Hint Resolve Ir_pair : bal.

(** The functions of balanced code are balanced. *)
Lemma AccK_codes : forall l cs, AccK l cs -> agree l -> codes cs.
Proof.
  intros l cs H. induction H as [|l1 l2 t ts Ht Hts IH]; intros Ha; [constructor|].
  apply agree_app in Ha as [H1 H2]. constructor; [exists l1; auto|]. now apply IH.
Qed.
Lemma codes_nth : forall cs j c, codes cs -> nth_error cs j = Some c -> code_ok c.
Proof. intros cs j c H K. unfold codes in H. rewrite Forall_forall in H. apply H. eapply nth_error_In; eauto. Qed.
Lemma fn_decl_code : forall l due adv sp id fn, Acc l due adv (Node KFnDecl sp [id; fn]) -> agree l -> code_ok fn.
Proof.
  intros l due adv sp id fn H Ha. inversion H; subst; try discriminate.
  match goal with K : AccK _ [id; fn] |- _ => pose proof (AccK_codes _ _ K Ha) as C end.
  inversion C as [|? ? _ C2]; subst. now inversion C2.
Qed.
Lemma still_child : forall l due adv k sp d, k = KStmt \/ k = KModuleDecl \/ k = KExportDecl ->
  Acc l due adv (Node k sp [d]) -> agree l -> exists l2 due2 adv2, Acc l2 due2 adv2 d /\ agree l2.
Proof.
  intros l due adv k sp d Hk H Ha.
  inversion H; subst; try (destruct Hk as [Hk|[Hk|Hk]]; discriminate); try (destruct Hk as [Hk|[Hk|Hk]]; subst k; discriminate).
  - match goal with K : AccK _ [d] |- _ => inversion K; subst end.
    apply agree_app in Ha as [Ha _]. eauto.
  - eauto.
  - apply agree_app in Ha as [_ Ha]. eauto.
Qed.
Lemma fn_of_codes : forall l due adv t, Acc l due adv t -> agree l -> codes (map snd (fn_of t)).
Proof.
  intros l due adv [k sp cs] H Ha. unfold fn_of.
  assert (G : forall d l2 due2 adv2, Acc l2 due2 adv2 d -> agree l2 ->
    codes (map snd match d with
                   | Node KFnDecl _ [id; fn] => match nkind id with KIdent x => [(x, fn)] | _ => [] end
                   | _ => [] end)).
  { intros [k2 sp2 cs2] l2 due2 adv2 H2 Ha2. destruct k2; try (apply Forall_nil).
    destruct cs2 as [|id [|fn [|]]]; try (apply Forall_nil).
    destruct (nkind id); try (apply Forall_nil). constructor; [|constructor].
    eapply fn_decl_code; eauto. }
  destruct k; try (apply Forall_nil); destruct cs as [|d [|]]; try (apply Forall_nil); cbn [decl_view].
  - destruct d as [k2 sp2 cs2]. destruct k2; try (apply Forall_nil). destruct cs2 as [|d2 [|]]; try (apply Forall_nil).
    destruct (still_child l due adv KModuleDecl sp _ ltac:(auto) H Ha) as (l2 & due2 & adv2 & H2 & Ha2).
    destruct (still_child l2 due2 adv2 KExportDecl sp2 _ ltac:(auto) H2 Ha2) as (l3 & due3 & adv3 & H3 & Ha3).
    eapply G; eauto.
  - destruct d as [k2 sp2 cs2]. destruct k2; try (apply Forall_nil). destruct cs2 as [|d2 [|]]; apply Forall_nil.
  - destruct (still_child l due adv KStmt sp _ ltac:(auto) H Ha) as (l2 & due2 & adv2 & H2 & Ha2). eapply G; eauto.
Qed.
Lemma codes_app : forall a b, codes (a ++ b) <-> codes a /\ codes b.
Proof. intros. apply Forall_app. Qed.
Lemma fns_of_cons : forall t ts, map snd (fns_of (t :: ts)) = (map snd (fn_of t) ++ map snd (fns_of ts))%list.
Proof. intros. unfold fns_of. cbn [flat_map]. apply map_app. Qed.
Lemma fns_of_codes : forall l due adv ss, AccL l due adv ss -> agree l -> codes (map snd (fns_of ss)).
Proof.
  intros l due adv ss H. induction H; intros Ha.
  - constructor.
  - rewrite fns_of_cons. apply codes_app. split; [constructor|auto].
  - rewrite fns_of_cons. apply codes_app. split; [constructor|auto].
  - rewrite fns_of_cons. apply codes_app. split; [|auto].
    destruct t as [[] sp [|[[] sp2 [|]] [|]]]; try discriminate; constructor.
  - apply agree_app in Ha as [H2 H3]. rewrite fns_of_cons. apply codes_app. split; [|auto]. eapply fn_of_codes; eauto.
Qed.
Lemma fns_app : forall a b, map snd (fns_of (a ++ b)) = (map snd (fns_of a) ++ map snd (fns_of b))%list.
Proof. intros. unfold fns_of. now rewrite flat_map_app, map_app. Qed.
Lemma case_codes : forall t, code_ok t -> codes (map snd (fns_of (case_stmts t))).
Proof.
  intros [k sp cs] (l & H & Ha). destruct k; try (apply Forall_nil).
  destruct cs as [|c1 [|[k2 sp2 ss] [|]]]; try (apply Forall_nil); destruct k2; try (apply Forall_nil).
  inversion H; subst; try discriminate.
  apply agree_app in Ha as [_ Ha]. apply agree_app in Ha as [_ Ha].
  match goal with K : Acc _ _ [] (Node KStmts _ _) |- _ => inversion K; subst; try discriminate end.
  eapply fns_of_codes; eauto.
Qed.
Lemma cases_codes : forall t, code_ok t -> codes (map snd (fns_of (flat_map case_stmts (case_list t)))).
Proof.
  intros [k sp cs] (l & H & Ha). destruct k; try (apply Forall_nil). cbn [case_list].
  assert (C : codes cs).
  { inversion H; subst; try discriminate.
    - eapply AccK_codes; eauto.
    - apply agree_app in Ha as [Ha1 Ha2]. constructor; [exists l1; auto|]. eapply AccK_codes; eauto. }
  clear H. induction C as [|c cs Hc _ IH]; [constructor|]. cbn [flat_map]. rewrite fns_app. apply codes_app.
  split; [now apply case_codes|exact IH].
Qed.

Section Fuel.
Variable call : nat -> hX h -> hV h -> state -> res.
Hypothesis Hcall : forall f x v s, I s -> Ir (call f x v s).
Variable fuel : nat.

Lemma strat_ok : forall n k self cs ds a s,
  (self_closable k = true -> code_ok self) ->
  (forall j c, closable k j = true -> nth_error cs j = Some c -> code_ok c) ->
  Forall (D [] []) ds -> I s -> Ir (strat h call n k self cs ds a s).
Proof.
  induction n as [|n IH]; intros k self cs ds a s Hself Hcs Hds Hs.
  { cbn [strat]. destruct a; exact Hs. }
  assert (Hans : forall kk an s1, I s1 ->
    Ir (let (a', w) := h_resume h kk an (hs h s1) in strat h call n k self cs ds a' (set_hs h w s1))).
  { intros kk an s1 H1. destruct (h_resume h kk an (hs h s1)) as [a' w]. apply IH; auto; now apply Inv_set_hs. }
  cbn [strat]. destruct a as [c|i m x v kk|i kk|f x v kk].
  - exact Hs.
  - destruct (nth_error ds i) as [d|] eqn:Hd; [|exact Hs].
    apply nth_error_In in Hd. rewrite Forall_forall in Hds. specialize (Hds d Hd (mkCtx h x m [] v) s Hs).
    destruct (d (mkCtx h x m [] v) s) as [c s1]. destruct (final h c); [exact Hds|]. now apply Hans.
  - assert (Hgo : forall code, code_ok code -> Ir
       (let (a', w) := h_resume h kk (AnsF (length (funs h s))) (hs h (add_fun h code s)) in
        strat h call n k self cs ds a' (set_hs h w (add_fun h code s)))).
    { intros code Hc. apply Hans. now apply Inv_add_fun. }
    destruct i as [j|].
    + destruct (closable k j) eqn:Hj; [|exact Hs]. destruct (nth_error cs j) as [c|] eqn:Hc; [|exact Hs]. eauto.
    + destruct (self_closable k) eqn:Hk; [|exact Hs]. auto.
  - pose proof (Hcall f x v s Hs) as H1. destruct (call f x v s) as [c s1]. destruct (final h c); [exact H1|]. now apply Hans.
Qed.

Lemma simple_ok : forall a s, I s -> Ir (simple h call fuel a s).
Proof.
  intros a s Hs. apply strat_ok; auto; try discriminate. intros j c _ Hc. destruct j; discriminate.
Qed.
Lemma getv_ok : forall r s, I s -> Ir (getv h call fuel r s).
Proof.
  intros [v|r] s Hs; [exact Hs|]. cbn [getv]. destruct (h_get h r (hs h s)) as [a w].
  apply Ir_bindr; [apply simple_ok; now apply Inv_set_hs|]. intros [v|r'] s1 H1; exact H1.
Qed.
Lemma valued_ok : forall due adv d, D due adv d -> D due adv (valued h call fuel d).
Proof.
  intros due adv d Hd cx s Hs. unfold valued. apply Ir_bindr; [apply Hd; assumption|]. intros. now apply getv_ok.
Qed.
Lemma opaque_ok : forall k sp cs ds cx s,
  (self_closable k = true -> code_ok (Node k sp cs)) ->
  (forall j c, closable k j = true -> nth_error cs j = Some c -> code_ok c) ->
  Forall (D [] []) ds -> I s -> Ir (opaque h call fuel k sp cs ds cx s).
Proof.
  intros. unfold opaque. destruct (h_start h k _ _ _ _ _ _) as [a w]. apply strat_ok; auto; now apply Inv_set_hs.
Qed.
Lemma run_list_ok : forall ds, Forall (D [] []) ds -> D [] [] (run_list h ds).
Proof.
  induction ds as [|d ds IH]; intros Hds cx s Hs; [exact Hs|]. inversion Hds; subst.
  cbn [run_list]. apply Ir_bindr; [apply H1; exact Hs|]. intros. now apply IH.
Qed.
Lemma seq_vals_ok : forall due d ds, D due [] d -> (ds = [] \/ Forall (D [] []) ds) ->
  D due [] (seq_vals h call fuel (d :: ds)).
Proof.
  intros due d ds. revert due d. induction ds as [|d2 ds IH]; intros due d Hd Hds cx s Hs.
  { cbn [seq_vals]. now apply (valued_ok due []). }
  destruct Hds as [|Hds]; [discriminate|]. inversion Hds; subst.
  cbn [seq_vals]. apply Ir_bindr; [now apply (valued_ok due [])|]. intros v s1 K1.
  apply (IH [] d2); auto.
Qed.
Lemma hoist_ok : forall fs x s due adv, codes (map snd fs) -> Inv s due adv -> Inv (hoist h fs x s) due adv.
Proof.
  induction fs as [|[n c] fs IH]; intros x s due adv Hf Hs; [exact Hs|]. inversion Hf; subst.
  cbn [hoist]. apply IH; [assumption|]. apply Inv_set_hs. now apply Inv_add_fun.
Qed.
Lemma enter_block_ok : forall ds fs x s due adv, codes (map snd fs) -> Inv s due adv ->
  Inv (snd (enter_block h ds fs x s)) due adv.
Proof.
  intros ds fs x s due adv Hf Hs. unfold enter_block. destruct ds as [|p ds]; [now apply hoist_ok|].
  destruct (h_scope h [] (p :: ds) x (hs h s)) as [x1 w]. apply hoist_ok; auto; now apply Inv_set_hs.
Qed.
Lemma enter_fn_ok : forall a b x s due adv, Inv s due adv -> Inv (snd (enter_fn h a b x s)) due adv.
Proof.
  intros. unfold enter_fn. destruct (h_scope _ _ _ _ _) as [x1 w]. now apply Inv_set_hs.
Qed.
Lemma finish_ok : forall r, Ir r -> Ir (finish_fn h r).
Proof. intros [c s] H. destruct c; exact H. Qed.
Lemma sem_fn_ok : forall sp p b db due,
  match p with Some dp => D [] [] dp | None => True end -> D due [] db -> lit sp due ->
  agree (here sp (EFn sp) due) ->
  (is_expr b = true -> due = [] /\ agree (here (nspan b) (EStmt (nspan b)) [])) ->
  D [] [] (sem_fn h call fuel sp p b db).
Proof.
  intros sp p b db due Hp Hb Hl Ha He cx s Hs. unfold sem_fn.
  pose proof (enter_fn_ok (directives b) (var_names b) (cx_sc h cx) s [] [] Hs) as H1.
  destruct (enter_fn h _ _ _ s) as [x s1]. cbn [snd] in H1.
  apply Ir_bindr.
  { destruct p; [now apply Hp|exact H1]. }
  intros v s2 H2. destruct (is_expr b).
  - destruct (He eq_refl) as [-> He2]. apply finish_ok, Ir_bindv; [|intros; assumption].
    apply (valued_ok [] []); [assumption|]. apply log_none; [assumption|]. now apply log_none.
  - apply finish_ok, Hb. now apply log_due.
Qed.

Lemma loop_ok : forall n test update body ls per,
  (forall d, test = Some d -> D [] [] d) -> (forall d, update = Some d -> D [] [] d) -> D [] [] body ->
  (forall x s, I s -> I (snd (per x s))) ->
  forall cx s, I s -> Ir (loop h call fuel n test update body ls cx per s).
Proof.
  induction n as [|n IH]; intros test update body ls per Ht Hu Hb Hp cx s Hs; [exact Hs|].
  cbn [loop]. apply Ir_bindv.
  { destruct test as [d|]; [apply (valued_ok [] []); auto|exact Hs]. }
  intros v s1 H1. destruct (match test with Some _ => h_truthy h v | None => true end); [|exact H1].
  pose proof (Hb (rd h cx) s1 H1) as H2. destruct (body (rd h cx) s1) as [c s2].
  destruct (goes_on h ls c); [|exact H2].
  pose proof (Hp (cx_sc h cx) s2 H2) as H3. destruct (per (cx_sc h cx) s2) as [x s3].
  apply Ir_bindr; [destruct update as [d|]; [apply (valued_ok [] []); auto|exact H3]|].
  intros. now apply IH.
Qed.
Lemma do_loop_ok : forall n test body ls, D [] [] test -> D [] [] body ->
  forall cx s, I s -> Ir (do_loop h call fuel n test body ls cx s).
Proof.
  induction n as [|n IH]; intros test body ls Ht Hb cx s Hs; [exact Hs|].
  cbn [do_loop]. pose proof (Hb (rd h cx) s Hs) as H2. destruct (body (rd h cx) s) as [c s2].
  destruct (goes_on h ls c); [|exact H2].
  apply Ir_bindv; [now apply (valued_ok [] [])|]. intros v s3 H3. destruct (h_truthy h v); [|exact H3]. now apply IH.
Qed.
Lemma opt_ok : forall t d d', D [] [] d -> opt h t d = Some d' -> D [] [] d'.
Proof. intros t d d' H K. unfold opt in K. destruct (is_none t); [discriminate|]. now inversion K; subst. Qed.
Lemma copy_ok : forall x s, I s -> I (snd (copy_scope h x s)).
Proof. intros x s H. unfold copy_scope. destruct (h_copy _ _ _). now apply Inv_set_hs. Qed.
Lemma sem_for_ok : forall i t u di dt du db, D [] [] di -> D [] [] dt -> D [] [] du -> D [] [] db ->
  D [] [] (sem_for h call fuel i t u di dt du db).
Proof.
  intros i t u di dt du db Hi Ht Hu Hb cx s Hs. unfold sem_for.
  pose proof (enter_block_ok (lex_decl i) [] (cx_sc h cx) s [] [] ltac:(constructor) Hs) as H1.
  destruct (enter_block h (lex_decl i) [] (cx_sc h cx) s) as [x s1]. cbn [snd] in H1.
  apply Ir_bindr; [destruct (is_expr i); [now apply (valued_ok [] [])|now apply Hi]|].
  intros v s2 H2.
  set (per := match lex_decl i with [] => fun x s => (x, s) | _ => copy_scope h end).
  assert (Hper : forall x s, I s -> I (snd (per x s))).
  { intros x0 s0 H0. unfold per. destruct (lex_decl i); [exact H0|now apply copy_ok]. }
  pose proof (Hper x s2 H2) as H3. destruct (per x s2) as [x2 s3].
  apply loop_ok; auto; intros d Hd; [exact (opt_ok _ _ _ Ht Hd)|exact (opt_ok _ _ _ Hu Hd)].
Qed.

Lemma find_case_ok : forall ds cx i s, Forall (D [] []) ds -> I s -> I (snd (find_case h ds cx i s)).
Proof.
  induction ds as [|d ds IH]; intros cx i s Hds Hs; [exact Hs|]. inversion Hds; subst.
  cbn [find_case]. pose proof (H1 (in_mode h MMatch (cx_in h cx) cx) s Hs) as K.
  destruct (d _ s) as [[] s1]; try exact K. now apply IH.
Qed.
Lemma Forall_skipn : forall X (P : X -> Prop) n l, Forall P l -> Forall P (skipn n l).
Proof. intros X P n. induction n as [|n IH]; intros l H; [exact H|]. destruct H; [constructor|]. now apply IH. Qed.
Lemma sem_cases_ok : forall cs ds, Forall (D [] []) ds -> D [] [] (sem_cases h cs ds).
Proof.
  intros cs ds Hds cx s Hs. unfold sem_cases. pose proof (find_case_ok ds cx 0 s Hds Hs) as H1.
  destruct (find_case h ds cx 0 s) as [[c|hit] s1]; [exact H1|]. cbn [snd] in H1.
  destruct (match hit with Some i => Some i | None => default_index cs 0 end) as [i|]; [|exact H1].
  apply run_list_ok; [|exact H1]. now apply Forall_skipn.
Qed.
Lemma sem_switch_ok : forall cases dd dc, codes (map snd (fns_of (flat_map case_stmts (case_list cases)))) ->
  D [] [] dd -> D [] [] dc -> D [] [] (sem_switch h call fuel cases dd dc).
Proof.
  intros cases dd dc Hf Hd Hc cx s Hs. unfold sem_switch. apply Ir_bindv; [now apply (valued_ok [] [])|].
  intros v s1 H1. pose proof (enter_block_ok (lex_names (flat_map case_stmts (case_list cases))) _ (cx_sc h cx) s1 [] [] Hf H1) as H2.
  destruct (enter_block h _ _ _ s1) as [x s2]. pose proof (Hc (mkCtx h x MSwitch [] v) s2 H2) as H3.
  destruct (dc _ s2) as [c s3]. exact H3.
Qed.
Lemma sem_case_ok : forall sp t dt db due, D [] [] dt -> D due [] db -> lit sp due ->
  agree (here sp (ECase sp) due) -> D [] [] (sem_case h call fuel sp t dt db).
Proof.
  intros sp t dt db due Ht Hb Hl Ha cx s Hs. unfold sem_case. destruct (cx_mode h cx); try exact Hs.
  - destruct (is_none t); [exact Hs|]. apply Ir_bindv; [now apply (valued_ok [] [])|].
    intros v s1 H1. destruct (h_same h _ v); exact H1.
  - apply Hb. now apply log_due.
Qed.
Lemma sem_try_ok : forall hd fin db dh df, D [] [] db -> D [] [] dh -> D [] [] df ->
  D [] [] (sem_try h hd fin db dh df).
Proof.
  intros hd fin db dh df Hb Hh Hf cx s Hs. unfold sem_try.
  set (r := match db (rd h cx) s with
            | (CThrow v, s1) => if is_none hd then (CThrow v, s1) else dh (in_mode h (MBind VLet) v cx) s1
            | r => r end).
  assert (Hr : Ir r).
  { unfold r. pose proof (Hb (rd h cx) s Hs) as H1. destruct (db (rd h cx) s) as [[] s1]; try exact H1.
    destruct (is_none hd); [exact H1|]. now apply Hh. }
  destruct (is_none fin || final h (fst r)); [exact Hr|]. apply Ir_bindr; [apply Hf; exact Hr|]. auto.
Qed.
Lemma sem_declarator_ok : forall sp i dn di due adv, is_none i = false -> D [] [] dn -> D due [] di ->
  lit sp (adv ++ due) -> agree (here sp (EInit sp) (adv ++ due)) ->
  D [] adv (sem_declarator h call fuel sp i dn di).
Proof.
  intros sp i dn di due adv Hi Hn Hd Hl Ha cx s Hs. unfold sem_declarator. rewrite Hi.
  apply Ir_bindv.
  - apply (valued_ok due []); [assumption|]. eapply Inv_log; eauto. intros c. rewrite cn_app, !cn_nil. lia.
  - intros v s1 H1. now apply Hn.
Qed.
Lemma sem_declarator_none_ok : forall sp i dn di, is_none i = true -> D [] [] dn ->
  D [] [] (sem_declarator h call fuel sp i dn di).
Proof.
  intros sp i dn di Hi Hn cx s Hs. unfold sem_declarator. rewrite Hi.
  destruct (cx_mode h cx) as [| |[]| | | | |]; try exact Hs; now apply Hn.
Qed.
Lemma sem_logical_ok : forall op sp dl dr d1 d2, D d1 [] dl -> D d2 [] dr -> lit sp d1 -> lit sp d2 ->
  agree (here sp (EOper sp false) d1) -> agree (here sp (EOper sp true) d2) ->
  D [] [] (sem_logical h call fuel op sp dl dr).
Proof.
  intros op sp dl dr d1 d2 Hl Hr L1 L2 A1 A2 cx s Hs. unfold sem_logical. apply Ir_bindv.
  - apply (valued_ok d1 []); [assumption|]. now apply log_due.
  - intros v s1 H1. destruct (stop_left h op v); [exact H1|]. apply (valued_ok d2 []); [assumption|]. now apply log_due.
Qed.
Lemma sem_cond_ok : forall sp dt dc da d1 d2, D [] [] dt -> D d1 [] dc -> D d2 [] da -> lit sp d1 -> lit sp d2 ->
  agree (here sp (ECond sp false) d1) -> agree (here sp (ECond sp true) d2) ->
  D [] [] (sem_cond h call fuel sp dt dc da).
Proof.
  intros sp dt dc da d1 d2 Ht Hc Ha' L1 L2 A1 A2 cx s Hs. unfold sem_cond. apply Ir_bindv.
  - now apply (valued_ok [] []).
  - intros v s1 H1. destruct (h_truthy h v).
    + apply (valued_ok d1 []); [assumption|]. now apply log_due.
    + apply (valued_ok d2 []); [assumption|]. now apply log_due.
Qed.
Lemma sem_if_ok : forall sp a dt dc da d1 d2, D [] [] dt -> D d1 [] dc -> D d2 [] da -> lit sp d1 -> lit sp d2 ->
  (is_none a = true -> d2 = []) ->
  agree (here sp (EArm sp false) d1) -> agree (here sp (EArm sp true) d2) ->
  D [] [] (sem_if h call fuel sp a dt dc da).
Proof.
  intros sp a dt dc da d1 d2 Ht Hc Ha' L1 L2 N A1 A2 cx s Hs. unfold sem_if. apply Ir_bindv.
  - now apply (valued_ok [] []).
  - intros v s1 H1. destruct (h_truthy h v).
    + apply Hc. now apply log_due.
    + destruct (is_none a).
      * rewrite (N eq_refl) in *. apply Ir_pair. now apply log_none.
      * apply Ha'. now apply log_due.
Qed.
Lemma sem_assign_ok : forall sp dl dr d, D [] [] dl -> D d [] dr -> lit sp d -> agree (here sp (EDefault sp) d) ->
  D [] [] (sem_assign_pat h call fuel sp dl dr).
Proof.
  intros sp dl dr d Hl Hr L Ha cx s Hs. unfold sem_assign_pat. destruct (h_is_undef h (cx_in h cx)).
  - apply Ir_bindv; [apply (valued_ok d []); [assumption|]; now apply log_due|]. intros. now apply Hl.
  - now apply Hl.
Qed.
Lemma sem_labeled_ok : forall l db adv, label_of l <> None ->
  (forall cx s, cx_mode h cx = MRead -> Inv s [] adv -> I (snd (db cx s))) -> D [] adv (sem_labeled h l db).
Proof.
  intros l db adv Hl Hd cx s Hs. unfold sem_labeled. destruct (label_of l) as [x|]; [|congruence].
  pose proof (Hd (mkCtx h (cx_sc h cx) MRead (x :: cx_labs h cx) (h_undef h)) s eq_refl Hs) as H.
  destruct (db _ s) as [c s1]. destruct c as [| |[y|]| | | | |]; exact H.
Qed.
Lemma sem_with_ok : forall dobj db, D [] [] dobj -> D [] [] db -> D [] [] (sem_with h call fuel dobj db).
Proof.
  intros dobj db Ho Hb cx s Hs. unfold sem_with. apply Ir_bindv; [now apply (valued_ok [] [])|].
  intros v s1 H1. destruct (h_with h v (cx_sc h cx) (hs h s1)) as [[ex|x] w].
  - apply Ir_pair. now apply Inv_set_hs.
  - apply Hb. now apply Inv_set_hs.
Qed.

Notation evl := (ev h call fuel).
Lemma counter_stmt_ev : forall c cx s, evl (counter_stmt c) cx s = (uv h, tick h c s).
Proof. reflexivity. Qed.
Lemma template_ev : forall t cx s, template_stmt t = true -> evl t cx s = (uv h, s).
Proof. intros [[] sp [|[[] sp2 [|]] [|]]] cx s H; try discriminate; reflexivity. Qed.

Ltac agr := repeat match goal with H : agree (_ ++ _) |- _ => apply agree_app in H as [? ?] end.
Ltac fwd := repeat match goal with H : agree ?l -> _, K : agree ?l |- _ => specialize (H K) end.

Lemma still_ok : forall k sp cs l, still k cs = true -> AccK l cs -> agree l -> Forall (D [] []) (map evl cs) ->
  D [] [] (evl (Node k sp cs)).
Proof.
  intros k sp cs l Hst HK Ha Hds cx s Hs. cbn [ev].
  pose proof (AccK_codes _ _ HK Ha) as Hc.
  assert (Hop : self_closable k = false -> forall ds s, Forall (D [] []) ds -> I s -> Ir (opaque h call fuel k sp cs ds cx s)).
  { intros Hk ds s0 H0 H1. apply opaque_ok; auto; [rewrite Hk; discriminate|]. intros j c _ Hj. eapply codes_nth; eauto. }
  assert (Hone : forall d cx', map evl cs = [d] -> Ir (d cx' s)).
  { intros d cx' E. rewrite E in Hds. inversion Hds; subst. now apply H1. }
  assert (Hseq : Ir (seq_vals h call fuel (map evl cs) cx s)).
  { destruct Hds as [|d ds Hd Hds]; [exact Hs|]. apply (seq_vals_ok [] d ds); auto. }
  unfold sem. destruct k; try discriminate Hst; try exact Hs; try (apply Hop; now auto); try exact Hseq.
  - (* module *) destruct cs as [|b [|]]; try exact Hs. cbn [map]. cbn [map] in Hds. inversion Hds; subst.
    pose proof (enter_fn_ok [] (var_names b) (cx_sc h cx) s [] [] Hs) as H5.
    destruct (enter_fn h _ _ _ s) as [x s1]. now apply H1.
  - destruct cs as [|b [|]]; try exact Hs. cbn [map]. cbn [map] in Hds. inversion Hds; subst.
    pose proof (enter_fn_ok (prologue (nkids b)) (var_names b) (cx_sc h cx) s [] [] Hs) as H5.
    destruct (enter_fn h _ _ _ s) as [x s1]. now apply H1.
  - destruct (map evl cs) as [|d [|]] eqn:E; try exact Hs. now apply Hone.
  - destruct (map evl cs) as [|d [|]] eqn:E; try exact Hs. apply Ir_bindr; [now apply Hone|auto].
  - destruct (map evl cs) as [|d [|]] eqn:E; try exact Hs. now apply Hone.
  - (* list *) destruct (cx_mode h cx); try (apply Hop; now auto).
    + now apply run_list_ok.
    + now apply run_list_ok.
    + now apply sem_cases_ok.
  - destruct (map evl cs) as [|d [|]] eqn:E; try exact Hs. now apply Hone.
  - destruct (map evl cs) as [|d [|]] eqn:E; try exact Hs. destruct (cx_mode h cx); now apply Hone.
  - (* declarator *) destruct cs as [|n [|i [|]]]; try discriminate Hst. cbn [map]. cbn [map] in Hds. inversion Hds; subst.
    now apply sem_declarator_none_ok.
  - cbn [still] in Hst. apply negb_true_iff in Hst. rewrite Hst. apply Hop; auto.
  - destruct (map evl cs) as [|d [|]] eqn:E; try exact Hs. now apply Hone.
  - destruct (map evl cs) as [|d [|]] eqn:E; try exact Hs. now apply Hone.
  - destruct (map evl cs) as [|d [|]] eqn:E; try exact Hs. inversion Hds; subst. apply Ir_bindv; [now apply (valued_ok [] [])|].
    intros v s1 K1. apply Ir_pair. now apply Inv_set_tmp.
  - destruct (h_test h n (tmp h s) (cx_sc h cx) (hs h s)) as [a w]. apply simple_ok. now apply Inv_set_hs.
Qed.

Lemma D_of : forall due adv (t : node), (adv = [] \/ is_list t = false) ->
  (forall cx s, (adv = [] \/ is_list t = false \/ decl_mode cx) -> Inv s due adv -> Ir (evl t cx s)) ->
  D due adv (evl t).
Proof. intros due adv t Ht H cx s Hs. apply H; [tauto|exact Hs]. Qed.

Lemma stmt_ok : forall k sp cs l adv, stmt_arity k (length cs) = true -> lit sp adv -> AccK l cs ->
  agree (here sp (EStmt sp) adv) -> agree l -> Forall (D [] []) (map evl cs) ->
  D [] adv (evl (Node k sp cs)).
Proof.
  intros k sp cs l adv Hk Hl HK Hh Ha Hds cx s Hs. pose proof (AccK_codes _ _ HK Ha) as Hc.
  pose proof (log_adv sp (EStmt sp) s adv Hl Hh Hs) as H1. cbn [ev]. unfold sem.
  assert (Hop : self_closable k = false -> forall ds s, Forall (D [] []) ds -> I s -> Ir (opaque h call fuel k sp cs ds cx s)).
  { intros Hk2 ds s0 H0 H2. apply opaque_ok; auto; [rewrite Hk2; discriminate|]. intros j c _ Hj. eapply codes_nth; eauto. }
  destruct k; try discriminate Hk; cbn [stmt_arity] in Hk;
    repeat match goal with |- context [map evl ?l] => destruct l as [|? ?]; try discriminate Hk; cbn [map] in Hds |- * end;
    repeat match goal with K : Forall _ (_ :: _) |- _ => inversion K; clear K; subst end;
    repeat match goal with K : Forall _ [] |- _ => clear K end.
  - apply Ir_bindr; [now apply (valued_ok [] [])|auto].
  - now destruct cs as [|? [|? ?]].
  - now destruct cs as [|? [|? ?]].
  - destruct (is_none n); [exact H1|]. apply Ir_bindv; [now apply (valued_ok [] [])|auto].
  - apply Ir_bindv; [now apply (valued_ok [] [])|auto].
  - now apply sem_try_ok.
  - now apply sem_for_ok.
  - apply Hop; auto. cbn [iter_dens]. repeat apply Forall_cons; auto. intros cx' s' K. auto.
  - apply Hop; auto. cbn [iter_dens]. repeat apply Forall_cons; auto. intros cx' s' K. auto.
  - apply loop_ok; auto; intros d E; inversion E; subst; auto.
  - now apply do_loop_ok.
  - apply sem_switch_ok; auto. apply cases_codes. inversion Hc as [|? ? _ C2]; subst. now inversion C2.
  - now apply sem_with_ok.
Qed.

Theorem acc_sound :
  (forall l due adv t, Acc l due adv t -> agree l ->
     forall cx s, (adv = [] \/ is_list t = false \/ decl_mode cx) -> Inv s due adv -> Ir (evl t cx s)) /\
  (forall l ts, AccK l ts -> agree l -> Forall (D [] []) (map evl ts)) /\
  (forall l due adv ts, AccL l due adv ts -> agree l -> D due adv (run_list h (map evl ts))).
Proof.
  apply Acc_all_ind.
  - intros k sp cs l Hst HK IH Ha cx s _ Hs. eapply still_ok; eauto.
  - (* layer *) intros k sp d l due adv Hk Hd HA IH Ha cx s _ Hs.
    assert (Hd' : D due adv (evl d)) by (apply D_of; auto). cbn [ev map]. unfold sem.
    destruct k; try discriminate Hk; try (now apply Hd').
    apply Ir_bindr; [now apply Hd'|auto].
  - (* statement list *) intros k sp cs l due Hk HL IH Ha cx s _ Hs. specialize (IH Ha). cbn [ev].
    assert (G : Ir (sem_stmts h cs (map evl cs) cx s)).
    { unfold sem_stmts. pose proof (enter_block_ok (lex_names cs) (fns_of cs) (cx_sc h cx) s due [] (fns_of_codes _ _ _ _ HL Ha) Hs) as H1.
      destruct (enter_block h _ _ _ s) as [x s1]. destruct (cx_mode h cx); now apply IH. }
    unfold sem. destruct k; try discriminate Hk; exact G.
  - (* counter *) intros c sp Ha cx s _ Hs. cbn [ev map]. unfold sem. apply Ir_pair. destruct (seen c) eqn:E.
    + now apply Inv_pay.
    + now apply Inv_unseen.
  - intros sp x y l1 l2 due Hx IHx Hy IHy Ha cx s _ Hs. agr. fwd. cbn [ev map]. unfold sem.
    apply (seq_vals_ok due); auto.
    + apply D_of; auto.
    + right. constructor; [apply D_of; auto|constructor].
  - intros k sp cs l adv Hk Hl HK IH Ha cx s _ Hs. agr. fwd. eapply stmt_ok; eauto.
  - (* labelled *) intros sp n d l1 l2 adv0 adv Hn Hl Hd HA1 IH1 HA2 IH2 Ha cx s _ Hs. agr. fwd.
    cbn [ev map]. unfold sem. apply (sem_labeled_ok n (evl d) adv); auto.
    + intros cx' s' _ K. apply IH2; [tauto|exact K].
    + eapply log_adv2; eauto.
  - intros sp d l adv0 adv Hl Hd HA IH Ha cx s _ Hs. agr. fwd. cbn [ev map]. unfold sem.
    apply IH; [tauto|]. eapply log_adv2; eauto.
  - (* variable declaration *) intros vk sp d l adv HA IH Ha cx s _ Hs. fwd. cbn [ev map]. unfold sem.
    destruct (cx_mode h cx); apply IH; auto; right; right; exact Logic.I.
  - (* list *) intros sp d ds l1 l2 adv Hd HA IH HK IHK Ha cx s Hm Hs. agr. fwd. cbn [ev map]. unfold sem.
    assert (Hfirst : D [] adv (evl d)) by (apply D_of; auto).
    assert (Hrun : forall cx', Ir (run_list h (evl d :: map evl ds) cx' s)).
    { intros cx'. cbn [run_list]. apply Ir_bindr; [now apply Hfirst|]. intros. now apply run_list_ok. }
    unfold decl_mode in Hm. destruct (cx_mode h cx) eqn:Em; try apply Hrun; cbn [is_list nkind] in Hm;
      (destruct Hm as [->|[Hm|[]]]; [|discriminate]).
    all: assert (Hall : Forall (D [] []) (evl d :: map evl ds)) by (constructor; auto).
    1-3,5-6: apply opaque_ok; auto; [discriminate|]; intros j c _ Hj; apply (codes_nth (d :: ds) j c); auto;
      constructor; [exists l1; auto|eapply AccK_codes; eauto].
    now apply sem_cases_ok.
  - (* declarator *) intros sp n i l1 l2 due adv Hi Hl HA1 IH1 HA2 IH2 Ha cx s _ Hs. agr. fwd. cbn [ev map]. unfold sem.
    eapply sem_declarator_ok; eauto; apply D_of; auto.
  - (* field *) intros k sp n i rest l1 l2 l3 due Hk Hl HA1 IH1 HA2 IH2 HK IHK Ha cx s _ Hs. agr. fwd.
    assert (Hcl : forall j c, closable k j = true -> nth_error (n :: i :: rest) j = Some c -> code_ok c).
    { intros [|[|j]] c Hj Hc.
      - inversion Hc; subst. exists l1; auto.
      - destruct k; discriminate.
      - cbn [nth_error] in Hc. eapply codes_nth; eauto. eapply AccK_codes; eauto. }
    assert (Hds : Forall (D [] []) (field_dens h call fuel sp (map evl (n :: i :: rest)))).
    { cbn [map field_dens]. constructor; [apply D_of; auto|]. constructor; [|exact IHK].
      intros cx' s' K. unfold field_init. apply (valued_ok due []); [apply D_of; auto|]. now apply log_due. }
    cbn [ev]. unfold sem. destruct k; try discriminate Hk; apply opaque_ok; auto; discriminate.
  - (* if *) intros sp t c a l1 l2 l3 adv d1 d2 La L1 L2 Hn HA1 IH1 HA2 IH2 HA3 IH3 Ha cx s _ Hs. agr. fwd. cbn [ev map]. unfold sem.
    apply (sem_if_ok sp a (evl t) (evl c) (evl a) d1 d2); auto; try (apply D_of; now auto). now apply (log_adv sp (EStmt sp) s adv).
  - intros sp t c a l1 l2 l3 d1 d2 L1 L2 HA1 IH1 HA2 IH2 HA3 IH3 Ha cx s _ Hs. agr. fwd. cbn [ev map]. unfold sem.
    apply (sem_cond_ok sp (evl t) (evl c) (evl a) d1 d2); auto; apply D_of; now auto.
  - intros op sp x y l1 l2 d1 d2 Ho L1 L2 HA1 IH1 HA2 IH2 Ha cx s _ Hs. agr. fwd. cbn [ev map]. unfold sem. rewrite Ho.
    apply (sem_logical_ok op sp (evl x) (evl y) d1 d2); auto; apply D_of; now auto.
  - intros sp x y l1 l2 d L HA1 IH1 HA2 IH2 Ha cx s _ Hs. agr. fwd. cbn [ev map]. unfold sem.
    apply (sem_assign_ok sp (evl x) (evl y) d); auto; apply D_of; now auto.
  - intros sp t b l1 l2 d L HA1 IH1 HA2 IH2 Ha cx s _ Hs. agr. fwd. cbn [ev map]. unfold sem.
    apply (sem_case_ok sp t (evl t) (evl b) d); auto; apply D_of; now auto.
  - intros sp p ds b ty l1 l2 l3 l4 d L Hb HA1 IH1 HA2 IH2 HA3 IH3 HA4 IH4 Ha cx s _ Hs. agr. fwd. cbn [ev map]. unfold sem.
    destruct (cx_mode h cx); try exact Hs.
    apply (sem_fn_ok sp (Some (evl p)) b (evl b) d); auto; try (apply D_of; now auto). rewrite Hb; discriminate.
  - (* arrow *) intros sp p b ty l1 l2 l3 d L Hb HA1 IH1 HA2 IH2 HA3 IH3 Ha cx s _ Hs.
    assert (Hself : code_ok (Node KArrow sp [p; b; ty])) by (eexists; split; [eapply A_arrow; eauto|exact Ha]).
    agr. fwd. cbn [ev map]. unfold sem.
    assert (Hop : Ir (opaque h call fuel KArrow sp [p; b; ty] [] cx s)).
    { apply opaque_ok; auto. intros [|[|[|j]]] c Hj Hc; try discriminate.
      - inversion Hc; subst. exists l1; auto.
      - inversion Hc; subst. exists l3; auto.
      - destruct j; discriminate. }
    destruct (cx_mode h cx); try exact Hop.
    apply (sem_fn_ok sp (Some (evl p)) b (evl b) d); auto; try (apply D_of; now auto).
    intros E. split; [auto|]. now rewrite E in *.
  - (* getter *) intros sp k0 ty b l1 l2 l3 d L Hb HA1 IH1 HA2 IH2 HA3 IH3 Ha cx s _ Hs.
    assert (Hself : code_ok (Node KGetter sp [k0; ty; b])) by (eexists; split; [eapply A_getter; eauto|exact Ha]).
    agr. fwd. cbn [ev map]. unfold sem.
    assert (Hop : Ir (opaque h call fuel KGetter sp [k0; ty; b] [evl k0; evl ty] cx s)).
    { apply opaque_ok; auto.
      - intros [|[|[|j]]] c Hj Hc; try discriminate.
        + inversion Hc; subst. exists l1; auto.
        + inversion Hc; subst. exists l2; auto.
        + destruct j; discriminate.
      - apply Forall_cons; [apply D_of; auto|]. apply Forall_cons; [apply D_of; auto|apply Forall_nil]. }
    destruct (cx_mode h cx); try exact Hop.
    apply (sem_fn_ok sp None b (evl b) d); auto; try (apply D_of; now auto). rewrite Hb; discriminate.
  - (* setter *) intros sp k0 ty p b l1 l2 l3 l4 d L Hb HA1 IH1 HA2 IH2 HA3 IH3 HA4 IH4 Ha cx s _ Hs.
    assert (Hself : code_ok (Node KSetter sp [k0; ty; p; b])) by (eexists; split; [eapply A_setter; eauto|exact Ha]).
    agr. fwd. cbn [ev map]. unfold sem.
    assert (Hop : Ir (opaque h call fuel KSetter sp [k0; ty; p; b] [evl k0; evl ty] cx s)).
    { apply opaque_ok; auto.
      - intros [|[|[|[|j]]]] c Hj Hc; try discriminate.
        + inversion Hc; subst. exists l1; auto.
        + inversion Hc; subst. exists l2; auto.
        + inversion Hc; subst. exists l3; auto.
        + destruct j; discriminate.
      - apply Forall_cons; [apply D_of; auto|]. apply Forall_cons; [apply D_of; auto|apply Forall_nil]. }
    destruct (cx_mode h cx); try exact Hop.
    apply (sem_fn_ok sp (Some (evl p)) b (evl b) d); auto; try (apply D_of; now auto). rewrite Hb; discriminate.
  - intros _. constructor.
  - intros l1 l2 t ts HA IH HK IHK Ha. agr. fwd. constructor; [apply D_of; auto|exact IHK].
  - intros _ cx s Hs. exact Hs.
  - intros l c due ss Hc HL IH Ha cx s Hs. fwd. cbn [map run_list]. rewrite counter_stmt_ev. unfold bindr. cbn [fst snd uv].
    apply IH. now apply Inv_pay.
  - intros l c adv ss Hc HL IH Ha cx s Hs. fwd. cbn [map run_list]. rewrite counter_stmt_ev. unfold bindr. cbn [fst snd uv].
    apply IH. now apply Inv_ahead.
  - intros l adv t ss Ht HL IH Ha cx s Hs. fwd. cbn [map run_list]. rewrite template_ev by assumption. unfold bindr. cbn [fst snd uv].
    now apply IH.
  - intros l1 l2 adv t ss Ht HA IH HL IHL Ha cx s Hs. agr. fwd. cbn [map run_list].
    apply Ir_bindr; [apply IH; [tauto|exact Hs]|]. intros. now apply IHL.
Qed.
End Fuel.

Lemma run_ok : forall n t l, Acc l [] [] t -> agree l -> forall cx s, I s -> Ir (run h n t cx s).
Proof.
  induction n as [|n IH]; intros t l Ht Ha cx s Hs; cbn [run].
  - eapply (proj1 (acc_sound _ _ 0%nat)); eauto. Unshelve. intros f x v s0 H0. exact H0.
  - eapply (proj1 (acc_sound _ _ (S n))); eauto. Unshelve.
    intros f x v s0 H0. cbn beta. destruct (nth_error (funs h s0) f) as [code|] eqn:Hf; [|exact H0].
    destruct (codes_nth _ _ _ (proj2 H0) Hf) as (l2 & H2 & Ha2). eapply IH; eauto.
Qed.

(** In every run, every counter is incremented as often as the events it belongs to happen. *)
Theorem run_balanced : forall n t l x w c, Acc l [] [] t -> agree l -> seen c = true ->
  let s := snd (run_program h n t x w) in cn c (cnt h s) = cn c (flat_map A (evs h s)).
Proof.
  intros n t l x w c Ht Ha Hc s.
  assert (H : I s).
  { apply (run_ok n t l Ht Ha). split; [|constructor]. intros c' _. reflexivity. }
  destruct H as [H _]. specialize (H c Hc). rewrite !cn_nil in H. lia.
Qed.
End Run.
