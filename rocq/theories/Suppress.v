(** Hints and options that switch the instrumentation of a node off (C27, C35-C37). *)
From Coq Require Import NArith String List Bool Lia PeanoNat.
Import ListNotations.
From Verif Require Import Base IndexMap Oxide SourceCov Hints Ast Visitor VisitorRel VisitorEx Erase
  Counting.
Open Scope N_scope.

(** ** Inside an ignored node nothing happens *)

Section Next.
Variable e : env.

(** Same state *)
Definition same (s s' : st) : Prop :=
  cov s' = cov s /\ before s' = before s /\ stack s' = stack s /\ ign s' = ign s.

Lemma same_eq : forall s s', same s s' -> s' = s.
Proof. intros [] [] (A & B & C & D). simpl in *. congruence. Qed.

Lemma on_enter_next : forall n sp s s1 old cur, on_enter e n sp s = (s1, old, cur) ->
  is_next (ign s) = true -> s1 = push n s /\ old = ign s /\ cur = ign s.
Proof.
  intros n sp s s1 old cur H Hn. unfold on_enter, on_enter_with_span in H.
  cbn [ign push] in H. rewrite Hn in H. inversion H; subst. auto.
Qed.
Lemma on_enter_span_next : forall sp s s1 old cur, on_enter_with_span e sp s = (s1, old, cur) ->
  is_next (ign s) = true -> s1 = s /\ old = ign s /\ cur = ign s.
Proof.
  intros sp s s1 old cur H Hn. unfold on_enter_with_span in H. rewrite Hn in H. inversion H; subst. auto.
Qed.
Lemma exit_push : forall n s, on_exit (ign s) (push n s) = s.
Proof. intros n []. reflexivity. Qed.
Lemma pop_push : forall n s, pop (push n s) = s.
Proof. intros n []. reflexivity. Qed.

Definition NV (t : node) (s : st) (t' : node) (s' : st) : Prop :=
  is_next (ign s) = true -> good false t = true -> t' = t /\ s' = s.
Definition NK (cs : list node) (s : st) (cs' : list node) (s' : st) : Prop :=
  is_next (ign s) = true -> forallb (good false) cs = true -> cs' = cs /\ s' = s.

Ltac ent :=
  repeat match goal with
  | H : on_enter e _ _ _ = (_, _, _) |- _ =>
      apply on_enter_next in H as (? & ? & ?); [|assumption]
  | H : on_enter_with_span e _ _ = (_, _, _) |- _ =>
      apply on_enter_span_next in H as (? & ? & ?); [|assumption]
  end; subst; try congruence.

Theorem next_all :
  (forall v t s t' s', Vis e v t s t' s' -> NV t s t' s') /\
  (forall v cs s cs' s', Kids e v cs s cs' s' -> NK cs s cs' s') /\
  (forall ss s ss' s', Ins e ss s ss' s' -> NK ss s ss' s') /\
  (forall v b x s x' s', Wrap e v b x s x' s' -> True) /\
  (forall b r cur x s x' s', Arm e b r cur x s x' s' -> True) /\
  (forall xs s xs' s', Items e xs s xs' s' -> True) /\
  (forall xs s xs' s', SItems e xs s xs' s' -> True).
Proof.
  apply Vis_all_ind; unfold NV, NK; intros; auto;
    repeat match goal with
    | H : good false (Node _ _ _) = true |- _ => apply good_split in H as [? ?]
    end; ent.
  - destruct H1 as [-> ->]; auto.
  - destruct H1 as [-> ->]; auto. now rewrite exit_push.
  - now rewrite exit_push.
  - destruct H3 as [-> ->]; auto. now rewrite exit_push.
  - destruct H1 as [-> ->]; auto. now rewrite pop_push.
  - destruct H1 as [-> ->]; auto. now rewrite exit_push.
  - discriminate.
  - discriminate.
  - cbn [forallb] in *. apply andb_true_iff in H4 as [Hx Hl].
    destruct H0 as [-> ->]; auto. destruct H2 as [-> ->]; auto.
  - cbn [forallb] in *. apply andb_true_iff in H3 as [Hx Hl].
    destruct H1 as [-> ->]; auto.
  - cbn [forallb] in *. apply andb_true_iff in H5 as [Hx Hl].
    rewrite exit_push in *. destruct H3 as [-> ->]; auto.
Qed.
End Next.

(** ** C35: ignore next *)

(** Where the visitor looks for the hint of a node; [None] if nodes of this kind cannot carry
    one. *)
Definition hint_site (v : vis) (t : node) : option span :=
  match t with
  | Node k sp cs =>
      match k, v with
      | KBin _, _ => Some sp
      | KExpr, VLogical _ => Some sp
      | _, VLogical _ => None
      | (KFnDecl | KFnExpr | KMethodProp | KClassDecl), _ =>
          match cs with [_; x] => Some (nspan x) | _ => None end
      | (KBlock _ | KArrow | KExprStmt | KBreak | KContinue | KReturn | KLabeled | KTaggedTpl | KTry
        | KThrow | KCond | KVarDecl _ | KVarDeclarator | KClassProp | KPrivateProp | KClassMethod
        | KGetter | KSetter | KFor | KForIn | KForOf | KWhile | KDoWhile | KSwitch | KIf | KWith
        | KAssignPat), _ => Some sp
      | KSwitchCase, VSwitch _ => Some sp
      | (KExportDecl | KExportDefaultDecl | KDebugger), VCov => Some sp
      | _, _ => None
      end
  end.

Section Hinted.
Variable e : env.

Lemma on_enter_hinted : forall n sp s s1 old cur, on_enter e n sp s = (s1, old, cur) ->
  is_next (hint e sp) = true ->
  is_next cur = true /\ is_next (ign s1) = true /\ on_exit old s1 = s.
Proof.
  intros n sp s s1 old cur H Hn. unfold on_enter, on_enter_with_span in H. cbn [ign push] in H.
  destruct (is_next (ign s)) eqn:Hs; inversion H; subst; cbn; rewrite ?Hs, ?Hn; repeat split; now destruct s.
Qed.

Lemma children_next : forall n v t s t' s', is_next (ign s) = true -> good false t = true ->
  visit_children (visit e n) v t s = Ok (t', s') -> t' = t /\ s' = s.
Proof.
  intros n v [k sp cs] s t' s' Hn Hg H. unfold visit_children in H.
  apply bind_ok in H as [[cs' s1] [Hl H]]. inversion H; subst. apply good_split in Hg as [_ Hg].
  apply (kids_sound e (visit e n) (visit_sound e n)) in Hl.
  apply (proj1 (proj2 (next_all e))) in Hl. destruct (Hl Hn Hg) as [-> ->]. auto.
Qed.

Lemma enter_exit_hinted : forall n sp s skipped body t t' s',
  is_next (hint e sp) = true ->
  (forall s1 t1 s2, is_next (ign s1) = true -> skipped s1 = Ok (t1, s2) -> t1 = t /\ s2 = s1) ->
  enter_exit e n sp s skipped body = Ok (t', s') -> t' = t /\ s' = s.
Proof.
  intros n sp s skipped body t t' s' Hn Hsk H. unfold enter_exit in H.
  destruct (on_enter e n sp s) as [[s1 old] cur] eqn:He.
  destruct (on_enter_hinted _ _ _ _ _ _ He Hn) as (Hc & Hi & Hx). rewrite Hc in H.
  apply bind_ok in H as [[t1 s2] [Hs H]]. inversion H; subst.
  destruct (Hsk _ _ _ Hi Hs) as [-> ->]. auto.
Qed.
End Hinted.

Theorem ignore_next : forall e n v t s t' s' sp,
  hint_site v t = Some sp -> hint e sp = Some INext -> good false t = true ->
  visit e n v t s = Ok (t', s') -> t' = t /\ s' = s.
Proof.
  intros e n v t s t' s' sp Hs Hh Hg H. destruct n as [|n]; [discriminate|].
  assert (Hn : is_next (hint e sp) = true) by now rewrite Hh.
  cbn [visit] in H. unfold visit_body in H.
  assert (Hbin : forall op f, hint e (nspan t) = Some INext ->
    visit_bin_expr e (visit e n) v op f t s = Ok (t', s') -> t' = t /\ s' = s).
  { clear H Hs. intros op f Hh' H. unfold visit_bin_expr, on_enter_with_span in H.
    assert (Hx : exists s1, (if is_next (ign s) then (s, ign s, ign s)
       else (set_ign (hint e (nspan t)) s, ign s, hint e (nspan t))) = (s1, ign s, Some INext) /\
       is_next (ign s1) = true /\ on_exit (ign s) (push NBinExpr s1) = s).
    { rewrite Hh'. destruct (ign s) as [[]|] eqn:Hi; cbn; eexists; rewrite <- ?Hi; repeat split; cbn; rewrite ?Hi; auto;
      destruct s; cbn in *; subst; auto. }
    destruct Hx as (s1 & Hx & Hi & He). rewrite Hx in H. cbn [is_next] in H.
    apply bind_ok in H as [[t1 s2] [Hc H]]. inversion H; subst. clear H.
    apply children_next in Hc as [-> ->]; auto. }
  assert (Hkeep : forall nk body, enter_exit e nk sp s (fun s1 => Ok (t, s1)) body = Ok (t', s') ->
    t' = t /\ s' = s).
  { intros nk body. apply enter_exit_hinted; [assumption|]. intros s1 t1 s2 _ E. now inversion E. }
  assert (Hkids : forall nk body, enter_exit e nk sp s (visit_children (visit e n) v t) body = Ok (t', s') ->
    t' = t /\ s' = s).
  { intros nk body. apply enter_exit_hinted; [assumption|]. intros s1 t1 s2 Hi E.
    eapply children_next; eauto. }
  assert (Hexpr : sp = nspan t -> visit_expr_stmt e (visit e n) v t s = Ok (t', s') -> t' = t /\ s' = s).
  { intros -> E. unfold visit_expr_stmt in E.
    destruct (on_enter e NExprStmt (nspan t) s) as [[s1 old] cur] eqn:He.
    destruct (on_enter_hinted _ _ _ _ _ _ _ He Hn) as (Hc & Hi & Hx).
    destruct (nkids t) as [|x [|? ?]]; try discriminate. rewrite Hc in E.
    destruct (is_directive_expr x); [inversion E; subst; auto|].
    apply bind_ok in E as [[t1 s3] [Hv E]]. inversion E; subst. apply children_next in Hv as [-> ->]; auto. }
  destruct t as [k tsp cs]. cbn [nspan] in *.
  destruct v as [| |b|b]; unfold visit_logical, visit_instr in H; cbn [nkind nspan nkids] in H;
    destruct k; cbn [hint_site] in Hs; try discriminate Hs;
    try (inversion Hs; subst tsp; clear Hs);
    try (match type of H with
         | visit_bin_expr _ _ _ _ _ _ _ = _ => eapply Hbin; eassumption
         | _ => unfold visit_skip, visit_marked, visit_marked_skip, visit_for_like, visit_cond_expr,
             visit_class_method, visit_accessor, visit_arrow_expr, visit_initialized, visit_switch_stmt,
             visit_switch_case, visit_if_stmt, visit_assign_pat, visit_with_stmt in H;
             cbn [nspan] in H;
             first [eapply Hkeep; exact H | eapply Hkids; exact H]
         end);
    try (destruct cs as [|x1 [|x2 [|? ?]]]; try discriminate Hs; inversion Hs; subst sp; clear Hs;
         unfold visit_fn_decl, visit_fn_expr, visit_method_prop, visit_skip in H; cbn [nkids] in H;
         eapply Hkeep; exact H).
  - now apply Hexpr.
  - now apply Hexpr.
  - now apply Hexpr.
  - destruct (on_enter e NExpr sp s) as [[s1 old] cur] eqn:He.
    destruct (on_enter_hinted _ _ _ _ _ _ _ He Hn) as (Hc & Hi & Hx).
    apply bind_ok in H as [[t1 s3] [Hv H]]. inversion H; subst. apply children_next in Hv as [-> ->]; auto.
Qed.

(** A hint before a statement of a block *)
Theorem ignore_next_stmt : forall e n x ss s,
  hint e (nspan x) = Some INext ->
  insert_stmts_counter e (visit e n) (x :: ss) s =
  let* (ss', s') := insert_stmts_counter e (visit e n) ss s in Ok (x :: ss', s').
Proof.
  intros e n x ss s H. cbn [insert_stmts_counter].
  destruct (is_injected_counter_stmt x); [reflexivity|].
  destruct (on_enter e NStmt (nspan x) s) as [[s1 old] cur] eqn:He.
  destruct (on_enter_hinted _ _ _ _ _ _ _ He) as (Hc & Hi & Hx); [now rewrite H|].
  rewrite Hc. cbn [bind]. rewrite Hx. reflexivity.
Qed.

(** A hint before an item of a module *)
Theorem ignore_next_item : forall e n x xs s xs' s',
  hint e (nspan x) = Some INext -> export_const_span x = None -> good false x = true -> before s = [] ->
  visit_items e (visit e n) (x :: xs) s = Ok (xs', s') ->
  exists xs'', xs' = x :: xs'' /\ visit_items e (visit e n) xs s = Ok (xs'', s').
Proof.
  intros e n x xs s xs' s' H Hc Hg Hb E. cbn [visit_items] in E. rewrite Hc in E.
  destruct (directive_continue x).
  - cbn [bind] in E. apply bind_ok in E as [[r s2] [Hr E]]. inversion E; subst. exists r. auto.
  - destruct (on_enter e (match nkind x with KModuleDecl => NModuleDecl | _ => NStmt end) (nspan x) s)
      as [[s1 old] cur] eqn:He.
    destruct (on_enter_hinted _ _ _ _ _ _ _ He) as (_ & Hi & Hx); [now rewrite H|].
    apply bind_ok in E as [[r s2] [Hr E]]. apply bind_ok in Hr as [[x' s3] [Hv Hr]]. inversion Hr; subst. clear Hr.
    apply children_next in Hv as [-> ->]; auto.
    apply bind_ok in E as [[r s2] [Hr E]]. inversion E; subst.
    assert (Hb1 : before s1 = []).
    { apply on_enter_facts in He as (_ & Hb' & _). congruence. }
    assert (Hcl : clear_before s1 = s1) by (destruct s1; cbn in *; subst; reflexivity).
    rewrite Hcl in Hr. exists r. rewrite Hb1. auto.
Qed.


(** [/* istanbul ignore next */ export const a = 1] *)
Definition ex_export_const (init : node) : node :=
  module_ 1 20 [at_ 1 20 KModuleDecl [at_ 1 20 KExportDecl
    [at_ 8 20 (KVarDecl VConst) [list_ [declarator 14 19 "a" init]]]]].

(** C35 does not hold: an ignored [export const] is still counted as a statement. *)
Theorem ignore_next_export_const_refuted : exists e x s t' s' n,
  hint e (nspan x) = Some INext /\ good true x = true /\
  visit_items e (visit e n) [x] s = Ok (t', s') /\
  t' <> [x] /\ sc_s (cov s') <> sc_s (cov s).
Proof.
  exists (comment_env 1 " istanbul ignore next "),
    (hd none (nkids (hd none (nkids (ex_export_const (num 18 19)))))),
    (init_state plain_env "f.js" None).
  do 2 eexists. exists 20%nat. split; [vm_compute; reflexivity|]. split; [reflexivity|].
  split; [vm_compute; reflexivity|]. split; vm_compute; discriminate.
Qed.

(** The premises of the theorems hold for a statement with a hint. *)
Definition ex_ignored : node := T 1 18 KIf [var 5 6 "a"; T 8 18 KReturn [num 15 16]; none].
Example ignore_next_ex :
  let e := comment_env 1 "istanbul ignore next" in
  hint_site VStmt (hd none (nkids ex_ignored)) = Some (mkSpan 1 18) /\ hint e (mkSpan 1 18) = Some INext /\
  visit e 20 VStmt ex_ignored (init_state e "f.js" None) = Ok (ex_ignored, init_state e "f.js" None) /\
  match visit plain_env 20 VStmt ex_ignored (init_state e "f.js" None) with
  | Ok (t', _) => counters t' <> [] | _ => False end.
Proof. vm_compute. repeat split; discriminate. Qed.

(** ** C37: ignoreClassMethods *)

(** The name under which a function can be listed *)
Definition method_name (t : node) : option string :=
  match t with
  | Node (KClassMethod | KMethodProp) _ [Node (KPropIdent name) _ _; _] => Some name
  | Node (KGetter | KSetter) _ (Node (KPropIdent name) _ _ :: _) => Some name
  | Node KFnExpr _ [Node (KIdent name) _ _; _] => Some name
  | _ => None
  end.

Lemma is_ignored_method_in : forall e name, In name (e_ignore_methods e) -> is_ignored_method e name = true.
Proof.
  intros e name H. unfold is_ignored_method. apply existsb_exists. exists name. split; [assumption|].
  apply String.eqb_refl.
Qed.

Theorem ignored_method : forall e n v t s name,
  is_instr v = true -> method_name t = Some name -> In name (e_ignore_methods e) ->
  visit e (S n) v t s = Ok (t, s).
Proof.
  intros e n v t s name Hv Hm Hin. apply is_ignored_method_in in Hin.
  assert (Hexit : forall nk sp, (let '(s1, old, _) := on_enter e nk sp s in Ok (t, on_exit old s1)) = Ok (t, s)).
  { intros nk sp. unfold on_enter, on_enter_with_span. cbn [ign push].
    destruct (is_next (ign s)); now destruct s. }
  assert (Hee : forall nk sp body, (forall cur s1, body cur s1 = Ok (t, s1)) ->
     enter_exit e nk sp s (fun s1 => Ok (t, s1)) body = Ok (t, s)).
  { intros nk sp body Hb. unfold enter_exit. specialize (Hexit nk sp).
    destruct (on_enter e nk sp s) as [[s1 old] cur]. rewrite Hb. now destruct (is_next cur). }
  assert (Hb : visit e (S n) v t s = visit_instr e (visit e n) v t s) by now destruct v.
  rewrite Hb. clear Hb. unfold visit_instr.
  destruct t as [k sp cs].
  destruct k; try discriminate Hm.
  - destruct cs as [|[k2 sp2 cs2] [|fn [|? ?]]]; try discriminate Hm; destruct k2; try discriminate Hm.
    inversion Hm; subst. cbn [nkind]. unfold visit_fn_expr. cbn [nkids]. apply Hee. intros cur s1.
    unfold ident_view. cbn [nkind]. now rewrite Hin.
  - destruct cs as [|[k2 sp2 cs2] [|fn [|? ?]]]; try discriminate Hm; destruct k2; try discriminate Hm.
    inversion Hm; subst. cbn [nkind]. unfold visit_class_method. cbn [nkids]. apply Hee. intros cur s1.
    unfold prop_ident_view. cbn [nkind]. now rewrite Hin.
  - destruct cs as [|[k2 sp2 cs2] [|fn [|? ?]]]; try discriminate Hm; destruct k2; try discriminate Hm.
    inversion Hm; subst. cbn [nkind]. unfold visit_method_prop. cbn [nkids]. apply Hee. intros cur s1.
    unfold prop_ident_view. cbn [nkind]. now rewrite Hin.
  - destruct cs as [|[k2 sp2 cs2] cs]; try discriminate Hm; destruct k2; try discriminate Hm.
    inversion Hm; subst. cbn [nkind]. unfold visit_accessor. cbn [nkids]. apply Hee. intros cur s1.
    unfold prop_ident_view. cbn [nkind]. now rewrite Hin.
  - destruct cs as [|[k2 sp2 cs2] cs]; try discriminate Hm; destruct k2; try discriminate Hm.
    inversion Hm; subst. cbn [nkind]. unfold visit_accessor. cbn [nkids]. apply Hee. intros cur s1.
    unfold prop_ident_view. cbn [nkind]. now rewrite Hin.
Qed.

(** [class { m() { return 1 } }] with [m] listed, and not listed *)
Definition ex_method : node :=
  at_ 9 25 KClassMethod [at_ 9 10 (KPropIdent "m") []; fn_ 9 25 [] (block 13 25 [T 15 24 KReturn [num 22 23]])].
Definition methods_env (l : list string) : env := mkEnv no_comments (fun _ => false) (fun p => (1, p)) false l.
Example ignored_method_ex :
  let s := init_state plain_env "f.js" None in
  method_name ex_method = Some "m"%string /\
  visit (methods_env ["k"; "m"]%string) 20 VCov ex_method s = Ok (ex_method, s) /\
  match visit (methods_env ["k"]%string) 20 VCov ex_method s with
  | Ok (t', _) => counters t' = [CF 0; CS 0]
  | _ => False end.
Proof. vm_compute. auto. Qed.

(** ** C27: ignored files *)

Theorem ignored_file : forall e n path ism t,
  should_ignore_file (e_word e) (e_comments e) (nspan t) = true ->
  instrument e n path ism t = Ok (t, set_input_source_map ism (sc_new path (e_report_logic e))).
Proof. intros e n path ism t H. unfold instrument, visit_program. rewrite H. reflexivity. Qed.
