(** The visitors turn programs in which every counter stays next to its event into balanced
    programs, and every counter into the one of the place its record names. *)
From Coq Require Import NArith String List Bool Lia PeanoNat.
Import ListNotations.
From Verif Require Import Base IndexMap Oxide SourceCov Hints Ast Visitor VisitorRel Erase Counting Sem Account Slots Sites.
Open Scope N_scope.

(** The kind of counter that stands for an event *)
Definition suits (c : counter) (ev : event) : bool :=
  match ev with
  | EStmt _ | EInit _ => match c with CS _ => true | _ => false end
  | EFn _ => match c with CF _ => true | _ => false end
  | EArm _ _ | ECond _ _ | EOper _ _ | EDefault _ | ECase _ => match c with CB _ _ => true | _ => false end
  end.
Lemma suits_seen : forall c ev, suits c ev = true -> seen c = true.
Proof. intros [] [] H; try discriminate; reflexivity. Qed.

Section AV.
Variable e : env.
Variable F : counter -> option range.
Notation mark := (mark_prepend_stmt_counter e).

Definition Lo (sc : source_cov) : Prop := forall c r, loc_of (sc_fc sc) c = Some r -> F c = Some r.
Lemma Lo_back : forall a b, grows a b -> fresh a -> Lo b -> Lo a.
Proof. intros a b G Fa L c r H. apply L. now apply G. Qed.

(** An event of the source and its entry *)
Definition right_counter (ev : event) (loc : span) (c : counter) : Prop :=
  suits c ev = true /\ F c = Some (range_of e loc).
Definition site_ok (p : event * span) (q : entry) : Prop :=
  fst q = fst p /\ Forall (right_counter (fst p) (snd p)) (snd q).
Definition SL := Forall2 site_ok.

Lemma SL_app : forall a b c d, SL a c -> SL b d -> SL (a ++ b) (c ++ d).
Proof. intros. now apply Forall2_app. Qed.
Lemma SL_nil : SL [] []. Proof. constructor. Qed.
Lemma SL_here : forall sp ev loc cs, Forall (right_counter ev loc) cs -> SL (posed sp [(ev, loc)]) (here sp ev cs).
Proof.
  intros sp ev loc cs H. unfold posed, here. destruct (nowhere sp); [constructor|].
  constructor; [|constructor]. split; [reflexivity|exact H].
Qed.
Lemma SL_here0 : forall sp ev loc, SL (posed sp [(ev, loc)]) (here sp ev []).
Proof. intros. apply SL_here. constructor. Qed.
Lemma posed_nil : forall sp, posed sp [] = [].
Proof. intros. unfold posed. now destruct (nowhere sp). Qed.
Lemma posed_cons : forall sp p q l, posed sp (p :: q :: l) = posed sp [p] ++ posed sp (q :: l).
Proof. intros. unfold posed. now destruct (nowhere sp). Qed.
Lemma spot_lit : forall sp cs, spot sp = true -> lit sp cs.
Proof. intros sp cs H K. unfold spot in H. rewrite K in H. discriminate. Qed.

Definition css (l : list N) : list counter := map CS l.
Definition marks (l : list N) : list node := map (fun i => counter_stmt (CS i)) l.
Lemma marks_app : forall a b, marks (a ++ b) = marks a ++ marks b.
Proof. intros. apply map_app. Qed.
Lemma css_app : forall a b, css (a ++ b) = css a ++ css b.
Proof. intros. apply map_app. Qed.

(** Results of visiting the children of a node *)
Inductive Outs (v : vis) : list node -> list node -> list (list entry) -> list (list counter) -> list (list N) -> Prop :=
| O_nil : Outs v [] [] [] [] []
| O_cons : forall t t' l due adv cs cs' ls dues advs,
    SL (sites t) l -> Acc l due (css adv) t' -> nkind t' = nkind t -> nspan t' = nspan t ->
    (is_instr v = false \/ noisy t = false -> adv = []) ->
    Outs v cs cs' ls dues advs -> Outs v (t :: cs) (t' :: cs') (l :: ls) (due :: dues) (adv :: advs).

Fixpoint advs_ok (k : kind) (i : nat) (advs : list (list N)) : Prop :=
  match advs with
  | [] => True
  | a :: advs' => (passes k i = true \/ a = []) /\ advs_ok k (S i) advs'
  end.

Lemma outs_advs : forall v k cs cs' ls dues advs i, Outs v cs cs' ls dues advs ->
  is_instr v = false \/ (kids_quiet k i cs = true /\ forall j, free k j = passes k j) -> advs_ok k i advs.
Proof.
  intros v k cs cs' ls dues advs i H. revert i.
  induction H as [|t t' l due adv cs cs' ls dues advs _ _ _ _ Q _ IH]; intros i HQ; [exact I|].
  split.
  - destruct HQ as [HQ|[HQ Hf]]; [auto|]. cbn [kids_quiet] in HQ. apply andb_true_iff in HQ as [HQ _].
    rewrite Hf in HQ. destruct (passes k i); [now left|]. right. apply Q. right. now apply negb_true_iff in HQ.
  - apply IH. destruct HQ as [HQ|[HQ Hf]]; [auto|]. right. cbn [kids_quiet] in HQ. now apply andb_true_iff in HQ.
Qed.

Lemma outs_nil : forall v k i cs cs' ls dues advs, Outs v cs cs' ls dues advs -> Forall (eq []) dues ->
  (forall j, passes k j = false) -> advs_ok k i advs ->
  AccK (concat ls) cs' /\ SL (flat_map sites cs) (concat ls) /\ concat advs = [].
Proof.
  intros v k i cs cs' ls dues advs H. revert i.
  induction H as [|t t' l due adv cs cs' ls dues advs HS HA _ _ _ _ IH]; intros i Hd Hp Ha.
  - repeat split; constructor.
  - inversion Hd; subst. destruct Ha as [Ha1 Ha]. rewrite Hp in Ha1. destruct Ha1 as [Ha1|Ha1]; [discriminate|]. subst adv.
    destruct (IH (S i)) as (K1 & K2 & K3); auto. cbn [concat flat_map app]. repeat split.
    + constructor; assumption.
    + now apply SL_app.
    + exact K3.
Qed.
Lemma outs_quiet : forall v cs cs' ls dues advs, Outs v cs cs' ls dues advs -> Forall (eq []) dues ->
  existsb noisy cs = false -> AccK (concat ls) cs' /\ SL (flat_map sites cs) (concat ls) /\ concat advs = [].
Proof.
  intros v cs cs' ls dues advs H Hd Hq. eapply (outs_nil v KTry 0); eauto.
  clear Hd. generalize 0%nat. induction H as [|t t' l due adv cs cs' ls dues advs _ _ _ _ Q _ IH]; intros i; [exact I|].
  cbn [existsb] in Hq. apply orb_false_iff in Hq as [H1 H2]. split; [right; apply Q; now right|now apply IH].
Qed.
Lemma outs_tail : forall v i cs cs' ls dues advs, Outs v cs cs' ls dues advs -> Forall (eq []) dues ->
  advs_ok KList (S i) advs -> AccK (concat ls) cs' /\ SL (flat_map sites cs) (concat ls) /\ concat advs = [].
Proof.
  intros v i cs cs' ls dues advs H Hd Ha. apply (outs_nil v KTry (S i) _ _ _ _ _ H Hd ltac:(reflexivity)).
  clear H Hd. revert i Ha. induction advs as [|a advs IH]; intros i Ha; [exact I|]. destruct Ha as [[Ha|Ha] Hb]; [discriminate|].
  split; [auto|]. apply (IH (S i) Hb).
Qed.
Lemma outs_length : forall v cs cs' ls dues advs, Outs v cs cs' ls dues advs -> length cs' = length cs.
Proof. intros v cs cs' ls dues advs H. induction H; cbn [length]; congruence. Qed.
Lemma is_list_kind : forall t t', nkind t' = nkind t -> is_list t' = is_list t.
Proof. intros t t' H. unfold is_list. now rewrite H. Qed.
Lemma nonlist_or : forall t (adv : list counter), nonlist t = true -> adv = [] \/ is_list t = false.
Proof. intros t adv H. right. now apply negb_true_iff in H. Qed.
Lemma item_nonlist : forall t, item t = true -> nonlist t = true.
Proof. intros [[] sp cs] H; try discriminate; reflexivity. Qed.

Lemma L_advs : forall adv adv0 l ss, AccL l [] (adv0 ++ css adv) ss -> AccL l [] adv0 (marks adv ++ ss).
Proof.
  induction adv as [|i adv IH]; intros adv0 l ss H.
  - cbn [css marks map app] in *. now rewrite app_nil_r in H.
  - cbn [css marks map app] in *. apply L_adv; [reflexivity|]. apply IH. now rewrite <- app_assoc.
Qed.

Lemma outs_cons_inv : forall v t cs cs' ls dues advs, Outs v (t :: cs) cs' ls dues advs ->
  exists t' l due adv cs2 ls2 dues2 advs2,
    cs' = t' :: cs2 /\ ls = l :: ls2 /\ dues = due :: dues2 /\ advs = adv :: advs2 /\
    SL (sites t) l /\ Acc l due (css adv) t' /\ nkind t' = nkind t /\ nspan t' = nspan t /\
    (is_instr v = false \/ noisy t = false -> adv = []) /\ Outs v cs cs2 ls2 dues2 advs2.
Proof. intros v t cs cs' ls dues advs H. inversion H; subst. do 8 eexists. repeat (split; [reflexivity|]). tauto. Qed.
Lemma outs_nil_inv : forall v cs' ls dues advs, Outs v [] cs' ls dues advs -> cs' = [] /\ ls = [] /\ dues = [] /\ advs = [].
Proof. intros v cs' ls dues advs H. now inversion H. Qed.
Ltac outs := repeat match goal with
  | H : Outs _ (_ :: _) _ _ _ _ |- _ =>
      let t := fresh "t'" in let l := fresh "l" in let d := fresh "due" in let a := fresh "adv" in
      let S := fresh "HS" in let A := fresh "HA" in let K := fresh "HK" in let P := fresh "HP" in let Q := fresh "HQ" in
      let U := fresh "U" in
      apply outs_cons_inv in H as (t & l & d & a & ? & ? & ? & ? & -> & -> & U & -> & S & A & K & P & Q & H);
      first [injection U as; subst | subst]
  | H : Outs _ [] _ _ _ _ |- _ =>
      let U := fresh "U" in apply outs_nil_inv in H as (-> & -> & U & ->); subst; try clear U
  | H : Forall (eq []) (_ :: _) |- _ =>
      let D := fresh in apply Forall_inv in H as D; apply Forall_inv_tail in H; subst
  end.
Ltac advok := repeat match goal with
  | H : advs_ok _ _ (_ :: _) |- _ => cbn [advs_ok passes Nat.eqb] in H
  | H : (false = true \/ _) /\ _ |- _ => destruct H as [[H|H] ?]; [discriminate H|subst]
  end.

Definition nothing (k : kind) : bool :=
  match k with
  | KDebugger | KNone | KTs | KExportDefaultDecl | KFnDecl | KFnExpr | KClassDecl | KClassExpr | KClass
  | KClassMethod | KMethodProp | KSeq | KIdent _ | KPropIdent _ | KStr _ | KOther _ => true
  | _ => false
  end.
Lemma node_nothing : forall v k sp cs cs' ls dues advs, nothing k = true ->
  Outs v cs cs' ls dues advs -> Forall (eq []) dues -> advs_ok k 0 advs ->
  exists l, SL (sites (Node k sp cs)) l /\ Acc l [] (css (concat advs)) (Node k sp cs').
Proof.
  intros v k sp cs cs' ls dues advs Hk H Hd Ha.
  destruct (outs_nil v k 0 _ _ _ _ _ H Hd ltac:(destruct k; try discriminate; reflexivity) Ha) as (K1 & K2 & K3).
  exists (concat ls). rewrite K3. split.
  - replace (sites (Node k sp cs)) with (flat_map sites cs); [exact K2|].
    destruct k; try discriminate; cbn [sites own_sites]; now rewrite posed_nil.
  - apply A_still; [destruct k; try discriminate; reflexivity|exact K1].
Qed.
Lemma node_stmt : forall v k sp cs cs' ls dues advs, stmt_arity k (length cs) = true ->
  Outs v cs cs' ls dues advs -> Forall (eq []) dues -> advs_ok k 0 advs ->
  exists l, SL (sites (Node k sp cs)) l /\ Acc l [] (css (concat advs)) (Node k sp cs').
Proof.
  intros v k sp cs cs' ls dues advs Hk H Hd Ha. pose proof (outs_length _ _ _ _ _ _ H) as HL.
  destruct (outs_nil v k 0 _ _ _ _ _ H Hd ltac:(destruct k; try discriminate; reflexivity) Ha) as (K1 & K2 & K3).
  exists (here sp (EStmt sp) [] ++ concat ls). rewrite K3. split.
  - replace (sites (Node k sp cs)) with (posed sp [(EStmt sp, sp)] ++ flat_map sites cs)
      by (destruct k; try discriminate; reflexivity).
    apply SL_app; [apply SL_here0|exact K2].
  - apply A_stmt; [now rewrite HL|auto|exact K1].
Qed.

Ltac kids1 cs H := destruct cs as [|? [|? ?]]; try discriminate H.
Ltac kids2 cs H := destruct cs as [|? [|? [|? ?]]]; try discriminate H.
Ltac kids3 cs H := destruct cs as [|? [|? [|? [|? ?]]]]; try discriminate H.
Ltac kids4 cs H := destruct cs as [|? [|? [|? [|? [|? ?]]]]]; try discriminate H.
Ltac bools := repeat match goal with H : _ && _ = true |- _ => apply andb_true_iff in H as [? ?] end.
Ltac kind_eq := match goal with
  | K : nkind ?t' = nkind ?t |- context [is_list ?t'] => rewrite (is_list_kind t t' K)
  | K : nkind ?t' = nkind ?t |- context [is_expr ?t'] => unfold is_expr; rewrite K
  | K : nkind ?t' = nkind ?t |- context [is_none ?t'] => unfold is_none; rewrite K
  end.
Lemma AccK_L : forall l cs, AccK l cs -> AccL l [] [] cs.
Proof. intros l cs H. induction H as [|l1 l2 t ts Ht _ IH]; [apply L_nil|]. apply L_item; auto. Qed.
Ltac sl := cbn [sites own_sites flat_map concat app]; rewrite ?posed_nil, ?posed_cons, ?app_nil_r, <- ?app_assoc; cbn [app];
  repeat (apply SL_app; [first [assumption|apply SL_here0]|]); try first [assumption|apply SL_here0|apply SL_nil].
(** A node whose children pass nothing beyond where it may *)
Lemma node_same : forall v k sp cs cs' ls dues advs,
  form k sp cs = true -> Outs v cs cs' ls dues advs -> Forall (eq []) dues -> advs_ok k 0 advs ->
  exists l, SL (sites (Node k sp cs)) l /\ Acc l [] (css (concat advs)) (Node k sp cs').
Proof.
  intros v k sp cs cs' ls dues advs Hf H Hd Ha.
  destruct (nothing k) eqn:Hn; [eapply node_nothing; eauto|].
  destruct (stmt_arity k (length cs)) eqn:Hs; [eapply node_stmt; eauto|].
  destruct k; try discriminate Hf; try discriminate Hn; cbn [form] in Hf;
    try (rewrite Hs in Hf; discriminate Hf); clear Hn Hs.
  - kids1 cs Hf. outs. exists l. split; [sl|]. cbn [concat]. rewrite app_nil_r.
    apply A_layer; [reflexivity| |exact HA]. kind_eq. now apply nonlist_or.
  - kids1 cs Hf. bools. outs. exists (here sp (EStmt sp) [] ++ l). split; [sl|]. cbn [concat]. rewrite app_nil_r.
    apply (A_export sp t' l [] (css adv)); auto. kind_eq. now apply nonlist_or.
  - kids1 cs Hf. outs. exists l. split; [sl|]. cbn [concat]. rewrite app_nil_r.
    apply A_layer; [reflexivity| |exact HA]. kind_eq. now apply nonlist_or.
  - (* KStmts *) destruct (outs_nil v KStmts 0 _ _ _ _ _ H Hd ltac:(reflexivity) Ha) as (K1 & K2 & K3).
    exists (concat ls). rewrite K3. split; [sl|]. apply A_stmts; [reflexivity|now apply AccK_L].
  - kids1 cs Hf. outs. exists l. split; [sl|]. cbn [concat]. rewrite app_nil_r.
    apply A_layer; [reflexivity| |exact HA]. kind_eq. now apply nonlist_or.
  - (* KList *) destruct cs as [|d cs].
    + outs. exists []. split; [sl|]. apply A_still; [reflexivity|constructor].
    + outs. destruct Ha as [_ Ha].
      match goal with H : Outs _ cs _ _ _ _ |- _ =>
        destruct (outs_tail v 0 _ _ _ _ _ H Hd Ha) as (K1 & K2 & K3)
      end.
      exists (l ++ concat x0). split; [sl|]. cbn [concat]. rewrite K3, app_nil_r.
      apply A_list; auto. kind_eq. now apply nonlist_or.
  - kids1 cs Hf. outs. exists l. split; [sl|]. cbn [concat]. rewrite app_nil_r.
    apply A_layer; [reflexivity| |exact HA]. kind_eq.
    right. destruct n as [[] ? ?]; try discriminate; reflexivity.
  - (* KLabeled *) kids2 cs Hf. bools. outs. destruct Ha as [[Ha|Ha] _]; [discriminate|]. subst adv.
    exists (here sp (EStmt sp) [] ++ l ++ l0). split; [sl|]. cbn [concat app]. rewrite app_nil_r.
    apply (A_labeled sp t' t'0 l l0 [] (css adv0)); auto.
    + unfold label_of in *. rewrite HK. destruct (nkind n); discriminate.
    + kind_eq. now apply nonlist_or.
  - (* KIf *) kids3 cs Hf. outs. advok.
    exists (here sp (EStmt sp) [] ++ here sp (EArm sp false) [] ++ here sp (EArm sp true) [] ++ l ++ l0 ++ l1).
    split; [sl|]. now apply (A_if sp t' t'0 t'1 l l0 l1 [] [] []).
  - (* KSwitchCase *) kids2 cs Hf. outs. advok. exists (here sp (ECase sp) [] ++ l ++ l0). split; [sl|].
    now apply (A_case sp t' t'0 l l0 []).
  - kids1 cs Hf. outs. exists l. split; [sl|]. cbn [concat]. rewrite app_nil_r. now apply A_vardecl.
  - (* KVarDeclarator *) kids2 cs Hf. outs. advok. cbn [sites own_sites]. destruct (is_none n0) eqn:Hn.
    + exists (l ++ l0). split; [sl|]. apply A_still; [cbn [still]; now kind_eq|].
      rewrite <- (app_nil_r l0). repeat (constructor; auto).
    + exists (here sp (EInit sp) [] ++ l ++ l0). split; [sl|].
      apply (A_declarator sp t' t'0 l l0 [] []); auto. now kind_eq.
  - (* KFunction *) kids4 cs Hf. bools. outs. advok. exists (here sp (EFn sp) [] ++ l ++ l0 ++ l1 ++ l2). split; [sl|].
    apply (A_fn sp t' t'0 t'1 t'2 l l0 l1 l2 []); auto. kind_eq. now apply negb_true_iff.
  - (* KArrow *) kids3 cs Hf. bools. outs. advok.
    exists (here sp (EFn sp) [] ++ l ++ (if is_expr t'0 then here (nspan t'0) (EStmt (nspan t'0)) [] else []) ++ l0 ++ l1). split.
    + kind_eq. rewrite HP0. change (match nkind n0 with KExpr => true | _ => false end) with (is_expr n0). destruct (is_expr n0) eqn:He; cbn [sites]; rewrite He; sl.
    + apply (A_arrow sp t' t'0 t'1 l l0 l1 []); auto.
  - destruct cs as [|n [|i rest]]; try discriminate Hf. bools. outs. advok.
    match goal with H : Outs _ rest _ _ _ _, A : advs_ok _ _ _ |- _ =>
      destruct (outs_nil v KClassProp 2 _ _ _ _ _ H Hd ltac:(reflexivity) A) as (K1 & K2 & K3)
    end.
    exists (here sp (EInit sp) [] ++ l ++ l0 ++ concat x4). split; [sl|]. cbn [concat app]. rewrite K3.
    now apply (A_field KClassProp sp t' t'0 x3 l l0 (concat x4) []).
  - destruct cs as [|n [|i rest]]; try discriminate Hf. bools. outs. advok.
    match goal with H : Outs _ rest _ _ _ _, A : advs_ok _ _ _ |- _ =>
      destruct (outs_nil v KPrivateProp 2 _ _ _ _ _ H Hd ltac:(reflexivity) A) as (K1 & K2 & K3)
    end.
    exists (here sp (EInit sp) [] ++ l ++ l0 ++ concat x4). split; [sl|]. cbn [concat app]. rewrite K3.
    now apply (A_field KPrivateProp sp t' t'0 x3 l l0 (concat x4) []).
  - (* KGetter *) kids3 cs Hf. bools. outs. advok. exists (here sp (EFn sp) [] ++ l ++ l0 ++ l1). split; [sl|].
    apply (A_getter sp t' t'0 t'1 l l0 l1 []); auto. kind_eq. now apply negb_true_iff.
  - (* KSetter *) kids4 cs Hf. bools. outs. advok. exists (here sp (EFn sp) [] ++ l ++ l0 ++ l1 ++ l2). split; [sl|].
    apply (A_setter sp t' t'0 t'1 t'2 l l0 l1 l2 []); auto. kind_eq. now apply negb_true_iff.
  - (* KCond *) kids3 cs Hf. outs. advok. exists (here sp (ECond sp false) [] ++ here sp (ECond sp true) [] ++ l ++ l0 ++ l1).
    split; [sl|]. now apply (A_cond sp t' t'0 t'1 l l0 l1 [] []).
  - (* KBin *) destruct (is_logical_op op) eqn:Ho.
    + kids2 cs Hf. outs. advok. exists (here sp (EOper sp false) [] ++ here sp (EOper sp true) [] ++ l ++ l0).
      split; [cbn [sites own_sites]; rewrite Ho; sl|]. now apply (A_logic op sp t' t'0 l l0 [] []).
    + destruct (outs_nil v (KBin op) 0 _ _ _ _ _ H Hd ltac:(reflexivity) Ha) as (K1 & K2 & K3).
      exists (concat ls). rewrite K3. split; [cbn [sites own_sites]; rewrite Ho; sl|].
      apply A_still; [cbn [still]; now rewrite Ho|exact K1].
  - (* KAssignPat *) kids2 cs Hf. outs. advok. exists (here sp (EDefault sp) [] ++ l ++ l0). split; [sl|].
    now apply (A_assign sp t' t'0 l l0 []).
  - kids1 cs Hf. outs. exists l. split; [sl|]. cbn [concat]. rewrite app_nil_r.
    apply A_layer; [reflexivity| |exact HA]. kind_eq. now apply nonlist_or.
Qed.

(** ** Parts that are not visited *)
Lemma exact_inv : forall k sp cs, exact (Node k sp cs) = true ->
  form k sp cs = true /\ kids_quiet k 0 cs = true /\ forallb exact cs = true.
Proof. intros k sp cs H. cbn [exact] in H. bools. auto. Qed.
Lemma zero_exact : forall t, exact t = true -> exists l, SL (sites t) l /\ Acc l [] [] t.
Proof.
  induction t as [k sp cs IH] using node_ind'. intros H. apply exact_inv in H as (Hf & _ & Hx).
  assert (O : exists ls dues advs, Outs (VLogical 0) cs cs ls dues advs /\ Forall (eq []) dues /\ Forall (eq []) advs).
  { clear Hf. induction cs as [|c cs IHcs]; [exists [], [], []; repeat split; constructor|].
    cbn [forallb] in Hx. bools. inversion IH as [|? ? IHc IHr]; subst.
    destruct (IHcs IHr) as (ls & dues & advs & O & D & A); [assumption|]. destruct (IHc ltac:(assumption)) as (l & S1 & A1).
    exists (l :: ls), ([] :: dues), ([] :: advs). repeat split; try (constructor; auto). }
  destruct O as (ls & dues & advs & O & D & A).
  assert (Ha : concat advs = []) by (clear - A; induction A as [|? ? <- _ IH]; auto).
  destruct (node_same _ k sp _ _ _ _ _ Hf O D) as (l & S1 & A1).
  - apply (outs_advs _ k _ _ _ _ _ 0%nat O). now left.
  - exists l. rewrite Ha in A1. auto.
Qed.

(** Trees that already contain one counter, for an event that just happened *)
Definition wrapper (k : kind) : bool := match k with KExpr | KInjParen | KBlock _ => true | _ => false end.
Inductive Raw : list counter -> node -> Prop :=
| R_good : forall t, exact t = true -> Raw [] t
| R_counter : forall c sp, seen c = true -> Raw [c] (Node (KCounter c) sp [])
| R_layer : forall k sp d due, wrapper k = true -> nonlist d = true -> Raw due d -> Raw due (Node k sp [d])
| R_seq : forall sp x y due, noisy x = false -> noisy y = false -> exact y = true -> Raw due x ->
    Raw due (Node KInjSeq sp [x; y])
| R_stmts : forall sp i ss, forallb item ss = true -> forallb exact ss = true ->
    Raw [CF i] (Node KStmts sp (counter_stmt (CF i) :: ss))
| R_fn : forall sp p ds b ty i, spot sp = true -> is_expr b = false -> F (CF i) = Some (range_of e (nspan b)) ->
    existsb noisy [p; ds; b; ty] = false -> exact p = true -> exact ds = true -> exact ty = true -> Raw [CF i] b ->
    Raw [] (Node KFunction sp [p; ds; b; ty]).
Definition Rw (v : vis) (due : list counter) (t : node) : Prop :=
  if is_instr v then Raw due t else due = [] /\ exact t = true.
Definition RawL (due : list counter) (ss : list node) : Prop :=
  (due = [] /\ forallb item ss = true /\ forallb exact ss = true) \/
  exists i ss1, due = [CF i] /\ ss = counter_stmt (CF i) :: ss1 /\ forallb item ss1 = true /\ forallb exact ss1 = true.

Lemma Rw_exact : forall v t, exact t = true -> Rw v [] t.
Proof. intros v t H. unfold Rw. destruct (is_instr v); [now apply R_good|auto]. Qed.

Lemma zeros_L : forall ss, forallb item ss = true -> forallb exact ss = true ->
  exists l, SL (flat_map sites ss) l /\ AccL l [] [] ss.
Proof.
  induction ss as [|x ss IH]; intros Hi Hx; [exists []; split; constructor|].
  cbn [forallb] in *. bools. destruct IH as (l2 & S2 & A2); auto. destruct (zero_exact x) as (l1 & S1 & A1); auto.
  exists (l1 ++ l2). split; [now apply SL_app|]. apply L_item; auto.
Qed.
Lemma zero_raw : forall due t, Raw due t -> exists l, SL (sites t) l /\ Acc l due [] t.
Proof.
  intros due t H. induction H.
  - now apply zero_exact.
  - exists []. split; [sl|]. replace [c] with (if seen c then [c] else []) by now rewrite H. apply A_counter.
  - destruct IHRaw as (l & S1 & A1). exists l. split; [destruct k; try discriminate; sl|].
    apply A_layer; auto. destruct k; try discriminate; reflexivity.
  - destruct IHRaw as (l & S1 & A1). destruct (zero_exact y) as (l2 & S2 & A2); auto.
    exists (l ++ l2). split; [sl|]. now apply A_injseq.
  - destruct (zeros_L ss) as (l & S1 & A1); auto. exists l. split; [sl|].
    apply A_stmts; [reflexivity|]. now apply L_due.
  - destruct IHRaw as (l & S1 & A1). destruct (zero_exact p) as (l1 & S2 & A2); auto.
    destruct (zero_exact ds) as (l2 & S3 & A3); auto. destruct (zero_exact ty) as (l4 & S4 & A4); auto.
    exists (here sp (EFn sp) [CF i] ++ l1 ++ l2 ++ l ++ l4). split.
    + cbn [sites own_sites flat_map]. rewrite app_nil_r. apply SL_app; [|sl].
      apply SL_here. apply Forall_cons; [|apply Forall_nil]. split; [reflexivity|assumption].
    + apply A_fn; auto. now apply spot_lit.
Qed.

(** ** What the helpers make *)
Definition arm_counter (r : range) (c : counter) : Prop :=
  match c with CB _ _ => True | _ => False end /\ F c = Some r.
Lemma arm_right : forall ev loc c, match ev with EArm _ _ | ECond _ _ | EOper _ _ | EDefault _ | ECase _ => True | _ => False end ->
  arm_counter (range_of e loc) c -> right_counter ev loc c.
Proof. intros ev loc c He [Hc HF]. split; [|exact HF]. destruct c; try contradiction. destruct ev; try contradiction; reflexivity. Qed.
Lemma arms_right : forall ev loc d, match ev with EArm _ _ | ECond _ _ | EOper _ _ | EDefault _ | ECase _ => True | _ => False end ->
  Forall (arm_counter (range_of e loc)) d -> Forall (right_counter ev loc) d.
Proof. intros ev loc d He H. induction H; constructor; auto. now apply arm_right. Qed.

Lemma sites_paren_seq : forall c x, sites (paren_seq c x) = sites x.
Proof. intros. unfold paren_seq, E, mk, counter_expr, E, mk. cbn [sites own_sites flat_map]. rewrite !posed_nil. cbn [app]. now rewrite !app_nil_r. Qed.
Lemma sites_counter_stmt : forall c, sites (counter_stmt c) = [].
Proof. reflexivity. Qed.
Lemma raw_counter_expr : forall c, seen c = true -> Raw [c] (counter_expr c).
Proof. intros. apply R_layer; [reflexivity|reflexivity|]. now apply R_counter. Qed.
Lemma raw_paren_seq : forall c x, seen c = true -> noisy x = false -> exact x = true -> Raw [c] (paren_seq c x).
Proof.
  intros. do 3 (apply R_layer; [reflexivity|reflexivity|]). apply R_seq; auto. now apply raw_counter_expr.
Qed.
Lemma acc_counter_expr : forall c, Acc [] (if seen c then [c] else []) [] (counter_expr c).
Proof. intros. apply A_layer; auto. apply A_counter. Qed.
Lemma acc_paren_seq : forall c l x, seen c = true -> Acc l [] [] x -> Acc l [c] [] (paren_seq c x).
Proof.
  intros c l x Hc H. do 3 (apply A_layer; [reflexivity|now left|]).
  apply (A_injseq _ _ _ [] l); [|assumption]. pose proof (acc_counter_expr c) as K. now rewrite Hc in K.
Qed.

Lemma exact_block : forall i bsp ssp ss, exact (Node (KBlock i) bsp [Node KStmts ssp ss]) = true ->
  forallb item ss = true /\ forallb exact ss = true.
Proof.
  intros i bsp ssp ss H. apply exact_inv in H as (_ & _ & H). cbn [forallb] in H. bools.
  match goal with H : exact (Node KStmts _ _) = true |- _ => apply exact_inv in H as (? & _ & ?) end. auto.
Qed.
Lemma prepend_raw : forall i b b', prepend_to_block (CF i) b = Some b' -> exact b = true ->
  Raw [CF i] b' /\ sites b' = sites b /\ nkind b' = nkind b /\ nspan b' = nspan b.
Proof.
  intros i b b' H Hx. unfold prepend_to_block in H. destruct (block_view b) as [[[[bi bsp] ssp] ss]|] eqn:Hb; [|discriminate].
  apply block_view_inv in Hb. subst. inversion H; subst. apply exact_block in Hx as [H1 H2].
  split; [|auto]. apply R_layer; [reflexivity|reflexivity|]. now apply R_stmts.
Qed.
Lemma create_fn_raw : forall id fn s fn' s', create_fn_instrumentation e id fn s = Ok (fn', s') ->
  exact fn = true -> fresh (cov s) -> Lo (cov s') ->
  Raw [] fn' /\ sites fn' = sites fn /\ nkind fn' = nkind fn /\ nspan fn' = nspan fn.
Proof.
  intros id [k sp cs] s fn' s' H Hx Hfr HL. unfold create_fn_instrumentation in H. destruct k; try discriminate.
  destruct cs as [|p [|d [|b [|ty [|? ?]]]]]; try discriminate.
  destruct (new_function _ _ _ _) as [c i] eqn:Hn. apply new_function_grows in Hn as [_ Hn].
  destruct (is_none b); [discriminate|].
  destruct (prepend_to_block _ _) as [b'|] eqn:Hb; [|discriminate].
  inversion H; subst. pose proof (prepend_noisy _ _ _ Hb) as [N1 N2].
  apply exact_inv in Hx as (Hf & Hq & Hx). cbn [forallb form] in Hx, Hf. bools.
  destruct (prepend_raw _ _ _ Hb) as (R & HS & HK & HP); [assumption|].
  repeat split.
  - apply R_fn with (i := i); auto.
    + unfold is_expr in *. rewrite HK. now apply negb_true_iff.
    + rewrite HP. apply HL. now apply Hn.
    + cbn [kids_quiet free passes bpos orb Nat.eqb] in Hq. bools. cbn [existsb]. rewrite N1.
      repeat match goal with H : negb _ = true |- _ => apply negb_true_iff in H end.
      repeat match goal with H : noisy _ = false |- _ => rewrite H; clear H end. reflexivity.
  - cbn [sites own_sites flat_map]. now rewrite HS, HP.
Qed.
Lemma accessor_raw : forall name nsp s b b' s' sp, accessor_body e name nsp s b = Ok (b', s') ->
  exact b = true -> fresh (cov s) -> Lo (cov s') ->
  exists d, Raw d b' /\ Forall (right_counter (EFn sp) (nspan b)) d /\ sites b' = sites b /\ nkind b' = nkind b.
Proof.
  intros name nsp s b b' s' sp H Hx Hfr HL. unfold accessor_body in H. destruct (is_none b).
  { inversion H; subst. exists []. split; [now apply R_good|auto]. }
  destruct (new_function _ _ _ _) as [c i] eqn:Hn. apply new_function_grows in Hn as [_ Hn].
  destruct (prepend_to_block _ _) as [b1|] eqn:Hb; [|discriminate].
  inversion H; subst. destruct (prepend_raw _ _ _ Hb) as (R & HS & HK & HP); [assumption|].
  exists [CF i]. repeat split; auto. apply Forall_cons; [|apply Forall_nil]. split; [reflexivity|]. apply HL. now apply Hn.
Qed.
Lemma mark_spec : forall sp s, exists i, before (mark sp s) = before s ++ marks [i] /\
  (fresh (cov s) -> Lo (cov (mark sp s)) -> F (CS i) = Some (range_of e sp)).
Proof.
  intros sp s. unfold mark_prepend_stmt_counter. destruct (new_statement _ _) as [c i] eqn:H.
  apply new_statement_grows in H as [_ H]. exists i. split; [reflexivity|]. intros Hf HL. apply HL. now apply H.
Qed.
Lemma covered_raw : forall x s x' s' sp, covered e x s x' s' -> exact x = true -> noisy x = false ->
  is_expr x = true -> fresh (cov s) -> Lo (cov s') ->
  exists adv d, Raw d x' /\ before s' = before s ++ marks adv /\
    Forall (right_counter (EInit sp) (nspan x)) (css adv ++ d) /\ sites x' = sites x /\ nkind x' = nkind x.
Proof.
  intros x s x' s' sp (s1 & H1 & H2) Hx Hq He Hfr HL.
  assert (G1 : grows (cov s) (cov s1)) by (destruct H1 as [->| ->]; [apply grows_refl|apply mark_grows]).
  assert (F1 : fresh (cov s1)) by now apply G1.
  assert (M : Lo (cov s1) -> exists adv, before s1 = before s ++ marks adv /\ Forall (right_counter (EInit sp) (nspan x)) (css adv)).
  { intros L1. destruct H1 as [->| ->]; [exists []; cbn [marks map]; rewrite app_nil_r; split; [reflexivity|constructor]|].
    destruct (mark_spec (nspan x) s) as (i & B & Fi). exists [i]. split; [exact B|].
    apply Forall_cons; [|apply Forall_nil]. split; [reflexivity|]. now apply Fi. }
  destruct H2 as [[-> [->| ->]]|[_ H2]].
  - destruct (M HL) as (adv & B & A). exists adv, []. split; [now apply R_good|]. rewrite app_nil_r. auto.
  - destruct M as (adv & B & A).
    { apply (Lo_back _ _ (mark_grows e (nspan x) s1)); assumption. }
    destruct (mark_spec (nspan x) s1) as (i & B2 & Fi). exists (adv ++ [i]), [].
    split; [now apply R_good|]. rewrite B2, B, marks_app, app_assoc. split; [reflexivity|]. split; [|auto].
    rewrite app_nil_r, css_app. apply Forall_app. split; [exact A|].
    apply Forall_cons; [|apply Forall_nil]. split; [reflexivity|]. now apply Fi.
  - pose proof (replace_stmt_grows e _ _ _ _ H2) as G2. destruct M as (adv & B & A).
    { now apply (Lo_back _ _ G2). }
    unfold replace_expr_with_stmt_counter in H2. destruct (new_statement _ _) as [c i] eqn:Hn.
    apply new_statement_grows in Hn as [_ Hn]. inversion H2; subst.
    exists adv, [CS i]. split; [now apply raw_paren_seq|]. split; [exact B|]. split.
    + apply Forall_app. split; [exact A|]. apply Forall_cons; [|apply Forall_nil]. split; [reflexivity|]. apply HL. now apply Hn.
    + split; [apply sites_paren_seq|]. unfold is_expr in He. destruct (nkind x); try discriminate; reflexivity.
Qed.
Lemma cond_arm_raw : forall b x s x' s', cond_arm e b x s x' s' -> exact x = true -> noisy x = false ->
  fresh (cov s) -> Lo (cov s') ->
  exists d, Raw d x' /\ Forall (arm_counter (range_of e (nspan x))) d /\ sites x' = sites x.
Proof.
  intros b x s x' s' [[-> ->]|H] Hx Hq Hfr HL.
  - exists []. split; [now apply R_good|auto].
  - unfold replace_expr_with_branch_counter in H. destruct (negb _) eqn:He; [discriminate|].
    destruct (add_branch_path _ _ _) as [[c i]| |] eqn:Hp; try discriminate.
    apply add_branch_path_grows in Hp as [_ Hp]. inversion H; subst. exists [CB b i].
    split; [now apply raw_paren_seq|]. split; [|apply sites_paren_seq].
    apply Forall_cons; [|apply Forall_nil]. split; [exact I|]. apply HL. now apply Hp.
Qed.
Lemma replace_acc : forall b x s x' s' l, replace_expr_with_branch_counter e x b s = Ok (x', s') -> Acc l [] [] x ->
  fresh (cov s) -> Lo (cov s') ->
  exists d, Acc l d [] x' /\ Forall (arm_counter (range_of e (nspan x))) d.
Proof.
  intros b x s x' s' l H Hx Hfr HL.
  unfold replace_expr_with_branch_counter in H. destruct (negb _) eqn:He; [discriminate|].
  destruct (add_branch_path _ _ _) as [[c i]| |] eqn:Hp; try discriminate.
  apply add_branch_path_grows in Hp as [_ Hp]. inversion H; subst. exists [CB b i].
  split; [now apply acc_paren_seq|].
  apply Forall_cons; [|apply Forall_nil]. split; [exact I|]. apply HL. now apply Hp.
Qed.
Lemma acc_true : forall b i l x, Acc l [] [] x -> Acc l [] [] (increase_true_expr b i x).
Proof.
  intros b i l x H. unfold increase_true_expr.
  assert (T : Acc [] [] [] validate_true_non_trivial).
  { unfold validate_true_non_trivial, E, mk.
    assert (R : forall k, still k [] = true -> Acc [] [] [] (Node KExpr dummy_span [Node k dummy_span []])).
    { intros k Hk. apply A_layer; auto. apply A_still; [exact Hk|constructor]. }
    assert (L : forall op x y, is_logical_op op = true -> Acc [] [] [] x -> Acc [] [] [] y ->
      Acc [] [] [] (Node KExpr dummy_span [Node (KBin op) dummy_span [x; y]])).
    { intros op x0 y Ho Hx Hy. apply A_layer; auto. now apply (A_logic op dummy_span x0 y [] [] [] []). }
    apply L; auto. apply L; auto; (apply A_layer; [reflexivity|now left|]); apply A_layer; auto; apply L; auto. }
  unfold E, mk. apply A_layer; auto. rewrite <- (app_nil_r l).
  apply A_still; [reflexivity|]. apply AK_cons.
  - apply A_layer; auto. rewrite <- (app_nil_r l). apply A_still; [reflexivity|]. apply AK_cons; [exact H|constructor].
  - apply (AK_cons [] []); [|apply (AK_cons [] []); [|constructor]].
    + apply A_layer; auto. apply A_layer; auto. apply A_layer; auto.
      apply (A_cond dummy_span _ _ _ [] [] [] [] []); auto.
      * apply (acc_counter_expr (CT b i)).
      * apply A_layer; auto. apply A_still; [reflexivity|constructor].
    + apply A_layer; auto. apply A_still; [reflexivity|constructor].
Qed.

(** ** The visit *)
Definition PV (v : vis) (t : node) (s : st) (t' : node) (s' : st) : Prop :=
  forall due, Rw v due t -> fresh (cov s) -> Lo (cov s') ->
  exists l adv, before s' = before s ++ marks adv /\ SL (sites t) l /\ Acc l due (css adv) t' /\
    nkind t' = nkind t /\ nspan t' = nspan t.
Definition PK (v : vis) (cs : list node) (s : st) (cs' : list node) (s' : st) : Prop :=
  forall dues, Forall2 (Rw v) dues cs -> fresh (cov s) -> Lo (cov s') ->
  exists ls advs, before s' = before s ++ marks (concat advs) /\ Outs v cs cs' ls dues advs.
Definition PI (ss : list node) (s : st) (ss' : list node) (s' : st) : Prop :=
  forall due, RawL due ss -> fresh (cov s) -> Lo (cov s') ->
  exists l, SL (flat_map sites ss) l /\ AccL l due [] ss'.
Definition PW (v : vis) (b : N) (x : node) (s : st) (x' : node) (s' : st) : Prop :=
  exact x = true -> is_instr v = false \/ noisy x = false -> fresh (cov s) -> Lo (cov s') ->
  exists l d, SL (sites x) l /\ Acc l d [] x' /\ Forall (arm_counter (range_of e (nspan x))) d.
Definition PA (b : N) (r : range) (cur : option ignore_scope) (x : node) (s : st) (x' : node) (s' : st) : Prop :=
  exact x = true -> fresh (cov s) -> Lo (cov s') ->
  exists l d, SL (sites x) l /\ Acc l d [] x' /\ Forall (arm_counter r) d /\ (is_none x' = true -> d = []).
Definition PM (xs : list node) (s : st) (xs' : list node) (s' : st) : Prop :=
  forallb item xs = true -> forallb exact xs = true -> before s = [] -> fresh (cov s) -> Lo (cov s') ->
  exists l, SL (flat_map sites xs) l /\ AccL l [] [] xs'.

Lemma vis_facts : forall v t s t' s', Vis e v t s t' s' -> grows (cov s) (cov s') /\ QV v t s s'.
Proof. intros. split; [eapply (proj1 (grows_all e)); eauto|eapply (proj1 (quiet_all e)); eauto]. Qed.
Lemma kids_facts : forall v t s t' s', Kids e v t s t' s' -> grows (cov s) (cov s') /\ QK v t s s'.
Proof. intros. split; [eapply (proj1 (proj2 (grows_all e))); eauto|eapply (proj1 (proj2 (quiet_all e))); eauto]. Qed.
Lemma ins_facts : forall t s t' s', Ins e t s t' s' -> grows (cov s) (cov s') /\ before s' = before s.
Proof.
  intros. split; [eapply (proj1 (proj2 (proj2 (grows_all e)))); eauto|eapply (proj1 (proj2 (proj2 (quiet_all e)))); eauto].
Qed.
Lemma wrap_facts : forall v b t s t' s', Wrap e v b t s t' s' -> grows (cov s) (cov s') /\ QV v t s s'.
Proof.
  intros. split; [eapply (proj1 (proj2 (proj2 (proj2 (grows_all e))))); eauto|
    eapply (proj1 (proj2 (proj2 (proj2 (quiet_all e))))); eauto].
Qed.
Lemma arm_facts : forall b r cur t s t' s', Arm e b r cur t s t' s' -> grows (cov s) (cov s') /\ before s' = before s.
Proof.
  intros. split; [eapply (proj1 (proj2 (proj2 (proj2 (proj2 (grows_all e)))))); eauto|
    eapply (proj1 (proj2 (proj2 (proj2 (proj2 (quiet_all e)))))); eauto].
Qed.
Lemma items_facts : forall t s t' s', Items e t s t' s' -> grows (cov s) (cov s').
Proof. intros. eapply (proj1 (proj2 (proj2 (proj2 (proj2 (proj2 (grows_all e))))))); eauto. Qed.
Lemma sitems_facts : forall t s t' s', SItems e t s t' s' -> grows (cov s) (cov s').
Proof. intros. eapply (proj2 (proj2 (proj2 (proj2 (proj2 (proj2 (grows_all e))))))); eauto. Qed.
Lemma enter_facts : forall n sp s s1 old cur, on_enter e n sp s = (s1, old, cur) -> grows (cov s) (cov s1) /\ before s1 = before s.
Proof. intros n sp s s1 old cur H. split; [apply enter_cov in H; rewrite H; apply grows_refl|]. apply on_enter_facts in H. tauto. Qed.
Lemma enter_span_facts : forall sp s s1 old cur, on_enter_with_span e sp s = (s1, old, cur) ->
  grows (cov s) (cov s1) /\ before s1 = before s.
Proof. intros sp s s1 old cur H. split; [apply enter_span_cov in H; rewrite H; apply grows_refl|]. apply on_enter_with_span_facts in H. tauto. Qed.

Ltac red_st := cbn [cov before on_exit pop push set_ign set_cov spawn clear_before] in *.
Ltac facts := red_st;
  repeat match goal with
  | H : on_enter e _ _ _ = (_, _, _) |- _ => let C := fresh "Cv" in let B := fresh "Bf" in apply enter_facts in H as [C B]
  | H : on_enter_with_span e _ _ = (_, _, _) |- _ => let C := fresh "Cv" in let B := fresh "Bf" in apply enter_span_facts in H as [C B]
  | H : Vis e _ _ _ _ _ |- _ => let G := fresh "Gr" in let Q := fresh "Qu" in apply vis_facts in H as [G Q]
  | H : Kids e _ _ _ _ _ |- _ => let G := fresh "Gr" in let Q := fresh "Qu" in apply kids_facts in H as [G Q]
  | H : Ins e _ _ _ _ |- _ => let G := fresh "Gr" in let Q := fresh "Bf" in apply ins_facts in H as [G Q]
  | H : Wrap e _ _ _ _ _ _ |- _ => let G := fresh "Gr" in let Q := fresh "Qu" in apply wrap_facts in H as [G Q]
  | H : Arm e _ _ _ _ _ _ _ |- _ => let G := fresh "Gr" in let Q := fresh "Bf" in apply arm_facts in H as [G Q]
  | H : Items e _ _ _ _ |- _ => apply items_facts in H
  | H : SItems e _ _ _ _ |- _ => apply sitems_facts in H
  end; red_st.
Ltac sat := repeat match goal with
  | G : grows ?a ?b, Fa : fresh ?a |- _ => lazymatch goal with _ : fresh b |- _ => fail | _ => pose proof (proj1 (G Fa)) end
  end;
  repeat match goal with
  | G : grows ?a ?b, Fa : fresh ?a, L : Lo ?b |- _ => lazymatch goal with _ : Lo a |- _ => fail | _ => pose proof (Lo_back a b G Fa L) end
  end.

Lemma exact_kids : forall v cs, forallb exact cs = true -> exists dues, Forall2 (Rw v) dues cs /\ Forall (eq []) dues.
Proof.
  intros v cs. induction cs as [|c cs IH]; intros H; [exists []; split; constructor|].
  cbn [forallb] in H. bools. destruct IH as (dues & D1 & D2); [assumption|]. exists ([] :: dues). split; constructor; auto.
  now apply Rw_exact.
Qed.

(** Nodes that are visited by walking over the children *)
Lemma walk_exact : forall v k sp cs s cs' s', exact (Node k sp cs) = true -> PK v cs s cs' s' ->
  is_instr v = false \/ (forall j, free k j = passes k j) -> fresh (cov s) -> Lo (cov s') ->
  exists l adv, before s' = before s ++ marks adv /\ SL (sites (Node k sp cs)) l /\ Acc l [] (css adv) (Node k sp cs').
Proof.
  intros v k sp cs s cs' s' Hx IH Hk Hfr HL. apply exact_inv in Hx as (Hf & Hq & Hx).
  destruct (exact_kids v cs Hx) as (dues & D1 & D2). destruct (IH dues D1 Hfr HL) as (ls & advs & B & O).
  destruct (node_same _ k sp _ _ _ _ _ Hf O D2) as (l & S1 & A1).
  - apply (outs_advs _ k _ _ _ _ _ 0%nat O). destruct Hk; [now left|right; auto].
  - exists l, (concat advs). auto.
Qed.
(** Nodes on the way to a counter *)
Lemma walk_raw : forall v k sp cs s cs' s' due, Raw due (Node k sp cs) -> is_instr v = true -> PK v cs s cs' s' ->
  (forall j, free k j = passes k j) -> k <> KStmts -> fresh (cov s) -> Lo (cov s') ->
  exists l adv, before s' = before s ++ marks adv /\ SL (sites (Node k sp cs)) l /\ Acc l due (css adv) (Node k sp cs').
Proof.
  intros v k sp cs s cs' s' due HR Hv IH Hk Hs Hfr HL.
  assert (RW : forall d t, Raw d t -> Rw v d t) by (intros; unfold Rw; now rewrite Hv).
  inversion HR; subst.
  - eapply walk_exact; eauto.
  - destruct (IH [] (Forall2_nil _) Hfr HL) as (ls & advs & B & O). outs.
    exists [], []. split; [exact B|]. split; [sl|].
    replace [c] with (if seen c then [c] else []) by (match goal with H : seen c = true |- _ => now rewrite H end). apply A_counter.
  - destruct (IH [due]) as (ls & advs & B & O); auto. outs. exists l, adv. cbn [concat] in B. rewrite app_nil_r in B.
    split; [exact B|]. split; [destruct k; try discriminate; sl|].
    apply A_layer; [destruct k; try discriminate; reflexivity| |exact HA]. kind_eq. now apply nonlist_or.
  - destruct (IH [due; []]) as (ls & advs & B & O); auto. { constructor; auto. constructor; auto. apply RW. now apply R_good. }
    outs. rewrite HQ in * by now right. rewrite HQ0 in * by now right. exists (l ++ l0), []. split; [exact B|]. split; [sl|].
    now apply A_injseq.
  - congruence.
  - destruct (IH [[]; []; [CF i]; []]) as (ls & advs & B & O); auto.
    { repeat (apply Forall2_cons; [apply RW; auto; now apply R_good|]). constructor. }
    match goal with H : existsb noisy _ = false |- _ => cbn [existsb] in H; rewrite !orb_false_iff in H; destruct H as (N1 & N2 & N3 & N4 & _) end.
    outs. rewrite HQ in * by now right. rewrite HQ0 in * by now right. rewrite HQ1 in * by now right. rewrite HQ2 in * by now right.
    exists (here sp (EFn sp) [CF i] ++ l ++ l0 ++ l1 ++ l2), []. split; [exact B|]. split.
    + cbn [sites own_sites flat_map]. rewrite app_nil_r. apply SL_app; [|sl].
      apply SL_here. apply Forall_cons; [|apply Forall_nil]. split; [reflexivity|assumption].
    + apply A_fn; auto; [now apply spot_lit|now kind_eq].
Qed.
Lemma walk : forall v k sp cs s cs' s' due, Rw v due (Node k sp cs) -> PK v cs s cs' s' ->
  is_instr v = false \/ ((forall j, free k j = passes k j) /\ k <> KStmts) -> fresh (cov s) -> Lo (cov s') ->
  exists l adv, before s' = before s ++ marks adv /\ SL (sites (Node k sp cs)) l /\ Acc l due (css adv) (Node k sp cs').
Proof.
  intros v k sp cs s cs' s' due HR IH Hk Hfr HL. unfold Rw in HR. destruct (is_instr v) eqn:Hv.
  - destruct Hk as [Hk|[Hk Hs]]; [discriminate|]. eapply walk_raw; eauto.
  - destruct HR as [-> Hx]. eapply walk_exact; eauto.
Qed.
(** Nodes not on the way *)
Lemma Rw_good : forall v due k sp cs, Rw v due (Node k sp cs) ->
  match k with KExpr | KInjParen | KBlock _ | KInjSeq | KCounter _ | KStmts | KFunction => False | _ => True end ->
  due = [] /\ exact (Node k sp cs) = true.
Proof.
  intros v due k sp cs H Hk. unfold Rw in H. destruct (is_instr v); [|assumption].
  inversion H; subst; try contradiction; [auto|]. destruct k; try discriminate; contradiction.
Qed.
Ltac ihs := repeat match goal with
  | H : PV _ _ _ _ _ |- _ => let I := fresh "IHV" in rename H into I; unfold PV in I
  | H : PK _ _ _ _ _ |- _ => let I := fresh "IHK" in rename H into I; unfold PK in I
  | H : PI _ _ _ _ |- _ => let I := fresh "IHI" in rename H into I; unfold PI in I
  | H : PW _ _ _ _ _ _ |- _ => let I := fresh "IHW" in rename H into I; unfold PW in I
  | H : PA _ _ _ _ _ _ _ |- _ => let I := fresh "IHA" in rename H into I; unfold PA in I
  | H : PM _ _ _ _ |- _ => let I := fresh "IHM" in rename H into I; unfold PM in I
  end.
Ltac fp := intros j; unfold free; cbn [passes bpos]; now rewrite ?orb_false_r.
Ltac good := match goal with
  | H : Rw _ ?due (Node ?k ?sp ?cs) |- _ =>
      let X := fresh "Hx" in apply Rw_good in H as [-> X]; [|first [exact I|destruct k; try discriminate; exact I]]
  end.

Lemma stmt_acc : forall k sp cs cs' L i, stmt_arity k (length cs') = true -> spot sp = true ->
  F (CS i) = Some (range_of e sp) -> AccK L cs' -> SL (flat_map sites cs) L ->
  exists l, SL (sites (Node k sp cs)) l /\ Acc l [] (css [i]) (Node k sp cs').
Proof.
  intros k sp cs cs' L i Hk Hsp HF HA HS. exists (here sp (EStmt sp) (css [i]) ++ L). split.
  - replace (sites (Node k sp cs)) with (posed sp [(EStmt sp, sp)] ++ flat_map sites cs)
      by (destruct k; try discriminate; reflexivity).
    apply SL_app; [|exact HS]. apply SL_here. apply Forall_cons; [|apply Forall_nil]. split; [reflexivity|exact HF].
  - apply A_stmt; auto. now apply spot_lit.
Qed.
Lemma quiet_list : forall k i cs, kids_quiet k i cs = true -> (forall j, free k j = false) -> existsb noisy cs = false.
Proof.
  intros k i cs. revert i. induction cs as [|c cs IH]; intros i H Hf; [reflexivity|].
  cbn [kids_quiet] in H. rewrite Hf in H. bools. cbn [existsb]. rewrite (IH (S i)) by assumption.
  match goal with H : false || negb _ = true |- _ => apply negb_true_iff in H; now rewrite H end.
Qed.
Lemma marks_nil : forall (b : list node) adv, b = b ++ marks adv -> adv = [].
Proof.
  intros b adv H. rewrite <- (app_nil_r b) in H at 1. apply app_inv_head in H. destruct adv; [reflexivity|discriminate].
Qed.
Lemma stmts_raw : forall v due sp ss, is_instr v = true -> Rw v due (Node KStmts sp ss) -> RawL due ss.
Proof.
  intros v due sp ss Hv H. unfold Rw in H. rewrite Hv in H. inversion H; subst.
  - left. match goal with H : exact _ = true |- _ => apply exact_inv in H as (? & _ & ?) end. auto.
  - discriminate.
  - right. exists i, ss0. auto.
Qed.
Lemma block_last_facts : forall cs cs1, block_last cs = Some cs1 -> forallb exact cs = true ->
  forallb exact cs1 = true /\ flat_map sites cs1 = flat_map sites cs /\ length cs1 = length cs /\
  forall i n k, (forall j, free k j = Nat.eqb j n) -> S n = (i + length cs)%nat -> kids_quiet k i cs = true -> existsb noisy cs1 = false.
Proof.
  induction cs as [|c cs IH]; intros cs1 H Hx; [discriminate|]. cbn [forallb] in Hx. bools.
  destruct cs as [|c2 cs].
  - cbn [block_last] in H. unfold to_block in H. destruct (stmt_view c) as [[sp x]|] eqn:Hv; [|discriminate].
    apply stmt_view_inv in Hv. subst c. destruct (is_block x) eqn:Hb; inversion H; subst.
    + repeat split; auto.
      * cbn [forallb]. now rewrite andb_true_r.
      * intros _ _ _ _ _ _. match goal with H : exact (Node KStmt _ _) = true |- _ => apply exact_inv in H as (_ & _ & H) end.
        cbn [forallb] in *. bools. destruct x as [k xsp cs]. unfold is_block in Hb. cbn [nkind] in Hb. destruct k; try discriminate.
        match goal with H : exact (Node (KBlock _) _ _) = true |- _ => apply exact_inv in H as (Hf & _) end.
        cbn [form] in Hf. destruct cs as [|d [|]]; try discriminate. destruct d as [kd dsp ds].
        unfold is_stmts in Hf. cbn [nkind] in Hf. destruct kd; try discriminate. reflexivity.
    + repeat split.
      * unfold mk. cbn [forallb andb]. rewrite andb_true_r.
        cbn [exact form kids_quiet free passes bpos forallb is_stmts nkind nonlist is_list negb Nat.eqb orb andb item noisy existsb].
        rewrite !andb_true_r. match goal with H : exact (Node KStmt _ _) = true |- _ => apply exact_inv in H as (Hf & _ & Hxs) end.
        cbn [forallb] in Hxs. rewrite andb_true_r in Hxs. now apply andb_true_iff.
      * cbn [flat_map sites own_sites mk]. unfold mk. cbn [flat_map sites own_sites]. rewrite !posed_nil. cbn [app]. now rewrite !app_nil_r.
  - change (block_last (c :: c2 :: cs)) with (option_map (cons c) (block_last (c2 :: cs))) in H.
    destruct (block_last (c2 :: cs)) as [l|] eqn:Hl; [|discriminate]. inversion H; subst. clear H.
    destruct (IH l eq_refl) as (H5 & H2 & H3 & H4); [assumption|]. repeat split.
    + cbn [forallb]. now apply andb_true_iff.
    + cbn [flat_map] in *. now rewrite H2.
    + cbn [length] in *. now rewrite H3.
    + intros i n k Hf Hn Hq. cbn [kids_quiet] in Hq. apply andb_true_iff in Hq as [Hq1 Hq2]. cbn [existsb].
      rewrite Hf in Hq1. replace (Nat.eqb i n) with false in Hq1
        by (symmetry; apply Nat.eqb_neq; cbn [length] in Hn; lia). cbn [orb] in Hq1. apply negb_true_iff in Hq1. rewrite Hq1.
      apply (H4 (S i) n k); auto. cbn [length] in *. lia.
Qed.
Ltac qsplit := repeat match goal with
  | H : kids_quiet _ _ (_ :: _) = true |- _ =>
      cbn [kids_quiet free passes bpos orb Nat.eqb] in H
  | H : forallb exact (_ :: _) = true |- _ => cbn [forallb] in H
  | H : _ && _ = true |- _ => apply andb_true_iff in H as [? ?]
  | H : negb _ = true |- _ => apply negb_true_iff in H
  end.
Ltac exk := match goal with
  | H : exact (Node _ _ _) = true |- _ =>
     let A := fresh "Hf" in let B := fresh "Hq" in let C := fresh "Hxs" in apply exact_inv in H as (A & B & C)
  end.
Ltac quiet := repeat match goal with
  | Q : is_instr _ = false \/ noisy ?t = false -> ?a = [], N : noisy ?t = false |- _ =>
      rewrite (Q (or_intror N)) in *; clear Q
  end.

Lemma L_entry : forall l l2 adv t ss, Acc l [] (css adv) t -> is_list t = false -> AccL l2 [] [] ss ->
  AccL (l ++ l2) [] [] ((marks adv ++ [t]) ++ ss).
Proof. intros. rewrite <- app_assoc. apply L_advs. cbn [app]. apply L_item; auto. Qed.
Lemma export_acc : forall l adv esp cs X i, Acc l [] adv (Node KExportDecl esp cs) -> spot esp = true ->
  SL (posed esp [(EStmt esp, esp)] ++ X) l -> right_counter (EStmt esp) esp (CS i) ->
  exists l', SL (posed esp [(EStmt esp, esp)] ++ X) l' /\ Acc l' [] (CS i :: adv) (Node KExportDecl esp cs).
Proof.
  intros l adv esp cs X i HA Hsp HS HR.
  assert (Hn : nowhere esp = false) by (unfold spot in Hsp; now apply negb_true_iff).
  inversion HA; subst; try discriminate. unfold here in HS. unfold posed in HS |- *. rewrite Hn in *.
  inversion HS as [|? ? ? ? [_ S1] S2]; subst. cbn [fst snd] in S1.
  exists (here esp (EStmt esp) (CS i :: adv0) ++ l0). split.
  - unfold here. rewrite Hn. constructor; [|exact S2]. split; [reflexivity|]. now constructor.
  - change (CS i :: adv0 ++ adv1) with ((CS i :: adv0) ++ adv1). apply A_export; auto. now apply spot_lit.
Qed.
Lemma export_const_inv : forall t esp, export_const_span t = Some esp ->
  exists sp d, t = Node KModuleDecl sp [Node KExportDecl esp [d]].
Proof.
  intros [k sp cs] esp H. destruct k; try discriminate. destruct cs as [|[k2 sp2 cs2] [|]]; try discriminate.
  - destruct k2; try discriminate. destruct cs2 as [|d [|]]; try discriminate.
    cbn in H. destruct (nkind d); try discriminate. destruct vk; try discriminate. inversion H; subst. eauto.
  - cbn in H. destruct k2; try discriminate. destruct cs2 as [|? [|]]; discriminate.
Qed.
Lemma exact_not_injected : forall x, exact x = true -> is_injected_counter_stmt x = true -> False.
Proof.
  intros [k sp cs] Hx H. unfold is_injected_counter_stmt, expr_stmt_view in H.
  destruct k; try discriminate. destruct cs as [|[k2 sp2 cs2] [|]]; try discriminate.
  cbn [stmt_view] in H. destruct k2; try discriminate. destruct cs2 as [|[k3 sp3 cs3] [|]]; try discriminate.
  unfold is_injected_counter_expr in H. cbn in H.
  destruct k3; try discriminate. destruct cs3 as [|[k4 sp4 cs4] [|]]; try discriminate. cbn in H.
  destruct k4; try discriminate. cbn in Hx. rewrite ?andb_false_r in Hx. cbn in Hx. rewrite ?andb_false_r in Hx. discriminate.
Qed.

Theorem account_all :
  (forall v t s t' s', Vis e v t s t' s' -> PV v t s t' s') /\
  (forall v cs s cs' s', Kids e v cs s cs' s' -> PK v cs s cs' s') /\
  (forall ss s ss' s', Ins e ss s ss' s' -> PI ss s ss' s') /\
  (forall v b x s x' s', Wrap e v b x s x' s' -> PW v b x s x' s') /\
  (forall b r cur x s x' s', Arm e b r cur x s x' s' -> PA b r cur x s x' s') /\
  (forall xs s xs' s', Items e xs s xs' s' -> PM xs s xs' s') /\
  (forall xs s xs' s', SItems e xs s xs' s' -> PM xs s xs' s').
Proof.
  apply Vis_all_ind; intros; unfold PV, PK, PI, PW, PA, PM; intros; ihs; facts.
  - (* V_plain *) destruct (walk v k sp cs s cs' s' due) as (l & adv & B & S1 & A1); auto.
    { destruct (is_instr v) eqn:Hv; [right|now left]. unfold plain in H. rewrite Hv in H. destruct k; try discriminate H; split; try discriminate; fp. }
    exists l, adv. auto.
  - (* V_ts *) good. destruct (zero_exact _ Hx) as (l & S1 & A1). exists l, []. cbn [marks map]. rewrite app_nil_r. auto.
  - (* V_logical_expr *) sat. destruct (walk (VLogical b) KExpr sp cs s1 cs' s2 due) as (l & adv & B & S1 & A1); auto.
    exists l, adv. rewrite B, Bf. auto.
  - (* V_keep *) rename H2 into HR.
    assert (Z : exists l, SL (sites (Node k sp cs)) l /\ Acc l due [] (Node k sp cs)).
    { unfold Rw in HR. rewrite H in HR. now apply zero_raw. }
    destruct Z as (l & S1 & A1). exists l, []. rewrite Bf. cbn [marks map]. rewrite app_nil_r. auto.
  - (* V_enter *) sat. destruct (walk v k sp cs s1 cs' s2 due) as (l & adv & B & S1 & A1); auto.
    { right. destruct k; try discriminate; split; try discriminate; fp. }
    exists l, adv. rewrite B, Bf. auto.
  - (* V_marked *) good. exk. pose proof (mark_grows e sp s1) as Gm. sat.
    destruct (mark_spec sp s1) as (i & Bm & Fm). specialize (Fm ltac:(assumption) ltac:(assumption)).
    destruct (exact_kids v cs Hxs) as (dues & D1 & D2). destruct (IHK dues D1) as (ls & advs & B & O); auto.
    destruct k; try discriminate; cbn [form] in Hf; bools;
      try (destruct (outs_quiet _ _ _ _ _ _ O D2) as (K1 & K2 & K3); [eapply quiet_list; [eassumption|reflexivity]|];
           match goal with |- context [Node ?k sp cs] => destruct (stmt_acc k sp cs cs' (concat ls) i) as (l & S1 & A1) end; auto;
           [now rewrite (outs_length _ _ _ _ _ _ O)|];
           exists l, [i]; rewrite B, K3, Bm, Bf; cbn [marks map]; rewrite app_nil_r; auto).
    (* KLabeled *) kids2 cs Hf. bools. outs. qsplit. quiet.
    exists (here sp (EStmt sp) (css [i]) ++ l ++ l0), ([i] ++ adv0).
    cbn [concat app] in B. rewrite app_nil_r in B. rewrite B, Bm, Bf, marks_app, app_assoc. split; [reflexivity|]. split; [|split].
    + cbn [sites own_sites flat_map]. rewrite app_nil_r. apply SL_app; [|sl].
      apply SL_here. apply Forall_cons; [|apply Forall_nil]. now split.
    + rewrite css_app. apply A_labeled; auto.
      * unfold label_of in *. rewrite HK. destruct (nkind n0); discriminate.
      * now apply spot_lit.
      * kind_eq. now apply nonlist_or.
    + auto.
  - (* V_stmts *) apply stmts_raw in H2; auto. destruct (IHI due) as (l & S1 & A1); auto.
    exists l, []. rewrite Bf. cbn [marks map]. rewrite app_nil_r. split; [reflexivity|]. split; [sl|]. split; [|auto].
    now apply A_stmts.
  - (* V_fn *) good. exk. qsplit.
    pose proof (create_fn_grows e _ _ _ _ _ H3) as Gc. sat.
    destruct (create_fn_noisy e _ _ _ _ _ H3) as [Nn Nb].
    destruct (create_fn_raw _ _ _ _ _ H3) as (R & RS & RK & RP); auto.
    assert (RW : forall d t, Raw d t -> Rw v d t) by (intros; unfold Rw; now rewrite H).
    destruct (IHK [[]; []]) as (ls & advs & B & O); auto.
    { apply Forall2_cons; [now apply Rw_exact|]. apply Forall2_cons; [now apply RW|constructor]. }
    assert (Nk : noisy key = false /\ noisy fn' = false) by (rewrite Nn; destruct k; try discriminate; cbn [free passes bpos orb Nat.eqb] in *; qsplit; auto).
    destruct Nk as [Nk Nf]. outs. quiet. cbn [concat app] in B. exists (l ++ l0), []. rewrite B, Nb, Bf. split; [reflexivity|]. split; [|split].
    + replace (sites (Node k sp [key; fn])) with (sites key ++ sites fn') by (rewrite RS; destruct k; try discriminate; cbn [sites own_sites flat_map]; now rewrite posed_nil, app_nil_r).
      now apply SL_app.
    + apply A_still; [destruct k; try discriminate; reflexivity|]. rewrite <- (app_nil_r l0). repeat (apply AK_cons; auto). constructor.
    + auto.
  - (* V_accessor *) good. exk.
    pose proof (accessor_grows e _ _ _ _ _ _ H3) as Gc. sat.
    destruct (accessor_noisy e _ _ _ _ _ _ H3) as [Nn Nb].
    rewrite forallb_app in Hxs. apply andb_true_iff in Hxs as [Hxp Hxb]. cbn [forallb] in Hxb. rewrite andb_true_r in Hxb.
    destruct (accessor_raw _ _ _ _ _ _ sp H3) as (d & R & RR & RS & RK); auto.
    destruct (exact_kids v pre Hxp) as (dues & D1 & D2).
    destruct (IHK (dues ++ [d])) as (ls & advs & B & O); auto.
    { apply Forall2_app; [assumption|]. apply Forall2_cons; [|constructor]. unfold Rw. now rewrite H. }
    destruct k; try discriminate; cbn [form] in Hf.
    + destruct pre as [|p1 [|p2 [|p3 pre]]]; try discriminate Hf; [|destruct pre; discriminate Hf]. cbn [app] in *.
      inversion D1 as [|? ? ? ? _ D3]; subst. inversion D3 as [|? ? ? ? _ D4]; subst. inversion D4; subst.
      inversion D2 as [|? ? <- D5]; subst. inversion D5 as [|? ? <- _]; subst. cbn [app] in O.
      qsplit. rewrite <- Nn in *. outs. quiet. cbn [concat app] in B.
      exists (here sp (EFn sp) due ++ l ++ l0 ++ l1), []. rewrite B, Nb, Bf. split; [reflexivity|]. split; [|split].
      * cbn [sites own_sites flat_map]. rewrite app_nil_r, <- RS. apply SL_app; [now apply SL_here|sl].
      * apply A_getter; auto; [now apply spot_lit|]. kind_eq. unfold is_expr in *. now rewrite RK.
      * auto.
    + destruct pre as [|p1 [|p2 [|p3 [|p4 pre]]]]; try discriminate Hf; [|destruct pre; discriminate Hf]. cbn [app] in *.
      inversion D1 as [|? ? ? ? _ D3]; subst. inversion D3 as [|? ? ? ? _ D4]; subst. inversion D4 as [|? ? ? ? _ D6]; subst. inversion D6; subst.
      inversion D2 as [|? ? <- D5]; subst. inversion D5 as [|? ? <- D7]; subst. inversion D7 as [|? ? <- _]; subst. cbn [app] in O.
      qsplit. rewrite <- Nn in *. outs. quiet. cbn [concat app] in B.
      exists (here sp (EFn sp) due ++ l ++ l0 ++ l1 ++ l2), []. rewrite B, Nb, Bf. split; [reflexivity|]. split; [|split].
      * cbn [sites own_sites flat_map]. rewrite app_nil_r, <- RS. apply SL_app; [now apply SL_here|sl].
      * apply A_setter; auto; [now apply spot_lit|]. kind_eq. unfold is_expr in *. now rewrite RK.
      * auto.
  - (* V_arrow_block *) good. exk. cbn [form] in Hf. qsplit.
    destruct (new_function_grows _ _ _ _ _ _ H2) as [Gn Ln]. sat.
    match goal with H : exact (Node (KBlock _) _ _) = true |- _ => apply exact_block in H as [Hi Hs] end.
    destruct (IHI []) as (lb & S1 & A1); auto. { now left. }
    destruct (zero_exact params) as (lp & Sp & Ap); auto. destruct (zero_exact types) as (lt & St & At); auto.
    exists (here sp (EFn sp) [CF index] ++ lp ++ [] ++ lb ++ lt), []. rewrite Bf0, Bf. cbn [marks map]. rewrite app_nil_r.
    split; [reflexivity|]. split; [|split; [|auto]].
    + cbn [sites own_sites flat_map is_expr nkind nspan]. rewrite !posed_nil. cbn [app]. rewrite !app_nil_r.
      apply SL_app; [|sl]. apply SL_here. apply Forall_cons; [|apply Forall_nil]. split; [reflexivity|]. auto.
    + apply (A_arrow sp params (Node (KBlock bi) bsp [Node KStmts ssp (counter_stmt (CF index) :: ss')]) types); auto.
      * now apply spot_lit.
      * discriminate.
      * apply A_layer; auto. apply A_stmts; [reflexivity|]. now apply L_due.
  - (* V_arrow_expr *) good. exk. cbn [form is_expr nkind nspan negb orb] in Hf. qsplit.
    destruct (new_function_grows _ _ _ _ _ _ H2) as [Gn Ln]. sat.
    set (x := Node KExpr esp xs) in *.
    assert (Hr : exact (Node KStmt esp [Node KReturn esp [x]]) = true).
    { cbn [exact form kids_quiet free passes bpos forallb stmt_arity length nonlist is_list nkind negb Nat.eqb orb andb].
      repeat match goal with H : noisy x = false |- _ => rewrite H; clear H | H : spot esp = true |- _ => rewrite H; clear H end.
      cbn [negb andb]. rewrite !andb_true_r. assumption. }
    destruct (IHI [CF index]) as (lb & S1 & A1); auto.
    { right. exists index, [Node KStmt esp [Node KReturn esp [x]]]. cbn [forallb item nkind]. rewrite Hr. auto. }
    destruct (zero_exact params) as (lp & Sp & Ap); auto. destruct (zero_exact types) as (lt & St & At); auto.
    exists (here sp (EFn sp) [CF index] ++ lp ++ [] ++ lb ++ lt), []. rewrite Bf0, Bf. cbn [marks map]. rewrite app_nil_r.
    split; [reflexivity|]. split; [|split; [|auto]].
    + replace (sites (Node KArrow sp [params; x; types])) with
        (posed sp [(EFn sp, esp)] ++ sites params ++ (posed esp [(EStmt esp, esp)] ++ sites x) ++ sites types)
        by (cbn [sites own_sites]; subst x; cbn [is_expr nkind nspan]; now rewrite <- !app_assoc).
      apply SL_app; [|apply SL_app; [assumption|cbn [app]; apply SL_app; [|assumption]]].
      * apply SL_here. apply Forall_cons; [|apply Forall_nil]. split; [reflexivity|]. auto.
      * change (flat_map sites [counter_stmt (CF index); Node KStmt esp [Node KReturn esp [x]]]) with
          ([] ++ (posed esp [] ++ (posed esp [(EStmt esp, esp)] ++ sites x ++ []) ++ []) ++ []) in S1.
        rewrite posed_nil, !app_nil_r in S1. exact S1.
    + unfold mk. apply (A_arrow sp params (Node (KBlock true) dummy_span [Node KStmts dummy_span ss']) types); auto.
      * now apply spot_lit.
      * discriminate.
      * apply A_layer; auto. apply A_stmts; [reflexivity|assumption].
  - (* V_init *) good. exk. destruct H6 as [He Ha]. pose proof (covered_grows e _ _ _ _ H3) as Gc. sat.
    destruct (exact_kids v rest) as (dues & D1 & D2). { cbn [forallb] in Hxs. now bools. }
    assert (N : noisy name = false /\ noisy value = false /\ existsb noisy rest = false).
    { assert (Q : existsb noisy (name :: value :: rest) = false) by (eapply quiet_list; [eassumption|destruct k; try discriminate; reflexivity]).
      cbn [existsb] in Q. rewrite !orb_false_iff in Q. tauto. }
    destruct N as (N1 & N2 & N3). cbn [forallb] in Hxs. bools.
    destruct (covered_raw _ _ _ _ sp H3) as (adv0 & d & R & B1 & RR & RS & RK); auto.
    pose proof (covered_noisy e _ _ _ _ H3) as Nv. rewrite N2 in Nv.
    destruct (IHK ([] :: d :: dues)) as (ls & advs & B & O); auto.
    { apply Forall2_cons; [now apply Rw_exact|]. apply Forall2_cons; [|assumption]. unfold Rw. now rewrite H. }
    outs. quiet.
    match goal with O : Outs _ rest _ ?ls _ _ |- _ => destruct (outs_quiet _ _ _ _ _ _ O D2 N3) as (K1 & K2 & K3); set (lr := concat ls) in * end.
    cbn [concat app] in B. rewrite K3 in B. cbn [marks map] in B. rewrite app_nil_r in B.
    assert (Nn : is_none value = false) by (unfold is_none, is_expr in *; destruct (nkind value); try discriminate; reflexivity).
    destruct k; try discriminate; cbn [form] in Hf.
    + destruct rest; [|discriminate]. outs. rewrite Nn in Hf. cbn [orb] in Hf.
      exists (here sp (EInit sp) (css adv0 ++ due) ++ l ++ l0), adv0. rewrite B, B1, Bf. split; [reflexivity|]. split; [|split; [|auto]].
      * cbn [sites own_sites flat_map]. rewrite Nn, app_nil_r, <- RS. apply SL_app; [now apply SL_here|sl].
      * apply A_declarator; auto; [|now apply spot_lit]. unfold is_none in *. now rewrite HK0, RK.
    + bools. rewrite Ha in B1 by now apply negb_true_iff. apply marks_nil in B1 as ->.
      exists (here sp (EInit sp) due ++ l ++ l0 ++ lr), []. rewrite B, Ha, Bf by now apply negb_true_iff. cbn [marks map]. rewrite app_nil_r. split; [reflexivity|]. split; [|split; [|auto]].
      * cbn [sites own_sites flat_map]. rewrite <- RS. apply SL_app; [now apply SL_here|sl].
      * apply A_field; auto. now apply spot_lit.
    + bools. rewrite Ha in B1 by now apply negb_true_iff. apply marks_nil in B1 as ->.
      exists (here sp (EInit sp) due ++ l ++ l0 ++ lr), []. rewrite B, Ha, Bf by now apply negb_true_iff. cbn [marks map]. rewrite app_nil_r. split; [reflexivity|]. split; [|split; [|auto]].
      * cbn [sites own_sites flat_map]. rewrite <- RS. apply SL_app; [now apply SL_here|sl].
      * apply A_field; auto. now apply spot_lit.
  - (* V_init_tagged *) good. exfalso. exk. cbn [forallb] in Hxs. bools.
    match goal with H : exact (Node KExpr vsp _) = true |- _ => apply exact_inv in H as (_ & _ & X) end.
    cbn [forallb] in X. bools. destruct tpl as [kt spt cst]. cbn [nkind] in *. subst. discriminate.
  - (* V_loop *) good. exk. pose proof (mark_grows e sp s1) as Gm. sat.
    destruct (mark_spec sp s1) as (i & Bm & Fm). specialize (Fm ltac:(assumption) ltac:(assumption)).
    destruct (block_last_facts _ _ H3 Hxs) as (X1 & X2 & X3 & X4).
    assert (Ar : stmt_arity k (length cs) = true /\ spot sp = true).
    { destruct k; try discriminate; cbn [form] in Hf; now bools. }
    destruct Ar as [Ar Hsp].
    assert (Q : existsb noisy cs1 = false).
    { destruct k; try discriminate; cbn [stmt_arity] in Ar; apply Nat.eqb_eq in Ar; (match goal with H : kids_quiet ?k 0 cs = true |- _ => apply (X4 0%nat (length cs - 1)%nat k) end; [intros j; unfold free; cbn [passes bpos orb]; now rewrite Ar, orb_false_r|lia|assumption]). }
    destruct (exact_kids v cs1 X1) as (dues & D1 & D2). destruct (IHK dues D1) as (ls & advs & B & O); auto.
    destruct (outs_quiet _ _ _ _ _ _ O D2 Q) as (K1 & K2 & K3).
    destruct (stmt_acc k sp cs cs' (concat ls) i) as (l & S1 & A1); auto.
    { now rewrite (outs_length _ _ _ _ _ _ O), X3. } { now rewrite <- X2. }
    exists l, [i]. rewrite B, K3, Bm, Bf. cbn [marks map]. rewrite app_nil_r. auto.
  - (* V_cond *) good. exk. cbn [form] in Hf. qsplit. pose proof (new_branch_grows _ _ _ _ _ _ H2) as Gn.
    pose proof (cond_arm_grows e _ _ _ _ _ H3) as G3. pose proof (cond_arm_grows e _ _ _ _ _ H4) as G4. red_st. sat.
    destruct (cond_arm_raw _ _ _ _ _ H3) as (d1 & R1 & F1 & S1); auto.
    destruct (cond_arm_raw _ _ _ _ _ H4) as (d2 & R2 & F2 & S2); auto.
    destruct (cond_arm_noisy e _ _ _ _ _ H3) as [N1 B1]. destruct (cond_arm_noisy e _ _ _ _ _ H4) as [N2 B2]. red_st.
    destruct (IHK [[]; d1; d2]) as (ls & advs & B & O); auto.
    { apply Forall2_cons; [now apply Rw_exact|]. do 2 (apply Forall2_cons; [unfold Rw; now rewrite H|]). constructor. }
    match goal with Q : noisy con = false, Q' : noisy alt = false |- _ => rewrite Q in N1; rewrite Q' in N2 end.
    outs. quiet. cbn [concat app] in B.
    exists (here sp (ECond sp false) due ++ here sp (ECond sp true) due0 ++ l ++ l0 ++ l1), [].
    rewrite B, B2, B1, Bf. split; [reflexivity|]. split; [|split; [|auto]].
    + cbn [sites own_sites flat_map]. rewrite app_nil_r, <- S1, <- S2, posed_cons, <- !app_assoc.
      apply SL_app; [|apply SL_app; [|sl]]; apply SL_here; now apply arms_right.
    + apply A_cond; auto; now apply spot_lit.
  - (* V_switch *) good. exk. pose proof (mark_grows e sp s1) as Gm. pose proof (new_branch_grows _ _ _ _ _ _ H2) as Gn. sat.
    destruct (mark_spec sp s1) as (i & Bm & Fm). specialize (Fm ltac:(assumption) ltac:(assumption)).
    cbn [form] in Hf. bools.
    destruct (exact_kids (VSwitch b) cs Hxs) as (dues & D1 & D2). destruct (IHK dues D1) as (ls & advs & B & O); auto.
    destruct (outs_quiet _ _ _ _ _ _ O D2) as (K1 & K2 & K3); [eapply quiet_list; [eassumption|reflexivity]|].
    destruct (stmt_acc KSwitch sp cs cs' (concat ls) i) as (l & S1 & A1); auto.
    { now rewrite (outs_length _ _ _ _ _ _ O). }
    exists l, [i]. rewrite Bm, Bf. auto.
  - (* V_case *) good. exk. cbn [form] in Hf. destruct (add_branch_path_grows _ _ _ _ _ H1) as [Gp Lp]. sat.
    destruct cs as [|ct [|cb [|? ?]]]; try discriminate Hf. qsplit.
    destruct (IHK [[]; []]) as (ls & advs & B & O); auto.
    { do 2 (apply Forall2_cons; [now apply Rw_exact|]). constructor. }
    inversion O as [|? ? l1 ? adv1 ? ? ? ? ? S1 A1 _ _ Q1 O2]; subst. inversion O2 as [|? ? l2 ? adv2 ? ? ? ? ? S2 A2 _ _ Q2 O3]; subst. inversion O3; subst.
    quiet. cbn [concat app] in B.
    assert (AL : AccL l2 [] [] ss') by (inversion A2; subst; try discriminate; assumption).
    exists (here sp (ECase sp) [CB b i] ++ l1 ++ l2), []. rewrite B, Bf. split; [reflexivity|]. split; [|split; [|auto]].
    + cbn [sites own_sites flat_map]. rewrite app_nil_r. apply SL_app; [|sl]. apply SL_here.
      apply Forall_cons; [|apply Forall_nil]. split; [reflexivity|]. auto.
    + apply A_case; auto; [now apply spot_lit|]. apply A_stmts; [reflexivity|]. now apply L_due.
  - (* V_if *) good. exk. cbn [form] in Hf. qsplit. pose proof (mark_grows e sp s1) as Gm.
    pose proof (new_branch_grows _ _ _ _ _ _ H2) as Gn. sat.
    destruct (mark_spec sp s1) as (i & Bm & Fm). specialize (Fm ltac:(assumption) ltac:(assumption)).
    destruct (IHA0) as (l2 & d1 & S2 & A2 & F2 & _); auto.
    destruct (IHA) as (l3 & d2 & S3 & A3 & F3 & N3); auto.
    destruct (IHV []) as (l1 & adv & B & S1 & A1 & K1 & P1); auto. { now apply Rw_exact. }
    rewrite Qu in B by now right. apply marks_nil in B as ->.
    exists (here sp (EStmt sp) (css [i]) ++ here sp (EArm sp false) d1 ++ here sp (EArm sp true) d2 ++ l1 ++ l2 ++ l3), [i].
    rewrite Qu, Bf0, Bf1 by now right. rewrite Bm, Bf. split; [reflexivity|]. split; [|split; [|auto]].
    + cbn [sites own_sites flat_map]. rewrite app_nil_r, !posed_cons, <- !app_assoc.
      apply SL_app; [apply SL_here; apply Forall_cons; [|apply Forall_nil]; now split|].
      apply SL_app; [|apply SL_app; [|sl]]; apply SL_here; now apply arms_right.
    + apply A_if; auto; now apply spot_lit.
  - (* V_with_block *) good. exk. cbn [form] in Hf. qsplit. pose proof (mark_grows e sp s1) as Gm. sat.
    destruct (mark_spec sp s1) as (i & Bm & Fm). specialize (Fm ltac:(assumption) ltac:(assumption)).
    match goal with H : exact (Node KStmt _ _) = true |- _ => apply exact_inv in H as (_ & _ & Hb) end.
    cbn [forallb] in Hb. bools. match goal with H : exact (Node (KBlock _) _ _) = true |- _ => apply exact_block in H as [Hi Hs] end.
    destruct (IHI []) as (lb & S1 & A1); auto. { now left. }
    destruct (zero_exact obj) as (lo & So & Ao); auto.
    destruct (stmt_acc KWith sp [obj; Node KStmt wsp [Node (KBlock bi) bsp [Node KStmts ssp ss]]]
      [obj; Node KStmt wsp [Node (KBlock bi) bsp [Node KStmts ssp ss']]] (lo ++ lb ++ []) i) as (l & S2 & A2); auto.
    + repeat (apply AK_cons; [try assumption|]); [|constructor]. do 2 (apply A_layer; auto). now apply A_stmts.
    + cbn [flat_map]. apply SL_app; [assumption|]. apply SL_app; [sl|apply SL_nil].
    + exists l, [i]. rewrite Bf0, Bm, Bf. auto.
  - (* V_with_stmt *) good. exk. cbn [form] in Hf. qsplit. pose proof (mark_grows e sp s1) as Gm. sat.
    destruct (mark_spec sp s1) as (i & Bm & Fm). specialize (Fm ltac:(assumption) ltac:(assumption)).
    destruct (IHV []) as (lb & adv & B & S1 & A1 & K1 & P1); auto. { now apply Rw_exact. }
    destruct (zero_exact obj) as (lo & So & Ao); auto. cbn [app] in B. rewrite B.
    destruct (stmt_acc KWith sp [obj; Node KStmt wsp [x]]
      [obj; mk KStmt [mk (KBlock true) [mk KStmts (marks adv ++ [body'])]]] (lo ++ lb ++ []) i) as (l & S2 & A2); auto.
    + repeat (apply AK_cons; [try assumption|]); [|constructor]. do 2 (apply A_layer; auto). apply A_stmts; [reflexivity|].
      apply L_advs. cbn [app]. rewrite <- (app_nil_r lb). apply L_item; [|assumption|apply L_nil].
      right. rewrite (is_list_kind _ _ K1). reflexivity.
    + cbn [flat_map]. apply SL_app; [assumption|]. apply SL_app; [assumption|apply SL_nil].
    + exists l, [i]. rewrite Bm, Bf. auto.
  - (* V_bin *) sat. destruct (walk v (KBin op) sp cs (push NBinExpr s1) cs' s2 due) as (l & adv & B & S1 & A1); auto.
    { right. split; [fp|discriminate]. }
    exists l, adv. rewrite B. red_st. rewrite Bf. auto.
  - (* V_logical_new *) good. exk. cbn [form] in Hf. rewrite H0 in Hf. qsplit.
    pose proof (logical_branch_grows e _ _ _ _ H3) as Gb. pose proof (logical_branch_before e _ _ _ _ H3) as Bb. red_st. sat.
    destruct IHW0 as (l1 & d1 & S1 & A1 & F1); auto. destruct IHW as (l2 & d2 & S2 & A2 & F2); auto.
    exists (here sp (EOper sp false) d1 ++ here sp (EOper sp true) d2 ++ l1 ++ l2), [].
    rewrite Qu, Qu0, Bb, Bf by now right. cbn [marks map]. rewrite app_nil_r. split; [reflexivity|]. split; [|split; [|auto]].
    + cbn [sites own_sites flat_map]. rewrite H0, app_nil_r, !posed_cons, <- !app_assoc.
      apply SL_app; [|apply SL_app; [|sl]]; apply SL_here; now apply arms_right.
    + apply A_logic; auto; now apply spot_lit.
  - (* V_logical_inner *) good. exk. cbn [form] in Hf. rewrite H in Hf. qsplit. sat.
    destruct IHW0 as (l1 & d1 & S1 & A1 & F1); auto. destruct IHW as (l2 & d2 & S2 & A2 & F2); auto.
    exists (here sp (EOper sp false) d1 ++ here sp (EOper sp true) d2 ++ l1 ++ l2), [].
    rewrite Qu, Qu0 by now right. red_st. rewrite Bf. cbn [marks map]. rewrite app_nil_r. split; [reflexivity|]. split; [|split; [|auto]].
    + cbn [sites own_sites flat_map]. rewrite H, app_nil_r, !posed_cons, <- !app_assoc.
      apply SL_app; [|apply SL_app; [|sl]]; apply SL_here; now apply arms_right.
    + apply A_logic; auto; now apply spot_lit.
  - (* V_assign_pat *) good. exk. cbn [form] in Hf. qsplit. pose proof (new_branch_grows _ _ _ _ _ _ H2) as Gn. sat.
    destruct IHW as (l2 & d & S2 & A2 & F2); auto. destruct (zero_exact l) as (l1 & S1 & A1); auto.
    exists (here sp (EDefault sp) d ++ l1 ++ l2), []. rewrite Qu by now right. red_st. rewrite Bf. cbn [marks map]. rewrite app_nil_r.
    split; [reflexivity|]. split; [|split; [|auto]].
    + cbn [sites own_sites flat_map]. rewrite app_nil_r. apply SL_app; [|sl]. apply SL_here. now apply arms_right.
    + apply A_assign; auto. now apply spot_lit.
  - (* V_module_items *) good. discriminate.
  - (* V_script *) good. discriminate.
  - (* K_nil *) match goal with H : Forall2 _ _ [] |- _ => inversion H; subst end. exists [], []. cbn. rewrite app_nil_r. split; [reflexivity|constructor].
  - (* K_cons *) match goal with H : Forall2 _ _ (_ :: _) |- _ => inversion H as [|due ? dues0 ? R1 R2]; subst end. sat.
    destruct (IHV due) as (l & adv & B1 & S1 & A1 & K1 & P1); auto.
    destruct (IHK dues0) as (ls & advs & B2 & O); auto.
    exists (l :: ls), (adv :: advs). cbn [concat]. rewrite B2, B1, marks_app, app_assoc. split; [reflexivity|].
    constructor; auto. intros Q. apply Qu in Q. rewrite Q in B1. now apply marks_nil in B1.
  - (* I_nil *) match goal with H : RawL _ _ |- _ => rename H into HR end. destruct HR as [(-> & _)|(i & ss1 & _ & E0 & _)]; [|discriminate]. exists []. split; constructor.
  - (* I_injected *) match goal with H : RawL _ _ |- _ => rename H into HR end.
    destruct HR as [(-> & Hi & Hx)|(i & ss1 & -> & E0 & Hi & Hx)].
    + exfalso. cbn [forallb] in Hx. bools. eapply exact_not_injected; eauto.
    + inversion E0; subst. destruct (IHI []) as (l & S1 & A1); auto. { now left. }
      exists l. split; [exact S1|]. now apply L_due.
  - (* I_skip *) match goal with H : RawL _ _ |- _ => rename H into HR end. sat.
    destruct HR as [(-> & Hi & Hx)|(i & ss1 & -> & E0 & Hi & Hx)]; [|inversion E0; subst; discriminate].
    cbn [forallb] in *. bools. destruct (IHI []) as (l & S1 & A1); auto. { now left. }
    destruct (zero_exact x) as (l1 & S2 & A2); auto. exists (l1 ++ l). split; [now apply SL_app|]. apply L_item; auto.
  - (* I_visit *) match goal with H : RawL _ _ |- _ => rename H into HR end. sat.
    destruct HR as [(-> & Hi & Hx)|(i & ss1 & -> & E0 & Hi & Hx)]; [|inversion E0; subst; discriminate].
    cbn [forallb] in *. bools. destruct (IHI []) as (l2 & S1 & A1); auto. { now left. }
    destruct (walk_exact VStmt k sp cs (spawn s1 cur) cs' sv) as (l & adv & B & S2 & A2); auto.
    { right. unfold item in *. cbn [nkind] in *. destruct k; try discriminate; fp. }
    cbn [before spawn app] in B. rewrite B. exists (l ++ l2). split; [now apply SL_app|].
    apply L_entry; auto. match goal with H : item _ = true |- _ => apply item_nonlist in H; now apply negb_true_iff in H end.
  - (* W_next *) destruct (zero_exact x) as (l & S1 & A1); auto. exists l, []. auto.
  - (* W_nested *) sat.
    destruct (walk_exact (VLogical b) k sp cs (spawn s (hint e sp)) cs' sv) as (l & adv & B & S1 & A1); auto.
    rewrite Qu in B by now left. apply marks_nil in B as ->. exists l, []. auto.
  - (* W_report *) destruct (zero_exact x) as (l & S1 & A1); auto.
    match goal with H : add_branch_path _ _ _ = _ |- _ => destruct (add_branch_path_grows _ _ _ _ _ H) as [Gp Lp] end.
    exists l, [CB b i]. split; [exact S1|]. split.
    + apply A_layer; auto. apply (A_injseq _ _ _ [] l); [apply (acc_counter_expr (CB b i))|]. now apply acc_true.
    + apply Forall_cons; [|apply Forall_nil]. split; [exact I|]. auto.
  - (* W_leaf *) match goal with H : replace_expr_with_branch_counter _ _ _ _ = _ |- _ => rename H into Hr end.
    assert (Hk : k = KExpr).
    { unfold replace_expr_with_branch_counter in Hr. cbn [is_expr nkind] in Hr. destruct k; try discriminate; reflexivity. }
    subst k. pose proof (replace_branch_grows e _ _ _ _ _ Hr) as Gb. sat.
    destruct (walk_exact v KExpr sp cs s cs' s1) as (l & adv & B & S1 & A1); auto.
    { destruct (is_instr v); [right; fp|now left]. }
    assert (Q : is_instr v = false \/ existsb noisy cs = false).
    { match goal with H : _ \/ noisy _ = false |- _ => destruct H as [Q|Q]; [now left|right]; now apply quiet_kids in Q end. }
    rewrite (Qu Q) in B. apply marks_nil in B as ->.
    destruct (replace_acc _ _ _ _ _ _ Hr A1) as (d & A2 & F2); auto. exists l, d. auto.
  - (* A_keep *) destruct (zero_exact x) as (l & S1 & A1); auto. exists l, []. auto.
  - (* A_block *) match goal with H : add_branch_path _ _ _ = _ |- _ => destruct (add_branch_path_grows _ _ _ _ _ H) as [Gp Lp] end. sat.
    match goal with H : exact (Node KStmt _ _) = true |- _ => apply exact_inv in H as (_ & _ & Hb) end.
    cbn [forallb] in Hb. bools. match goal with H : exact (Node (KBlock _) _ _) = true |- _ => apply exact_block in H as [Hi Hs] end.
    destruct (IHI []) as (l & S1 & A1); auto. { now left. }
    exists l, [CB b i]. split; [sl|]. split; [|split; [|discriminate]].
    + do 2 (apply A_layer; auto). apply A_stmts; [reflexivity|]. now apply L_due.
    + apply Forall_cons; [|apply Forall_nil]. split; [exact I|]. auto.
  - (* A_none *) match goal with H : add_branch_path _ _ _ = _ |- _ => destruct (add_branch_path_grows _ _ _ _ _ H) as [Gp Lp] end. sat.
    exists [], [CB b i]. split; [sl|]. split; [|split; [|discriminate]].
    + do 2 (apply A_layer; auto). apply A_stmts; [reflexivity|]. apply L_due; [reflexivity|apply L_nil].
    + apply Forall_cons; [|apply Forall_nil]. split; [exact I|]. auto.
  - (* A_stmt *) match goal with H : add_branch_path _ _ _ = _ |- _ => destruct (add_branch_path_grows _ _ _ _ _ H) as [Gp Lp] end. sat.
    destruct (IHV []) as (l & adv & B & S1 & A1 & K1 & P1); auto. { now apply Rw_exact. }
    cbn [app] in B. rewrite B. exists l, [CB b i]. split; [exact S1|]. split; [|split; [|discriminate]].
    + do 2 (apply A_layer; auto). apply A_stmts; [reflexivity|]. cbn [app]. apply L_due; [reflexivity|].
      apply L_advs. cbn [app]. rewrite <- (app_nil_r l). apply L_item; [|exact A1|apply L_nil].
      right. now rewrite (is_list_kind _ _ K1).
    + apply Forall_cons; [|apply Forall_nil]. split; [exact I|]. auto.
  - (* M_nil *) exists []. split; constructor.
  - (* M_directive *) cbn [forallb] in *. bools. destruct IHM as (l2 & S2 & A2); auto.
    destruct (zero_exact x) as (l & S1 & A1); auto. exists (l ++ l2). split; [now apply SL_app|]. apply L_item; auto.
  - (* M_visit *) match goal with H : s2 = s1 \/ exists esp, export_const_span _ = _ /\ _ |- _ => rename H into Hs end.
    match goal with H : s2 = s1 \/ exists esp, s2 = _ |- _ => clear H end.
    cbn [forallb] in *. bools. match goal with H : before s = [] |- _ => rewrite H in * end.
    assert (Nl : is_list (Node k sp cs') = false).
    { match goal with H : item _ = true |- _ => apply item_nonlist in H; apply negb_true_iff in H; exact H end. }
    destruct Hs as [->|(esp & Hesp & ->)].
    + sat. destruct IHM as (l2 & S2 & A2); auto.
      destruct (walk_exact VCov k sp cs s1 cs' s3) as (l & adv & B & S1 & A1); auto.
      { right. unfold item in *. cbn [nkind] in *. destruct k; try discriminate; fp. }
      rewrite B, Bf. cbn [app]. exists (l ++ l2). split; [now apply SL_app|]. now apply L_entry.
    + pose proof (mark_grows e esp s1) as Gm. sat. destruct IHM as (l2 & S2 & A2); auto.
      destruct (mark_spec esp s1) as (i & Bm & Fm). specialize (Fm ltac:(assumption) ltac:(assumption)).
      destruct (export_const_inv _ _ Hesp) as (sp0 & d & E0). inversion E0; subst. clear E0.
      match goal with H : exact _ = true |- _ => apply exact_inv in H as (_ & _ & Hx) end.
      destruct (exact_kids VCov _ Hx) as (dues & D1 & D2). destruct (IHK dues D1) as (ls & advs & B & O); auto.
      outs. destruct t' as [kt spt ct]. cbn [nkind nspan] in HK, HP. subst kt spt.
      cbn [forallb] in Hx. bools. match goal with H : exact (Node KExportDecl _ _) = true |- _ => apply exact_inv in H as (Hf & _ & _) end.
      cbn [form] in Hf. bools.
      destruct (export_acc l (css adv) esp ct (flat_map sites [d]) i) as (l' & S3 & A3); auto.
      { now split. }
      exists (l' ++ l2). split.
      * cbn [flat_map]. apply SL_app; [|assumption].
        replace (sites (Node KModuleDecl sp0 [Node KExportDecl esp [d]])) with (posed esp [(EStmt esp, esp)] ++ flat_map sites [d]); [exact S3|].
        cbn [sites own_sites flat_map]. rewrite posed_nil. cbn [app]. now rewrite !app_nil_r.
      * cbn [concat] in B. rewrite app_nil_r in B. rewrite B, Bm, Bf. cbn [app].
        change (marks [i] ++ marks adv) with (marks (i :: adv)). apply L_entry; auto. apply A_layer; auto.
  - (* S_nil *) exists []. split; constructor.
  - (* S_visit *) cbn [forallb] in *. bools.
    assert (Nl : is_list (Node k sp cs') = false).
    { match goal with H : item _ = true |- _ => apply item_nonlist in H; apply negb_true_iff in H; exact H end. }
    sat. destruct IHM as (l2 & S2 & A2); auto.
    destruct (walk_exact VCov k sp cs s cs' s1) as (l & adv & B & S1 & A1); auto.
    { right. unfold item in *. cbn [nkind] in *. destruct k; try discriminate; fp. }
    exists (l ++ l2). split; [now apply SL_app|]. rewrite B. match goal with H : before s = [] |- _ => rewrite H end. cbn [app].
    change (marks adv ++ Node k sp cs' :: xs') with (marks adv ++ [Node k sp cs'] ++ xs'). rewrite app_assoc. now apply L_entry.
Qed.
End AV.
