(** The transformation always finishes (C41): with enough fuel the visitors return on every program
    whose nodes have the children of their kind, and the only panic is [unimplemented!] for a
    function without a body. *)
From Coq Require Import NArith String List Bool Lia PeanoNat Wf_nat.
Import ListNotations.
From Verif Require Import Base IndexMap Oxide SourceCov Hints Ast Visitor VisitorRel Erase VisitorEx.
Open Scope N_scope.

(** ** Shapes *)
Definition kexpr (k : kind) : bool := match k with KExpr => true | _ => false end.
Definition kstmt (k : kind) : bool := match k with KStmt => true | _ => false end.
Definition kstmts (k : kind) : bool := match k with KStmts => true | _ => false end.
Definition knone (k : kind) : bool := match k with KNone => true | _ => false end.
Definition kblock (k : kind) : bool := match k with KBlock _ => true | _ => false end.
Definition kfunction (k : kind) : bool := match k with KFunction => true | _ => false end.
Definition kident (k : kind) : bool := match k with KIdent _ => true | _ => false end.
Fixpoint last_is (p : kind -> bool) (ks : list kind) : bool :=
  match ks with [] => false | [k] => p k | _ :: ks' => last_is p ks' end.
(** The children a node of each kind has (the list at the head of Ast.v); [bodies] tells whether
    functions may lack a body.  Module items and scripts occur only at the root. *)
Definition layout (bodies : bool) (k : kind) (ks : list kind) : bool :=
  match k with
  | KModule | KScript | KModuleItems => false
  | KNone => match ks with [] => true | _ => false end
  | KStmt | KExprStmt => match ks with [_] => true | _ => false end
  | KBlock _ => match ks with [b] => kstmts b | _ => false end
  | KFor | KForIn | KForOf | KWhile | KDoWhile => last_is kstmt ks
  | KIf => match ks with [_; c; a] => kstmt c && (knone a || kstmt a) | _ => false end
  | KWith => match ks with [_; b] => kstmt b | _ => false end
  | KSwitchCase => match ks with [_; b] => kstmts b | _ => false end
  | KVarDeclarator | KClassProp | KPrivateProp =>
      match ks with _ :: x :: _ => knone x || kexpr x | _ => false end
  | KFnDecl => match ks with [i; f] => kident i && kfunction f | _ => false end
  | KFnExpr | KClassMethod | KMethodProp => match ks with [_; f] => kfunction f | _ => false end
  | KFunction => match ks with [_; _; b; _] => kblock b || (negb bodies && knone b) | _ => false end
  | KArrow => match ks with [_; b; _] => kblock b || kexpr b | _ => false end
  | KClassDecl => match ks with [_; _] => true | _ => false end
  | KGetter | KSetter => match ks with [] => false | _ => last_is (fun b => kblock b || knone b) ks end
  | KCond => match ks with [_; c; a] => kexpr c && kexpr a | _ => false end
  | KBin op => if is_logical_op op then match ks with [l; r] => kexpr l && kexpr r | _ => false end else true
  | KAssignPat => match ks with [_; r] => kexpr r | _ => false end
  | _ => true
  end.
Fixpoint shaped (bodies : bool) (t : node) : bool :=
  match t with Node k _ cs => layout bodies k (map nkind cs) && forallb (shaped bodies) cs end.
(** A whole file: a module of module items or a script of statements *)
Definition shaped_program (bodies : bool) (t : node) : bool :=
  match nkind t, nkids t with
  | KModule, [b] =>
      match nkind b with KModuleItems => forallb (shaped bodies) (nkids b) | _ => false end
  | KScript, [b] =>
      match nkind b with KStmts => forallb (shaped bodies) (nkids b) | _ => false end
  | _, _ => false
  end.

Lemma shaped_weaken : forall t, shaped true t = true -> shaped false t = true.
Proof.
  induction t as [k sp cs IH] using node_ind'. cbn [shaped]. intros H. apply andb_prop in H as [H1 H2].
  apply andb_true_intro. split.
  - destruct k; try exact H1. cbn in *. destruct (map nkind cs) as [|a [|b [|c [|d [|? ?]]]]]; try discriminate.
    now rewrite orb_false_r in H1; rewrite H1.
  - rewrite forallb_forall in *. rewrite Forall_forall in IH. auto.
Qed.

(** ** Measures *)
Definition tagged_init (k : kind) (cs : list node) : bool :=
  match k with
  | KVarDeclarator | KClassProp | KPrivateProp => match cs with _ :: x :: _ => is_tagged_tpl x | _ => false end
  | _ => false
  end.
(** How deep initialisers that are tagged templates are nested *)
Fixpoint tn (t : node) : nat :=
  match t with Node k _ cs => (if tagged_init k cs then 1 else 0) + list_max (map tn cs) end.
Definition tnl (cs : list node) : nat := list_max (map tn cs).
Definition weight (k : kind) : nat :=
  match k with
  | KExpr | KStmt | KStmts | KBlock _ | KExprStmt | KReturn | KInjParen | KInjSeq | KCounter _ | KNone => 1
  | _ => 10
  end.
Fixpoint wt (t : node) : nat :=
  match t with Node k _ cs => weight k + list_sum (map wt cs) end.
Definition wtl (cs : list node) : nat := list_sum (map wt cs).

Lemma tn_node : forall k sp cs, tn (Node k sp cs) = ((if tagged_init k cs then 1 else 0) + tnl cs)%nat.
Proof. reflexivity. Qed.
Lemma wt_node : forall k sp cs, wt (Node k sp cs) = (weight k + wtl cs)%nat.
Proof. reflexivity. Qed.
Lemma tnl_cons : forall c cs, tnl (c :: cs) = Nat.max (tn c) (tnl cs).
Proof. reflexivity. Qed.
Lemma wtl_cons : forall c cs, wtl (c :: cs) = (wt c + wtl cs)%nat.
Proof. reflexivity. Qed.
Lemma tnl_nil : tnl [] = 0%nat. Proof. reflexivity. Qed.
Lemma wtl_nil : wtl [] = 0%nat. Proof. reflexivity. Qed.
Lemma tnl_app : forall a b, tnl (a ++ b) = Nat.max (tnl a) (tnl b).
Proof. intros a b. unfold tnl. now rewrite map_app, list_max_app. Qed.
Lemma wtl_app : forall a b, wtl (a ++ b) = (wtl a + wtl b)%nat.
Proof. intros a b. unfold wtl. now rewrite map_app, list_sum_app. Qed.
Lemma tnl_in : forall c cs, In c cs -> (tn c <= tnl cs)%nat.
Proof. intros c cs H. induction cs as [|d cs IH]; [easy|]. rewrite tnl_cons. destruct H as [->|H]; [lia|]. specialize (IH H). lia. Qed.
Lemma wtl_in : forall c cs, In c cs -> (wt c <= wtl cs)%nat.
Proof. intros c cs H. induction cs as [|d cs IH]; [easy|]. rewrite wtl_cons. destruct H as [->|H]; [lia|]. specialize (IH H). lia. Qed.
Lemma weight_pos : forall k, (1 <= weight k)%nat.
Proof. intros []; cbn; lia. Qed.

(** [below a b]: visiting [a] is a smaller task than visiting [b]. *)
Definition below (a b : node) : Prop := (tn a < tn b \/ tn a <= tn b /\ wt a < wt b)%nat.
Lemma below_wf : well_founded below.
Proof.
  assert (A : forall m w t, (tn t < m \/ tn t <= m /\ wt t < w)%nat -> Acc below t).
  { induction m as [m IHm] using Wf_nat.lt_wf_ind. induction w as [w IHw] using Wf_nat.lt_wf_ind. intros t H.
    constructor. intros u U. destruct H as [H|[H1 H2]].
    - apply (IHm (tn t) H (S (wt u))). destruct U as [U|[U1 U2]]; lia.
    - destruct U as [U|[U1 U2]].
      + apply (IHm (tn u) ltac:(lia) (S (wt u))). lia.
      + apply (IHw (wt t) H2). lia. }
  intros t. apply (A (tn t) (S (wt t))). lia.
Qed.
Lemma below_child : forall k sp cs c, In c cs -> below c (Node k sp cs).
Proof.
  intros k sp cs c H. right. rewrite tn_node, wt_node. pose proof (tnl_in c cs H). pose proof (wtl_in c cs H).
  pose proof (weight_pos k). lia.
Qed.
Lemma below_trans : forall a b c, below a b -> below b c -> below a c.
Proof. unfold below. intros a b c [H|[H1 H2]] [K|[K1 K2]]; lia. Qed.

Section Total.
Variable e : env.
Variable bodies : bool.
Let shp := shaped bodies.

(** ** Programs over the recursive call *)
(** With enough fuel for the recursive calls, [h] returns a result satisfying [Q], or panics because
    of a missing body. *)
Definition Tot {X} (h : (vis -> node -> st -> res (node * st)) -> res X) (Q : X -> Prop) : Prop :=
  exists N r, (forall n, (N <= n)%nat -> h (visit e n) = r) /\
    match r with Ok a => Q a | Panic p => p = RUnimplemented /\ bodies = false | OutOfFuel => False end.
Lemma Tot_ret : forall X (a : X) (Q : X -> Prop), Q a -> Tot (fun _ => Ok a) Q.
Proof. intros X a Q H. exists 0%nat, (Ok a). auto. Qed.
Lemma Tot_bind : forall X Y f (k : _ -> X -> res Y) Q1 Q, Tot f Q1 -> (forall a, Q1 a -> Tot (fun rec => k rec a) Q) ->
  Tot (fun rec => bind (f rec) (k rec)) Q.
Proof.
  intros X Y f k Q1 Q (N & r & H & K) G. destruct r as [a|p|].
  - destruct (G a K) as (N2 & r2 & H2 & K2). exists (Nat.max N N2), r2. split; [|exact K2].
    intros n Hn. rewrite H by lia. cbn. apply H2. lia.
  - exists N, (Panic p). split; [|exact K]. intros n Hn. now rewrite H.
  - destruct K.
Qed.
Lemma Tot_mono : forall X h (Q1 Q : X -> Prop), Tot h Q1 -> (forall a, Q1 a -> Q a) -> Tot h Q.
Proof. intros X h Q1 Q (N & r & H & K) G. exists N, r. split; [exact H|]. destruct r; auto. Qed.

(** ** Invariants *)
Definition has_branch (b : N) (sc : source_cov) : Prop :=
  im_get b (fc_branch_map (sc_fc sc)) <> None /\ im_get b (fc_b (sc_fc sc)) <> None.
Definition vok (v : vis) (s : st) : Prop :=
  match v with VSwitch b | VLogical b => has_branch b (cov s) | _ => True end.
Definition grows (a b : source_cov) : Prop := forall i, has_branch i a -> has_branch i b.
Definition SR (s s' : st) : Prop := grows (cov s) (cov s') /\ (sonly (before s) -> sonly (before s')).
Lemma SR_refl : forall s, SR s s. Proof. intros s. split; [intros i|]; auto. Qed.
Lemma SR_trans : forall a b c, SR a b -> SR b c -> SR a c.
Proof. intros a b c [H1 H2] [K1 K2]. split; [intros i|]; auto. Qed.
Lemma SR_same : forall s s', cov s' = cov s -> before s' = before s -> SR s s'.
Proof. intros s s' H K. split; [intros i|]; congruence. Qed.
Lemma vok_grow : forall v s s', vok v s -> grows (cov s) (cov s') -> vok v s'.
Proof. intros [| |b|b] s s' H G; cbn in *; auto. Qed.

Lemma new_statement_grows : forall r sc, grows sc (fst (new_statement r sc)).
Proof. intros r sc i H. exact H. Qed.
Lemma new_function_grows : forall n d l sc, grows sc (fst (new_function n d l sc)).
Proof. intros n d l sc i H. exact H. Qed.
Lemma new_branch_grows : forall t l f sc, grows sc (fst (new_branch t l f sc)) /\
  has_branch (snd (new_branch t l f sc)) (fst (new_branch t l f sc)).
Proof.
  intros t l f sc. unfold grows, has_branch. cbn. split; [intros i [H1 H2]|].
  - rewrite !im_get_insert. destruct (eqb i (sc_b sc)); split; auto; discriminate.
  - rewrite !im_get_insert. assert (R : eqb (sc_b sc) (sc_b sc) = true) by apply N.eqb_refl.
    rewrite R. split; discriminate.
Qed.
Lemma add_branch_path_ok : forall b r sc, has_branch b sc ->
  exists sc' i, add_branch_path b r sc = Ok (sc', i) /\ grows sc sc'.
Proof.
  intros b r sc [H1 H2]. unfold add_branch_path.
  destruct (im_get b (fc_branch_map (sc_fc sc))) eqn:E1; [|congruence].
  destruct (im_get b (fc_b (sc_fc sc))) eqn:E2; [|congruence]. cbn [expect bind].
  rewrite im_get_update. assert (R : eqb b b = true) by apply N.eqb_refl. rewrite R, E2. cbn [option_map expect bind].
  eexists _, _. split; [reflexivity|]. intros i [K1 K2]. unfold has_branch. cbn. rewrite !im_get_update.
  split; destruct (eqb i b); auto.
  - destruct (im_get i (fc_branch_map (sc_fc sc))); [discriminate|congruence].
  - destruct (im_get i (fc_b (sc_fc sc))); [discriminate|congruence].
Qed.
Lemma mark_SR : forall sp s, SR s (mark_prepend_stmt_counter e sp s).
Proof.
  intros sp s. split; [|apply mark_sonly]. unfold mark_prepend_stmt_counter.
  pose proof (new_statement_grows (range_of e sp) (cov s)) as G.
  destruct (new_statement (range_of e sp) (cov s)) as [c i]. exact G.
Qed.
Lemma mark_stack : forall sp s, stack (mark_prepend_stmt_counter e sp s) = stack s.
Proof. intros sp s. unfold mark_prepend_stmt_counter. now destruct (new_statement _ _). Qed.

(** ** What a visit gives back *)
Definition Post (t : node) (s : st) (r : node * st) : Prop :=
  nkind (fst r) = nkind t /\ is_tagged_tpl (fst r) = is_tagged_tpl t /\ shp (fst r) = true /\
  (tn (fst r) <= tn t)%nat /\ SR s (snd r).
Definition Good (v : vis) (t : node) : Prop :=
  forall s, vok v s -> Tot (fun rec => rec v t s) (Post t s).
Lemma Post_same : forall t s s', shp t = true -> SR s s' -> Post t s (t, s').
Proof. intros t s s' H K. do 4 (split; [auto|]). exact K. Qed.
Lemma Post_from : forall t2 s2 t s r, Post t2 s2 r -> nkind t2 = nkind t -> is_tagged_tpl t2 = is_tagged_tpl t ->
  (tn t2 <= tn t)%nat -> SR s s2 -> Post t s r.
Proof.
  intros t2 s2 t s r (H1 & H2 & H3 & H4 & H5) K1 K2 K3 K4.
  split; [congruence|]. split; [congruence|]. split; [exact H3|]. split; [lia|]. eapply SR_trans; eassumption.
Qed.

Lemma tagged_not_expr : forall t, is_expr t = false -> is_tagged_tpl t = false.
Proof.
  intros [k sp cs] H. unfold is_tagged_tpl. destruct (expr_view (Node k sp cs)) as [[q y]|] eqn:E; [|reflexivity].
  apply expr_view_inv in E. injection E as -> -> ->. discriminate.
Qed.
Lemma tagged_kinds : forall k sp cs sp' cs', map nkind cs' = map nkind cs ->
  is_tagged_tpl (Node k sp' cs') = is_tagged_tpl (Node k sp cs).
Proof.
  intros k sp cs sp' cs' H. unfold is_tagged_tpl. destruct (kexpr k) eqn:K.
  - destruct k; try discriminate. destruct cs as [|c [|? ?]], cs' as [|c' [|? ?]]; try discriminate; try reflexivity.
    cbn in *. injection H as H. now rewrite H.
  - assert (A : forall q l, expr_view (Node k q l) = None) by (intros q l; destruct k; try reflexivity; discriminate).
    now rewrite !A.
Qed.
Lemma tagged_init_eq : forall k cs cs', map is_tagged_tpl cs' = map is_tagged_tpl cs -> tagged_init k cs' = tagged_init k cs.
Proof.
  intros k cs cs' H. destruct cs as [|a [|b cs]], cs' as [|a' [|b' cs']]; try discriminate; try (destruct k; reflexivity).
  cbn in H. injection H as _ H _. destruct k; cbn; congruence.
Qed.

Definition LPost (cs : list node) (s : st) (r : list node * st) : Prop :=
  map nkind (fst r) = map nkind cs /\ map is_tagged_tpl (fst r) = map is_tagged_tpl cs /\
  forallb shp (fst r) = true /\ (tnl (fst r) <= tnl cs)%nat /\ SR s (snd r).
Lemma list_total : forall v cs s, (forall c, In c cs -> Good v c) -> vok v s ->
  Tot (fun rec => visit_list rec v cs s) (LPost cs s).
Proof.
  intros v. induction cs as [|c cs IH]; intros s H V; cbn [visit_list].
  - apply Tot_ret. do 4 (split; [auto|]). apply SR_refl.
  - eapply Tot_bind; [apply (H c (or_introl eq_refl) s V)|]. intros [c' s1] P. cbn beta iota.
    destruct P as (P1 & P2 & P3 & P4 & P5). cbn [fst snd] in *.
    eapply Tot_bind; [apply IH; [intros d Hd; apply H; now right|eapply vok_grow; [exact V|apply P5]]|].
    intros [cs' s2] Q. cbn beta iota. destruct Q as (Q1 & Q2 & Q3 & Q4 & Q5). cbn [fst snd] in *.
    apply Tot_ret. unfold LPost. cbn [fst snd map forallb]. rewrite !tnl_cons.
    split; [congruence|]. split; [congruence|]. split; [now rewrite P3, Q3|]. split; [lia|]. eapply SR_trans; eassumption.
Qed.
Lemma shaped_node : forall k sp cs, shp (Node k sp cs) = true <-> layout bodies k (map nkind cs) = true /\ forallb shp cs = true.
Proof. intros k sp cs. unfold shp. cbn [shaped]. rewrite andb_true_iff. reflexivity. Qed.
Lemma children_total : forall v k sp cs s, layout bodies k (map nkind cs) = true -> (forall c, In c cs -> Good v c) -> vok v s ->
  Tot (fun rec => visit_children rec v (Node k sp cs) s) (Post (Node k sp cs) s).
Proof.
  intros v k sp cs s L H V. cbn [visit_children]. eapply Tot_bind; [now apply list_total|].
  intros [cs' s'] (P1 & P2 & P3 & P4 & P5). cbn [fst snd] in *. cbn beta iota. apply Tot_ret.
  split; [reflexivity|]. split; [now apply tagged_kinds|]. split.
  - apply shaped_node. split; [now rewrite P1|exact P3].
  - split; [|exact P5]. cbn [fst]. rewrite !tn_node, (tagged_init_eq k cs cs' P2). lia.
Qed.

(** ** The state changes of the helpers *)
Lemma on_enter_same : forall n sp s s1 old cur, on_enter e n sp s = (s1, old, cur) ->
  cov s1 = cov s /\ before s1 = before s /\ stack s1 = n :: stack s.
Proof.
  intros n sp s s1 old cur. unfold on_enter, on_enter_with_span. destruct (is_next (ign (push n s))); intros H; injection H as <- <- <-;
    repeat split.
Qed.
Lemma enter_exit_total : forall n sp s sk bd t,
  (forall s1, cov s1 = cov s -> before s1 = before s -> Tot (fun rec => sk rec s1) (Post t s)) ->
  (forall cur s1, cov s1 = cov s -> before s1 = before s -> stack s1 = n :: stack s ->
     Tot (fun rec => bd rec cur s1) (Post t s)) ->
  Tot (fun rec => enter_exit e n sp s (sk rec) (bd rec)) (Post t s).
Proof.
  intros n sp s sk bd t Hs Hb. unfold enter_exit. destruct (on_enter e n sp s) as [[s1 old] cur] eqn:E.
  apply on_enter_same in E as (E1 & E2 & E3).
  apply Tot_bind with (Q1 := Post t s).
  - destruct (is_next cur); auto.
  - intros [t' s2] P. cbn beta iota. apply Tot_ret. exact P.
Qed.
Definition stmts_post (ss : list node) (s : st) (r : list node * st) : Prop :=
  forallb shp (fst r) = true /\ (tnl (fst r) <= tnl ss)%nat /\ SR s (snd r) /\ before (snd r) = before s.
Lemma counter_shaped : forall c, shp (counter_stmt c) = true /\ tn (counter_stmt c) = 0%nat.
Proof. intros c. split; reflexivity. Qed.
Lemma sonly_shaped : forall l, sonly l -> forallb shp l = true /\ tnl l = 0%nat.
Proof.
  intros l H. induction H as [|x l [i ->] _ [IH1 IH2]]; [split; reflexivity|]. rewrite tnl_cons, IH2.
  cbn [forallb]. rewrite IH1. split; reflexivity.
Qed.
Lemma stmts_total : forall ss s, (forall x c, In x ss -> In c (nkids x) -> Good VStmt c) -> forallb shp ss = true ->
  Tot (fun rec => insert_stmts_counter e rec ss s) (stmts_post ss s).
Proof.
  induction ss as [|x ss IH]; intros s H S; cbn [insert_stmts_counter].
  - apply Tot_ret. do 2 (split; [auto|]). split; [apply SR_refl|reflexivity].
  - cbn [forallb] in S. apply andb_prop in S as [Sx S].
    apply Tot_bind with (Q1 := fun r => forallb shp (fst r) = true /\ (tnl (fst r) <= tn x)%nat /\ SR s (snd r) /\ before (snd r) = before s).
    + assert (Self : forall s', SR s s' -> before s' = before s -> forallb shp [x] = true /\ (tnl [x] <= tn x)%nat /\ SR s s' /\ before s' = before s).
      { intros s' R B. cbn [forallb]. rewrite Sx, tnl_cons, tnl_nil. split; [reflexivity|]. split; [lia|]. now split. }
      destruct (is_injected_counter_stmt x); [apply Tot_ret; apply Self; [apply SR_refl|reflexivity]|].
      destruct (on_enter e NStmt (nspan x) s) as [[s1 old] cur] eqn:E. apply on_enter_same in E as (E1 & E2 & E3).
      destruct (is_next cur).
      * apply Tot_ret. apply Self; [apply SR_same; assumption|exact E2].
      * destruct x as [k sp cs]. apply shaped_node in Sx as [L C].
        eapply Tot_bind; [apply children_total; [exact L|intros c Hc; apply (H _ c (or_introl eq_refl) Hc)|exact I]|].
        intros [x' sv] (P1 & P2 & P3 & P4 & P5). cbn beta iota. cbn [fst snd] in *. apply Tot_ret. cbn [fst snd].
        assert (B : sonly (before sv)) by (apply P5; apply sonly_nil).
        destruct (sonly_shaped _ B) as [B1 B2].
        rewrite forallb_app, B1, tnl_app, B2, tnl_cons, tnl_nil. cbn [forallb]. rewrite P3.
        split; [reflexivity|]. split; [lia|]. split; [|exact E2]. split; [|cbn; now rewrite E2].
        intros i Hi. apply P5. cbn. now rewrite E1.
    + intros [new s1] (P1 & P2 & P3 & P4). cbn beta iota. cbn [fst snd] in *.
      eapply Tot_bind; [apply IH; [intros y c Hy Hc; now apply (H y c (or_intror Hy))|exact S]|].
      intros [rest s2] (Q1 & Q2 & Q3 & Q4). cbn beta iota. cbn [fst snd] in *. apply Tot_ret.
      unfold stmts_post. cbn [fst snd]. rewrite forallb_app, P1, Q1, tnl_app, tnl_cons.
      split; [reflexivity|]. split; [lia|]. split; [eapply SR_trans; eassumption|congruence].
Qed.
(** ** One node *)
Section Node.
Variables (k : kind) (sp : span) (cs : list node).
Let t := Node k sp cs.
Hypothesis Ht : shp t = true.
Hypothesis IH : forall u, below u t -> shp u = true -> forall v, Good v u.

Lemma lay : layout bodies k (map nkind cs) = true.
Proof. now apply shaped_node in Ht. Qed.
Lemma shk : forall c, In c cs -> shp c = true.
Proof. apply shaped_node in Ht as [_ H]. rewrite forallb_forall in H. exact H. Qed.
Lemma kids_from : forall v t2 s2 s, shp t2 = true -> nkind t2 = k -> is_tagged_tpl t2 = is_tagged_tpl t ->
  (tn t2 <= tn t)%nat -> (forall c, In c (nkids t2) -> below c t) -> vok v s -> SR s s2 ->
  Tot (fun rec => visit_children rec v t2 s2) (Post t s).
Proof.
  intros v [k2 sp2 cs2] s2 s S2 K2 T2 N2 B2 V R. cbn [nkind nkids] in *. subst k2. apply shaped_node in S2 as [L2 C2].
  rewrite forallb_forall in C2. eapply Tot_mono.
  - apply children_total; [exact L2|intros c Hc; apply IH; auto|eapply vok_grow; [exact V|apply R]].
  - intros r P. eapply Post_from; [exact P|reflexivity|exact T2|exact N2|exact R].
Qed.
Lemma kids_self : forall v s2 s, vok v s -> SR s s2 -> Tot (fun rec => visit_children rec v t s2) (Post t s).
Proof.
  intros v s2 s V R. apply kids_from; auto. intros c Hc. now apply below_child.
Qed.
Lemma self : forall s s2, SR s s2 -> Tot (fun _ => Ok (t, s2)) (Post t s).
Proof. intros s s2 R. apply Tot_ret. now apply Post_same. Qed.

Lemma SR_mark : forall sp' s s1, SR s s1 -> SR s (mark_prepend_stmt_counter e sp' s1).
Proof. intros sp' s s1 H. eapply SR_trans; [exact H|apply mark_SR]. Qed.

Lemma skip_total : forall n sp' v s, vok v s -> Tot (fun rec => visit_skip e rec n sp' v t s) (Post t s).
Proof.
  intros n sp' v s V. unfold visit_skip. apply enter_exit_total; intros.
  - now apply self, SR_same.
  - apply kids_self; [exact V|now apply SR_same].
Qed.
Lemma marked_total : forall n v s, vok v s -> Tot (fun rec => visit_marked e rec n v t s) (Post t s).
Proof.
  intros n v s V. unfold visit_marked. apply enter_exit_total; intros.
  - apply kids_self; [exact V|now apply SR_same].
  - apply kids_self; [exact V|now apply SR_mark, SR_same].
Qed.
Lemma marked_skip_total : forall n v s, vok v s -> Tot (fun rec => visit_marked_skip e rec n v t s) (Post t s).
Proof.
  intros n v s V. unfold visit_marked_skip. apply enter_exit_total; intros.
  - now apply self, SR_same.
  - apply kids_self; [exact V|now apply SR_mark, SR_same].
Qed.
Lemma var_decl_total : forall n v s, vok v s ->
  Tot (fun rec => enter_exit e n (nspan t) s (visit_children rec v t) (fun _ => visit_children rec v t)) (Post t s).
Proof.
  intros n v s V. apply (enter_exit_total n (nspan t) s (fun rec => visit_children rec v t) (fun rec _ => visit_children rec v t)); intros;
    apply kids_self; auto using SR_same.
Qed.
End Node.

Definition Below (t : node) : Prop := forall u, below u t -> shp u = true -> forall v, Good v u.
Ltac lay H L := let H0 := fresh in pose proof H as H0; apply shaped_node in H0 as [L H0]; cbn in L;
  repeat match type of L with
  | match map nkind ?l with _ => _ end = true => destruct l; cbn [map] in L; try discriminate L
  end.

Lemma expr_stmt_total : forall sp cs v s, let t := Node KExprStmt sp cs in shp t = true -> Below t -> vok v s ->
  Tot (fun rec => visit_expr_stmt e rec v t s) (Post t s).
Proof.
  intros sp cs v s t Ht IH V. unfold visit_expr_stmt. destruct (on_enter e NExprStmt (nspan t) s) as [[s1 old] cur] eqn:E.
  apply on_enter_same in E as (E1 & E2 & E3). lay Ht L. subst t. cbn [nkids]. 
  set (t := Node KExprStmt sp [n]) in *.
  destruct (is_directive_expr n); [apply self; [exact Ht|apply SR_same; assumption]|].
  apply Tot_bind with (Q1 := Post t s).
  - apply kids_self; [exact Ht|exact IH|exact V|]. destruct (is_next cur); [now apply SR_same|].
    destruct (is_injected_counter_expr n); [now apply SR_same|now apply SR_mark, SR_same].
  - intros [t' s3] P. cbn beta iota. apply Tot_ret. exact P.
Qed.
Lemma Tot_const : forall X (m : res X) (Q : X -> Prop), (exists a, m = Ok a /\ Q a) -> Tot (fun _ => m) Q.
Proof. intros X m Q (a & -> & H). now apply Tot_ret. Qed.
Lemma block_inv : forall b, kblock (nkind b) = true -> shp b = true ->
  exists i bsp ssp ss, b = Node (KBlock i) bsp [Node KStmts ssp ss] /\ forallb shp ss = true.
Proof.
  intros [kb bsp cs] K S. cbn in K. destruct kb; try discriminate. lay S L. apply shaped_node in S as [_ S].
  cbn in S. rewrite andb_true_r in S. destruct n as [k2 ssp ss]. destruct k2; try discriminate.
  cbn in S. eauto 8.
Qed.
Lemma stmt_inv : forall b, kstmt (nkind b) = true -> shp b = true -> exists bsp x, b = Node KStmt bsp [x] /\ shp x = true.
Proof.
  intros [kb bsp cs] K S. cbn in K. destruct kb; try discriminate. lay S L. apply shaped_node in S as [_ S].
  cbn in S. rewrite andb_true_r in S. eauto.
Qed.
Lemma shaped_inj_block : forall ss, forallb shp ss = true -> shp (mk KStmt [mk (KBlock true) [mk KStmts ss]]) = true.
Proof. intros ss H. apply shaped_node. split; [reflexivity|]. cbn [forallb]. rewrite andb_true_r. 
  apply shaped_node. split; [reflexivity|]. cbn [forallb]. rewrite andb_true_r. apply shaped_node. now split.
Qed.

(** loops *)
Lemma to_block_ok : forall b, kstmt (nkind b) = true -> shp b = true ->
  exists b', to_block b = Some b' /\ nkind b' = KStmt /\ shp b' = true /\ tn b' = tn b /\ (wt b' <= wt b + 3)%nat.
Proof.
  intros b K S. destruct (stmt_inv b K S) as (bsp & x & -> & Sx). unfold to_block. cbn [stmt_view].
  destruct (is_block x).
  - eexists. do 4 (split; [reflexivity || assumption|]). lia.
  - eexists. split; [reflexivity|]. split; [reflexivity|]. split; [apply shaped_inj_block; cbn [forallb]; now rewrite S|].
    cbn. lia.
Qed.
Lemma block_last_ok : forall cs, last_is kstmt (map nkind cs) = true -> (forall c, In c cs -> shp c = true) ->
  exists cs', block_last cs = Some cs' /\ map nkind cs' = map nkind cs /\ forallb shp cs' = true /\ tnl cs' = tnl cs /\
    (forall c', In c' cs' -> exists c, In c cs /\ (wt c' <= wt c + 3)%nat).
Proof.
  induction cs as [|c cs IH]; intros L S; [discriminate|]. destruct cs as [|d cs].
  - cbn [map last_is] in L. destruct (to_block_ok c L (S c (or_introl eq_refl))) as (c' & B & K & S' & T & W).
    cbn [block_last]. rewrite B. cbn [option_map]. eexists. split; [reflexivity|].
    split; [cbn; rewrite K; destruct c as [[] ? ?]; try discriminate; reflexivity|].
    split; [cbn; now rewrite S'|]. split; [rewrite !tnl_cons; now rewrite T|].
    intros x [<-|[]]. exists c. split; [now left|exact W].
  - destruct IH as (cs' & B & K & S' & T & W); [exact L|intros x Hx; apply S; now right|].
    change (block_last (c :: d :: cs)) with (option_map (cons c) (block_last (d :: cs))). rewrite B. cbn [option_map].
    eexists. split; [reflexivity|]. split; [cbn [map]; now rewrite K|].
    split; [cbn [forallb]; rewrite S'; rewrite (S c (or_introl eq_refl)); reflexivity|].
    split; [rewrite tnl_cons, T; reflexivity|].
    intros x [<-|Hx]; [exists c; split; [now left|lia]|]. destruct (W x Hx) as (y & Hy & Wy). exists y. split; [now right|exact Wy].
Qed.
Definition for_like_kind (k : kind) : bool :=
  match k with KFor | KForIn | KForOf | KWhile | KDoWhile => true | _ => false end.
Lemma for_like_total : forall k sp cs n v s, for_like_kind k = true -> let t := Node k sp cs in shp t = true -> Below t -> vok v s ->
  Tot (fun rec => visit_for_like e rec n v t s) (Post t s).
Proof.
  intros k sp cs n v s Hk t Ht IH V. unfold visit_for_like. apply enter_exit_total; intros.
  - apply self; [exact Ht|now apply SR_same].
  - pose proof Ht as H2. apply shaped_node in H2 as [L C]. rewrite forallb_forall in C.
    assert (L2 : last_is kstmt (map nkind cs) = true) by (destruct k; try discriminate Hk; exact L).
    destruct (block_last_ok cs L2 C) as (cs' & B & K & S' & T & W). cbn [nkids]. unfold t at 1 2. cbn [nkids]. rewrite B.
    cbn [expect bind nkind nspan]. apply kids_from; auto.
    + apply shaped_node. split; [now rewrite K|exact S'].
    + rewrite !tagged_not_expr; [reflexivity| |]; destruct k; try discriminate Hk; reflexivity.
    + unfold t. rewrite !tn_node, T. destruct k; try discriminate Hk; cbn [tagged_init]; lia.
    + cbn [nkids]. intros c' Hc. destruct (W c' Hc) as (c & Hin & Wc). right. unfold t. rewrite tn_node, wt_node.
      pose proof (tnl_in c' cs' Hc). pose proof (wtl_in c cs Hin). rewrite T in *.
      assert (weight k = 10%nat) by (destruct k; try discriminate Hk; reflexivity). lia.
    + now apply SR_mark, SR_same.
Qed.

(** expressions *)
Lemma paren_seq_facts : forall c x, shp x = true -> shp (paren_seq c x) = true /\ tn (paren_seq c x) = tn x /\
  (wt (paren_seq c x) <= wt x + 6)%nat.
Proof.
  intros c x S. split; [|split].
  - cbn. now rewrite S.
  - cbn. lia.
  - cbn. lia.
Qed.
Lemma branch_counter_ok : forall x b s, is_expr x = true -> shp x = true -> has_branch b (cov s) ->
  exists x' s', replace_expr_with_branch_counter e x b s = Ok (x', s') /\ nkind x' = KExpr /\ shp x' = true /\ tn x' = tn x /\
    (wt x' <= wt x + 6)%nat /\ SR s s' /\ before s' = before s.
Proof.
  intros x b s X S B. unfold replace_expr_with_branch_counter. rewrite X. cbn [negb].
  destruct (add_branch_path_ok b (range_of e (nspan x)) (cov s) B) as (c & i & -> & G). cbn [bind].
  destruct (paren_seq_facts (CB b i) x S) as (P1 & P2 & P3).
  eexists _, _. split; [reflexivity|]. split; [reflexivity|]. split; [exact P1|]. split; [exact P2|]. split; [exact P3|].
  split; [|reflexivity]. split; [exact G|auto].
Qed.
Lemma cond_total : forall sp cs v s, let t := Node KCond sp cs in shp t = true -> Below t -> vok v s ->
  Tot (fun rec => visit_cond_expr e rec v t s) (Post t s).
Proof.
  intros sp cs v s t Ht IH V. unfold visit_cond_expr. apply enter_exit_total; intros.
  - apply kids_self; auto. now apply SR_same.
  - pose proof (fun c => shk _ _ _ Ht c) as C. lay Ht L. subst t. cbn [nkids nkind nspan].
    set (t := Node KCond sp [n; n0; n1]) in *. apply andb_prop in L as [X0 X1].
    destruct (new_branch CondExpr (range_of e sp) false (cov s1)) as [c b] eqn:Eb.
    pose proof (new_branch_grows CondExpr (range_of e sp) false (cov s1)) as [G HB]. rewrite Eb in G, HB. cbn [fst snd] in G, HB.
    assert (R2 : SR s (set_cov c s1)) by (split; cbn; [rewrite H in G; exact G|now rewrite H0]).
    apply Tot_bind with (Q1 := fun r => nkind (fst r) = KExpr /\ shp (fst r) = true /\ tn (fst r) = tn n0 /\ (wt (fst r) <= wt n0 + 6)%nat /\ SR s (snd r) /\ has_branch b (cov (snd r))).
    { destruct (is_next (hint e (nspan n0))).
      - apply Tot_ret. cbn [fst snd]. split; [destruct n0 as [[] ? ?]; try discriminate; reflexivity|].
        split; [apply C; cbn; auto|]. split; [reflexivity|]. split; [lia|]. split; [exact R2|exact HB].
      - apply Tot_const. destruct (branch_counter_ok n0 b (set_cov c s1)) as (x' & s' & E & P1 & P2 & P3 & P4 & P5 & P6);
          [destruct n0 as [[] ? ?]; try discriminate; reflexivity|apply C; cbn; auto|exact HB|].
        eexists. split; [exact E|]. cbn [fst snd]. do 4 (split; [assumption|]). split; [eapply SR_trans; eassumption|now apply P5]. }
    intros [con s3] (P1 & P2 & P3 & P4 & P5 & P6). cbn [fst snd] in *. cbn beta iota.
    apply Tot_bind with (Q1 := fun r => nkind (fst r) = KExpr /\ shp (fst r) = true /\ tn (fst r) = tn n1 /\ (wt (fst r) <= wt n1 + 6)%nat /\ SR s (snd r)).
    { destruct (is_next (hint e (nspan n1))).
      - apply Tot_ret. cbn [fst snd]. split; [destruct n1 as [[] ? ?]; try discriminate; reflexivity|].
        split; [apply C; cbn; auto|]. split; [reflexivity|]. split; [lia|]. exact P5.
      - apply Tot_const. destruct (branch_counter_ok n1 b s3) as (x' & s' & E & Q1 & Q2 & Q3 & Q4 & Q5 & Q6);
          [destruct n1 as [[] ? ?]; try discriminate; reflexivity|apply C; cbn; auto|exact P6|].
        eexists. split; [exact E|]. cbn [fst snd]. do 4 (split; [assumption|]). eapply SR_trans; eassumption. }
    intros [alt s4] (Q1 & Q2 & Q3 & Q4 & Q5). cbn [fst snd] in *. cbn beta iota.
    apply kids_from; auto.
    + apply shaped_node. split; [cbn; now rewrite P1, Q1|]. cbn [forallb]. rewrite P2, Q2, C by (cbn; auto). reflexivity.
    + unfold t. rewrite !tn_node, !tnl_cons, P3, Q3. cbn [tagged_init]. lia.
    + cbn [nkids In]. intros x Hx. right. unfold t. rewrite tn_node, wt_node, !tnl_cons, !wtl_cons, tnl_nil, wtl_nil. cbn [tagged_init weight].
      destruct Hx as [<-|[<-|[<-|[]]]]; lia.
Qed.
(** functions *)
Lemma prepend_ok : forall c b, kblock (nkind b) = true -> shp b = true ->
  exists b', prepend_to_block c b = Some b' /\ kblock (nkind b') = true /\ shp b' = true /\ tn b' = tn b /\ (wt b' <= wt b + 4)%nat.
Proof.
  intros c b K S. destruct (block_inv b K S) as (i & bsp & ssp & ss & -> & Ss). unfold prepend_to_block. cbn [block_view stmts_view].
  eexists. split; [reflexivity|]. split; [reflexivity|]. split.
  - apply shaped_node. split; [reflexivity|]. cbn [forallb]. rewrite andb_true_r. apply shaped_node. split; [reflexivity|].
    cbn [forallb]. rewrite Ss. reflexivity.
  - split.
    + rewrite !tn_node, !tnl_cons, !tn_node, !tnl_cons. reflexivity.
    + rewrite !wt_node, !wtl_cons, !wt_node, !wtl_cons. change (wt (counter_stmt c)) with 4%nat. cbn [weight]. lia.
Qed.
Definition FPost (fn : node) (s : st) (r : node * st) : Prop :=
  nkind (fst r) = KFunction /\ shp (fst r) = true /\ tn (fst r) = tn fn /\ (wt (fst r) <= wt fn + 4)%nat /\ SR s (snd r).
Lemma new_function_SR : forall n d l s c i, new_function n d l (cov s) = (c, i) -> SR s (set_cov c s).
Proof. intros n d l s c i H. split; [|auto]. pose proof (new_function_grows n d l (cov s)) as G. rewrite H in G. exact G. Qed.
Lemma none_kind : forall b, is_none b = knone (nkind b).
Proof. intros [[] ? ?]; reflexivity. Qed.
Lemma fn_total : forall ident fn s, kfunction (nkind fn) = true -> shp fn = true ->
  Tot (fun _ => create_fn_instrumentation e ident fn s) (FPost fn s).
Proof.
  intros ident [k fsp cs] s K S. cbn in K. destruct k; try discriminate. pose proof (fun c => shk _ _ _ S c) as C. lay S L.
  rename n1 into body. cbn [create_fn_instrumentation].
  destruct (new_function _ _ _ (cov s)) as [c i] eqn:En. apply new_function_SR in En.
  rewrite none_kind. destruct (knone (nkind body)) eqn:Kn.
  - exists 0%nat, (Panic RUnimplemented). split; [reflexivity|]. split; [reflexivity|].
    destruct bodies; [|reflexivity]. destruct body as [[] ? ?]; discriminate.
  - rewrite andb_false_r, orb_false_r in L.
    destruct (prepend_ok (CF i) body L) as (b' & -> & K' & S' & T' & W'); [apply C; cbn; auto|]. cbn [expect bind].
    apply Tot_ret. split; [reflexivity|]. split.
    { apply shaped_node. split; [cbn; now rewrite K'|]. cbn [forallb]. rewrite S', !C by (cbn; auto). reflexivity. }
    cbn [fst snd]. rewrite !tn_node, !wt_node, !tnl_cons, !wtl_cons, T'. cbn [tagged_init weight].
    split; [lia|]. split; [lia|exact En].
Qed.
Lemma fn_kids : forall k sp a fn fn' v s s2, let t := Node k sp [a; fn] in
  (weight k = 10)%nat -> is_expr t = false -> tagged_init k [a; fn] = false -> tagged_init k [a; fn'] = false ->
  layout bodies k [nkind a; KFunction] = true ->
  shp t = true -> Below t -> vok v s -> SR s s2 -> nkind fn' = KFunction -> shp fn' = true -> tn fn' = tn fn -> (wt fn' <= wt fn + 4)%nat ->
  Tot (fun rec => visit_children rec v (Node k sp [a; fn']) s2) (Post t s).
Proof.
  intros k sp a fn fn' v s s2 t W X T1 T2 L Ht IH V R K' S' T' W'.
  apply kids_from; auto.
  - apply shaped_node. split; [cbn [map]; now rewrite K'|]. cbn [forallb]. rewrite S'. rewrite (shk _ _ _ Ht a (or_introl eq_refl)). reflexivity.
  - unfold t. rewrite !tn_node, !tnl_cons, T', T1, T2. lia.
  - cbn [nkids In]. intros x Hx. right. unfold t. rewrite tn_node, wt_node, !tnl_cons, !wtl_cons, tnl_nil, wtl_nil, T1, W.
    destruct Hx as [<-|[<-|[]]]; lia.
Qed.
Lemma SR_trans3 : forall s s1 s2, cov s1 = cov s -> before s1 = before s -> SR s1 s2 -> SR s s2.
Proof. intros s s1 s2 H K R. eapply SR_trans; [apply SR_same; eassumption|exact R]. Qed.
Lemma fn_decl_total : forall sp cs v s, let t := Node KFnDecl sp cs in shp t = true -> Below t -> vok v s ->
  Tot (fun rec => visit_fn_decl e rec v t s) (Post t s).
Proof.
  intros sp cs v s t Ht IH V. pose proof (fun c => shk _ _ _ Ht c) as C. lay Ht L. subst t. unfold visit_fn_decl. cbn [nkids nkind nspan].
  apply andb_prop in L as [L1 L2]. apply enter_exit_total; intros.
  - apply self; [exact Ht|now apply SR_same].
  - unfold ident_view. destruct (nkind n) eqn:Ki; try discriminate L1. cbn [expect bind].
    eapply Tot_bind; [apply fn_total; [exact L2|apply C; cbn; auto]|].
    intros [fn' s2] (P1 & P2 & P3 & P4 & P5). cbn [fst snd] in *. cbn beta iota.
    apply fn_kids; auto; [cbn; now rewrite Ki|now apply (SR_trans3 s s1)].
Qed.
Lemma fn_expr_total : forall sp cs v s, let t := Node KFnExpr sp cs in shp t = true -> Below t -> vok v s ->
  Tot (fun rec => visit_fn_expr e rec v t s) (Post t s).
Proof.
  intros sp cs v s t Ht IH V. pose proof (fun c => shk _ _ _ Ht c) as C. lay Ht L. subst t. unfold visit_fn_expr. cbn [nkids nkind nspan].
  apply enter_exit_total; intros.
  - apply self; [exact Ht|now apply SR_same].
  - cbv zeta. match goal with |- context [if ?b then _ else _] => destruct b end; [apply self; [exact Ht|now apply SR_same]|].
    eapply Tot_bind; [apply fn_total; [exact L|apply C; cbn; auto]|].
    intros [fn' s2] (P1 & P2 & P3 & P4 & P5). cbn [fst snd] in *. cbn beta iota.
    apply fn_kids; auto. now apply (SR_trans3 s s1).
Qed.
Lemma class_method_total : forall sp cs v s, let t := Node KClassMethod sp cs in shp t = true -> Below t -> vok v s ->
  Tot (fun rec => visit_class_method e rec v t s) (Post t s).
Proof.
  intros sp cs v s t Ht IH V. pose proof (fun c => shk _ _ _ Ht c) as C. lay Ht L. subst t. unfold visit_class_method. cbn [nkids nkind nspan].
  apply enter_exit_total; intros.
  - apply self; [exact Ht|now apply SR_same].
  - destruct (prop_ident_view n) as [[name isp]|]; [|apply self; [exact Ht|now apply SR_same]].
    destruct (is_ignored_method e name); [apply self; [exact Ht|now apply SR_same]|].
    eapply Tot_bind; [apply fn_total; [exact L|apply C; cbn; auto]|].
    intros [fn' s2] (P1 & P2 & P3 & P4 & P5). cbn [fst snd] in *. cbn beta iota.
    apply fn_kids; auto. now apply (SR_trans3 s s1).
Qed.
Lemma method_prop_total : forall sp cs v s, let t := Node KMethodProp sp cs in shp t = true -> Below t -> vok v s ->
  Tot (fun rec => visit_method_prop e rec v t s) (Post t s).
Proof.
  intros sp cs v s t Ht IH V. pose proof (fun c => shk _ _ _ Ht c) as C. lay Ht L. subst t. unfold visit_method_prop. cbn [nkids nkind nspan].
  apply enter_exit_total; intros.
  - apply self; [exact Ht|now apply SR_same].
  - destruct (prop_ident_view n) as [[name isp]|]; [destruct (is_ignored_method e name); [apply self; [exact Ht|now apply SR_same]|]|].
    all: (eapply Tot_bind; [apply fn_total; [exact L|apply C; cbn; auto]|];
      intros [fn' s2] (P1 & P2 & P3 & P4 & P5); cbn [fst snd] in *; cbn beta iota;
      apply fn_kids; auto; now apply (SR_trans3 s s1)).
Qed.
(** getters and setters *)
Lemma accessor_body_ok : forall name sp s b, kblock (nkind b) || knone (nkind b) = true -> shp b = true ->
  exists b' s', accessor_body e name sp s b = Ok (b', s') /\ kblock (nkind b') || knone (nkind b') = true /\ shp b' = true /\
    tn b' = tn b /\ (wt b' <= wt b + 4)%nat /\ SR s s'.
Proof.
  intros name sp s b K S. unfold accessor_body. rewrite none_kind. destruct (knone (nkind b)) eqn:Kn.
  - eexists _, _. split; [reflexivity|]. rewrite Kn, orb_true_r. do 3 (split; [auto|]). split; [lia|apply SR_refl].
  - rewrite orb_false_r in K. destruct (new_function _ _ _ (cov s)) as [c i] eqn:En. apply new_function_SR in En.
    destruct (prepend_ok (CF i) b K S) as (b' & -> & K' & S' & T' & W'). cbn [expect bind].
    eexists _, _. split; [reflexivity|]. rewrite K'. do 4 (split; [auto|]). exact En.
Qed.
Lemma map_last_ok : forall name sp s cs, last_is (fun b => kblock b || knone b) (map nkind cs) = true -> (forall c, In c cs -> shp c = true) ->
  exists cs' s', map_last (accessor_body e name sp s) cs = Ok (cs', s') /\
    last_is (fun b => kblock b || knone b) (map nkind cs') = true /\ forallb shp cs' = true /\ tnl cs' = tnl cs /\
    (forall c', In c' cs' -> exists c, In c cs /\ (wt c' <= wt c + 4)%nat) /\ SR s s'.
Proof.
  intros name sp s. induction cs as [|c cs IH]; intros L S; [discriminate|]. destruct cs as [|d cs].
  - cbn [map last_is] in L. destruct (accessor_body_ok name sp s c L (S c (or_introl eq_refl))) as (c' & s' & E & K & S' & T & W & R).
    cbn [map_last]. rewrite E. cbn [bind]. eexists _, _. split; [reflexivity|]. split; [exact K|].
    split; [cbn; now rewrite S'|]. split; [rewrite !tnl_cons; now rewrite T|]. split; [|exact R].
    intros x [<-|[]]. exists c. split; [now left|exact W].
  - destruct IH as (cs' & s' & E & K & S' & T & W & R); [exact L|intros x Hx; apply S; now right|].
    change (map_last (accessor_body e name sp s) (c :: d :: cs)) with
      (let* (cs'', s') := map_last (accessor_body e name sp s) (d :: cs) in Ok (c :: cs'', s')). rewrite E. cbn [bind].
    eexists _, _. split; [reflexivity|].
    split; [destruct cs' as [|x cs']; [discriminate|exact K]|].
    split; [cbn [forallb]; rewrite S'; rewrite (S c (or_introl eq_refl)); reflexivity|].
    split; [rewrite tnl_cons, T; reflexivity|]. split; [|exact R].
    intros x [<-|Hx]; [exists c; split; [now left|lia]|]. destruct (W x Hx) as (y & Hy & Wy). exists y. split; [now right|exact Wy].
Qed.
Lemma accessor_total : forall k sp cs n v s, (k = KGetter \/ k = KSetter) -> let t := Node k sp cs in shp t = true -> Below t -> vok v s ->
  Tot (fun rec => visit_accessor e rec n v t s) (Post t s).
Proof.
  intros k sp cs n v s Hk t Ht IH V. unfold visit_accessor. apply enter_exit_total; intros.
  - apply self; [exact Ht|now apply SR_same].
  - assert (W : weight k = 10%nat) by (destruct Hk; subst k; reflexivity).
    assert (TI : forall l, tagged_init k l = false) by (destruct Hk; subst k; reflexivity).
    assert (L : last_is (fun b => kblock b || knone b) (map nkind cs) = true).
    { pose proof Ht as H2. apply shaped_node in H2 as [L _]. destruct cs; [destruct Hk; subst k; discriminate L|].
      destruct Hk; subst k; exact L. }
    assert (G : forall name sp', Tot (fun rec => let* (cs, s2) := map_last (accessor_body e name sp' s1) (nkids t) in
       visit_children rec v (Node (nkind t) (nspan t) cs) s2) (Post t s)).
    { intros name sp'. destruct (map_last_ok name sp' s1 cs L (shk _ _ _ Ht)) as (cs' & s' & E & K & S' & T & Wc & R).
      unfold t at 1. cbn [nkids]. rewrite E. cbn [bind]. unfold t at 1 2. cbn [nkind nspan]. apply kids_from; auto.
      - apply shaped_node. split; [|exact S']. destruct cs'; [discriminate K|]. destruct Hk; subst k; exact K.
      - rewrite !tagged_not_expr; [reflexivity| |]; destruct Hk; subst k; reflexivity.
      - unfold t. rewrite !tn_node, !TI, T. lia.
      - cbn [nkids]. intros c' Hc. destruct (Wc c' Hc) as (c & Hin & Wc'). right. unfold t. rewrite tn_node, wt_node, TI.
        pose proof (tnl_in c' cs' Hc). pose proof (wtl_in c cs Hin). rewrite T in *. lia.
      - now apply (SR_trans3 s s1). }
    unfold t at 1. cbn [nkids]. destruct cs as [|key rest]; [discriminate L|].
    destruct (prop_ident_view key) as [[name isp]|]; [destruct (is_ignored_method e name)|];
      [apply self; [exact Ht|now apply SR_same]|apply G|apply G].
Qed.
Lemma below_grandchild : forall x t c, below x t -> In c (nkids x) -> below c t.
Proof. intros [k sp cs] t c B H. eapply below_trans; [apply below_child; exact H|exact B]. Qed.
Lemma children_good : forall t x v, Below t -> below x t -> shp x = true -> forall c, In c (nkids x) -> Good v c.
Proof.
  intros t [k sp cs] v IH B S c H. apply IH; [eapply below_grandchild; [exact B|exact H]|]. now apply (shk _ _ _ S).
Qed.
Lemma stmts_good : forall t k sp ss, Below t -> below (Node k sp ss) t -> forallb shp ss = true ->
  forall x c, In x ss -> In c (nkids x) -> Good VStmt c.
Proof.
  intros t k sp ss IH B S x c Hx Hc. apply (children_good t x VStmt IH); [|rewrite forallb_forall in S; auto|exact Hc].
  eapply below_grandchild; [exact B|exact Hx].
Qed.
Lemma below_block : forall k1 s1 k2 s2 x t, below (Node k1 s1 [Node k2 s2 [x]]) t -> below x t.
Proof.
  intros k1 s1 k2 s2 x t B. apply (below_grandchild (Node k2 s2 [x])); [|now left].
  apply (below_grandchild (Node k1 s1 [Node k2 s2 [x]])); [exact B|now left].
Qed.
Lemma stmts_node_total : forall sp cs s, let t := Node KStmts sp cs in shp t = true -> Below t ->
  Tot (fun rec => visit_stmts e rec t s) (Post t s).
Proof.
  intros sp cs s t Ht IH. unfold visit_stmts. unfold t. cbn [nkids nkind nspan]. pose proof Ht as H2. apply shaped_node in H2 as [_ C].
  eapply Tot_bind; [apply stmts_total; [|exact C]|].
  - intros x c Hx Hc. apply (children_good t x VStmt IH); [now apply below_child|now apply (shk _ _ _ Ht)|exact Hc].
  - intros [ss' s1] (P1 & P2 & P3 & P4). cbn [fst snd] in *. cbn beta iota. apply Tot_ret.
    split; [reflexivity|]. split; [reflexivity|]. split; [apply shaped_node; now split|].
    split; [cbn [fst]; rewrite !tn_node; cbn [tagged_init]; lia|exact P3].
Qed.
Lemma arrow_total : forall sp cs v s, let t := Node KArrow sp cs in shp t = true -> Below t -> vok v s ->
  Tot (fun rec => visit_arrow_expr e rec v t s) (Post t s).
Proof.
  intros sp cs v s t Ht IH V. pose proof (fun c => shk _ _ _ Ht c) as C. lay Ht L. subst t. unfold visit_arrow_expr.
  apply enter_exit_total; intros.
  - apply self; [exact Ht|now apply SR_same].
  - cbn [nkids nkind nspan]. set (t := Node KArrow sp [n; n0; n1]) in *.
    destruct (new_function _ _ _ (cov s1)) as [c i] eqn:En. apply new_function_SR in En. apply (SR_trans3 s) in En; auto.
    assert (Sb : shp n0 = true) by (apply C; cbn; auto).
    assert (Bb : below n0 t) by (apply below_child; cbn; auto).
    assert (Fin : forall b' s3, kblock (nkind b') || kexpr (nkind b') = true -> shp b' = true -> (tn b' <= tn n0)%nat -> SR (set_cov c s1) s3 ->
      Post t s (Node KArrow sp [n; b'; n1], s3)).
    { intros b' s3 K' S' T' R'. split; [reflexivity|]. split; [reflexivity|]. split.
      - apply shaped_node. split; [exact K'|]. cbn [forallb]. rewrite S', !C by (cbn; auto). reflexivity.
      - split; [|eapply SR_trans; eassumption]. unfold t. cbn [fst]. rewrite !tn_node, !tnl_cons. cbn [tagged_init]. lia. }
    destruct (is_expr n0) eqn:X.
    + assert (Br : forall q, below (Node KReturn q [n0]) t).
      { intros q. right. unfold t. rewrite !tn_node, !wt_node, !tnl_cons, !wtl_cons, tnl_nil, wtl_nil. cbn [tagged_init weight]. lia. }
      eapply Tot_bind; [apply stmts_total|].
      * intros x d [<-|[<-|[]]] Hd; cbn [nkids In] in Hd; destruct Hd as [<-|[]].
        -- apply IH; [|reflexivity]. right. cbn. lia.
        -- apply IH; [apply Br|]. apply shaped_node. split; [reflexivity|]. cbn [forallb]. now rewrite Sb.
      * cbn [forallb]. rewrite (proj1 (counter_shaped (CF i))). cbn. now rewrite Sb.
      * intros [ss' s3] (P1 & P2 & P3 & P4). cbn [fst snd] in *. cbn beta iota. apply Tot_ret. apply Fin; auto.
        -- apply shaped_node. split; [reflexivity|]. cbn [forallb]. rewrite andb_true_r. apply shaped_node. now split.
        -- cbn in P2. cbn. fold (tnl ss') in *. lia.
    + assert (Kb : kblock (nkind n0) = true).
      { rewrite orb_comm in L. destruct n0 as [[] ? ?]; try discriminate; reflexivity. }
      destruct (block_inv n0 Kb Sb) as (bi & bsp & ssp & ss & -> & Ss). cbn [block_view stmts_view expect bind].
      eapply Tot_bind; [apply stmts_total; [|exact Ss]|].
      * apply (stmts_good t KStmts ssp ss IH); [|exact Ss]. eapply below_grandchild; [exact Bb|now left].
      * intros [ss' s3] (P1 & P2 & P3 & P4). cbn [fst snd] in *. cbn beta iota. apply Tot_ret. apply Fin; auto.
        -- apply shaped_node. split; [reflexivity|]. cbn [forallb]. rewrite andb_true_r. apply shaped_node. split; [reflexivity|].
           cbn [forallb]. now rewrite P1.
        -- rewrite !tn_node, !tnl_cons, !tn_node, !tnl_cons, tnl_nil. cbn [tagged_init].
           rewrite (proj2 (counter_shaped (CF i))). lia.
Qed.

(** initialisers *)
Definition IPost (x : node) (s : st) (r : node * st) : Prop :=
  nkind (fst r) = KExpr /\ shp (fst r) = true /\ is_tagged_tpl (fst r) = is_tagged_tpl x /\ (tn (fst r) <= tn x)%nat /\
  (is_tagged_tpl x = false -> (wt (fst r) <= wt x + 6)%nat) /\ SR s (snd r).
Lemma stmt_counter_ok : forall x s, shp x = true ->
  is_tagged_tpl x = false -> is_expr x = true -> IPost x s (replace_expr_with_stmt_counter e x s).
Proof.
  intros x s S T X. unfold replace_expr_with_stmt_counter.
  pose proof (new_statement_grows (range_of e (nspan x)) (cov s)) as G.
  destruct (new_statement _ _) as [c i]. destruct (paren_seq_facts (CS i) x S) as (P1 & P2 & P3).
  split; [reflexivity|]. split; [exact P1|]. split; [rewrite T; reflexivity|]. cbn [fst snd]. rewrite P2.
  split; [lia|]. split; [auto|]. split; [exact G|auto].
Qed.
Lemma cover_total : forall v x s, is_expr x = true -> shp x = true -> stack s <> [] -> vok v s ->
  (forall c, In c (nkids x) -> Good v c) ->
  Tot (fun rec => cover_statement e rec v x s) (IPost x s).
Proof.
  intros v x s X S St V G. unfold cover_statement. rewrite X. cbn [negb].
  assert (Kx : nkind x = KExpr) by (destruct x as [[] ? ?]; try discriminate; reflexivity).
  destruct (is_tagged_tpl x) eqn:T.
  - destruct x as [k sp cs]. cbn in Kx. subst k. apply shaped_node in S as [L _].
    eapply Tot_mono; [apply children_total; [exact L|exact G|eapply vok_grow; [exact V|apply mark_SR]]|].
    intros r (P1 & P2 & P3 & P4 & P5). split; [exact P1|]. split; [exact P3|]. split; [exact P2|]. split; [exact P4|].
    split; [rewrite T; discriminate|]. eapply SR_trans; [apply mark_SR|exact P5].
  - assert (Self : forall s', SR s s' -> IPost x s (x, s')).
    { intros s' R. split; [exact Kx|]. split; [exact S|]. split; [reflexivity|]. split; [cbn; lia|]. split; [cbn; lia|exact R]. }
    destruct (has_block x); [apply Tot_ret, Self, mark_SR|]. cbv zeta.
    set (s1 := if has_stmt x then mark_prepend_stmt_counter e (nspan x) s else s).
    assert (R1 : SR s s1) by (unfold s1; destruct (has_stmt x); [apply mark_SR|apply SR_refl]).
    assert (St1 : stack s1 <> []) by (unfold s1; destruct (has_stmt x); [now rewrite mark_stack|exact St]).
    assert (Rep : Tot (fun _ => Ok (replace_expr_with_stmt_counter e x s1)) (IPost x s)).
    { apply Tot_ret. destruct (stmt_counter_ok x s1 S T X) as (Q1 & Q2 & Q3 & Q4 & Q5 & Q6).
      do 5 (split; [assumption|]). eapply SR_trans; eassumption. }
    destruct (stack s1) as [|parent stk]; [congruence|].
    destruct (has_hoisting x && _).
    + destruct (nodes_get 3 (parent :: stk)); [|exact Rep].
      destruct (nodes_get 4 (parent :: stk)) as [[]|]; apply Tot_ret, Self; auto; now apply SR_mark.
    + destruct (has_expr x); [exact Rep|apply Tot_ret, Self, R1].
Qed.
Definition init_kind (k : kind) : bool := match k with KVarDeclarator | KClassProp | KPrivateProp => true | _ => false end.
Lemma tn_init : forall k sp a x rest, init_kind k = true ->
  tn (Node k sp (a :: x :: rest)) = ((if is_tagged_tpl x then 1 else 0) + Nat.max (tn a) (Nat.max (tn x) (tnl rest)))%nat.
Proof. intros k sp a x rest K. rewrite tn_node, !tnl_cons. destruct k; try discriminate K; reflexivity. Qed.
Lemma initialized_total : forall k sp cs n v s, init_kind k = true -> let t := Node k sp cs in shp t = true -> Below t -> vok v s ->
  Tot (fun rec => visit_initialized e rec n v t s) (Post t s).
Proof.
  intros k sp cs n v s Hk t Ht IH V. pose proof (fun c => shk _ _ _ Ht c) as C. unfold visit_initialized. apply enter_exit_total; intros.
  - apply self; [exact Ht|now apply SR_same].
  - pose proof Ht as H2. apply shaped_node in H2 as [L _].
    assert (exists name x rest, cs = name :: x :: rest /\ knone (nkind x) || kexpr (nkind x) = true) as (name & x & rest & -> & Kx).
    { destruct k; try discriminate Hk; cbn in L; destruct cs as [|a [|b r]]; try discriminate L; eauto 6. }
    unfold t at 1. cbn [nkids].
    rewrite none_kind. destruct (knone (nkind x)) eqn:Kn.
    + cbn [bind]. apply kids_self; auto. now apply SR_same.
    + assert (X : is_expr x = true) by (destruct x as [[] ? ?]; try discriminate; reflexivity).
      assert (Sx : shp x = true) by (apply C; cbn; auto).
      assert (Bx : below x t) by (apply below_child; cbn; auto).
      apply Tot_bind with (Q1 := IPost x s1).
      { apply cover_total; auto; [rewrite H1; discriminate|eapply vok_grow; [exact V|intros i; now rewrite H]|].
        apply (children_good t x v IH Bx Sx). }
      intros [x' s2] (P1 & P2 & P3 & P4 & P5 & P6). cbn [fst snd] in *. cbn beta iota. unfold t at 1 2. cbn [nkind nspan].
      assert (TT : (tn (Node k sp (name :: x' :: rest)) <= tn t)%nat).
      { unfold t. rewrite !tn_init by exact Hk. rewrite P3. lia. }
      apply kids_from; auto.
      * apply shaped_node. split.
        -- destruct k; try discriminate Hk; cbn; rewrite P1; reflexivity.
        -- cbn [forallb]. rewrite P2. rewrite (C name (or_introl eq_refl)). cbn. apply forallb_forall. intros y Hy. apply C. cbn. auto.
      * cbn [nkids]. intros y [<-|[<-|Hy]].
        -- apply below_child. now left.
        -- unfold t. unfold below. rewrite tn_init by exact Hk. destruct (is_tagged_tpl x) eqn:T; [left; lia|right].
           specialize (P5 eq_refl). rewrite wt_node, !wtl_cons.
           assert (weight k = 10%nat) by (destruct k; try discriminate Hk; reflexivity). lia.
        -- apply below_child. cbn. auto.
      * now apply (SR_trans3 s s1).
Qed.
(** branches *)
Lemma new_branch_SR : forall t l f s c b, new_branch t l f (cov s) = (c, b) -> SR s (set_cov c s) /\ has_branch b c.
Proof.
  intros t l f s c b H. destruct (new_branch_grows t l f (cov s)) as [G B]. rewrite H in G, B. split; [split; [exact G|auto]|exact B].
Qed.
Lemma switch_total : forall sp cs s, let t := Node KSwitch sp cs in shp t = true -> Below t ->
  Tot (fun rec => visit_switch_stmt e rec t s) (Post t s).
Proof.
  intros sp cs s t Ht IH. unfold visit_switch_stmt. apply enter_exit_total; intros.
  - apply self; [exact Ht|now apply SR_same].
  - cbv zeta. set (s2 := mark_prepend_stmt_counter e (nspan t) s1).
    assert (R2 : SR s s2) by (now apply SR_mark, SR_same).
    destruct (new_branch BSwitch (range_of e (nspan t)) false (cov s2)) as [c b] eqn:Eb. apply new_branch_SR in Eb as [R3 B].
    apply (SR_trans s) in R3; [|exact R2].
    pose proof Ht as H2. apply shaped_node in H2 as [L C]. rewrite forallb_forall in C.
    eapply Tot_bind.
    + apply children_total; [exact L| |exact B]. intros x Hx. apply IH; [now apply below_child|now apply C].
    + intros [t' sv] (P1 & P2 & P3 & P4 & P5). cbn [fst snd] in *. cbn beta iota. apply Tot_ret.
      do 4 (split; [assumption|]). cbn [snd]. split; [|apply R3]. intros i Hi. apply P5. cbn. apply R3. exact Hi.
Qed.
Lemma switch_case_total : forall sp cs b s, let t := Node KSwitchCase sp cs in shp t = true -> Below t -> has_branch b (cov s) ->
  Tot (fun rec => visit_switch_case e rec b t s) (Post t s).
Proof.
  intros sp cs b s t Ht IH B. unfold visit_switch_case. apply enter_exit_total; intros.
  - apply self; [exact Ht|now apply SR_same].
  - rewrite <- H in B. destruct (add_branch_path_ok b (range_of e (nspan t)) (cov s1) B) as (c & i & -> & G). cbn [bind].
    assert (R : SR s (set_cov c s1)) by (apply (SR_trans3 s s1); [exact H|exact H0|split; [exact G|auto]]).
    pose proof Ht as H2. apply shaped_node in H2 as [L C]. rewrite forallb_forall in C.
    eapply Tot_bind.
    + apply children_total; [exact L| |cbn; apply G; exact B]. intros x Hx. apply IH; [now apply below_child|now apply C].
    + intros [[k' sp' cs'] s2] (P1 & P2 & P3 & P4 & P5). cbn [fst snd nkind] in *. subst k'. cbn beta iota. cbn [nkids nkind nspan].
      pose proof (fun c => shk _ _ _ P3 c) as C'. lay P3 L'. destruct n0 as [k0 ssp ss]. cbn in L'. destruct k0; try discriminate L'.
      cbn [stmts_view expect bind]. apply Tot_ret. split; [reflexivity|]. split; [reflexivity|]. split.
      * apply shaped_node. split; [reflexivity|]. cbn [forallb]. rewrite (C' n) by (cbn; auto).
        assert (Ss : shp (Node KStmts ssp ss) = true) by (apply C'; cbn; auto). apply shaped_node in Ss as [_ Ss].
        cbn [andb]. rewrite andb_true_r. apply shaped_node. split; [reflexivity|]. cbn [forallb]. now rewrite Ss.
      * split; [|eapply SR_trans; eassumption]. cbn [fst]. rewrite tn_node, !tnl_cons, !tn_node, !tnl_cons in *. cbn [tagged_init] in *.
        rewrite (proj2 (counter_shaped (CB b i))). exact P4.
Qed.
Definition SPost (x : node) (s : st) (r : node * st) : Prop :=
  nkind (fst r) = KStmt /\ shp (fst r) = true /\ (tn (fst r) <= tn x)%nat /\ SR s (snd r).
Lemma wrap_total : forall t b r cur x s, Below t -> kstmt (nkind x) = true -> shp x = true -> below x t -> has_branch b (cov s) ->
  Tot (fun rec => wrap_with_counter e rec b r cur x s) (SPost x s).
Proof.
  intros t b r cur x s IH K S Bx B. unfold wrap_with_counter.
  destruct (add_branch_path_ok b r (cov s) B) as (c & i & -> & G). cbn [bind].
  assert (R : SR s (set_cov c s)) by (split; [exact G|auto]).
  destruct (stmt_inv x K S) as (xsp & y & -> & Sy). cbn [stmt_view expect bind].
  destruct (is_block y) eqn:Ky.
  - assert (Kb : kblock (nkind y) = true) by (destruct y as [[] ? ?]; try discriminate; reflexivity).
    destruct (block_inv y Kb Sy) as (bi & bsp & ssp & ss & -> & Ss). cbn [block_view stmts_view expect bind].
    eapply Tot_bind; [apply stmts_total; [|exact Ss]|].
    + apply (stmts_good t KStmts ssp ss IH); [|exact Ss]. eapply below_block. exact Bx.
    + intros [ss' s2] (P1 & P2 & P3 & P4). cbn [fst snd] in *. cbn beta iota. apply Tot_ret. split; [reflexivity|]. split.
      * apply shaped_node. split; [reflexivity|]. cbn [forallb]. rewrite andb_true_r. apply shaped_node. split; [reflexivity|].
        cbn [forallb]. rewrite andb_true_r. apply shaped_node. split; [reflexivity|]. cbn [forallb]. now rewrite P1.
      * split; [|eapply SR_trans; eassumption]. cbn [fst]. repeat (rewrite ?tn_node, ?tnl_cons, ?tnl_nil). cbn [tagged_init].
        rewrite (proj2 (counter_shaped (CB b i))). lia.
  - eapply Tot_bind; [apply (IH _ Bx S VStmt); exact I|].
    intros [x' sv] (P1 & P2 & P3 & P4 & P5). cbn [fst snd] in *. cbn beta iota. apply Tot_ret.
    assert (Bs : sonly (before sv)) by (apply P5; apply sonly_nil). destruct (sonly_shaped _ Bs) as [B1 B2].
    split; [reflexivity|]. split.
    + apply shaped_inj_block. cbn [app forallb]. rewrite forallb_app, B1. cbn [forallb]. rewrite P3. reflexivity.
    + split.
      * cbn [fst app]. unfold mk at 1 2 3. repeat (rewrite ?tn_node, ?tnl_cons, ?tnl_nil, ?tnl_app). cbn [tagged_init].
        rewrite B2, (proj2 (counter_shaped (CB b i))). rewrite !tn_node in P4. cbn [tagged_init] in P4. rewrite !tnl_cons, !tnl_nil in P4. lia.
      * cbn [snd]. split; [|apply R]. intros j Hj. apply P5. cbn. apply G. exact Hj.
Qed.
Definition no_else : node := mk KStmt [mk (KBlock true) [mk KStmts []]].
Lemma if_total : forall sp cs v s, let t := Node KIf sp cs in shp t = true -> Below t -> vok v s ->
  Tot (fun rec => visit_if_stmt e rec v t s) (Post t s).
Proof.
  intros sp cs v s t Ht IH V. pose proof (fun c => shk _ _ _ Ht c) as C. lay Ht L. subst t. unfold visit_if_stmt.
  apply enter_exit_total; intros.
  - apply self; [exact Ht|now apply SR_same].
  - cbn [nkids nkind nspan]. set (t := Node KIf sp [n; n0; n1]) in *. apply andb_prop in L as [L0 L1].
    set (s2 := mark_prepend_stmt_counter e sp s1). assert (R2 : SR s s2) by (now apply SR_mark, SR_same).
    destruct (new_branch BIf (range_of e sp) false (cov s2)) as [c b] eqn:Eb. apply new_branch_SR in Eb as [R3 B].
    apply (SR_trans s) in R3; [|exact R2].
    apply Tot_bind with (Q1 := SPost n0 (set_cov c s2)).
    { assert (W : Tot (fun rec => wrap_with_counter e rec b (range_of e sp) cur n0 (set_cov c s2)) (SPost n0 (set_cov c s2))).
      { apply (wrap_total t); auto; [apply C; cbn; auto|apply below_child; cbn; auto]. }
      destruct cur as [[]|]; try exact W. apply Tot_ret. split; [destruct n0 as [[] ? ?]; try discriminate; reflexivity|].
      split; [apply C; cbn; auto|]. split; [cbn; lia|apply SR_refl]. }
    intros [con s4] (P1 & P2 & P3 & P4). cbn [fst snd] in *. cbn beta iota.
    apply Tot_bind with (Q1 := fun r => knone (nkind (fst r)) || kstmt (nkind (fst r)) = true /\ shp (fst r) = true /\ (tn (fst r) <= tn n1)%nat /\ SR s4 (snd r)).
    { assert (W : forall x, kstmt (nkind x) = true -> shp x = true -> below x t -> (tn x <= tn n1)%nat ->
        Tot (fun rec => wrap_with_counter e rec b (range_of e sp) cur x s4)
          (fun r => knone (nkind (fst r)) || kstmt (nkind (fst r)) = true /\ shp (fst r) = true /\ (tn (fst r) <= tn n1)%nat /\ SR s4 (snd r))).
      { intros x Kx Sx Bx Tx. eapply Tot_mono; [apply (wrap_total t); auto; apply P4; exact B|].
        intros r (Q1 & Q2 & Q3 & Q4). rewrite Q1. split; [reflexivity|]. split; [exact Q2|]. split; [lia|exact Q4]. }
      assert (W2 : Tot (fun rec => wrap_with_counter e rec b (range_of e sp) cur (if is_absent n1 then no_else else n1) s4)
          (fun r => knone (nkind (fst r)) || kstmt (nkind (fst r)) = true /\ shp (fst r) = true /\ (tn (fst r) <= tn n1)%nat /\ SR s4 (snd r))).
      { destruct (is_absent n1) eqn:A.
        - apply W; try reflexivity; [|cbn; lia]. right. unfold t. rewrite tn_node, wt_node, !tnl_cons, !wtl_cons. cbn. lia.
        - apply W; [|apply C; cbn; auto|apply below_child; cbn; auto|lia]. destruct (kstmt (nkind n1)) eqn:K1; [reflexivity|].
          rewrite orb_false_r in L1. assert (S1 : shp n1 = true) by (apply C; cbn; auto).
          destruct n1 as [k1 sp1 cs1]. cbn in L1. destruct k1; try discriminate L1. lay S1 Ln. discriminate A. }
      destruct cur as [[]|]; try exact W2. apply Tot_ret. cbn [fst snd]. split; [exact L1|]. split; [apply C; cbn; auto|]. split; [lia|apply SR_refl]. }
    intros [alt s5] (Q1 & Q2 & Q3 & Q4). cbn [fst snd] in *. cbn beta iota.
    assert (R5 : SR s s5) by (eapply SR_trans; [exact R3|]; eapply SR_trans; eassumption).
    eapply Tot_bind; [apply (IH n); [apply below_child; cbn; auto|apply C; cbn; auto|eapply vok_grow; [exact V|apply R5]]|].
    intros [test s6] (T1 & T2 & T3 & T4 & T5). cbn [fst snd] in *. cbn beta iota. apply Tot_ret.
    split; [reflexivity|]. split; [reflexivity|]. split.
    + apply shaped_node. split; [cbn; rewrite P1, Q1; reflexivity|]. cbn [forallb]. rewrite T3, P2, Q2. reflexivity.
    + split; [|eapply SR_trans; eassumption]. cbn [fst]. unfold t. rewrite !tn_node, !tnl_cons. cbn [tagged_init]. lia.
Qed.
Lemma with_total : forall sp cs v s, let t := Node KWith sp cs in shp t = true -> Below t -> vok v s ->
  Tot (fun rec => visit_with_stmt e rec v t s) (Post t s).
Proof.
  intros sp cs v s t Ht IH V. pose proof (fun c => shk _ _ _ Ht c) as C. lay Ht L. subst t. unfold visit_with_stmt.
  apply enter_exit_total; intros.
  - apply self; [exact Ht|now apply SR_same].
  - cbv zeta. cbn [nkids nkind nspan]. set (t := Node KWith sp [n; n0]) in *.
    set (s2 := mark_prepend_stmt_counter e sp s1). assert (R2 : SR s s2) by (now apply SR_mark, SR_same).
    assert (S0 : shp n0 = true) by (apply C; cbn; auto).
    assert (B0 : below n0 t) by (apply below_child; cbn; auto).
    assert (Fin : forall b' s3, nkind b' = KStmt -> shp b' = true -> (tn b' <= tn n0)%nat -> SR s s3 ->
      Post t s (Node KWith sp [n; b'], s3)).
    { intros b' s3 K' S' T' R'. split; [reflexivity|]. split; [reflexivity|]. split.
      - apply shaped_node. split; [cbn; now rewrite K'|]. cbn [forallb]. rewrite S', !C by (cbn; auto). reflexivity.
      - split; [|exact R']. unfold t. cbn [fst]. rewrite !tn_node, !tnl_cons. cbn [tagged_init]. lia. }
    destruct (stmt_inv n0 L S0) as (wsp & y & -> & Sy). cbn [stmt_view expect bind].
    destruct (is_block y) eqn:Ky.
    + assert (Kb : kblock (nkind y) = true) by (destruct y as [[] ? ?]; try discriminate; reflexivity).
      destruct (block_inv y Kb Sy) as (bi & bsp & ssp & ss & -> & Ss). cbn [block_view stmts_view expect bind].
      eapply Tot_bind; [apply stmts_total; [|exact Ss]|].
      * apply (stmts_good t KStmts ssp ss IH); [|exact Ss]. eapply below_block. exact B0.
      * intros [ss' s3] (P1 & P2 & P3 & P4). cbn [fst snd] in *. cbn beta iota. apply Tot_ret. apply Fin; auto.
        -- apply shaped_node. split; [reflexivity|]. cbn [forallb]. rewrite andb_true_r. apply shaped_node. split; [reflexivity|].
           cbn [forallb]. rewrite andb_true_r. apply shaped_node. now split.
        -- repeat (rewrite ?tn_node, ?tnl_cons, ?tnl_nil). cbn [tagged_init]. lia.
        -- eapply SR_trans; eassumption.
    + eapply Tot_bind; [apply (IH _ B0 S0 VStmt); exact I|].
      intros [x' sv] (P1 & P2 & P3 & P4 & P5). cbn [fst snd] in *. cbn beta iota. apply Tot_ret.
      assert (Bs : sonly (before sv)) by (apply P5; apply sonly_nil). destruct (sonly_shaped _ Bs) as [B1 B2].
      apply Fin; [reflexivity| | |].
      * apply shaped_inj_block. rewrite forallb_app, B1. cbn [forallb]. rewrite P3. reflexivity.
      * unfold mk. repeat (rewrite ?tn_node, ?tnl_cons, ?tnl_nil, ?tnl_app). cbn [tagged_init].
        rewrite B2. rewrite !tn_node in P4. cbn [tagged_init] in P4. rewrite !tnl_cons, !tnl_nil in P4. lia.
      * cbn [snd]. split; [|apply R2]. intros j Hj. apply P5. cbn. apply R2. exact Hj.
Qed.

(** logical expressions *)
Definition EPost (x : node) (s : st) (r : node * st) : Prop :=
  nkind (fst r) = KExpr /\ shp (fst r) = true /\ (tn (fst r) <= tn x)%nat /\ SR s (snd r).
Lemma wrap_bin_total : forall t v b x s, Below t -> kexpr (nkind x) = true -> shp x = true -> below x t -> has_branch b (cov s) -> vok v s ->
  Tot (fun rec => wrap_bin_expr_with_branch_counter e rec v b x s) (EPost x s).
Proof.
  intros t v b x s IH K S Bx B V. unfold wrap_bin_expr_with_branch_counter.
  assert (X : is_expr x = true) by (destruct x as [[] ? ?]; try discriminate; reflexivity).
  assert (Kx : nkind x = KExpr) by (destruct x as [[] ? ?]; try discriminate; reflexivity).
  rewrite X. cbn [negb]. destruct (is_next _); [apply Tot_ret; repeat (split; [first [assumption|cbn; lia]|]); apply SR_refl|].
  pose proof (fun v => children_good t x v IH Bx S) as G.
  destruct x as [k sp cs]. cbn in Kx. subst k. cbn [nkids] in G. pose proof S as S2. apply shaped_node in S2 as [L _].
  destruct (has_logical _).
  - eapply Tot_bind; [apply children_total; [exact L|apply G|exact B]|].
    intros [x' sv] (P1 & P2 & P3 & P4 & P5). cbn [fst snd] in *. cbn beta iota. apply Tot_ret.
    split; [exact P1|]. split; [exact P3|]. split; [exact P4|]. cbn [snd]. split; [|auto]. intros i Hi. apply P5. exact Hi.
  - destruct (e_report_logic e).
    + destruct (add_branch_path_ok b (range_of e sp) (cov s) B) as (c & i & E & Gr). cbn [nspan]. rewrite E. cbn [bind].
      apply Tot_ret. split; [reflexivity|]. split; [|split; [|split; [exact Gr|auto]]].
      * set (x := Node KExpr sp cs) in *. clearbody x. cbn. now rewrite S.
      * set (x := Node KExpr sp cs) in *. clearbody x. cbn. lia.
    + eapply Tot_bind; [apply children_total; [exact L|apply G|exact V]|].
      intros [x' s1] (P1 & P2 & P3 & P4 & P5). cbn [fst snd] in *. cbn beta iota. apply Tot_const.
      destruct (branch_counter_ok x' b s1) as (x2 & s2 & E & Q1 & Q2 & Q3 & Q4 & Q5 & Q6);
        [destruct x' as [[] ? ?]; try discriminate; reflexivity|exact P3|apply P5; exact B|].
      exists (x2, s2). split; [exact E|]. split; [exact Q1|]. split; [exact Q2|]. split; [cbn [fst]; lia|]. eapply SR_trans; eassumption.
Qed.
Lemma bin_total : forall op sp cs v s branch_of, let t := Node (KBin op) sp cs in shp t = true -> Below t -> vok v s ->
  (forall s1 s2 b, branch_of s1 = (s2, b) -> cov s1 = cov s -> SR s1 s2 /\ has_branch b (cov s2)) ->
  Tot (fun rec => visit_bin_expr e rec v op branch_of t s) (Post t s).
Proof.
  intros op sp cs v s branch_of t Ht IH V HB. unfold visit_bin_expr.
  destruct (on_enter_with_span e (nspan t) s) as [[s1 old] cur] eqn:E.
  assert (cov s1 = cov s /\ before s1 = before s) as [E1 E2].
  { unfold on_enter_with_span in E. destruct (is_next (ign s)); injection E as <- <- <-; auto. }
  assert (Plain : Tot (fun rec => let* (t', s2) := visit_children rec v t (push NBinExpr s1) in Ok (t', on_exit old s2)) (Post t s)).
  { apply Tot_bind with (Q1 := Post t s).
    - apply kids_self; auto. now apply SR_same.
    - intros [t' s2] P. cbn beta iota. apply Tot_ret. exact P. }
  destruct (is_next cur); [exact Plain|]. destruct (is_logical_op op) eqn:Op; [|exact Plain]. clear Plain.
  pose proof (fun c => shk _ _ _ Ht c) as C. pose proof Ht as H2. apply shaped_node in H2 as [L _]. cbn in L. rewrite Op in L.
  destruct cs as [|l [|r [|? ?]]]; cbn [map] in L; try discriminate L. apply andb_prop in L as [L1 L2].
  subst t. cbn [nkids nkind nspan]. set (t := Node (KBin op) sp [l; r]) in *.
  destruct (branch_of (push NLogicalExpr s1)) as [s2 b] eqn:Eb. apply HB in Eb as [R2 B]; [|exact E1].
  apply (SR_trans3 s) in R2; auto.
  eapply Tot_bind; [apply (wrap_bin_total t); auto; [apply C; cbn; auto|apply below_child; cbn; auto|eapply vok_grow; [exact V|apply R2]]|].
  intros [l' s3] (P1 & P2 & P3 & P4). cbn [fst snd] in *. cbn beta iota.
  assert (R3 : SR s s3) by (eapply SR_trans; eassumption).
  eapply Tot_bind; [apply (wrap_bin_total t); auto; [apply C; cbn; auto|apply below_child; cbn; auto|apply P4; exact B|eapply vok_grow; [exact V|apply R3]]|].
  intros [r' s4] (Q1 & Q2 & Q3 & Q4). cbn [fst snd] in *. cbn beta iota. apply Tot_ret.
  split; [reflexivity|]. split; [reflexivity|]. split.
  - apply shaped_node. split; [cbn; rewrite Op, P1, Q1; reflexivity|]. cbn [forallb]. rewrite P2, Q2. reflexivity.
  - split; [|eapply SR_trans; eassumption]. unfold t. cbn [fst]. rewrite !tn_node, !tnl_cons. cbn [tagged_init]. lia.
Qed.
Lemma assign_pat_total : forall sp cs v s, let t := Node KAssignPat sp cs in shp t = true -> Below t -> vok v s ->
  Tot (fun rec => visit_assign_pat e rec v t s) (Post t s).
Proof.
  intros sp cs v s t Ht IH V. pose proof (fun c => shk _ _ _ Ht c) as C. lay Ht L. subst t. unfold visit_assign_pat.
  apply enter_exit_total; intros.
  - apply self; [exact Ht|now apply SR_same].
  - cbn [nkids nkind nspan]. set (t := Node KAssignPat sp [n; n0]) in *.
    destruct (new_branch DefaultArg (range_of e sp) false (cov s1)) as [c b] eqn:Eb. apply new_branch_SR in Eb as [R B].
    apply (SR_trans3 s) in R; auto.
    eapply Tot_bind; [apply (wrap_bin_total t); auto; [apply C; cbn; auto|apply below_child; cbn; auto|eapply vok_grow; [exact V|apply R]]|].
    intros [r' s2] (Q1 & Q2 & Q3 & Q4). cbn [fst snd] in *. cbn beta iota. apply Tot_ret.
    split; [reflexivity|]. split; [reflexivity|]. split.
    + apply shaped_node. split; [cbn; now rewrite Q1|]. cbn [forallb]. rewrite Q2, C by (cbn; auto). reflexivity.
    + split; [|eapply SR_trans; eassumption]. unfold t. cbn [fst]. rewrite !tn_node, !tnl_cons. cbn [tagged_init]. lia.
Qed.
(** ** All nodes *)
Lemma logical_total : forall b t s, shp t = true -> Below t -> has_branch b (cov s) ->
  Tot (fun rec => visit_logical e rec b t s) (Post t s).
Proof.
  intros b [k sp cs] s Ht IH B. unfold visit_logical. cbn [nkind].
  assert (Kids : Tot (fun rec => visit_children rec (VLogical b) (Node k sp cs) s) (Post (Node k sp cs) s))
    by (apply kids_self; auto using SR_refl).
  destruct k; try exact Kids.
  - destruct (on_enter e NExpr (nspan (Node KExpr sp cs)) s) as [[s1 old] cur] eqn:E. apply on_enter_same in E as (E1 & E2 & E3).
    apply Tot_bind with (Q1 := Post (Node KExpr sp cs) s).
    + apply kids_self; auto. now apply SR_same.
    + intros [t' s2] P. cbn beta iota. apply Tot_ret. exact P.
  - apply bin_total; auto. intros s1 s2 b' H K. injection H as <- <-. rewrite K. split; [apply SR_refl|exact B].
Qed.
Lemma instr_total : forall v t s, shp t = true -> Below t -> vok v s -> Tot (fun rec => visit_instr e rec v t s) (Post t s).
Proof.
  intros v [k sp cs] s Ht IH V. unfold visit_instr. cbn [nkind].
  assert (Kids : Tot (fun rec => visit_children rec v (Node k sp cs) s) (Post (Node k sp cs) s))
    by (apply kids_self; auto using SR_refl).
  destruct k; try exact Kids; try (destruct v; exact Kids);
    try (apply shaped_node in Ht as [Ht _]; discriminate Ht);
    try (now apply marked_total); try (now apply marked_skip_total); try (now apply for_like_total);
    try (now apply initialized_total); try (now apply var_decl_total); try (now apply skip_total).
  - destruct v; try exact Kids. now apply skip_total.
  - destruct v; try exact Kids. now apply skip_total.
  - now apply stmts_node_total.
  - apply self; [exact Ht|apply SR_refl].
  - now apply expr_stmt_total.
  - destruct v; try exact Kids. now apply skip_total.
  - now apply if_total.
  - now apply switch_total.
  - destruct v; try exact Kids. now apply switch_case_total.
  - now apply with_total.
  - now apply fn_decl_total.
  - now apply fn_expr_total.
  - now apply arrow_total.
  - pose proof Ht as H2. lay H2 L. now apply skip_total.
  - now apply class_method_total.
  - now apply method_prop_total.
  - apply accessor_total; auto.
  - apply accessor_total; auto.
  - now apply cond_total.
  - apply bin_total; auto. intros s1 s2 b H K. unfold new_logical_branch in H.
    destruct (new_branch BinaryExpr _ _ (cov s1)) as [c i] eqn:Eb. apply new_branch_SR in Eb as [R B]. injection H as <- <-.
    split; [exact R|exact B].
  - now apply assign_pat_total.
Qed.
Lemma visit_step : forall v t s (Q : node * st -> Prop), Tot (fun rec => visit_body e rec v t s) Q -> Tot (fun rec => rec v t s) Q.
Proof.
  intros v t s Q (N & r & H & K). exists (S N), r. split; [|exact K].
  intros n Hn. destruct n as [|n]; [lia|]. apply H. lia.
Qed.
Lemma all_good : forall t v, shp t = true -> Good v t.
Proof.
  induction t as [t IH] using (well_founded_induction below_wf). intros v S s V.
  apply visit_step.
  destruct v as [| |b|b]; cbn [visit_body]; [apply instr_total|apply instr_total|apply instr_total|apply logical_total]; auto;
    intros u B Su v'; now apply IH.
Qed.

(** ** Programs *)
Lemma items_total : forall items s, forallb shp items = true ->
  Tot (fun rec => visit_items e rec items s) (fun _ => True).
Proof.
  induction items as [|item items IH]; intros s H; cbn [visit_items]; [now apply Tot_ret|].
  cbn [forallb] in H. apply andb_prop in H as [Hi H].
  apply Tot_bind with (Q1 := fun _ => True).
  - destruct (directive_continue item); [now apply Tot_ret|].
    destruct (on_enter e _ (nspan item) s) as [[s1 old] cur]. destruct item as [k sp cs].
    pose proof Hi as H2. apply shaped_node in H2 as [L C]. rewrite forallb_forall in C.
    eapply Tot_bind; [apply children_total; [exact L|intros c Hc; apply all_good; auto|exact I]|].
    intros [t' s2] _. cbn beta iota. now apply Tot_ret.
  - intros [new s1] _. cbn beta iota. eapply Tot_bind; [apply IH, H|]. intros [rest s2] _. cbn beta iota. now apply Tot_ret.
Qed.
Lemma script_items_total : forall items s, forallb shp items = true ->
  Tot (fun rec => visit_script_items rec items s) (fun _ => True).
Proof.
  induction items as [|[k sp cs] items IH]; intros s H; cbn [visit_script_items]; [now apply Tot_ret|].
  cbn [forallb] in H. apply andb_prop in H as [Hi H].
  pose proof Hi as H2. apply shaped_node in H2 as [L C]. rewrite forallb_forall in C.
  eapply Tot_bind; [apply children_total; [exact L|intros c Hc; apply all_good; auto|exact I]|].
  intros [t' s2] _. cbn beta iota. eapply Tot_bind; [apply IH, H|]. intros [rest s3] _. cbn beta iota. now apply Tot_ret.
Qed.
Lemma root_total : forall t s, shaped_program bodies t = true -> Tot (fun rec => rec VCov t s) (fun _ => True).
Proof.
  intros [k sp cs] s H. unfold shaped_program in H. cbn [nkind nkids] in H. apply visit_step.
  destruct k; try discriminate H; destruct cs as [|b [|? ?]]; try discriminate H; destruct b as [kb bsp bs];
    cbn [nkind nkids] in H; destruct kb; try discriminate H; cbn [visit_body visit_instr nkind].
  - cbn [visit_children visit_list]. eapply Tot_bind.
    + eapply Tot_bind.
      * apply visit_step. cbn [visit_body visit_instr nkind]. unfold visit_module_items. cbv zeta. cbn [nkids].
        eapply Tot_bind; [apply items_total, H|]. intros [items s1] _. cbn beta iota.
        destruct (get_coverage_templates s1) as [[tpl call] s2]. apply Tot_ret with (Q := fun _ => True). exact I.
      * intros [t' s1] _. cbn beta iota. cbn [bind]. apply Tot_ret with (Q := fun _ => True). exact I.
    + intros [cs' s1] _. cbn beta iota. now apply Tot_ret.
  - unfold visit_script. cbn [nkids stmts_view expect bind]. eapply Tot_bind; [apply script_items_total, H|].
    intros [body s1] _. cbn beta iota. destruct (get_coverage_templates s1) as [[tpl call] s2]. now apply Tot_ret.
Qed.
Lemma program_total : forall path ism t, shaped_program bodies t = true ->
  exists N r, (forall n, (N <= n)%nat -> instrument e n path ism t = r) /\
    match r with Ok _ => True | Panic p => p = RUnimplemented /\ bodies = false | OutOfFuel => False end.
Proof.
  intros path ism t H. unfold instrument, visit_program.
  destruct (should_ignore_file (e_word e) (e_comments e) (nspan t)).
  - exists 0%nat. eexists. split; [intros; reflexivity|exact I].
  - destruct (root_total t (push NProgram (init_state e path ism)) H) as (N & r & Hr & K). exists N.
    destruct r as [[t' s']|p|]; [| |destruct K]; (eexists; split; [intros n Hn; rewrite (Hr n Hn); reflexivity|]); [exact I|exact K].
Qed.
End Total.

(** Every file whose functions all have bodies is instrumented: the visitors terminate without panic,
    and any larger fuel gives the same output. *)
Theorem instrumentation_finishes : forall e path ism t, shaped_program true t = true ->
  exists N t' sc, forall n, (N <= n)%nat -> instrument e n path ism t = Ok (t', sc).
Proof.
  intros e path ism t H. destruct (program_total e true path ism t H) as (N & r & Hr & K).
  destruct r as [[t' sc]|p|]; [|destruct K as [_ K]; discriminate|destruct K]. eauto.
Qed.
(** Files with bodyless functions also terminate; the only panic is the one for a missing body, and
    it needs a function without body. *)
Theorem panics_only_without_body : forall e path ism t, shaped_program false t = true ->
  exists N r, (forall n, (N <= n)%nat -> instrument e n path ism t = r) /\
    ((exists t' sc, r = Ok (t', sc)) \/ (r = Panic RUnimplemented /\ shaped_program true t = false)).
Proof.
  intros e path ism t H. destruct (program_total e false path ism t H) as (N & r & Hr & K). exists N, r. split; [exact Hr|].
  destruct r as [[t' sc]|p|]; [left; eauto|right|destruct K]. destruct K as [-> _]. split; [reflexivity|].
  destruct (shaped_program true t) eqn:S; [|reflexivity].
  destruct (instrumentation_finishes e path ism t S) as (N2 & t' & sc & H2).
  specialize (Hr (Nat.max N N2) ltac:(lia)). specialize (H2 (Nat.max N N2) ltac:(lia)). congruence.
Qed.

(** Nested initialisers that are tagged templates (visited twice, so four times inside), a switch, an
    arrow and a default value; and a file with an overload signature. *)
Definition tagged (a b : N) (x : node) : node := X a b KTaggedTpl [var a b "f"; none; at_ a b (KOther 1) [list_ [x]]].
Definition ex_deep : node := module_ 1 90
  [let_ 1 80 VConst [declarator 1 80 "x" (tagged 2 70
     (X 3 60 KArrow [list_ []; block 4 59 [let_ 5 58 VLet [declarator 5 58 "y" (tagged 6 50
        (X 7 49 KCond [var 8 9 "a"; var 10 11 "b"; num 12 13]))]]; none]))]].
Definition ex_overload : node := module_ 1 90
  [T 1 20 KFnDecl [at_ 2 3 (KIdent "f") []; at_ 4 20 KFunction [list_ []; list_ []; none; none]]].
Example finishes_ex : shaped_program true ex_deep = true /\
  (exists t' sc, instrument plain_env 60 "a.js" None ex_deep = Ok (t', sc)) /\
  instrument plain_env 10 "a.js" None ex_deep = OutOfFuel.
Proof.
  split; [reflexivity|]. split; [|vm_compute; reflexivity].
  destruct (instrument plain_env 60 "a.js" None ex_deep) as [[t' sc]|p|] eqn:E; [eauto| |]; vm_compute in E; discriminate.
Qed.
Theorem no_body_panics_ex : shaped_program false ex_overload = true /\ shaped_program true ex_overload = false /\
  (forall n, (10 <= n)%nat -> instrument plain_env n "a.js" None ex_overload = Panic RUnimplemented).
Proof.
  split; [reflexivity|]. split; [reflexivity|]. intros n Hn.
  destruct (panics_only_without_body plain_env "a.js" None ex_overload eq_refl) as (N & r & H & K).
  assert (A : forall m, instrument plain_env (10 + m) "a.js" None ex_overload = Panic RUnimplemented) by (intros m; reflexivity).
  replace n with (10 + (n - 10))%nat by lia. apply A.
Qed.
