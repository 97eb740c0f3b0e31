(** The shapes of instrumented programs: which injected code may stand where. *)
From Coq Require Import NArith String List Bool Lia PeanoNat.
Import ListNotations.
From Verif Require Import Base Oxide Hints Ast Visitor VisitorRel VisitorEx Erase Sem.
Open Scope N_scope.

(** The role of a node *)
Inductive role :=
| PO    (* part of the program *)
| PW    (* an expression wrapped as [(counter, x)]; [PP], [PQ], [PS]: the layers inside *)
| PP | PQ | PS
| PE    (* a counter expression; [PC]: the counter *)
| PC
| PD    (* a counter statement; [PX]: the expression statement in it *)
| PX
| PT    (* a statement of the coverage preamble; [PU]: its content *)
| PU
| PB    (* an injected block as the body of an [if], loop or [with]; [PBB], [PBS]: its layers *)
| PBB | PBS
| PA    (* an injected block as the body of an arrow function; [PAS]: its statements *)
| PAS.

Definition here (p : role) (k : kind) : bool :=
  match p, k with
  | PO, _ => negb (injected_kind k)
  | (PW | PQ | PE), KExpr => true
  | PP, KInjParen => true
  | PS, KInjSeq => true
  | PC, KCounter _ => true
  | (PD | PT | PB), KStmt => true
  | PX, KExprStmt => true
  | PU, (KTemplateFn _ | KTemplateCall) => true
  | (PBB | PA), KBlock true => true
  | (PBS | PAS), KStmts => true
  | _, _ => false
  end.

Definition list_kind (k : kind) : bool := match k with KStmts | KModuleItems => true | _ => false end.
Definition solid (k : kind) : bool :=
  match k with KExpr | KStmt | KExprStmt | KStmts | KModuleItems => true | _ => false end.
Definition is_nil {A} (l : list A) : bool := match l with [] => true | _ => false end.

(** Child [i] of a node of kind [k] is the body of a function *)
Definition fbody (k : kind) (i : nat) : bool :=
  match k with
  | KFunction => Nat.eqb i 2
  | KArrow => Nat.eqb i 1
  | KGetter => Nat.eqb i 2
  | KSetter => Nat.eqb i 3
  | _ => false
  end.
Definition is_stmt (t : node) : bool := match nkind t with KStmt => true | _ => false end.
Definition tagged_init (k : kind) (i : nat) (c : node) : bool :=
  init_kind k && Nat.eqb i 1 && is_tagged_tpl c.

(** What the original program must satisfy at child [i] (namely [c]) of a node of kind [k]:
    no directive prologue in functions and scripts, no declaration as the body of an [if],
    loop or [with], and no tagged template as initialiser if [rl]. *)
Definition fits (rl : bool) (k : kind) (i : nat) (c : node) : bool :=
  (negb (solid k) || negb (is_none c)) &&
  (negb (bpos k i) || is_nil (lex_of c)) &&
  (negb (fbody k i) || is_nil (directives c)) &&
  (match k with KScript => is_nil (prologue (nkids c)) | _ => true end) &&
  (negb rl || negb (tagged_init k i c)).

(** Child [i] of a node of kind [k] in role [p] may have role [q]; [ec] is the erased child. *)
Definition ok_at (rl : bool) (p : role) (k : kind) (i : nat) (q : role) (ec : node) : bool :=
  match p, q with
  | PO, PO => fits rl k i ec
  | PO, PW => vpos k i && fits rl k i ec
  | PO, (PD | PT) => list_kind k
  | PO, PB => bpos k i && is_nil (lex_of ec) && (negb (is_none ec) || match k with KIf => true | _ => false end)
  | PO, PA => match k with KArrow => Nat.eqb i 1 | _ => false end
  | PW, PP => true
  | PP, PQ => true
  | PQ, PS => true
  | PS, PE => Nat.eqb i 0
  | PS, (PO | PW) => Nat.eqb i 1 && is_expr ec
  | PE, PC => true
  | PD, PX => true
  | PX, PE => true
  | PT, PU => true
  | PB, PBB => true
  | PBB, PBS => true
  | PA, PAS => true
  | (PBS | PAS), PO => is_stmt ec
  | (PBS | PAS), PD => true
  | _, _ => false
  end.

(** How many children, and what is left of them *)
Definition side (p : role) (k : kind) (sp : span) (ecs : list node) : Prop :=
  match p with
  | PO => match k with
          | KNone => sp = dummy_span /\ ecs = []
          | KFor => length ecs = 4%nat
          | KForIn | KForOf => length ecs = 3%nat
          | KWhile | KDoWhile => length ecs = 2%nat
          | _ => True
          end
  | PW | PP | PQ | PE | PD | PT | PB | PBB | PA => length ecs = 1%nat
  | PX => length ecs = 1%nat /\ sp = dummy_span
  | PS => length ecs = 2%nat
  | PC | PU => ecs = []
  | PBS => filter nonhole ecs = [] \/ exists x, filter nonhole ecs = [x] /\ lex_of x = []
  | PAS => exists ssp x, filter nonhole ecs = [Node KStmt ssp [Node KReturn (nspan x) [x]]] /\ is_expr x = true
  end.

Section Shape.
(** Does the program contain the code [reportLogic] injects? *)
Variable rl : bool.
(** The option itself *)
Variable rlo : bool.

Inductive Sh : role -> node -> Prop :=
| Sh_node : forall p k sp cs,
    here p k = true -> side p k sp (map erase cs) -> Shs p k 0 cs -> Sh p (Node k sp cs)
| Sh_temp : forall b i x p,
    rl = true -> is_expr x = true -> p = PO \/ p = PW -> Sh p x ->
    Sh PW (E (mk KInjSeq [counter_expr (CB b i); increase_true_expr b i x]))
with Shs : role -> kind -> nat -> list node -> Prop :=
| Shs_nil : forall p k i, Shs p k i []
| Shs_cons : forall p k i c cs q,
    ok_at rlo p k i q (erase c) = true -> Sh q c -> Shs p k (S i) cs -> Shs p k i (c :: cs).

Lemma Shs_nth : forall cs p k i j c, Shs p k i cs -> nth_error cs j = Some c ->
  exists q, ok_at rlo p k (i + j) q (erase c) = true /\ Sh q c.
Proof.
  induction cs as [|c0 cs IH]; intros p k i j c H Hn; [destruct j; discriminate|].
  inversion H; subst. destruct j as [|j]; simpl in Hn.
  - inversion Hn; subst. rewrite Nat.add_0_r. eauto.
  - replace (i + S j)%nat with (S i + j)%nat by lia. eauto.
Qed.

Lemma Shs_In : forall cs p k i c, Shs p k i cs -> In c cs ->
  exists j q, ok_at rlo p k j q (erase c) = true /\ Sh q c.
Proof.
  intros cs p k i c H Hc. apply In_nth_error in Hc as [j Hj].
  destruct (Shs_nth _ _ _ _ _ _ H Hj) as (q & H1 & H2). eauto.
Qed.

Fixpoint size (t : node) : nat :=
  match t with Node _ _ cs => S (fold_right (fun c n => size c + n)%nat 0%nat cs) end.
Lemma size_in : forall cs c, In c cs -> (size c <= fold_right (fun c n => size c + n) 0 cs)%nat.
Proof.
  induction cs as [|x cs IH]; intros c H; [contradiction|].
  destruct H as [->|H]; simpl; [lia|]. specialize (IH _ H). lia.
Qed.
Lemma size_kid : forall k sp cs c, In c cs -> (size c < size (Node k sp cs))%nat.
Proof. intros k sp cs c H. apply size_in in H. simpl. lia. Qed.

(** ** Inversions *)

Lemma Shs_inv : forall p k i c cs, Shs p k i (c :: cs) ->
  (exists q, ok_at rlo p k i q (erase c) = true /\ Sh q c) /\ Shs p k (S i) cs.
Proof. intros p k i c cs H. inversion H; subst. eauto. Qed.
Lemma Sh_inv : forall p k sp cs, p <> PW -> Sh p (Node k sp cs) ->
  here p k = true /\ side p k sp (map erase cs) /\ Shs p k 0 cs.
Proof. intros p k sp cs Hp H. inversion H; subst; auto. congruence. Qed.

(** A role whose nodes have exactly one child *)
Lemma one_inv : forall p k cs, Shs p k 0 cs -> length (map erase cs) = 1%nat ->
  exists c q, cs = [c] /\ ok_at rlo p k 0 q (erase c) = true /\ Sh q c.
Proof.
  intros p k cs H Hl. destruct cs as [|c [|? ?]]; try discriminate.
  apply Shs_inv in H as [(q & H1 & H2) _]. eauto.
Qed.

Lemma PC_inv : forall t, Sh PC t -> exists c sp, t = Node (KCounter c) sp [].
Proof.
  intros [k sp cs] H. apply Sh_inv in H as (Hh & Hs & Hk); [|discriminate]. destruct k; try discriminate.
  simpl in Hs. destruct cs; [|discriminate]. eauto.
Qed.
Lemma PE_inv : forall t, Sh PE t -> exists c s1 s2, t = Node KExpr s1 [Node (KCounter c) s2 []].
Proof.
  intros [k sp cs] H. apply Sh_inv in H as (Hh & Hs & Hk); [|discriminate]. destruct k; try discriminate.
  apply one_inv in Hk as (c & q & -> & Ho & Hc); auto.
  destruct q; try discriminate. apply PC_inv in Hc as (c0 & s2 & ->). eauto.
Qed.
Lemma PD_inv : forall t, Sh PD t ->
  exists c s1 s3 s4, t = Node KStmt s1 [Node KExprStmt dummy_span [Node KExpr s3 [Node (KCounter c) s4 []]]].
Proof.
  intros [k sp cs] H. apply Sh_inv in H as (Hh & Hs & Hk); [|discriminate]. destruct k; try discriminate.
  apply one_inv in Hk as (c & q & -> & Ho & Hc); auto. destruct q; try discriminate.
  destruct c as [k sp1 cs]. apply Sh_inv in Hc as (Hh1 & Hs1 & Hk1); [|discriminate]. destruct k; try discriminate.
  destruct Hs1 as [Hs1 ->].
  apply one_inv in Hk1 as (c & q & -> & Ho1 & Hc); auto. destruct q; try discriminate.
  apply PE_inv in Hc as (c0 & s1 & s2 & ->). do 4 eexists. reflexivity.
Qed.
Lemma PT_inv : forall t, Sh PT t ->
  exists k s1 s2, t = Node KStmt s1 [Node k s2 []] /\
    match k with KTemplateFn _ | KTemplateCall => True | _ => False end.
Proof.
  intros [k sp cs] H. apply Sh_inv in H as (Hh & Hs & Hk); [|discriminate]. destruct k; try discriminate.
  apply one_inv in Hk as (c & q & -> & Ho & Hc); auto. destruct q; try discriminate.
  destruct c as [k sp1 cs]. apply Sh_inv in Hc as (Hh1 & Hs1 & Hk1); [|discriminate].
  simpl in Hs1. destruct cs; [|discriminate].
  destruct k; try discriminate; do 3 eexists; (split; [reflexivity|exact I]).
Qed.
Lemma PW_inv : forall t, Sh PW t ->
  (exists s1 s2 s3 s4 s5 s6 c x p,
     t = Node KExpr s1 [Node KInjParen s2 [Node KExpr s3 [Node KInjSeq s4
           [Node KExpr s5 [Node (KCounter c) s6 []]; x]]]] /\
     (p = PO \/ p = PW) /\ Sh p x /\ is_expr (erase x) = true) \/
  (exists b i x p, rl = true /\ is_expr x = true /\ (p = PO \/ p = PW) /\ Sh p x /\
     t = E (mk KInjSeq [counter_expr (CB b i); increase_true_expr b i x])).
Proof.
  intros t H. inversion H as [p k sp cs Hh Hs Hk|]; subst; [left|right; eauto 10].
  destruct k; try discriminate.
  apply one_inv in Hk as (c & q & -> & Ho & Hc); auto. destruct q; try discriminate.
  destruct c as [k sp1 cs]. apply Sh_inv in Hc as (Hh1 & Hs1 & Hk1); [|discriminate]. destruct k; try discriminate.
  apply one_inv in Hk1 as (c & q & -> & Ho1 & Hc); auto. destruct q; try discriminate.
  destruct c as [k sp2 cs]. apply Sh_inv in Hc as (Hh2 & Hs2 & Hk2); [|discriminate]. destruct k; try discriminate.
  apply one_inv in Hk2 as (c & q & -> & Ho2 & Hc); auto. destruct q; try discriminate.
  destruct c as [k sp3 cs]. apply Sh_inv in Hc as (Hh3 & Hs3 & Hk3); [|discriminate]. destruct k; try discriminate.
  simpl in Hs3. destruct cs as [|c1 [|c2 [|? ?]]]; try discriminate.
  apply Shs_inv in Hk3 as [(q1 & Hq1 & Hc1) Hk3]. apply Shs_inv in Hk3 as [(q2 & Hq2 & Hc2) _].
  cbn [ok_at] in *.
  assert (q1 = PE) as -> by (destruct q1; try discriminate; reflexivity).
  assert (Hq : (q2 = PO \/ q2 = PW) /\ is_expr (erase c2) = true)
    by (destruct q2; try discriminate; auto).
  destruct Hq as [Hq Hx]. apply PE_inv in Hc1 as (c & s1 & s2 & ->).
  do 9 eexists. split; [reflexivity|]. eauto.
Qed.
Lemma PB_inv : forall t, Sh PB t ->
  exists s1 s2 s3 ss, t = Node KStmt s1 [Node (KBlock true) s2 [Node KStmts s3 ss]] /\
    (erase_list ss = [] \/ exists x, erase_list ss = [x] /\ lex_of x = []) /\ Shs PBS KStmts 0 ss.
Proof.
  intros [k sp cs] H. apply Sh_inv in H as (Hh & Hs & Hk); [|discriminate]. destruct k; try discriminate.
  apply one_inv in Hk as (c & q & -> & Ho & Hc); auto. destruct q; try discriminate.
  destruct c as [k sp1 cs]. apply Sh_inv in Hc as (Hh1 & Hs1 & Hk1); [|discriminate].
  destruct k; try discriminate. destruct injected; try discriminate.
  apply one_inv in Hk1 as (c & q & -> & Ho1 & Hc); auto. destruct q; try discriminate.
  destruct c as [k sp2 cs]. apply Sh_inv in Hc as (Hh2 & Hs2 & Hk2); [|discriminate].
  destruct k; try discriminate. simpl in Hs2. do 4 eexists. split; [reflexivity|]. auto.
Qed.
Lemma PA_inv : forall t, Sh PA t ->
  exists s2 s3 ss ssp x, t = Node (KBlock true) s2 [Node KStmts s3 ss] /\
    erase_list ss = [Node KStmt ssp [Node KReturn (nspan x) [x]]] /\ is_expr x = true /\ Shs PAS KStmts 0 ss.
Proof.
  intros [k sp cs] H. apply Sh_inv in H as (Hh1 & Hs1 & Hk1); [|discriminate].
  destruct k; try discriminate. destruct injected; try discriminate.
  apply one_inv in Hk1 as (c & q & -> & Ho1 & Hc); auto. destruct q; try discriminate.
  destruct c as [k sp2 cs]. apply Sh_inv in Hc as (Hh2 & Hs2 & Hk2); [|discriminate].
  destruct k; try discriminate. simpl in Hs2. destruct Hs2 as (ssp & x & Hx & He).
  do 5 eexists. split; [reflexivity|]. split; [exact Hx|]. auto.
Qed.
Lemma PO_inv : forall t, Sh PO t -> exists k sp cs, t = Node k sp cs /\
  injected_kind k = false /\ side PO k sp (map erase cs) /\ Shs PO k 0 cs.
Proof.
  intros t H. inversion H as [p k sp cs Hh Hs Hk|]; subst.
  simpl in Hh. apply negb_true_iff in Hh. do 3 eexists. eauto.
Qed.

(** ** Erasing by role *)

Definition erased_kids (k : kind) (cs : list node) : list node :=
  match k with
  | KStmts | KModuleItems => erase_list cs
  | KArrow => match map erase cs with [p; b; t] => [p; erase_arrow_body b; t] | l => l end
  | _ => map erase cs
  end.

Lemma role_kinds : forall p t, Sh p t -> (p = PO \/ p = PW) -> is_expr (erase t) = is_expr t ->
  is_expr t = true -> is_expr (erase t) = true.
Proof. congruence. Qed.

Lemma erase_temp : forall b i x, is_expr x = true ->
  erase (E (mk KInjSeq [counter_expr (CB b i); increase_true_expr b i x])) = erase x.
Proof. exact erase_wrap_true. Qed.

Lemma erase_wrapped : forall s1 s2 s3 s4 s5 s6 c x, is_expr (erase x) = true ->
  erase (Node KExpr s1 [Node KInjParen s2 [Node KExpr s3 [Node KInjSeq s4
           [Node KExpr s5 [Node (KCounter c) s6 []]; x]]]]) = erase x.
Proof.
  intros. cbn [erase map erase_node]. unfold erase_expr. cbn [unwrap_expr].
  assert (is_block (erase x) = false) as Hb.
  { destruct (erase x) as [[] ? ?]; try discriminate; reflexivity. }
  change (is_block hole) with false. cbn iota. cbn [unwrap_expr]. rewrite Hb. cbn iota.
  cbn [unwrap_expr]. rewrite Hb. reflexivity.
Qed.

Lemma erase_PO : forall n t, (size t < n)%nat ->
  (Sh PO t -> erase t = Node (nkind t) (nspan t) (erased_kids (nkind t) (nkids t))) /\
  (Sh PW t -> is_expr (erase t) = true).
Proof.
  induction n as [|n IH]; intros t Hn; [lia|]. split.
  - intros H. apply PO_inv in H as (k & sp & cs & -> & Hi & Hs & Hk). cbn [nkind nspan nkids].
    assert (Hkid : forall c q i, In c cs -> ok_at rlo PO k i q (erase c) = true -> Sh q c -> q = PO ->
              nkind (erase c) = nkind c /\ injected_kind (nkind c) = false /\
              (solid k = true -> nkind c <> KNone)).
    { intros c q i Hc Hok Hq ->. destruct (IH c) as [IH1 _].
      { pose proof (size_kid k sp cs c Hc). lia. }
      rewrite (IH1 Hq). split; [reflexivity|]. split.
      - apply PO_inv in Hq as (? & ? & ? & -> & ? & _). assumption.
      - intros Hsol He. cbn [ok_at] in Hok. unfold fits in Hok. rewrite Hsol in Hok.
        rewrite (IH1 Hq), He in Hok. discriminate. }
    cbn [erase]. destruct k; try reflexivity; try discriminate Hi; cbn [erase_node erased_kids].
    + destruct cs as [|c [|? ?]]; try reflexivity. cbn [map]. apply Shs_inv in Hk as [(q & Hok & Hc) _].
      destruct q; try discriminate.
      specialize (Hkid c PO _ (or_introl eq_refl) Hok Hc eq_refl) as (Hkk & Hci & Hsol).
      specialize (Hsol eq_refl). unfold erase_stmt.
      destruct (erase c) as [ck csp ccs] eqn:Hec. cbn [nkind] in Hkk. rewrite <- Hkk in *.
      unfold is_none. cbn [nkind]. destruct ck; try reflexivity; try congruence.
      destruct injected; [discriminate|]. cbn [block_view].
      destruct ccs as [|y [|? ?]]; try reflexivity. destruct (stmts_view y) as [[? ?]|]; reflexivity.
    + destruct cs as [|c [|? ?]]; try reflexivity. cbn [map]. apply Shs_inv in Hk as [(q & Hok & Hc) _].
      destruct q; try discriminate.
      specialize (Hkid c PO _ (or_introl eq_refl) Hok Hc eq_refl) as (Hkk & Hci & Hsol).
      specialize (Hsol eq_refl). unfold erase_expr.
      destruct (erase c) as [ck csp ccs] eqn:Hec. cbn [nkind] in Hkk. rewrite <- Hkk in *.
      destruct ck; try reflexivity; try discriminate; congruence.
    + destruct Hs as [-> Hs]. destruct cs; [reflexivity|discriminate].
    + destruct cs as [|c [|? ?]]; try reflexivity. cbn [map]. apply Shs_inv in Hk as [(q & Hok & Hc) _].
      destruct q; try discriminate.
      specialize (Hkid c PO _ (or_introl eq_refl) Hok Hc eq_refl) as (Hkk & Hci & Hsol).
      specialize (Hsol eq_refl). unfold is_none. rewrite Hkk.
      destruct (nkind c); try reflexivity. congruence.
    + destruct cs as [|a [|b [|c [|? ?]]]]; reflexivity.
  - intros H. apply PW_inv in H as [(s1 & s2 & s3 & s4 & s5 & s6 & c & x & p & -> & Hp & Hx & He)|
                                    (b & i & x & p & Hr & Hx & Hp & Hxx & ->)].
    + now rewrite erase_wrapped.
    + rewrite erase_temp by assumption.
      assert (Hsz : (size x < n)%nat).
      { unfold increase_true_expr, E, mk in Hn. cbn [size fold_right] in Hn. lia. }
      destruct (IH x Hsz) as [IH1 IH2]. destruct Hp as [-> | ->]; [|auto].
      rewrite IH1 by assumption. exact Hx.
Qed.

Lemma erase_po : forall t, Sh PO t -> erase t = Node (nkind t) (nspan t) (erased_kids (nkind t) (nkids t)).
Proof. intros t H. eapply (proj1 (erase_PO (S (size t)) t (Nat.lt_succ_diag_r _))); assumption. Qed.
Lemma erase_pw : forall t, Sh PW t -> is_expr (erase t) = true.
Proof. intros t H. eapply (proj2 (erase_PO (S (size t)) t (Nat.lt_succ_diag_r _))); assumption. Qed.
Lemma PO_kind : forall t, Sh PO t -> nkind (erase t) = nkind t.
Proof. intros t H. now rewrite erase_po. Qed.
Lemma PO_span : forall t, Sh PO t -> nspan (erase t) = nspan t.
Proof. intros t H. now rewrite erase_po. Qed.
Lemma PW_is_expr : forall t, Sh PW t -> is_expr t = true.
Proof.
  intros t H. apply PW_inv in H as [(s1 & s2 & s3 & s4 & s5 & s6 & c & x & p & -> & _)|
                                    (b & i & x & p & _ & _ & _ & _ & ->)]; reflexivity.
Qed.
Lemma PD_hole : forall t, Sh PD t -> erase t = hole.
Proof. intros t H. apply PD_inv in H as (? & ? & ? & ? & ->). reflexivity. Qed.
Lemma PT_hole : forall t, Sh PT t -> erase t = hole.
Proof. intros t H. apply PT_inv in H as (k & ? & ? & -> & Hk). destruct k; try contradiction; reflexivity. Qed.
Lemma PE_hole : forall t, Sh PE t -> erase t = hole.
Proof. intros t H. apply PE_inv in H as (? & ? & ? & ->). reflexivity. Qed.

Lemma PB_erase : forall t s1 s2 s3 ss, t = Node KStmt s1 [Node (KBlock true) s2 [Node KStmts s3 ss]] ->
  erase_list ss = [] /\ erase t = hole \/ exists x, erase_list ss = [x] /\ erase t = x \/
  (2 <= length (erase_list ss))%nat.
Proof.
  intros t s1 s2 s3 ss ->. cbn [erase map erase_node].
  change (filter (fun c => negb (is_none c)) (map erase ss)) with (erase_list ss).
  destruct (erase_list ss) as [|x [|? ?]] eqn:He; cbn.
  - auto.
  - right. exists x. auto.
  - right. exists hole. right. lia.
Qed.

(** ** Names and declarations *)

Lemma flat_map_nonhole : forall A (f : node -> list A) l, f hole = [] -> forallb noneok l = true ->
  flat_map f (filter nonhole l) = flat_map f l.
Proof.
  induction l as [|x l IH]; intros Hf H; [reflexivity|]. simpl in H. apply andb_true_iff in H as [Hx Hl].
  simpl. unfold nonhole at 1. destruct (is_none x) eqn:Hn; simpl; [|now rewrite IH].
  apply noneok_hole in Hn; [|assumption]. subst x. rewrite Hf. simpl. auto.
Qed.
Lemma noneok_map_erase : forall l, forallb noneok (map erase l) = true.
Proof. induction l; simpl; [reflexivity|]. now rewrite erase_noneok. Qed.

Section Names.
Variable f : node -> list string.
Hypothesis Hhole : f hole = [].
Hypothesis Hexpr : forall sp cs, f (Node KExpr sp cs) = [].
Hypothesis Hthru : forall k sp cs,
  match k with KStmt | KStmts | KBlock _ | KReturn | KExprStmt | KTemplateFn _ | KTemplateCall => true | _ => false end = true ->
  f (Node k sp cs) = flat_map f cs.
Hypothesis Hcongr : forall k sp cs cs', flat_map f cs' = flat_map f cs ->
  flat_map pat_names cs' = flat_map pat_names cs -> f (Node k sp cs') = f (Node k sp cs).
Hypothesis Hpat : (forall t, Sh PO t \/ Sh PB t \/ Sh PA t \/ Sh PW t \/ Sh PD t \/ Sh PT t -> pat_names (erase t) = pat_names t) \/ f = pat_names.

Lemma names_kids_list : forall g : node -> list string, g hole = [] ->
  forall cs, (forall c, In c cs -> g (erase c) = g c) ->
  flat_map g (erase_list cs) = flat_map g cs.
Proof.
  intros g Hg cs H. unfold erase_list. rewrite flat_map_nonhole; [|assumption|apply noneok_map_erase].
  induction cs as [|c cs IH]; [reflexivity|]. simpl. rewrite H by now left. f_equal.
  apply IH. intros d Hd. apply H. now right.
Qed.
Lemma names_kids_map : forall g : node -> list string,
  forall cs, (forall c, In c cs -> g (erase c) = g c) ->
  flat_map g (map erase cs) = flat_map g cs.
Proof.
  intros g cs H. induction cs as [|c cs IH]; [reflexivity|]. simpl. rewrite H by now left. f_equal.
  apply IH. intros d Hd. apply H. now right.
Qed.

Definition top_role (t : node) : Prop := Sh PO t \/ Sh PB t \/ Sh PA t \/ Sh PW t \/ Sh PD t \/ Sh PT t.

Lemma top_kid : forall k i cs c, Shs PO k i cs -> In c cs -> top_role c.
Proof.
  intros k i cs c H Hc. destruct (Shs_In _ _ _ _ _ H Hc) as (j & q & Hok & Hq).
  unfold top_role. destruct q; try discriminate; auto 10.
Qed.
Lemma top_kid_b : forall p i cs c, p = PBS \/ p = PAS -> Shs p KStmts i cs -> In c cs -> top_role c.
Proof.
  intros p i cs c Hp H Hc. destruct (Shs_In _ _ _ _ _ H Hc) as (j & q & Hok & Hq).
  unfold top_role. destruct Hp as [-> | ->]; destruct q; try discriminate; auto 10.
Qed.

Lemma names_expr : forall t, is_expr t = true -> f t = [].
Proof. intros [[] sp cs] H; try discriminate. apply Hexpr. Qed.

Lemma names_erase_n : forall n t, (size t < n)%nat -> top_role t -> f (erase t) = f t.
Proof.
  induction n as [|n IH]; intros t Hn Ht; [lia|].
  assert (Hthru1 : forall k sp c,
    match k with KStmt | KStmts | KBlock _ | KReturn | KExprStmt | KTemplateFn _ | KTemplateCall => true | _ => false end = true ->
    f (Node k sp [c]) = f c).
  { intros k sp c Hk. rewrite Hthru by assumption. simpl. apply app_nil_r. }
  assert (Hlist : forall ss, (forall c, In c ss -> top_role c /\ (size c < n)%nat) ->
                  flat_map f (erase_list ss) = flat_map f ss).
  { intros ss H. apply names_kids_list; [assumption|]. intros c Hc. destruct (H c Hc). now apply IH. }
  destruct Ht as [H|[H|[H|[H|[H|H]]]]].
  - pose proof (erase_po _ H) as He.
    apply PO_inv in H as (k & sp & cs & -> & Hi & Hs & Hk). cbn [nkind nspan nkids] in He. rewrite He.
    assert (Hin : forall c, In c cs -> top_role c /\ (size c < n)%nat).
    { intros c Hc. split; [eapply top_kid; eauto|]. pose proof (size_kid k sp cs c Hc). lia. }
    assert (Hpn : flat_map pat_names (erased_kids k cs) = flat_map pat_names cs \/ f = pat_names).
    { destruct Hpat as [Hp|Hp]; [left|now right].
      assert (Hcs : forall c, In c cs -> pat_names (erase c) = pat_names c).
      { intros c Hc. apply Hp. apply Hin. assumption. }
      destruct k; try (apply names_kids_map; assumption);
        try (apply names_kids_list; [reflexivity|assumption]).
      cbn [erased_kids]. rewrite <- (names_kids_map pat_names cs Hcs).
      destruct cs as [|a [|b [|ty [|? ?]]]]; try reflexivity. cbn [map flat_map].
      do 2 f_equal. apply Shs_inv in Hk as [_ Hk]. apply Shs_inv in Hk as [(q0 & Hok0 & H8) _]. destruct q0; try discriminate.
      - unfold erase_arrow_body. rewrite (erase_po _ H8). pose proof (PO_kind _ H8) as Hkk.
        destruct b as [bk bsp bcs]. cbn [nkind nspan nkids].
        apply PO_inv in H8 as (? & ? & ? & Heq & Hi' & _). inversion Heq; subst.
        destruct (block_view _) as [[[[[] ?] ?] ?]|] eqn:Hb; try reflexivity.
        apply block_view_inv in Hb. inversion Hb; subst. discriminate.
      - apply PA_inv in H8 as (s2 & s3 & ss & ssp & x & -> & Hl & Hx & _).
        cbn [erase map erase_node].
        change (filter (fun c => negb (is_none c)) (map erase ss)) with (erase_list ss). rewrite Hl.
        cbn. destruct x as [[] ? ?]; try discriminate. reflexivity. }
    assert (Hfn : flat_map f (erased_kids k cs) = flat_map f cs).
    { assert (Hcs : forall c, In c cs -> f (erase c) = f c).
      { intros c Hc. destruct (Hin c Hc). now apply IH. }
      destruct k; try (apply names_kids_map; assumption);
        try (apply names_kids_list; [assumption|assumption]).
      cbn [erased_kids]. rewrite <- (names_kids_map f cs Hcs).
      destruct cs as [|a [|b [|ty [|? ?]]]]; try reflexivity. cbn [map flat_map].
      do 2 f_equal. apply Shs_inv in Hk as [_ Hk]. apply Shs_inv in Hk as [(q0 & Hok0 & H8) _]. destruct q0; try discriminate.
      - unfold erase_arrow_body. rewrite (erase_po _ H8). 
        destruct b as [bk bsp bcs]. cbn [nkind nspan nkids].
        apply PO_inv in H8 as (? & ? & ? & Heq & Hi' & _). inversion Heq; subst.
        destruct (block_view _) as [[[[[] ?] ?] ?]|] eqn:Hb; try reflexivity.
        apply block_view_inv in Hb. inversion Hb; subst. discriminate.
      - apply PA_inv in H8 as (s2 & s3 & ss & ssp & x & -> & Hl & Hx & _).
        cbn [erase map erase_node].
        change (filter (fun c => negb (is_none c)) (map erase ss)) with (erase_list ss). rewrite Hl.
        unfold erase_arrow_body, return_view. cbn [block_view stmts_view stmt_view].
        rewrite !Hthru1 by reflexivity. reflexivity. }
    destruct Hpn as [Hpn|Hpn].
    + now apply Hcongr.
    + apply Hcongr; [assumption|]. now rewrite <- Hpn.
  - apply PB_inv in H as (s1 & s2 & s3 & ss & -> & Hl & Hk).
    rewrite !Hthru1 by reflexivity. rewrite Hthru by reflexivity.
    rewrite <- Hlist.
    2:{ intros c Hc. split; [eapply (top_kid_b PBS); eauto|].
        pose proof (size_in ss c Hc). cbn [size fold_right] in Hn. lia. }
    destruct (PB_erase _ s1 s2 s3 ss eq_refl) as [[Ha ->]|(x & [[Ha ->]|Ha])].
    + rewrite Ha. exact Hhole.
    + rewrite Ha. simpl. now rewrite app_nil_r.
    + destruct Hl as [Hl|(y & Hl & _)]; rewrite Hl in Ha; simpl in Ha; lia.
  - apply PA_inv in H as (s2 & s3 & ss & ssp & x & -> & Hl & Hx & Hk).
    rewrite !Hthru1 by reflexivity. rewrite Hthru by reflexivity.
    rewrite <- Hlist.
    2:{ intros c Hc. split; [eapply (top_kid_b PAS); eauto|].
        pose proof (size_in ss c Hc). cbn [size fold_right] in Hn. lia. }
    cbn [erase map erase_node].
    change (filter (fun c => negb (is_none c)) (map erase ss)) with (erase_list ss).
    rewrite !Hthru1 by reflexivity. now rewrite Hthru by reflexivity.
  - rewrite (names_expr (erase t)) by now apply erase_pw. rewrite (names_expr t) by now apply PW_is_expr.
    reflexivity.
  - rewrite (PD_hole _ H), Hhole. apply PD_inv in H as (c & ? & ? & ? & ->).
    now rewrite !Hthru1, Hexpr by reflexivity.
  - rewrite (PT_hole _ H), Hhole. apply PT_inv in H as (k & ? & ? & -> & Hk).
    rewrite Hthru1 by reflexivity. rewrite Hthru; [reflexivity|]. destruct k; try contradiction; reflexivity.
Qed.
Lemma names_erase : forall t, top_role t -> f (erase t) = f t.
Proof. intros t. apply (names_erase_n (S (size t))). lia. Qed.
End Names.

Lemma pat_names_erase : forall t, top_role t -> pat_names (erase t) = pat_names t.
Proof.
  apply names_erase.
  - reflexivity.
  - reflexivity.
  - intros [] sp cs H; try discriminate; reflexivity.
  - intros [] sp cs cs' H _; cbn [pat_names]; congruence.
  - now right.
Qed.
Lemma var_names_erase : forall t, top_role t -> var_names (erase t) = var_names t.
Proof.
  apply names_erase.
  - reflexivity.
  - reflexivity.
  - intros [] sp cs H; try discriminate; reflexivity.
  - intros [] sp cs cs' H H'; cbn [var_names]; try congruence. destruct vk; congruence.
  - left. exact pat_names_erase.
Qed.
End Shape.
