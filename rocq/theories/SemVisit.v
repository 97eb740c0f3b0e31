(** The visitors keep the shapes of SemShape.v: what the instrumenter adds stands only where
    running it makes no difference. *)
From Coq Require Import NArith String List Bool Lia PeanoNat.
Import ListNotations.
From Verif Require Import Base IndexMap Oxide SourceCov Hints Ast Visitor VisitorRel VisitorEx Erase Sem SemShape SemErase.
Open Scope N_scope.

Scheme Sh_ind2 := Induction for Sh Sort Prop
with Shs_ind2 := Induction for Shs Sort Prop.
Combined Scheme Sh_both from Sh_ind2, Shs_ind2.

Lemma Sh_mono_all : forall rlo rl,
  (forall p t, Sh false rlo p t -> Sh rl rlo p t) /\
  (forall p k i cs, Shs false rlo p k i cs -> Shs rl rlo p k i cs).
Proof.
  intros rlo rl. apply (Sh_both false rlo (fun p t _ => Sh rl rlo p t) (fun p k i cs _ => Shs rl rlo p k i cs)).
  - intros. now apply Sh_node.
  - intros. discriminate.
  - intros. constructor.
  - intros. econstructor; eauto.
Qed.
Lemma Sh_mono : forall rlo rl p t, Sh false rlo p t -> Sh rl rlo p t.
Proof. intros rlo rl. apply (Sh_mono_all rlo rl). Qed.
Lemma Shs_mono : forall rlo rl p k i cs, Shs false rlo p k i cs -> Shs rl rlo p k i cs.
Proof. intros rlo rl. apply (Sh_mono_all rlo rl). Qed.

Section Parts.
Variables rl rlo : bool.
Notation Sh := (Sh rl rlo).
Notation Shs := (Shs rl rlo).

(** Members of statement lists: their position does not matter. *)
Definition LM (p : role) (k : kind) (c : node) : Prop :=
  exists q, ok_at rlo p k 0 q (erase c) = true /\ Sh q c.
Lemma ok_list : forall p k i q c, list_kind k = true -> ok_at rlo p k i q c = true -> p = PO \/ p = PBS \/ p = PAS ->
  ok_at rlo p k 0 q c = true.
Proof.
  intros p k i q c Hk H [-> | [-> | ->]]; destruct k; try discriminate; destruct q; try discriminate; exact H.
Qed.
Lemma ok_list' : forall p k i q c, list_kind k = true -> ok_at rlo p k 0 q c = true -> p = PO \/ p = PBS \/ p = PAS ->
  ok_at rlo p k i q c = true.
Proof.
  intros p k i q c Hk H [-> | [-> | ->]]; destruct k; try discriminate; destruct q; try discriminate; exact H.
Qed.
Lemma Shs_LM : forall p k cs i, list_kind k = true -> p = PO \/ p = PBS \/ p = PAS ->
  Shs p k i cs -> Forall (LM p k) cs.
Proof.
  induction cs as [|c cs IH]; intros i Hk Hp H; [constructor|].
  apply Shs_inv in H as [(q & Hok & Hq) H]. constructor; [|eauto].
  exists q. split; [|assumption]. eapply ok_list; eauto.
Qed.
Lemma LM_Shs : forall p k cs i, list_kind k = true -> p = PO \/ p = PBS \/ p = PAS ->
  Forall (LM p k) cs -> Shs p k i cs.
Proof.
  induction cs as [|c cs IH]; intros i Hk Hp H; [constructor|].
  inversion H as [|? ? (q & Hok & Hq) H2]; subst. apply Shs_cons with (q := q); auto using ok_list'.
Qed.

Lemma counter_expr_Sh : forall c, Sh PE (counter_expr c).
Proof.
  intros c. apply Sh_node; [reflexivity|reflexivity|].
  apply Shs_cons with (q := PC); [reflexivity| |constructor].
  apply Sh_node; [reflexivity|reflexivity|constructor].
Qed.
Lemma counter_Sh : forall c, Sh PD (counter_stmt c).
Proof.
  intros c. apply Sh_node; [reflexivity|reflexivity|].
  apply Shs_cons with (q := PX); [reflexivity| |constructor].
  apply Sh_node; [reflexivity|split; reflexivity|].
  apply Shs_cons with (q := PE); [reflexivity|apply counter_expr_Sh|constructor].
Qed.
Lemma counter_LM : forall p k c, list_kind k = true -> p = PO \/ p = PBS \/ p = PAS -> LM p k (counter_stmt c).
Proof.
  intros p k c Hk Hp. exists PD. split; [|apply counter_Sh]. destruct Hp as [-> | [-> | ->]]; auto.
Qed.
Lemma before_LM : forall p k l, list_kind k = true -> p = PO \/ p = PBS \/ p = PAS -> sonly l -> Forall (LM p k) l.
Proof.
  intros p k l Hk Hp H. unfold sonly in H. eapply Forall_impl; [|exact H]. intros x [i ->]. now apply counter_LM.
Qed.
Lemma templates_LM : forall k s tpl call s', list_kind k = true -> get_coverage_templates s = (tpl, call, s') ->
  LM PO k tpl /\ LM PO k call.
Proof.
  intros k s tpl call s' Hk H. unfold get_coverage_templates in H. inversion H; subst.
  split; exists PT; (split; [exact Hk|]);
    (apply Sh_node; [reflexivity|reflexivity|]; apply Shs_cons with (q := PU); [reflexivity| |constructor];
     apply Sh_node; [reflexivity|reflexivity|constructor]).
Qed.

Lemma is_expr_ow : forall p x, p = PO \/ p = PW -> Sh p x -> is_expr x = true -> is_expr (erase x) = true.
Proof.
  intros p x [-> | ->] H He.
  - unfold is_expr. rewrite (PO_kind _ _ _ H). exact He.
  - exact (erase_pw _ _ _ H).
Qed.
Lemma paren_Sh : forall c p x, p = PO \/ p = PW -> Sh p x -> is_expr x = true -> Sh PW (paren_seq c x).
Proof.
  intros c p x Hp H He. pose proof (is_expr_ow p x Hp H He) as Hee.
  unfold paren_seq, E, mk.
  repeat (apply Sh_node; [reflexivity|reflexivity|]).
  apply Shs_cons with (q := PP); [reflexivity| |constructor].
  apply Sh_node; [reflexivity|reflexivity|].
  apply Shs_cons with (q := PQ); [reflexivity| |constructor].
  apply Sh_node; [reflexivity|reflexivity|].
  apply Shs_cons with (q := PS); [reflexivity| |constructor].
  apply Sh_node; [reflexivity|reflexivity|].
  apply Shs_cons with (q := PE); [reflexivity|apply counter_expr_Sh|].
  apply Shs_cons with (q := p); [destruct Hp as [-> | ->]; exact Hee|assumption|constructor].
Qed.

(** An injected block around statements of which at most one, declaring nothing, is the
    program's *)
Lemma inj_block_Sh : forall ss, Forall (LM PBS KStmts) ss ->
  (erase_list ss = [] \/ exists x, erase_list ss = [x] /\ lex_of x = []) ->
  Sh PB (mk KStmt [mk (KBlock true) [mk KStmts ss]]).
Proof.
  intros ss Hss Hl. unfold mk.
  apply Sh_node; [reflexivity|reflexivity|].
  apply Shs_cons with (q := PBB); [reflexivity| |constructor].
  apply Sh_node; [reflexivity|reflexivity|].
  apply Shs_cons with (q := PBS); [reflexivity| |constructor].
  apply Sh_node; [reflexivity|exact Hl|]. now apply LM_Shs; auto.
Qed.
End Parts.

Lemma LM_mono : forall rlo rl p k c, LM false rlo p k c -> LM rl rlo p k c.
Proof. intros rlo rl p k c (q & H1 & H2). exists q. split; [assumption|]. now apply Sh_mono. Qed.
Lemma LM_mono_all : forall rlo rl p k cs, Forall (LM false rlo p k) cs -> Forall (LM rl rlo p k) cs.
Proof. intros rlo rl p k cs H. eapply Forall_impl; [|exact H]. intros. now apply LM_mono. Qed.


Section Pieces.
Variables rlo rl : bool.
Notation Sh0 := (Sh false rlo).
Notation Shs0 := (Shs false rlo).
Notation Sh1 := (Sh rl rlo).
Notation Shs1 := (Shs rl rlo).

Lemma congr : forall p k sp cs cs', Sh0 p (Node k sp cs) -> Shs1 p k 0 cs' -> map erase cs' = map erase cs ->
  Sh1 p (Node k sp cs').
Proof.
  intros p k sp cs cs' H Hk He. inversion H; subst; [|discriminate]. apply Sh_node; auto. congruence.
Qed.
Lemma kids0 : forall p k sp cs, Sh0 p (Node k sp cs) -> Shs0 p k 0 cs.
Proof. intros p k sp cs H. inversion H; subst; [assumption|discriminate]. Qed.
Lemma here0 : forall p k sp cs, Sh0 p (Node k sp cs) -> here p k = true.
Proof. intros p k sp cs H. inversion H; subst; [assumption|discriminate]. Qed.
Lemma Shs_swap : forall pre p k i c c' post, Shs0 p k i (pre ++ c :: post) ->
  (forall q, Sh0 q c -> Sh1 q c') -> erase c' = erase c -> Shs1 p k i (pre ++ c' :: post).
Proof.
  induction pre as [|a pre IH]; intros p k i c c' post H Hc He; cbn [app] in *;
    apply Shs_inv in H as [(q & Hok & Hq) H].
  - apply Shs_cons with (q := q); [now rewrite He|auto|now apply Shs_mono].
  - apply Shs_cons with (q := q); [assumption|now apply Sh_mono|]. eapply IH; eauto.
Qed.

Lemma stmts_role : forall p sp ss, Sh0 p (Node KStmts sp ss) ->
  (p = PO \/ p = PBS \/ p = PAS) /\ Forall (LM false rlo p KStmts) ss.
Proof.
  intros p sp ss H. pose proof (here0 _ _ _ _ H) as Hh. apply kids0 in H.
  assert (Hp : p = PO \/ p = PBS \/ p = PAS) by (destruct p; try discriminate; auto).
  split; [assumption|]. eapply Shs_LM; eauto.
Qed.
Lemma stmts_Sh : forall p sp ss ss', Sh0 p (Node KStmts sp ss) ->
  (p = PO \/ p = PBS \/ p = PAS -> Forall (LM false rlo p KStmts) ss -> Forall (LM rl rlo p KStmts) ss') ->
  erase_list ss' = erase_list ss ->
  Sh1 p (Node KStmts sp ss').
Proof.
  intros p sp ss ss' H Hss He. destruct (stmts_role _ _ _ H) as [Hp Hl].
  assert (Hpw : p <> PW) by (destruct Hp as [-> | [-> | ->]]; discriminate).
  apply Sh_inv in H as (Hh & Hs & Hk); [|assumption].
  apply Sh_node; [assumption| |apply LM_Shs; auto].
  destruct Hp as [-> | [-> | ->]]; cbn [side] in *; auto;
    unfold erase_list in He; now rewrite He.
Qed.
Lemma block_Sh : forall p bi bsp ssp ss ss', Sh0 p (Node (KBlock bi) bsp [Node KStmts ssp ss]) ->
  (forall q, q = PO \/ q = PBS \/ q = PAS -> Forall (LM false rlo q KStmts) ss -> Forall (LM rl rlo q KStmts) ss') ->
  erase_list ss' = erase_list ss ->
  Sh1 p (Node (KBlock bi) bsp [Node KStmts ssp ss']).
Proof.
  intros p bi bsp ssp ss ss' H Hss He.
  assert (Hee : erase (Node KStmts ssp ss') = erase (Node KStmts ssp ss)) by now apply stmts_congr.
  eapply congr; [exact H| |cbn [map]; now rewrite Hee].
  apply (Shs_swap [] p (KBlock bi) 0 (Node KStmts ssp ss) (Node KStmts ssp ss') []); [now apply kids0 in H| |exact Hee].
  intros q Hq. eapply stmts_Sh; eauto.
Qed.
Lemma stmt_block_Sh : forall p sp bi bsp ssp ss ss',
  Sh0 p (Node KStmt sp [Node (KBlock bi) bsp [Node KStmts ssp ss]]) ->
  (forall q, q = PO \/ q = PBS \/ q = PAS -> Forall (LM false rlo q KStmts) ss -> Forall (LM rl rlo q KStmts) ss') ->
  erase_list ss' = erase_list ss ->
  Sh1 p (Node KStmt sp [Node (KBlock bi) bsp [Node KStmts ssp ss']]).
Proof.
  intros p sp bi bsp ssp ss ss' H Hss He.
  assert (Hee : erase (Node (KBlock bi) bsp [Node KStmts ssp ss']) = erase (Node (KBlock bi) bsp [Node KStmts ssp ss])).
  { apply erase_congr. cbn [map]. f_equal. now apply stmts_congr. }
  eapply congr; [exact H| |cbn [map]; now rewrite Hee].
  apply (Shs_swap [] p KStmt 0 _ (Node (KBlock bi) bsp [Node KStmts ssp ss']) []
           (kids0 _ _ _ _ H)); [|exact Hee].
  intros q Hq. eapply block_Sh; eauto.
Qed.

Lemma ok_vpos : forall k i q ec, ok_at rlo PO k i q ec = true -> vpos k i = true ->
  (q = PO \/ q = PW) /\ forall q', q' = PO \/ q' = PW -> ok_at rlo PO k i q' ec = true.
Proof.
  intros k i q ec H Hv.
  assert (Hq : (q = PO \/ q = PW) /\ fits rlo k i ec = true).
  { destruct q; try discriminate; cbn [ok_at] in H.
    - auto.
    - apply andb_true_iff in H as [_ H]. auto.
    - destruct k; discriminate.
    - destruct k; discriminate.
    - destruct k; discriminate.
    - destruct k; discriminate. }
  destruct Hq as [Hq Hf]. split; [assumption|]. intros q' [-> | ->]; cbn [ok_at]; [assumption|]. now rewrite Hv.
Qed.
Lemma ok_bpos : forall k i q ec, ok_at rlo PO k i q ec = true -> bpos k i = true ->
  (q = PO \/ q = PB) /\ lex_of ec = [] /\ ok_at rlo PO k i PO ec = true /\
  (is_none ec = false \/ k = KIf -> ok_at rlo PO k i PB ec = true).
Proof.
  intros k i q ec H Hb.
  assert (Hq : (q = PO \/ q = PB) /\ is_nil (lex_of ec) = true).
  { destruct q; try discriminate; cbn [ok_at] in H.
    - split; [auto|]. unfold fits in H. rewrite Hb in H. cbn [negb orb] in H.
      do 3 apply andb_true_iff in H as [H _]. now apply andb_true_iff in H as [_ H].
    - apply andb_true_iff in H as [H _]. destruct k; discriminate.
    - destruct k; discriminate.
    - destruct k; discriminate.
    - split; [auto|]. apply andb_true_iff in H as [H _]. now apply andb_true_iff in H as [_ H].
    - destruct k; discriminate. }
  destruct Hq as [Hq Hn]. repeat split; auto.
  - destruct (lex_of ec); [reflexivity|discriminate].
  - cbn [ok_at]. unfold fits. rewrite Hn, orb_true_r.
    destruct k; try discriminate; cbn; now rewrite ?orb_true_r.
  - intros Hx. cbn [ok_at]. rewrite Hb, Hn. destruct Hx as [-> | ->]; [reflexivity|]. now rewrite orb_true_r.
Qed.

(** One statement in an injected block *)
Lemma one_stmt : forall pre x, sonly pre -> Sh1 PO x -> is_stmt x = true -> lex_of (erase x) = [] ->
  Sh1 PB (mk KStmt [mk (KBlock true) [mk KStmts (pre ++ [x])]]).
Proof.
  intros pre x Hp Hx Hst Hl. pose proof (PO_kind _ _ _ Hx) as Hk.
  apply inj_block_Sh.
  - apply Forall_app. split; [now apply before_LM; auto|]. apply Forall_cons; [|apply Forall_nil].
    exists PO. split; [|assumption]. unfold ok_at, is_stmt in *. now rewrite Hk.
  - right. exists (erase x). split; [|assumption]. rewrite erase_list_app, (erase_list_sonly _ Hp).
    unfold erase_list. cbn [map filter app]. unfold nonhole, is_none. rewrite Hk.
    unfold is_stmt in Hst. destruct (nkind x); try discriminate. reflexivity.
Qed.
End Pieces.

(** What is put into blocks and around expressions before the children are visited *)
Section Before.
Variables (e : env) (rlo : bool).
Notation Sh0 := (Sh false rlo).
Notation Shs0 := (Shs false rlo).

Lemma prepend_Sh : forall c p b b', Sh0 p b -> prepend_to_block c b = Some b' -> Sh0 p b'.
Proof.
  intros c p b b' H Hb. unfold prepend_to_block in Hb.
  destruct (block_view b) as [[[[i bsp] ssp] ss]|] eqn:Hv; [|discriminate].
  apply block_view_inv in Hv. inversion Hb; subst.
  eapply block_Sh; [exact H| |reflexivity]. intros q Hq Hl. apply Forall_cons; [|assumption]. now apply counter_LM.
Qed.
Lemma create_fn_Sh : forall id p fn s fn' s', create_fn_instrumentation e id fn s = Ok (fn', s') ->
  Sh0 p fn -> Sh0 p fn'.
Proof.
  intros id p [k sp cs] s fn' s' H Hs. unfold create_fn_instrumentation in H.
  destruct k; try discriminate. destruct cs as [|a [|d [|b [|ty [|? ?]]]]]; try discriminate.
  destruct (new_function _ _ _ _) as [c i]. destruct (is_none b); [discriminate|].
  destruct (prepend_to_block (CF i) b) as [b'|] eqn:Hp; [|discriminate]. inversion H; subst.
  pose proof (prepend_to_block_facts _ _ _ Hp) as He.
  eapply congr; [exact Hs| |cbn [map]; now rewrite He].
  apply (Shs_swap rlo false [a; d] p KFunction 0 b b' [ty] (kids0 _ _ _ _ _ Hs)); [|assumption].
  intros q Hq. eapply prepend_Sh; eauto.
Qed.
Lemma accessor_Sh : forall name sp s b b' s' q, accessor_body e name sp s b = Ok (b', s') -> Sh0 q b -> Sh0 q b'.
Proof.
  intros name sp s b b' s' q H Hb. unfold accessor_body in H.
  destruct (is_none b); [inversion H; subst; auto|].
  destruct (new_function _ _ _ _) as [c i].
  destruct (prepend_to_block (CF i) b) as [b''|] eqn:Hp; [|discriminate]. inversion H; subst.
  eapply prepend_Sh; eauto.
Qed.
Lemma covered_Sh : forall x s x' s' p, covered e x s x' s' -> p = PO \/ p = PW -> Sh0 p x ->
  exists q, (q = PO \/ q = PW) /\ Sh0 q x'.
Proof.
  intros x s x' s' p (s1 & _ & [[-> _]|[Hx H]]) Hp H0; [eauto|].
  unfold replace_expr_with_stmt_counter, new_statement in H. inversion H; subst.
  exists PW. split; [auto|]. eapply paren_Sh; eauto.
Qed.
Lemma replace_Sh : forall rl x b s x' s' p, replace_expr_with_branch_counter e x b s = Ok (x', s') ->
  p = PO \/ p = PW -> Sh rl rlo p x -> Sh rl rlo PW x'.
Proof.
  intros rl x b s x' s' p H Hp H0. unfold replace_expr_with_branch_counter in H.
  destruct (is_expr x) eqn:Hx; [|discriminate]. cbn [negb] in H.
  apply bind_ok in H as [[c i] [_ H]]. inversion H; subst. eapply paren_Sh; eauto.
Qed.
Lemma cond_arm_Sh : forall x b s x' s' p, cond_arm e b x s x' s' -> p = PO \/ p = PW -> Sh0 p x ->
  exists q, (q = PO \/ q = PW) /\ Sh0 q x'.
Proof.
  intros x b s x' s' p [[-> ->]|H] Hp H0; [eauto|]. exists PW. split; [auto|]. eapply replace_Sh; eauto.
Qed.

Lemma not_block_PO : forall rl q sp x, is_block x = false -> q = PO \/ q = PB -> Sh rl rlo q (Node KStmt sp [x]) ->
  Sh rl rlo PO (Node KStmt sp [x]).
Proof.
  intros rl q sp x Hb [-> | ->] H; [assumption|]. apply PB_inv in H as (s1 & s2 & s3 & ss & He & _).
  inversion He; subst. discriminate.
Qed.
Lemma to_block_Sh : forall k i q c c', ok_at rlo PO k i q (erase c) = true -> bpos k i = true -> Sh0 q c ->
  to_block c = Some c' -> exists q', ok_at rlo PO k i q' (erase c') = true /\ Sh0 q' c'.
Proof.
  intros k i q c c' Hok Hb H Ht. unfold to_block in Ht.
  destruct (stmt_view c) as [[sp x]|] eqn:Hv; [|discriminate]. apply stmt_view_inv in Hv. subst c.
  destruct (is_block x) eqn:Hx; inversion Ht; subst; [eauto|].
  destruct (ok_bpos _ _ _ _ _ Hok Hb) as (Hq & Hl & _ & Hpb).
  apply (not_block_PO _ _ _ _ Hx Hq) in H.
  exists PB. split.
  - rewrite (erase_inj_block [Node KStmt sp [x]] (Node KStmt sp [x]) eq_refl). apply Hpb. left. unfold is_none.
    now rewrite (PO_kind _ _ _ H).
  - apply (one_stmt rlo false [] (Node KStmt sp [x])); auto. constructor.
Qed.
Lemma block_last_Sh : forall k cs cs1 i, block_last cs = Some cs1 -> Shs0 PO k i cs ->
  bpos k (i + length cs - 1) = true -> Shs0 PO k i cs1.
Proof.
  induction cs as [|c cs IH]; intros cs1 i H Hs Hb; [discriminate|].
  destruct cs as [|c2 cs].
  - cbn [block_last] in H. destruct (to_block c) as [c'|] eqn:Ht; [|discriminate]. inversion H; subst.
    apply Shs_inv in Hs as [(q & Hok & Hq) _]. cbn [length] in Hb. replace (i + 1 - 1)%nat with i in Hb by lia.
    destruct (to_block_Sh _ _ _ _ _ Hok Hb Hq Ht) as (q' & H1 & H2).
    apply Shs_cons with (q := q'); auto. constructor.
  - change (block_last (c :: c2 :: cs)) with (option_map (cons c) (block_last (c2 :: cs))) in H.
    destruct (block_last (c2 :: cs)) as [l|] eqn:Hl; [|discriminate]. inversion H; subst.
    apply Shs_inv in Hs as [(q & Hok & Hq) Hs]. apply Shs_cons with (q := q); auto.
    apply IH; auto. cbn [length] in *. now replace (S i + S (length cs) - 1)%nat with (i + S (S (length cs)) - 1)%nat by lia.
Qed.
End Before.

Section Visit.
Variable e : env.
Notation rl := (e_report_logic e).
Notation Sh0 := (Sh false rl).
Notation Shs0 := (Shs false rl).
Notation Sh1 := (Sh rl rl).
Notation Shs1 := (Shs rl rl).

Definition SV (v : vis) (t : node) (s : st) (t' : node) (s' : st) : Prop :=
  sonly (before s) -> forall p, Sh0 p t -> Sh1 p t'.
Definition SK (v : vis) (cs : list node) (s : st) (cs' : list node) (s' : st) : Prop :=
  sonly (before s) -> forall p k i, Shs0 p k i cs -> Shs1 p k i cs'.
Definition SI (k : kind) (ss : list node) (s : st) (ss' : list node) (s' : st) : Prop :=
  sonly (before s) -> forall p, p = PO \/ p = PBS \/ p = PAS ->
  Forall (LM false rl p k) ss -> Forall (LM rl rl p k) ss'.
Definition SW (v : vis) (b : N) (x : node) (s : st) (x' : node) (s' : st) : Prop :=
  sonly (before s) -> forall p, p = PO \/ p = PW -> Sh0 p x -> exists q, (q = PO \/ q = PW) /\ Sh1 q x'.
Definition SA (b : N) (r : range) (cur : option ignore_scope) (x : node) (s : st) (x' : node) (s' : st) : Prop :=
  sonly (before s) -> forall p, p = PO \/ p = PB -> lex_of (erase x) = [] -> Sh0 p x ->
  exists q, (q = PO \/ q = PB) /\ Sh1 q x'.

Lemma sonly_nil' : sonly []. Proof. constructor. Qed.
Ltac fwd := repeat match goal with
  | H : sonly ?a -> _, H' : sonly ?a |- _ => specialize (H H')
  | H : _ /\ _ |- _ => destruct H
  | H : on_enter e _ _ _ = (_, _, _) |- _ =>
      let C := fresh "Hc" in let B := fresh "Hb" in
      apply on_enter_facts in H as (C & B & _ & _)
  | H : on_enter_with_span e _ _ = (_, _, _) |- _ =>
      let C := fresh "Hc" in let B := fresh "Hb" in
      apply on_enter_with_span_facts in H as (C & B & _ & _)
  | B : before ?s1 = before ?s, H : sonly (before ?s) |- _ =>
      let P := fresh "Hs" in
      assert (P : sonly (before s1)) by (rewrite B; exact H); clear B
  | M : sonly (before (mark_prepend_stmt_counter e ?sp ?s1)) -> _, H : sonly (before ?s1) |- _ =>
      specialize (M (mark_sonly e sp s1 H))
  | M : sonly [] -> _ |- _ => specialize (M sonly_nil')
  end.
Ltac norm := cbn [before on_exit pop push set_ign set_cov spawn clear_before] in *; fwd.
Ltac facts := repeat match goal with
  | H : Vis e _ _ _ _ _ |- _ =>
      let X := fresh "EE" in pose proof (proj1 (erase_all e) _ _ _ _ _ H) as X; unfold EV in X; clear H
  | H : Kids e _ _ _ _ _ |- _ =>
      let X := fresh "EE" in pose proof (proj1 (proj2 (erase_all e)) _ _ _ _ _ H) as X; unfold EK in X; clear H
  | H : Ins e _ _ _ _ |- _ =>
      let X := fresh "EE" in pose proof (proj1 (proj2 (proj2 (erase_all e))) _ _ _ _ H) as X; unfold EI in X; clear H
  | H : Wrap e _ _ _ _ _ _ |- _ =>
      let X := fresh "EE" in pose proof (proj1 (proj2 (proj2 (proj2 (erase_all e)))) _ _ _ _ _ _ H) as X; unfold EV in X; clear H
  | H : Arm e _ _ _ _ _ _ _ |- _ =>
      let X := fresh "EE" in pose proof (proj1 (proj2 (proj2 (proj2 (proj2 (erase_all e))))) _ _ _ _ _ _ _ H) as X; unfold EV in X; clear H
  | H : Items e _ _ _ _ |- _ =>
      let X := fresh "EE" in pose proof (proj1 (proj2 (proj2 (proj2 (proj2 (proj2 (erase_all e)))))) _ _ _ _ H) as X; unfold EI in X; clear H
  | H : SItems e _ _ _ _ |- _ =>
      let X := fresh "EE" in pose proof (proj2 (proj2 (proj2 (proj2 (proj2 (proj2 (erase_all e)))))) _ _ _ _ H) as X; unfold EI in X; clear H
  end.

Theorem shapes_all :
  (forall v t s t' s', Vis e v t s t' s' -> SV v t s t' s') /\
  (forall v cs s cs' s', Kids e v cs s cs' s' -> SK v cs s cs' s') /\
  (forall ss s ss' s', Ins e ss s ss' s' -> SI KStmts ss s ss' s') /\
  (forall v b x s x' s', Wrap e v b x s x' s' -> SW v b x s x' s') /\
  (forall b r cur x s x' s', Arm e b r cur x s x' s' -> SA b r cur x s x' s') /\
  (forall xs s xs' s', Items e xs s xs' s' -> SI KModuleItems xs s xs' s') /\
  (forall xs s xs' s', SItems e xs s xs' s' -> SI KStmts xs s xs' s').
Proof.
  apply Vis_all_ind; unfold SV, SK, SI, SW, SA; intros; facts; norm.
  all: try (now apply Sh_mono).
  all: try (match goal with H : Sh0 ?p (Node ?k ?sp ?cs), M : map erase ?cs' = map erase ?cs |- Sh1 ?p (Node ?k ?sp ?cs') =>
              eapply congr; [exact H| |exact M]; match goal with IH : _ |- _ => apply IH end; now apply kids0 in H end).
  - (* V_stmts *) eapply stmts_Sh; eauto.
  - (* V_fn *)
    match goal with H : create_fn_instrumentation _ _ _ _ = _ |- _ =>
      pose proof (create_fn_facts _ _ _ _ _ _ H) as [Hf Hb];
      pose proof (fun q => create_fn_Sh e rl _ q _ _ _ _ H) as Hsh end.
    norm. eapply congr; [eassumption| |].
    + match goal with IH : forall p k i, Shs0 p k i _ -> _ |- _ => apply IH end.
      match goal with H : Sh0 p _ |- _ => apply kids0 in H;
        apply (Shs_swap rl false [key] p k 0 fn fn' [] H Hsh Hf) end.
    + match goal with H : map erase cs' = _ |- _ => rewrite H end. cbn [map]. now rewrite Hf.
  - (* V_accessor *)
    match goal with H : accessor_body _ _ _ _ _ = _ |- _ =>
      pose proof (accessor_facts _ _ _ _ _ _ _ H) as [Hf Hb];
      pose proof (fun q => accessor_Sh e rl _ _ _ _ _ _ q H) as Hsh end.
    norm. eapply congr; [eassumption| |].
    + match goal with IH : forall p k i, Shs0 p k i _ -> _ |- _ => apply IH end.
      match goal with H : Sh0 p _ |- _ => apply kids0 in H;
        apply (Shs_swap rl false pre p k 0 body body' [] H Hsh Hf) end.
    + match goal with H : map erase cs' = _ |- _ => rewrite H end. rewrite !map_app. cbn [map]. now rewrite Hf.
  - (* V_arrow_block *)
    assert (He : erase_list (counter_stmt (CF index) :: ss') = erase_list ss) by (rewrite erase_list_cons; assumption).
    assert (Hee : erase (Node (KBlock bi) bsp [Node KStmts ssp (counter_stmt (CF index) :: ss')]) =
                  erase (Node (KBlock bi) bsp [Node KStmts ssp ss])).
    { apply erase_congr. cbn [map]. f_equal. now apply stmts_congr. }
    eapply congr; [eassumption| |cbn [map]; now rewrite Hee].
    match goal with H : Sh0 p _ |- _ => apply kids0 in H;
      apply (Shs_swap rl rl [params] p KArrow 0 _ _ [types] H) end; [|exact Hee].
    intros q Hq. eapply block_Sh; [exact Hq| |exact He].
    intros q1 Hq1 Hl. apply Forall_cons; [now apply counter_LM|auto].
  - (* V_arrow_expr *)
    match goal with H : Sh0 p _ |- _ => rename H into HS end.
    pose proof (here0 _ _ _ _ _ HS) as Hh. destruct p; try discriminate.
    pose proof (kids0 _ _ _ _ _ HS) as Hk.
    apply Shs_inv in Hk as [(q0 & Hok0 & Hq0) Hk]. apply Shs_inv in Hk as [(q1 & Hok1 & Hq1) Hk].
    assert (Hx : Sh0 PO (Node KExpr esp xs)).
    { destruct q1; try discriminate; [assumption|]. apply PA_inv in Hq1 as (? & ? & ? & ? & ? & He & _). discriminate. }
    pose proof (PO_kind _ _ _ Hx) as Hkx. pose proof (PO_span _ _ _ Hx) as Hsx.
    assert (Hret : Sh0 PO (Node KStmt esp [Node KReturn esp [Node KExpr esp xs]])).
    { apply Sh_node; [reflexivity|exact I|].
      apply Shs_cons with (q := PO); [| |constructor].
      - cbn [ok_at]. unfold fits. cbn. now rewrite orb_true_r.
      - apply Sh_node; [reflexivity|exact I|].
        apply Shs_cons with (q := PO); [|assumption|constructor]. cbn [ok_at]. unfold fits. cbn. now rewrite orb_true_r. }
    assert (Hel : erase_list ss' = [Node KStmt esp [Node KReturn esp [erase (Node KExpr esp xs)]]]).
    { match goal with H : erase_list ss' = _ |- _ => rewrite H end. reflexivity. }
    eapply Sh_node; [reflexivity|exact I|].
    apply Shs_cons with (q := q0); [assumption|now apply Sh_mono|].
    apply Shs_cons with (q := PA); [reflexivity| |now apply Shs_mono].
    apply Sh_node; [reflexivity|reflexivity|].
    apply Shs_cons with (q := PAS); [reflexivity| |constructor].
    apply Sh_node; [reflexivity| |].
    + cbn [side]. change (filter nonhole (map erase ss')) with (erase_list ss'). rewrite Hel.
      exists esp, (erase (Node KExpr esp xs)). rewrite Hsx. split; [reflexivity|]. unfold is_expr. now rewrite Hkx.
    + apply LM_Shs; auto. match goal with IH : forall p, _ -> _ -> Forall _ ss' |- _ => apply IH; [auto|] end.
      apply Forall_cons; [now apply counter_LM; auto|]. apply Forall_cons; [|apply Forall_nil].
      exists PO. split; [|assumption]. reflexivity.
  - (* V_init *)
    match goal with H : covered _ _ _ _ _ |- _ =>
      pose proof (covered_facts _ _ _ _ _ H) as [Hf Hb]; rename H into Hcv end.
    norm. match goal with H : Sh0 p _ |- _ => rename H into HS end.
    pose proof (here0 _ _ _ _ _ HS) as Hh.
    assert (p = PO) by (destruct k; try discriminate; destruct p; try discriminate; reflexivity). subst p.
    pose proof (kids0 _ _ _ _ _ HS) as Hk.
    apply Shs_inv in Hk as [(q0 & Hok0 & Hq0) Hk]. apply Shs_inv in Hk as [(q1 & Hok1 & Hq1) Hk].
    assert (Hv : vpos k 1 = true) by (destruct k; try discriminate; reflexivity).
    destruct (ok_vpos _ _ _ _ _ Hok1 Hv) as [Hq Hok].
    destruct (covered_Sh _ _ _ _ _ _ _ Hcv Hq Hq1) as (q' & Hq' & Hs').
    eapply congr; [eassumption| |].
    + match goal with IH : forall p k i, Shs0 p k i _ -> _ |- _ => apply IH end.
      apply Shs_cons with (q := q0); auto. apply Shs_cons with (q := q'); auto. rewrite Hf. auto.
    + match goal with H : map erase cs' = _ |- _ => rewrite H end. cbn [map]. now rewrite Hf.
  - (* V_init_tagged *)
    match goal with H : Sh0 p _ |- _ => rename H into HS end.
    pose proof (here0 _ _ _ _ _ HS) as Hh.
    assert (p = PO) by (destruct k; try discriminate; destruct p; try discriminate; reflexivity). subst p.
    pose proof (kids0 _ _ _ _ _ HS) as Hk.
    apply Shs_inv in Hk as [(q0 & Hok0 & Hq0) Hk]. apply Shs_inv in Hk as [(q1 & Hok1 & Hq1) Hk].
    assert (Hv : vpos k 1 = true) by (destruct k; try discriminate; reflexivity).
    destruct (ok_vpos _ _ _ _ _ Hok1 Hv) as [Hq Hok].
    assert (Hx : Sh0 PO (Node KExpr vsp [tpl])).
    { destruct Hq as [-> | ->]; [assumption|]. exfalso.
      apply PW_inv in Hq1 as [(? & ? & ? & ? & ? & ? & ? & ? & ? & He & _)|(? & ? & ? & ? & Hr & _)]; [|discriminate].
      inversion He; subst. discriminate. }
    pose proof (kids0 _ _ _ _ _ Hx) as Hkx. apply Shs_inv in Hkx as [(q2 & Hok2 & Hq2) _].
    assert (Ht : Sh0 PO tpl).
    { destruct q2; try discriminate. assumption. }
    specialize (Hok PO (or_introl eq_refl)). cbn [ok_at] in Hok. unfold fits in Hok.
    apply andb_true_iff in Hok as [_ Hok].
    assert (Htag : tagged_init k 1 (erase (Node KExpr vsp [tpl])) = true).
    { unfold tagged_init. match goal with H : init_kind k = true |- _ => rewrite H end. cbn [andb Nat.eqb].
      rewrite (erase_po _ _ _ Hx). cbn [erased_kids map nkind nspan nkids is_tagged_tpl expr_view].
      rewrite (PO_kind _ _ _ Ht). now match goal with H : nkind tpl = _ |- _ => rewrite H end. }
    rewrite Htag, orb_false_r in Hok. apply negb_true_iff in Hok.
    assert (Hee : erase (Node KExpr vsp [tpl']) = erase (Node KExpr vsp [tpl])).
    { apply erase_congr. cbn [map]. congruence. }
    eapply congr; [eassumption| |].
    + match goal with IH : forall p k i, Shs0 p k i _ -> _ |- _ => apply IH end.
      apply (Shs_swap rl false [name] PO k 0 (Node KExpr vsp [tpl]) (Node KExpr vsp [tpl']) rest (kids0 _ _ _ _ _ HS)); [|exact Hee].
      intros q Hqq. eapply congr; [exact Hqq| |cbn [map]; congruence].
      apply (Shs_swap rl false [] q KExpr 0 tpl tpl' [] (kids0 _ _ _ _ _ Hqq)); [|assumption].
      intros q3 Hq3. match goal with IH : forall p, Sh0 p tpl -> _ |- _ => specialize (IH q3 Hq3) end.
      now rewrite Hok in *.
    + match goal with H : map erase cs' = _ |- _ => rewrite H end. cbn [map] in *. now rewrite Hee.
  - (* V_loop *)
    match goal with H : Sh0 p _ |- _ => rename H into HS end.
    match goal with H : block_last _ = _ |- _ => rename H into HB end.
    pose proof (here0 _ _ _ _ _ HS) as Hh.
    assert (p = PO) by (destruct k; try discriminate; destruct p; try discriminate; reflexivity). subst p.
    pose proof (kids0 _ _ _ _ _ HS) as Hk.
    apply Sh_inv in HS as HS2; [|discriminate]. destruct HS2 as (_ & Hside & _).
    eapply congr; [eassumption| |].
    + match goal with IH : forall p k i, Shs0 p k i _ -> _ |- _ => apply IH end.
      eapply block_last_Sh; eauto. cbn [Nat.add].
      destruct k; try discriminate; cbn [side] in Hside; rewrite map_length in Hside; rewrite Hside; reflexivity.
    + rewrite <- (block_last_facts _ _ HB). assumption.
  - (* V_cond *)
    match goal with H : cond_arm _ _ con _ _ _ |- _ =>
      pose proof (cond_arm_facts _ _ _ _ _ _ H) as [Hf1 Hb1]; rename H into Ha1 end.
    match goal with H : cond_arm _ _ alt _ _ _ |- _ =>
      pose proof (cond_arm_facts _ _ _ _ _ _ H) as [Hf2 Hb2]; rename H into Ha2 end.
    norm. match goal with H : Sh0 p _ |- _ => rename H into HS end.
    pose proof (here0 _ _ _ _ _ HS) as Hh. destruct p; try discriminate.
    pose proof (kids0 _ _ _ _ _ HS) as Hk.
    apply Shs_inv in Hk as [(q0 & Hok0 & Hq0) Hk]. apply Shs_inv in Hk as [(q1 & Hok1 & Hq1) Hk].
    apply Shs_inv in Hk as [(q2 & Hok2 & Hq2) Hk].
    destruct (ok_vpos _ _ _ _ _ Hok1 eq_refl) as [Hr1 Hk1]. destruct (ok_vpos _ _ _ _ _ Hok2 eq_refl) as [Hr2 Hk2].
    destruct (cond_arm_Sh _ _ _ _ _ _ _ _ Ha1 Hr1 Hq1) as (r1 & Hr1' & Hs1').
    destruct (cond_arm_Sh _ _ _ _ _ _ _ _ Ha2 Hr2 Hq2) as (r2 & Hr2' & Hs2').
    eapply congr; [eassumption| |].
    + match goal with IH : forall p k i, Shs0 p k i _ -> _ |- _ => apply IH end.
      apply Shs_cons with (q := q0); auto. apply Shs_cons with (q := r1); [rewrite Hf1; auto|auto|].
      apply Shs_cons with (q := r2); [rewrite Hf2; auto|auto|constructor].
    + match goal with H : map erase cs' = _ |- _ => rewrite H end. cbn [map]. now rewrite Hf1, Hf2.
  - (* V_case *)
    match goal with H : Sh0 p _ |- _ => rename H into HS end.
    pose proof (kids0 _ _ _ _ _ HS) as Hk. pose proof (here0 _ _ _ _ _ HS) as Hh. destruct p; try discriminate.
    match goal with IH : forall p k i, Shs0 p k i _ -> _ |- _ => apply IH in Hk end.
    assert (He : erase (Node KStmts ssp (counter_stmt (CB b i) :: ss')) = erase (Node KStmts ssp ss')).
    { apply stmts_congr. now rewrite erase_list_cons. }
    eapply congr; [eassumption| |cbn [map] in *; now rewrite He].
    apply Shs_inv in Hk as [(q0 & Hok0 & Hq0) Hk]. apply Shs_inv in Hk as [(q1 & Hok1 & Hq1) Hk].
    apply Shs_cons with (q := q0); auto. apply Shs_cons with (q := q1); [now rewrite He| |constructor].
    assert (q1 = PO) by (destruct q1; try discriminate; reflexivity). subst q1.
    apply Sh_inv in Hq1 as (Hh1 & Hs1 & Hk1); [|discriminate]. apply Sh_node; auto.
    apply LM_Shs; auto. apply Forall_cons; [now apply counter_LM; auto|]. eapply Shs_LM; eauto.
  - (* V_if *)
    match goal with H : Sh0 p _ |- _ => rename H into HS end.
    pose proof (kids0 _ _ _ _ _ HS) as Hk. pose proof (here0 _ _ _ _ _ HS) as Hh. destruct p; try discriminate.
    apply Shs_inv in Hk as [(q0 & Hok0 & Hq0) Hk]. apply Shs_inv in Hk as [(q1 & Hok1 & Hq1) Hk].
    apply Shs_inv in Hk as [(q2 & Hok2 & Hq2) Hk].
    destruct (ok_bpos _ _ _ _ _ Hok1 eq_refl) as (Hr1 & Hl1 & Hp1 & Hb1).
    destruct (ok_bpos _ _ _ _ _ Hok2 eq_refl) as (Hr2 & Hl2 & Hp2 & Hb2).
    match goal with IH : forall p, _ -> _ -> Sh0 p con -> _ |- _ => destruct (IH q1 Hr1 Hl1 Hq1) as (r1 & Hr1' & Hs1') end.
    match goal with IH : forall p, _ -> _ -> Sh0 p alt -> _ |- _ => destruct (IH q2 Hr2 Hl2 Hq2) as (r2 & Hr2' & Hs2') end.
    eapply congr; [eassumption| |cbn [map]; congruence].
    apply Shs_cons with (q := q0); [congruence|auto|].
    apply Shs_cons with (q := r1); [|auto|].
    { match goal with H : erase con' = _ |- _ => rewrite H end. destruct Hr1' as [-> | ->]; auto. }
    apply Shs_cons with (q := r2); [|auto|constructor].
    match goal with H : erase alt' = _ |- _ => rewrite H end. destruct Hr2' as [-> | ->]; auto.
  - (* V_with_block *)
    match goal with H : Sh0 p _ |- _ => rename H into HS end.
    assert (Hee : erase (Node KStmt wsp [Node (KBlock bi) bsp [Node KStmts ssp ss']]) =
                  erase (Node KStmt wsp [Node (KBlock bi) bsp [Node KStmts ssp ss]])).
    { apply erase_congr. cbn [map]. f_equal. apply erase_congr. cbn [map]. f_equal. now apply stmts_congr. }
    eapply congr; [eassumption| |cbn [map] in *; now rewrite Hee].
    apply (Shs_swap rl rl [obj] p KWith 0 _ _ [] (kids0 _ _ _ _ _ HS)); [|exact Hee].
    intros q Hq. eapply stmt_block_Sh; eauto.
  - (* V_with_stmt *)
    match goal with H : Sh0 p _ |- _ => rename H into HS end.
    pose proof (kids0 _ _ _ _ _ HS) as Hk. pose proof (here0 _ _ _ _ _ HS) as Hh. destruct p; try discriminate.
    apply Shs_inv in Hk as [(q0 & Hok0 & Hq0) Hk]. apply Shs_inv in Hk as [(q1 & Hok1 & Hq1) Hk].
    destruct (ok_bpos _ _ _ _ _ Hok1 eq_refl) as (Hr1 & Hl1 & Hp1 & Hb1).
    match goal with H : is_block x = false |- _ => pose proof (not_block_PO rl false _ _ _ H Hr1 Hq1) as Hx end.
    match goal with IH : forall p, Sh0 p _ -> Sh1 p body' |- _ => pose proof (IH PO Hx) as Hy end.
    assert (Hkb : nkind body' = KStmt).
    { rewrite <- (PO_kind _ _ _ Hy). match goal with H : erase body' = _ |- _ => rewrite H end. exact (PO_kind _ _ _ Hx). }
    assert (Hpb : Sh1 PB (mk KStmt [mk (KBlock true) [mk KStmts (before sv ++ [body'])]])).
    { apply one_stmt; auto; [unfold is_stmt; now rewrite Hkb|]. match goal with H : erase body' = _ |- _ => now rewrite H end. }
    assert (Hee : erase (mk KStmt [mk (KBlock true) [mk KStmts (before sv ++ [body'])]]) = erase (Node KStmt wsp [x])).
    { apply erase_inj_block. rewrite erase_list_app, erase_list_sonly by assumption. simpl app. now apply erase_list_one. }
    eapply congr; [eassumption| |cbn [map]; now rewrite Hee].
    apply Shs_cons with (q := q0); [assumption|now apply Sh_mono|].
    apply Shs_cons with (q := PB); [|assumption|constructor]. rewrite Hee. apply Hb1. left.
    unfold is_none. now rewrite (PO_kind _ _ _ Hx).
  - (* V_logical_new *)
    match goal with H : new_logical_branch _ _ _ = _ |- _ =>
      unfold new_logical_branch in H; destruct (new_branch _ _ _ _); inversion H; subst end.
    norm. match goal with H : Sh0 p _ |- _ => rename H into HS end.
    pose proof (kids0 _ _ _ _ _ HS) as Hk. pose proof (here0 _ _ _ _ _ HS) as Hh. destruct p; try discriminate.
    apply Shs_inv in Hk as [(q0 & Hok0 & Hq0) Hk]. apply Shs_inv in Hk as [(q1 & Hok1 & Hq1) Hk].
    match goal with H : is_logical_op op = true |- _ =>
      destruct (ok_vpos _ _ _ _ _ Hok0 H) as [Hr0 Hk0]; destruct (ok_vpos _ _ _ _ _ Hok1 H) as [Hr1 Hk1] end.
    match goal with IH : forall p, _ -> Sh0 p l -> _ |- _ => destruct (IH q0 Hr0 Hq0) as (r0 & Hr0' & Hs0') end.
    match goal with IH : forall p, _ -> Sh0 p r -> _ |- _ => destruct (IH q1 Hr1 Hq1) as (r1 & Hr1' & Hs1') end.
    eapply congr; [eassumption| |cbn [map]; congruence].
    apply Shs_cons with (q := r0); [match goal with H : erase l' = _ |- _ => rewrite H end; auto|auto|].
    apply Shs_cons with (q := r1); [match goal with H : erase r' = _ |- _ => rewrite H end; auto|auto|constructor].
  - (* V_logical_inner *)
    match goal with H : Sh0 p _ |- _ => rename H into HS end.
    pose proof (kids0 _ _ _ _ _ HS) as Hk. pose proof (here0 _ _ _ _ _ HS) as Hh. destruct p; try discriminate.
    apply Shs_inv in Hk as [(q0 & Hok0 & Hq0) Hk]. apply Shs_inv in Hk as [(q1 & Hok1 & Hq1) Hk].
    match goal with H : is_logical_op op = true |- _ =>
      destruct (ok_vpos _ _ _ _ _ Hok0 H) as [Hr0 Hk0]; destruct (ok_vpos _ _ _ _ _ Hok1 H) as [Hr1 Hk1] end.
    match goal with IH : forall p, _ -> Sh0 p l -> _ |- _ => destruct (IH q0 Hr0 Hq0) as (r0 & Hr0' & Hs0') end.
    match goal with IH : forall p, _ -> Sh0 p r -> _ |- _ => destruct (IH q1 Hr1 Hq1) as (r1 & Hr1' & Hs1') end.
    eapply congr; [eassumption| |cbn [map]; congruence].
    apply Shs_cons with (q := r0); [match goal with H : erase l' = _ |- _ => rewrite H end; auto|auto|].
    apply Shs_cons with (q := r1); [match goal with H : erase r' = _ |- _ => rewrite H end; auto|auto|constructor].
  - (* V_assign_pat *)
    match goal with H : Sh0 p _ |- _ => rename H into HS end.
    pose proof (kids0 _ _ _ _ _ HS) as Hk. pose proof (here0 _ _ _ _ _ HS) as Hh. destruct p; try discriminate.
    apply Shs_inv in Hk as [(q0 & Hok0 & Hq0) Hk]. apply Shs_inv in Hk as [(q1 & Hok1 & Hq1) Hk].
    destruct (ok_vpos _ _ _ _ _ Hok1 eq_refl) as [Hr1 Hk1].
    match goal with IH : forall p, _ -> Sh0 p r -> _ |- _ => destruct (IH q1 Hr1 Hq1) as (r1 & Hr1' & Hs1') end.
    eapply congr; [eassumption| |cbn [map]; congruence].
    apply Shs_cons with (q := q0); [assumption|now apply Sh_mono|].
    apply Shs_cons with (q := r1); [match goal with H : erase r' = _ |- _ => rewrite H end; auto|auto|constructor].
  - (* V_module_items *)
    match goal with H : Sh0 p _ |- _ => rename H into HS end.
    pose proof (kids0 _ _ _ _ _ HS) as Hk. pose proof (here0 _ _ _ _ _ HS) as Hh. destruct p; try discriminate.
    match goal with H : get_coverage_templates _ = _ |- _ =>
      destruct (templates_LM rl rl KModuleItems _ _ _ _ eq_refl H) as [Ht1 Ht2] end.
    apply Sh_node; [reflexivity|exact I|]. apply LM_Shs; auto.
    apply Shs_LM in Hk; auto.
    match goal with IH : forall p, _ -> _ -> Forall _ items' |- _ => specialize (IH PO (or_introl eq_refl) Hk); rename IH into Hi end.
    subst out. destruct items' as [|i is]; [auto|]. inversion Hi; subst. auto.
  - (* V_script *)
    match goal with H : Sh0 p _ |- _ => rename H into HS end.
    match goal with H : get_coverage_templates _ = _ |- _ =>
      destruct (templates_LM rl rl KStmts _ _ _ _ eq_refl H) as [Ht1 Ht2];
      apply templates_facts in H as (Htt & Htk & Hb) end.
    assert (Hel : erase_list (tpl :: call :: body') = erase_list body).
    { unfold erase_list in *; simpl in *; rewrite Htt, Htk; simpl; assumption. }
    pose proof (here0 _ _ _ _ _ HS) as Hh. destruct p; try discriminate.
    eapply congr; [eassumption| |cbn [map]; f_equal; now apply stmts_congr].
    pose proof (kids0 _ _ _ _ _ HS) as Hk. apply Shs_inv in Hk as [(q0 & Hok0 & Hq0) Hk].
    assert (q0 = PO) by (destruct q0; try discriminate; reflexivity). subst q0.
    apply Shs_cons with (q := PO); [|eapply stmts_Sh; eauto|constructor].
    now rewrite (stmts_congr ssp body (tpl :: call :: body') Hel).
  - constructor.
  - (* K_cons *)
    match goal with H : Shs0 p k i _ |- _ => apply Shs_inv in H as [(q & Hok & Hq) Hr] end.
    apply Shs_cons with (q := q); [congruence|auto|auto].
  - apply Forall_nil.
  - (* I_injected *)
    match goal with H : Forall _ (x :: ss) |- _ => inversion H; subst end. apply Forall_cons; [now apply LM_mono|auto].
  - (* I_skip *)
    match goal with H : Forall _ (x :: ss) |- _ => inversion H; subst end. apply Forall_cons; [now apply LM_mono|auto].
  - (* I_visit *)
    match goal with H : Forall _ (_ :: ss) |- _ => inversion H as [|? ? (q & Hok & Hq) Hr]; subst end.
    apply Forall_app. split; [|auto]. apply Forall_app. split; [now apply before_LM|].
    apply Forall_cons; [|apply Forall_nil]. exists q.
    split; [now rewrite (erase_congr k sp cs cs')|]. eapply congr; [eassumption| |assumption].
    apply kids0 in Hq. auto.
  - (* W_next *) exists p. split; [assumption|now apply Sh_mono].
  - (* W_nested *) exists p. split; [assumption|]. eapply congr; [eassumption| |assumption].
    match goal with H : Sh0 p _ |- _ => apply kids0 in H; auto end.
  - (* W_report *)
    exists PW. split; [auto|]. eapply Sh_temp; eauto. now apply Sh_mono.
  - (* W_leaf *)
    exists PW. split; [auto|]. eapply replace_Sh; [eassumption|eassumption|].
    eapply congr; [eassumption| |assumption].
    match goal with H : Sh0 p _ |- _ => apply kids0 in H; auto end.
  - (* A_keep *) exists p. split; [assumption|now apply Sh_mono].
  - (* A_block *)
    exists p. split; [assumption|]. eapply stmt_block_Sh; [eassumption| |now rewrite erase_list_cons].
    intros q Hq Hl. apply Forall_cons; [now apply counter_LM|auto].
  - (* A_none *)
    exists PB. split; [auto|]. apply inj_block_Sh; [|now left].
    apply Forall_cons; [now apply counter_LM; auto|apply Forall_nil].
  - (* A_stmt *)
    match goal with H : Sh0 p _ |- _ => rename H into HS end.
    match goal with H : is_block x = false, Hp : p = PO \/ _ |- _ => pose proof (not_block_PO rl false _ _ _ H Hp HS) as Hx end.
    match goal with IH : forall p, Sh0 p _ -> Sh1 p x' |- _ => pose proof (IH PO Hx) as Hy end.
    assert (Hkb : nkind x' = KStmt).
    { rewrite <- (PO_kind _ _ _ Hy). match goal with H : erase x' = _ |- _ => rewrite H end. exact (PO_kind _ _ _ Hx). }
    exists PB. split; [auto|].
    pose proof (one_stmt rl rl (before sv) x') as H1s.
    apply inj_block_Sh.
    + apply Forall_app. split; [apply Forall_cons; [now apply counter_LM; auto|apply Forall_nil]|].
      apply Forall_app. split; [now apply before_LM; auto|]. apply Forall_cons; [|apply Forall_nil].
      exists PO. split; [|assumption]. unfold ok_at, is_stmt. now rewrite (PO_kind _ _ _ Hy), Hkb.
    + right. exists (erase x'). split; [|congruence].
      rewrite !erase_list_app, (erase_list_sonly (before sv)) by assumption.
      unfold erase_list. cbn [map filter app]. rewrite erase_counter_stmt. cbn.
      unfold nonhole, is_none. now rewrite (PO_kind _ _ _ Hy), Hkb.
  - apply Forall_nil.
  - (* M_directive *)
    match goal with H : Forall _ (x :: xs) |- _ => inversion H; subst end. apply Forall_cons; [now apply LM_mono|auto].
  - (* M_visit *)
    assert (Hs2 : sonly (before s2)).
    { match goal with H : s2 = s1 \/ _ |- _ => destruct H as [->|[esp ->]] end; auto using mark_sonly. }
    norm. match goal with H : Forall _ (_ :: xs) |- _ => inversion H as [|? ? (q & Hok & Hq) Hr]; subst end.
    apply Forall_app. split; [|auto]. apply Forall_app. split; [now apply before_LM|].
    apply Forall_cons; [|apply Forall_nil]. exists q.
    split; [now rewrite (erase_congr k sp cs cs')|]. eapply congr; [eassumption| |assumption].
    apply kids0 in Hq. auto.
  - apply Forall_nil.
  - (* S_visit *)
    match goal with H : Forall _ (_ :: xs) |- _ => inversion H as [|? ? (q & Hok & Hq) Hr]; subst end.
    apply Forall_app. split; [now apply before_LM|].
    apply Forall_cons; [|auto]. exists q.
    split; [now rewrite (erase_congr k sp cs cs')|]. eapply congr; [eassumption| |assumption].
    apply kids0 in Hq. auto.
Qed.
End Visit.
