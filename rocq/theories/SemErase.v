(** Running an instrumented program is running the program (C34): the interpreter of [Sem]
    cannot tell a program of the shape of [SemShape] from what is left of it when the
    injected code is erased. *)
From Coq Require Import NArith String List Bool Lia PeanoNat.
Import ListNotations.
From Verif Require Import Base Oxide Hints Ast Visitor VisitorRel VisitorEx Erase Sem SemShape.
Open Scope N_scope.

(** The tests of [reportLogic] have no effect besides their value. *)
Definition pure_tests (h : host) : Prop :=
  forall n v x w, exists r, h_test h n v x w = (ADone (CNorm (RVal r)), w).

Section Decls.
Variables rl rlo : bool.
Notation Sh := (Sh rl rlo).
Notation Shs := (Shs rl rlo).

Lemma kid_PO : forall k i cs j c, Shs PO k i cs -> nth_error cs j = Some c ->
  vpos k (i + j) = false -> bpos k (i + j) = false -> list_kind k = false ->
  (k <> KArrow \/ (i + j)%nat <> 1%nat) -> Sh PO c.
Proof.
  intros k i cs j c H Hn Hv Hb Hl Ha. destruct (Shs_nth _ _ _ _ _ _ _ _ H Hn) as (q & Hok & Hq).
  destruct q; try discriminate; cbn [ok_at] in Hok.
  - assumption.
  - rewrite Hv in Hok. discriminate.
  - congruence.
  - congruence.
  - rewrite Hb in Hok. discriminate.
  - destruct k; try discriminate. apply Nat.eqb_eq in Hok. destruct Ha; congruence.
Qed.

(** Members of statement lists *)
Definition member (c : node) : Prop := Sh PO c \/ Sh PD c \/ Sh PT c.
Lemma list_member : forall k i cs c, list_kind k = true -> Shs PO k i cs -> In c cs -> member c.
Proof.
  intros k i cs c Hl H Hc. destruct (Shs_In _ _ _ _ _ _ _ H Hc) as (j & q & Hok & Hq).
  unfold member. destruct q; try discriminate; auto; cbn [ok_at] in Hok; destruct k; discriminate.
Qed.
Lemma blist_member : forall p i cs c, p = PBS \/ p = PAS -> Shs p KStmts i cs -> In c cs -> member c.
Proof.
  intros p i cs c Hp H Hc. destruct (Shs_In _ _ _ _ _ _ _ H Hc) as (j & q & Hok & Hq).
  unfold member. destruct Hp as [-> | ->]; destruct q; try discriminate; auto.
Qed.

Lemma named_erase : forall code id, Sh PO id -> named code (erase id) = named code id.
Proof. intros code id H. unfold named. now rewrite (PO_kind _ _ _ H). Qed.

Lemma kids_pat : forall k i cs, Shs PO k i cs ->
  flat_map pat_names (map erase cs) = flat_map pat_names cs.
Proof.
  intros k i cs H. apply names_kids_map. intros c Hc. eapply pat_names_erase. eapply top_kid; eauto.
Qed.

Lemma lex_decl_erase : forall d, Sh PO d -> lex_decl (erase d) = lex_decl d.
Proof.
  intros d H. rewrite (erase_po _ _ _ H). apply PO_inv in H as (k & sp & cs & -> & Hi & _ & Hk).
  cbn [nkind nspan nkids]. destruct k; try reflexivity; cbn [erased_kids].
  - destruct vk; cbn [lex_decl]; try reflexivity; now rewrite (kids_pat _ _ _ Hk).
  - destruct cs as [|id cs]; [reflexivity|]. cbn [map lex_decl]. apply named_erase.
    apply (kid_PO _ _ _ 0 id Hk); auto; left; discriminate.
  - destruct cs as [|id cs]; [reflexivity|]. cbn [map lex_decl]. apply named_erase.
    apply (kid_PO _ _ _ 0 id Hk); auto; left; discriminate.
Qed.

Lemma decl_view_erase : forall c, Sh PO c ->
  match decl_view c with
  | Some d => Sh PO d /\ decl_view (erase c) = Some (erase d)
  | None => decl_view (erase c) = None
  end.
Proof.
  intros c H. rewrite (erase_po _ _ _ H). apply PO_inv in H as (k & sp & cs & -> & Hi & _ & Hk).
  cbn [nkind nspan nkids]. destruct k; try reflexivity; cbn [erased_kids].
  - (* KModuleDecl *)
    destruct cs as [|x [|? ?]]; try reflexivity.
    + assert (Hx : Sh PO x) by (apply (kid_PO _ _ _ 0 x Hk); auto; left; discriminate).
      cbn [map]. rewrite (erase_po _ _ _ Hx). apply PO_inv in Hx as (xk & xsp & xcs & -> & _ & _ & Hxk).
      cbn [nkind nspan nkids]. destruct xk; try reflexivity. cbn [erased_kids].
      destruct xcs as [|d [|? ?]]; try reflexivity. cbn [map decl_view].
      split; [|reflexivity]. apply (kid_PO _ _ _ 0 d Hxk); auto; left; discriminate.
    + assert (Hm : forall a b l, decl_view (Node KModuleDecl sp (a :: b :: l)) = None).
      { intros [ak asp [|d [|? ?]]] b rest; destruct ak; reflexivity. }
      cbn [map]. now rewrite !Hm.
  - destruct cs as [|x [|? ?]]; try reflexivity. cbn [map decl_view].
    split; [|reflexivity]. apply (kid_PO _ _ _ 0 x Hk); auto; left; discriminate.
Qed.

Lemma lex_of_erase : forall c, member c -> lex_of (erase c) = lex_of c.
Proof.
  intros c [H|[H|H]].
  - unfold lex_of. pose proof (decl_view_erase c H) as Hd. destruct (decl_view c) as [d|].
    + destruct Hd as [Hd ->]. now apply lex_decl_erase.
    + now rewrite Hd.
  - rewrite (PD_hole _ _ _ H). apply PD_inv in H as (c0 & ? & ? & ? & ->). reflexivity.
  - rewrite (PT_hole _ _ _ H). apply PT_inv in H as (k & ? & ? & -> & Hk). destruct k; try contradiction; reflexivity.
Qed.

Definition erase_fn (p : string * node) : string * node := (fst p, erase (snd p)).
Lemma fn_of_erase : forall c, member c ->
  fn_of (erase c) = map erase_fn (fn_of c) /\ Forall (fun p => Sh PO (snd p)) (fn_of c).
Proof.
  intros c [H|[H|H]].
  - unfold fn_of. pose proof (decl_view_erase c H) as Hd. destruct (decl_view c) as [d|].
    + destruct Hd as [Hd ->]. rewrite (erase_po _ _ _ Hd). apply PO_inv in Hd as (k & sp & cs & -> & _ & _ & Hk).
      cbn [nkind nspan nkids]. destruct k; try (split; [reflexivity|apply Forall_nil]). cbn [erased_kids].
      destruct cs as [|id [|fn [|? ?]]]; try (split; [reflexivity|apply Forall_nil]). cbn [map].
      assert (Hid : Sh PO id) by (apply (kid_PO _ _ _ 0 id Hk); auto; left; discriminate).
      assert (Hfn : Sh PO fn) by (apply (kid_PO _ _ _ 1 fn Hk); auto; left; discriminate).
      rewrite (PO_kind _ _ _ Hid).
      destruct (nkind id); try (split; [reflexivity|apply Forall_nil]). split; [reflexivity|].
      constructor; [assumption|constructor].
    + rewrite Hd. split; [reflexivity|apply Forall_nil].
  - rewrite (PD_hole _ _ _ H). apply PD_inv in H as (c0 & ? & ? & ? & ->). split; [reflexivity|apply Forall_nil].
  - rewrite (PT_hole _ _ _ H). apply PT_inv in H as (k & ? & ? & -> & Hk).
    destruct k; try contradiction; (split; [reflexivity|apply Forall_nil]).
Qed.

Lemma lex_names_erase : forall cs, Forall member cs -> lex_names (erase_list cs) = lex_names cs.
Proof.
  intros cs H. unfold lex_names, erase_list. rewrite flat_map_nonhole; [|reflexivity|apply noneok_map_erase].
  induction H as [|c cs Hc Hcs IH]; [reflexivity|]. simpl. now rewrite lex_of_erase, IH.
Qed.
Lemma fns_of_erase : forall cs, Forall member cs ->
  fns_of (erase_list cs) = map erase_fn (fns_of cs) /\ Forall (fun p => Sh PO (snd p)) (fns_of cs).
Proof.
  intros cs H. unfold fns_of, erase_list. rewrite flat_map_nonhole; [|reflexivity|apply noneok_map_erase].
  induction H as [|c cs Hc Hcs [IH1 IH2]]; [split; [reflexivity|apply Forall_nil]|]. simpl.
  destruct (fn_of_erase c Hc) as [H1 H2]. rewrite H1, IH1, map_app. split; [reflexivity|].
  apply Forall_app. now split.
Qed.

Lemma members : forall k i cs, list_kind k = true -> Shs PO k i cs -> Forall member cs.
Proof. intros k i cs Hl H. apply Forall_forall. intros c Hc. eapply list_member; eauto. Qed.
Lemma bmembers : forall p i cs, p = PBS \/ p = PAS -> Shs p KStmts i cs -> Forall member cs.
Proof. intros p i cs Hp H. apply Forall_forall. intros c Hc. eapply blist_member; eauto. Qed.

(** Directives *)
Lemma str_stmt_erase : forall c, Sh PO c -> str_stmt (erase c) = str_stmt c.
Proof.
  intros c H. rewrite (erase_po _ _ _ H). apply PO_inv in H as (k & sp & cs & -> & Hi & _ & Hk).
  cbn [nkind nspan nkids]. destruct k; try reflexivity. cbn [erased_kids].
  destruct cs as [|x [|? ?]]; try reflexivity. cbn [map]. unfold str_stmt, expr_stmt_view. cbn [stmt_view].
  assert (Hx : Sh PO x) by (apply (kid_PO _ _ _ 0 x Hk); auto; left; discriminate).
  rewrite (erase_po _ _ _ Hx). apply PO_inv in Hx as (xk & xsp & xcs & -> & _ & _ & Hxk).
  cbn [nkind nspan nkids]. destruct xk; try reflexivity. cbn [erased_kids].
  destruct xcs as [|y [|? ?]]; try reflexivity. cbn [map].
  assert (Hy : Sh PO y) by (apply (kid_PO _ _ _ 0 y Hxk); auto; left; discriminate).
  rewrite (erase_po _ _ _ Hy). apply PO_inv in Hy as (yk & ysp & ycs & -> & _ & _ & Hyk).
  cbn [nkind nspan nkids]. destruct yk; try reflexivity. cbn [erased_kids].
  destruct ycs as [|z [|? ?]]; try reflexivity. cbn [map expr_view].
  assert (Hz : Sh PO z) by (apply (kid_PO _ _ _ 0 z Hyk); auto; left; discriminate).
  now rewrite (PO_kind _ _ _ Hz).
Qed.
Lemma member_nonhole : forall c, Sh PO c -> is_none c = is_none (erase c).
Proof. intros c H. unfold is_none. now rewrite (PO_kind _ _ _ H). Qed.
Lemma prologue_erase : forall cs, Forall member cs -> prologue (erase_list cs) = [] -> prologue cs = [].
Proof.
  intros cs H Hp. destruct H as [|c cs Hc Hcs]; [reflexivity|].
  destruct Hc as [H|[H|H]].
  - simpl. rewrite <- (str_stmt_erase _ H). unfold erase_list in Hp. simpl in Hp.
    unfold nonhole in Hp at 1. destruct (is_none (erase c)) eqn:Hn.
    + apply noneok_hole in Hn; [|apply erase_noneok]. rewrite Hn. reflexivity.
    + simpl in Hp. destruct (str_stmt (erase c)); [discriminate|reflexivity].
  - apply PD_inv in H as (c0 & ? & ? & ? & ->). reflexivity.
  - apply PT_inv in H as (k & ? & ? & -> & Hk). destruct k; try contradiction; reflexivity.
Qed.
Lemma directives_erase : forall b, Sh PO b -> directives (erase b) = [] -> directives b = [].
Proof.
  intros b H. unfold directives. rewrite (erase_po _ _ _ H).
  apply PO_inv in H as (k & sp & cs & -> & Hi & _ & Hk). cbn [nkind nspan nkids].
  unfold body_stmts. destruct k; try (intros; reflexivity). cbn [erased_kids].
  destruct cs as [|x [|? ?]]; try (intros; reflexivity). cbn [map block_view].
  assert (Hx : Sh PO x) by (apply (kid_PO _ _ _ 0 x Hk); auto; left; discriminate).
  rewrite (erase_po _ _ _ Hx). apply PO_inv in Hx as (xk & xsp & xcs & -> & _ & _ & Hxk).
  cbn [nkind nspan nkids]. destruct xk; try (intros; reflexivity). cbn [erased_kids stmts_view].
  apply prologue_erase. now apply (members KStmts 0).
Qed.
End Decls.

Section Run.
Variables rl rlo : bool.
Variable h : host.
Hypothesis Hpure : rl = true -> pure_tests h.
Notation Sh := (Sh rl rlo).
Notation Shs := (Shs rl rlo).
Notation state := (state h).
Notation den := (den h).
Notation ctx := (ctx h).
Notation result := (completion (hV h) (hR h) * state)%type.

(** Two runs are at the same point: same world, same places passed, same functions up to
    injected code.  Counters and the temporary of [reportLogic] do not matter. *)
Definition srel (s' s : state) : Prop :=
  hs h s' = hs h s /\ evs h s' = evs h s /\ funs h s = map erase (funs h s') /\ Forall (Sh PO) (funs h s').
Definition rrel (r' r : result) : Prop := fst r' = fst r /\ srel (snd r') (snd r).

Lemma srel_log : forall sp e s' s, srel s' s -> srel (log h sp e s') (log h sp e s).
Proof.
  intros sp e s' s (H1 & H2 & H3 & H4). unfold log.
  destruct ((lo sp =? 0) && (hi sp =? 0)); unfold srel; cbn [hs evs funs]; [auto|].
  rewrite H2. auto.
Qed.
Lemma srel_hs : forall w s' s, srel s' s -> srel (set_hs h w s') (set_hs h w s).
Proof. intros w s' s (H1 & H2 & H3 & H4). unfold srel, set_hs. cbn [hs evs funs]. auto. Qed.
Lemma srel_fun : forall c s' s, Sh PO c -> srel s' s -> srel (add_fun h c s') (add_fun h (erase c) s).
Proof.
  intros c s' s Hc (H1 & H2 & H3 & H4). unfold srel, add_fun. cbn [hs evs funs].
  rewrite H3, map_app. repeat split; auto. apply Forall_app. auto.
Qed.
Lemma srel_tick : forall c s' s, srel s' s -> srel (tick h c s') s.
Proof. intros c s' s (H1 & H2 & H3 & H4). unfold srel, tick. cbn [hs evs funs]. auto. Qed.
Lemma srel_tmp : forall v s' s, srel s' s -> srel (set_tmp h v s') s.
Proof. intros v s' s (H1 & H2 & H3 & H4). unfold srel, set_tmp. cbn [hs evs funs]. auto. Qed.
Lemma srel_len : forall s' s, srel s' s -> length (funs h s') = length (funs h s).
Proof. intros s' s (_ & _ & H & _). now rewrite H, map_length. Qed.
Lemma srel_world : forall s' s, srel s' s -> hs h s' = hs h s.
Proof. intros s' s (H & _). exact H. Qed.
Hint Resolve srel_log srel_hs srel_fun srel_tick srel_tmp : sr.

Lemma rrel_intro : forall c s' s, srel s' s -> rrel (c, s') (c, s).
Proof. intros. split; auto. Qed.
Hint Resolve rrel_intro : sr.

Lemma rrel_bindr : forall r' r f' f, rrel r' r ->
  (forall v s' s, srel s' s -> rrel (f' v s') (f v s)) -> rrel (bindr h r' f') (bindr h r f).
Proof.
  intros [c' s'] [c s] f' f [H1 H2] Hf. cbn [fst snd] in *. subst c'. unfold bindr. cbn [fst snd].
  destruct c; auto with sr.
Qed.
Lemma rrel_bindv : forall r' r f' f, rrel r' r ->
  (forall v s' s, srel s' s -> rrel (f' v s') (f v s)) -> rrel (bindv h r' f') (bindv h r f).
Proof.
  intros. unfold bindv. apply rrel_bindr; [assumption|]. intros [v|r0] s' s Hs; [auto|].
  unfold stuck. auto with sr.
Qed.

Section Level.
Variable fuel : nat.
Variables call' call : nat -> hX h -> hV h -> state -> result.
Hypothesis Hcall : forall f x v s' s, srel s' s -> rrel (call' f x v s') (call f x v s).
Notation ev' := (ev h call' fuel).
Notation ev := (ev h call fuel).

Definition DR (d' d : den) : Prop := forall cx s' s, srel s' s -> rrel (d' cx s') (d cx s).
Definition DB (d' d : den) : Prop := forall cx s' s, srel s' s -> rrel (d' (rd h cx) s') (d (rd h cx) s).
Definition DV (d' d : den) : Prop := forall cx s' s, srel s' s ->
  rrel (valued h call' fuel d' cx s') (valued h call fuel d cx s).
Definition DE (d' d : den) : Prop := forall cx s' s, srel s' s ->
  rrel (d' cx s') (valued h call fuel d cx s).

Definition odr (o' o : option den) : Prop :=
  match o', o with Some d', Some d => DR d' d | None, None => True | _, _ => False end.

Lemma strat_rel : forall n k self cs' cs ds' ds a s' s,
  Sh PO self ->
  (forall j, closable k j = true ->
     match nth_error cs' j with
     | Some c => nth_error cs j = Some (erase c) /\ Sh PO c
     | None => nth_error cs j = None
     end) ->
  (forall i, odr (nth_error ds' i) (nth_error ds i)) ->
  srel s' s ->
  rrel (strat h call' n k self cs' ds' a s') (strat h call n k (erase self) cs ds a s).
Proof.
  induction n as [|n IH]; intros k self cs' cs ds' ds a s' s Hself Hcs Hds Hs.
  { simpl. destruct a; auto with sr. }
  assert (Hans : forall kk an s1' s1, srel s1' s1 ->
    rrel (let (a', w) := h_resume h kk an (hs h s1') in strat h call' n k self cs' ds' a' (set_hs h w s1'))
         (let (a', w) := h_resume h kk an (hs h s1) in strat h call n k (erase self) cs ds a' (set_hs h w s1))).
  { intros kk an s1' s1 H1. rewrite (srel_world _ _ H1). destruct (h_resume h kk an (hs h s1)) as [a' w].
    apply IH; auto with sr. }
  simpl. destruct a as [c|i m x v kk|i kk|f x v kk].
  - auto with sr.
  - specialize (Hds i). destruct (nth_error ds' i) as [d'|], (nth_error ds i) as [d|]; try contradiction.
    + specialize (Hds (mkCtx h x m [] v) s' s Hs).
      destruct (d' (mkCtx h x m [] v) s') as [c' s1'], (d (mkCtx h x m [] v) s) as [c s1].
      destruct Hds as [Hc H1]. cbn [fst snd] in *. subst c'. destruct (final h c); auto with sr.
    + unfold stuck. auto with sr.
  - destruct i as [j|].
    + specialize (Hcs j). destruct (closable k j) eqn:Hj; [|unfold stuck; auto with sr].
      specialize (Hcs eq_refl). destruct (nth_error cs' j) as [c|].
      * destruct Hcs as [-> Hc]. rewrite (srel_len _ _ Hs).
        apply (Hans kk _ (add_fun h c s') (add_fun h (erase c) s)). auto with sr.
      * rewrite Hcs. unfold stuck; auto with sr.
    + destruct (self_closable k); [|unfold stuck; auto with sr]. rewrite (srel_len _ _ Hs).
      apply (Hans kk _ (add_fun h self s') (add_fun h (erase self) s)). auto with sr.
  - specialize (Hcall f x v s' s Hs).
    destruct (call' f x v s') as [c' s1'], (call f x v s) as [c s1].
    destruct Hcall as [Hc H1]. cbn [fst snd] in *. subst c'. destruct (final h c); auto with sr.
Qed.

Lemma none_PO : Sh PO (mk KNone []).
Proof. apply Sh_node; [reflexivity|split; reflexivity|constructor]. Qed.

Lemma simple_rel : forall a s' s, srel s' s -> rrel (simple h call' fuel a s') (simple h call fuel a s).
Proof.
  intros a s' s Hs. unfold simple. change (mk KNone []) with (erase (mk KNone [])) at 2.
  apply strat_rel; auto using none_PO; intros []; intros; simpl; auto.
Qed.
Lemma getv_rel : forall r s' s, srel s' s -> rrel (getv h call' fuel r s') (getv h call fuel r s).
Proof.
  intros [v|r] s' s Hs; cbn [getv]; [auto with sr|]. rewrite (srel_world _ _ Hs).
  destruct (h_get h r (hs h s)) as [a w]. apply rrel_bindr; [apply simple_rel; auto with sr|].
  intros [v|r0] t' t Ht; [auto with sr|unfold stuck; auto with sr].
Qed.

Lemma DR_DV : forall d' d, DR d' d -> DV d' d.
Proof. intros d' d H cx s' s Hs. unfold valued. apply rrel_bindr; [auto|]. intros. now apply getv_rel. Qed.
Lemma DR_DB : forall d' d, DR d' d -> DB d' d.
Proof. intros d' d H cx s' s Hs. auto. Qed.

(** GetValue of a value *)
Lemma getv_val : forall r s r0 s0, getv h call fuel r s = (CNorm r0, s0) -> exists v, r0 = RVal v.
Proof.
  intros [v|r] s r0 s0 H; cbn [getv] in H; [inversion H; eauto|].
  destruct (h_get h r (hs h s)) as [a w].
  destruct (simple h call fuel a (set_hs h w s)) as [c s1]. unfold bindr in H. cbn [fst snd] in H.
  destruct c as [[v|r1]| | | | | | | ]; try discriminate. inversion H. eauto.
Qed.
Lemma valued_twice : forall d cx s,
  bindr h (valued h call fuel d cx s) (getv h call fuel) = valued h call fuel d cx s.
Proof.
  intros d cx s. unfold valued. destruct (d (rd h cx) s) as [c s1]. unfold bindr at 2 3. cbn [fst snd].
  destruct c as [r| | | | | | | ]; try reflexivity.
  destruct (getv h call fuel r s1) as [c s2] eqn:Hg. unfold bindr. cbn [fst snd].
  destruct c as [r0| | | | | | | ]; try reflexivity. apply getv_val in Hg as [v ->]. reflexivity.
Qed.
Lemma DE_DV : forall d' d, DE d' d -> DV d' d.
Proof.
  intros d' d H cx s' s Hs. specialize (H (rd h cx) s' s Hs).
  change (valued h call fuel d (rd h cx) s) with (valued h call fuel d cx s) in H.
  rewrite <- (valued_twice d cx s). unfold valued at 1. apply rrel_bindr; [assumption|].
  intros. now apply getv_rel.
Qed.

Lemma opaque_rel : forall k sp cs ds' ds,
  Sh PO (Node k sp cs) -> erase (Node k sp cs) = Node k sp (erased_kids k cs) ->
  map is_none (erased_kids k cs) = map is_none cs ->
  (forall j, closable k j = true ->
     match nth_error cs j with
     | Some c => nth_error (erased_kids k cs) j = Some (erase c) /\ Sh PO c
     | None => nth_error (erased_kids k cs) j = None
     end) ->
  (forall i, odr (nth_error ds' i) (nth_error ds i)) ->
  DR (opaque h call' fuel k sp cs ds') (opaque h call fuel k sp (erased_kids k cs) ds).
Proof.
  intros k sp cs ds' ds Hself He Hn Hcl Hds cx s' s Hs. unfold opaque. rewrite Hn, (srel_world _ _ Hs).
  destruct (h_start h k _ _ _ _ _ _) as [a w]. rewrite <- He. apply strat_rel; auto with sr.
Qed.

Lemma run_list_rel : forall ds' ds, Forall2 DR ds' ds -> DR (run_list h ds') (run_list h ds).
Proof.
  intros ds' ds H. induction H as [|d' d ds' ds Hd Hds IH]; intros cx s' s Hs; cbn [run_list]; [auto with sr|].
  apply rrel_bindr; [auto|]. intros. now apply IH.
Qed.

(** A counter statement *)
Lemma counter_run : forall c cx s', Sh PD c \/ Sh PT c ->
  exists r s1', ev' c cx s' = (CNorm r, s1') /\ forall s, srel s' s -> srel s1' s.
Proof.
  intros c cx s' [H|H].
  - apply PD_inv in H as (c0 & s1 & s3 & s4 & ->). do 2 eexists. split; [reflexivity|].
    intros s Hs. cbn [snd]. now apply srel_tick.
  - apply PT_inv in H as (k & s1 & s2 & -> & Hk).
    destruct k; try contradiction; (do 2 eexists; split; [reflexivity|]; intros s Hs; exact Hs).
Qed.

(** Statement lists, with counters among the statements *)
Lemma members_rel : forall cs,
  Forall (fun c => (Sh PO c /\ is_none c = false /\ DR (ev' c) (ev (erase c))) \/ Sh PD c \/ Sh PT c) cs ->
  DR (run_list h (map ev' cs)) (run_list h (map ev (erase_list cs))).
Proof.
  intros cs H. induction H as [|c cs Hc Hcs IH]; intros cx s' s Hs; [now apply rrel_intro|].
  rewrite erase_list_cons. cbn [map run_list]. destruct Hc as [(Hc & Hn & Hd)|Hc].
  - assert (Hl : erase_list [c] = [erase c]).
    { unfold erase_list. cbn [map filter]. unfold nonhole. rewrite <- (member_nonhole _ _ _ Hc), Hn. reflexivity. }
    rewrite Hl. cbn [app map run_list]. apply rrel_bindr; [auto|]. intros. now apply IH.
  - assert (Hl : erase_list [c] = []).
    { unfold erase_list. cbn [map filter]. destruct Hc as [Hc|Hc]; [rewrite (PD_hole _ _ _ Hc)|rewrite (PT_hole _ _ _ Hc)]; reflexivity. }
    rewrite Hl. cbn [app]. destruct (counter_run c cx s' Hc) as (r & s1' & -> & Hr).
    unfold bindr at 1. cbn [fst snd]. apply IH. auto.
Qed.

Lemma hoist_rel : forall fs x s' s, Forall (fun p => Sh PO (snd p)) fs -> srel s' s ->
  srel (hoist h fs x s') (hoist h (map erase_fn fs) x s).
Proof.
  intros fs x s' s H. revert s' s. induction H as [|[name code] fs Hf Hfs IH]; intros s' s Hs; [assumption|].
  cbn [hoist map erase_fn fst snd] in *. rewrite (srel_len _ _ Hs). apply IH.
  assert (H1 : srel (add_fun h code s') (add_fun h (erase code) s)) by auto with sr.
  rewrite (srel_world _ _ H1). auto with sr.
Qed.
Lemma enter_block_rel : forall decls fs x s' s, Forall (fun p => Sh PO (snd p)) fs -> srel s' s ->
  fst (enter_block h decls fs x s') = fst (enter_block h decls (map erase_fn fs) x s) /\
  srel (snd (enter_block h decls fs x s')) (snd (enter_block h decls (map erase_fn fs) x s)).
Proof.
  intros decls fs x s' s Hf Hs. unfold enter_block.
  destruct decls as [|d decls]; cbn [fst snd].
  - split; [reflexivity|]. now apply hoist_rel.
  - rewrite (srel_world _ _ Hs). destruct (h_scope h [] (d :: decls) x (hs h s)) as [x1 w]. cbn [fst snd].
    split; [reflexivity|]. apply hoist_rel; auto with sr.
Qed.

Lemma sem_stmts_rel : forall cs, Forall (member rl rlo) cs ->
  Forall (fun c => (Sh PO c /\ is_none c = false /\ DR (ev' c) (ev (erase c))) \/ Sh PD c \/ Sh PT c) cs ->
  DR (sem_stmts h cs (map ev' cs)) (sem_stmts h (erase_list cs) (map ev (erase_list cs))).
Proof.
  intros cs Hm H cx s' s Hs. unfold sem_stmts. pose proof (members_rel cs H) as Hr.
  rewrite (lex_names_erase _ _ _ Hm). destruct (fns_of_erase _ _ _ Hm) as [-> Hf].
  destruct (cx_mode h cx); try (now apply Hr);
    destruct (enter_block_rel (lex_names cs) (fns_of cs) (cx_sc h cx) s' s Hf Hs) as [H1 H2];
    destruct (enter_block h _ (fns_of cs) _ s') as [x1' s1'], (enter_block h _ (map erase_fn (fns_of cs)) _ s) as [x1 s1];
    cbn [fst snd] in *; subst x1'; now apply Hr.
Qed.

Lemma enter_fn_rel : forall dirs vars x s' s, srel s' s ->
  fst (enter_fn h dirs vars x s') = fst (enter_fn h dirs vars x s) /\
  srel (snd (enter_fn h dirs vars x s')) (snd (enter_fn h dirs vars x s)).
Proof.
  intros dirs vars x s' s Hs. unfold enter_fn. rewrite (srel_world _ _ Hs).
  destruct (h_scope h dirs _ x (hs h s)) as [x1 w]. cbn [fst snd]. split; [reflexivity|]. auto with sr.
Qed.

Lemma finish_rel : forall r' r, rrel r' r -> rrel (finish_fn h r') (finish_fn h r).
Proof.
  intros [c' s'] [c s] [H1 H2]. cbn [fst snd] in *. subst c'. unfold finish_fn, stuck. cbn [fst snd].
  destruct c; auto with sr.
Qed.

Lemma loop_rel : forall n test' test upd' upd body' body ls per' per,
  match test', test with Some d', Some d => DV d' d | None, None => True | _, _ => False end ->
  match upd', upd with Some d', Some d => DV d' d | None, None => True | _, _ => False end ->
  DB body' body ->
  (forall x s' s, srel s' s -> fst (per' x s') = fst (per x s) /\ srel (snd (per' x s')) (snd (per x s))) ->
  forall cx s' s, srel s' s ->
  rrel (loop h call' fuel n test' upd' body' ls cx per' s') (loop h call fuel n test upd body ls cx per s).
Proof.
  induction n as [|n IH]; intros test' test upd' upd body' body ls per' per Ht Hu Hb Hp cx s' s Hs;
    cbn [loop]; [auto with sr|].
  apply rrel_bindv.
  { destruct test', test; try contradiction; auto with sr. }
  intros v s1' s1 H1.
  assert (Hgo : (match test' with Some _ => h_truthy h v | None => true end) =
                (match test with Some _ => h_truthy h v | None => true end)).
  { destruct test', test; try contradiction; reflexivity. }
  rewrite Hgo. destruct (match test with Some _ => _ | None => _ end); [|auto with sr].
  pose proof (Hb cx s1' s1 H1) as Hb1.
  destruct (body' (rd h cx) s1') as [c' s2'], (body (rd h cx) s1) as [c s2].
  destruct Hb1 as [Hc H2]. cbn [fst snd] in *. subst c'. destruct (goes_on h ls c); [|auto with sr].
  destruct (Hp (cx_sc h cx) s2' s2 H2) as [Hx H3].
  destruct (per' (cx_sc h cx) s2') as [x' s3'], (per (cx_sc h cx) s2) as [x s3].
  cbn [fst snd] in *. subst x'. apply rrel_bindr.
  { destruct upd', upd; try contradiction; auto with sr. }
  intros _ s4' s4 H4. apply IH; auto.
Qed.
Lemma do_loop_rel : forall n test' test body' body ls,
  DV test' test -> DB body' body -> forall cx s' s, srel s' s ->
  rrel (do_loop h call' fuel n test' body' ls cx s') (do_loop h call fuel n test body ls cx s).
Proof.
  induction n as [|n IH]; intros test' test body' body ls Ht Hb cx s' s Hs; cbn [do_loop]; [auto with sr|].
  pose proof (Hb cx s' s Hs) as Hb1.
  destruct (body' (rd h cx) s') as [c' s2'], (body (rd h cx) s) as [c s2].
  destruct Hb1 as [Hc H2]. cbn [fst snd] in *. subst c'. destruct (goes_on h ls c); [|auto with sr].
  apply rrel_bindv; [auto|]. intros v s3' s3 H3. destruct (h_truthy h v); auto with sr.
Qed.
Lemma copy_rel : forall x s' s, srel s' s ->
  fst (copy_scope h x s') = fst (copy_scope h x s) /\ srel (snd (copy_scope h x s')) (snd (copy_scope h x s)).
Proof.
  intros x s' s Hs. unfold copy_scope. rewrite (srel_world _ _ Hs). destruct (h_copy h x (hs h s)).
  cbn [fst snd]. split; [reflexivity|]. auto with sr.
Qed.

Lemma find_case_rel : forall ds' ds, Forall2 DR ds' ds -> forall cx i s' s, srel s' s ->
  fst (find_case h ds' cx i s') = fst (find_case h ds cx i s) /\
  srel (snd (find_case h ds' cx i s')) (snd (find_case h ds cx i s)).
Proof.
  intros ds' ds H. induction H as [|d' d ds' ds Hd Hds IH]; intros cx i s' s Hs; cbn [find_case]; [auto|].
  specialize (Hd (in_mode h MMatch (cx_in h cx) cx) s' s Hs).
  destruct (d' _ s') as [c' s1'], (d _ s) as [c s1]. destruct Hd as [Hc H1]. cbn [fst snd] in *. subst c'.
  destruct c; auto.
Qed.
Lemma default_index_rel : forall cs' cs, Forall2 (fun c' c => is_default c' = is_default c) cs' cs ->
  forall i, default_index cs' i = default_index cs i.
Proof.
  intros cs' cs H. induction H as [|c' c cs' cs Hc Hcs IH]; intros i; [reflexivity|]. simpl.
  rewrite Hc. destruct (is_default c); auto.
Qed.
Lemma Forall2_skipn : forall A B (R : A -> B -> Prop) n l' l, Forall2 R l' l -> Forall2 R (skipn n l') (skipn n l).
Proof.
  induction n as [|n IH]; intros l' l H; [assumption|]. destruct H; [constructor|]. simpl. auto.
Qed.
Lemma sem_cases_rel : forall cs' cs ds' ds, Forall2 (fun c' c => is_default c' = is_default c) cs' cs ->
  Forall2 DR ds' ds -> DR (sem_cases h cs' ds') (sem_cases h cs ds).
Proof.
  intros cs' cs ds' ds Hc Hd cx s' s Hs. unfold sem_cases.
  destruct (find_case_rel ds' ds Hd cx 0%nat s' s Hs) as [Hf H1].
  destruct (find_case h ds' cx 0 s') as [r' s1'], (find_case h ds cx 0 s) as [r s1]. cbn [fst snd] in *. subst r'.
  destruct r as [c|hit]; [auto with sr|]. rewrite (default_index_rel _ _ Hc).
  destruct (match hit with Some i => _ | None => _ end) as [i|]; [|auto with sr].
  apply run_list_rel; [|assumption]. now apply Forall2_skipn.
Qed.

(** Wrapped expressions *)
Lemma wrapped_rel : forall s1 s2 s3 s4 s5 s6 c x, is_expr (erase x) = true ->
  DV (ev' x) (ev (erase x)) ->
  DE (ev' (Node KExpr s1 [Node KInjParen s2 [Node KExpr s3 [Node KInjSeq s4
           [Node KExpr s5 [Node (KCounter c) s6 []]; x]]]])) (ev (erase x)).
Proof.
  intros s1 s2 s3 s4 s5 s6 c x He Hx cx s' s Hs.
  change (rrel (valued h call' fuel (ev' x) cx (tick h c s')) (valued h call fuel (ev (erase x)) cx s)).
  apply Hx. auto with sr.
Qed.

(** The code of [reportLogic] *)
Definition puref (d : den) : Prop := forall cx s, exists r, d cx s = (CNorm (RVal r), s).
Lemma puref_valued : forall d, puref d -> forall cx s, exists r, valued h call' fuel d cx s = (CNorm (RVal r), s).
Proof. intros d H cx s. unfold valued. destruct (H (rd h cx) s) as [r ->]. exists r. reflexivity. Qed.
Lemma puref_and : forall op x y, puref (ev' x) -> puref (ev' y) -> is_logical_op op = true ->
  puref (ev' (E (mk (KBin op) [x; y]))).
Proof.
  intros op x y Hx Hy Hop cx s.
  change (exists r, sem h call' fuel (KBin op) dummy_span [x; y] [ev' x; ev' y] cx s = (CNorm (RVal r), s)).
  unfold sem. rewrite Hop. unfold sem_logical. change (log h dummy_span (EOper dummy_span false) s) with s.
  destruct (puref_valued _ Hx cx s) as [r ->]. unfold bindv, bindr. cbn [fst snd].
  destruct (stop_left h op r); [eauto|].
  change (log h dummy_span (EOper dummy_span true) s) with s. apply puref_valued. exact Hy.
Qed.
Lemma puref_test : forall n, pure_tests h -> puref (ev' (E (mk (KTempTest n) []))).
Proof.
  intros n Hp cx s. destruct (Hp n (tmp h s) (cx_sc h cx) (hs h s)) as [r Hr]. exists r.
  change (sem h call' fuel (KTempTest n) dummy_span [] [] cx s = (CNorm (RVal r), s)).
  unfold sem. rewrite Hr. unfold simple. assert (Hs : set_hs h (hs h s) s = s) by now destruct s.
  rewrite Hs. destruct fuel; reflexivity.
Qed.
Lemma puref_validate : pure_tests h -> puref (ev' validate_true_non_trivial).
Proof.
  intros Hp. unfold validate_true_non_trivial.
  assert (Hpar : forall x, puref (ev' x) -> puref (ev' (E (mk KParen [x])))) by (intros x Hx; exact Hx).
  repeat (apply puref_and || apply Hpar || (apply puref_test; exact Hp) || reflexivity).
  intros cx s. exists (tmp h s). reflexivity.
Qed.

Lemma assign_val : forall d cx s,
  valued h call' fuel (fun cx s => bindv h (valued h call' fuel d cx s)
      (fun v s1 => (CNorm (RVal v), set_tmp h v s1))) (rd h cx) s =
  bindv h (valued h call' fuel d cx s) (fun v s1 => (CNorm (RVal v), set_tmp h v s1)).
Proof.
  intros d cx s. unfold valued at 1.
  change (valued h call' fuel d (rd h (rd h cx)) s) with (valued h call' fuel d cx s).
  destruct (valued h call' fuel d cx s) as [c s1]. unfold bindv, bindr. cbn [fst snd].
  destruct c as [[v|r]| | | | | | | ]; reflexivity.
Qed.

Lemma temp_rel : forall b i x, pure_tests h -> DV (ev' x) (ev (erase x)) ->
  DE (ev' (E (mk KInjSeq [counter_expr (CB b i); increase_true_expr b i x]))) (ev (erase x)).
Proof.
  intros b i x Hp Hx cx s' s Hs.
  set (inc := increase_true_expr b i x).
  change (rrel (valued h call' fuel (ev' inc) cx (tick h (CB b i) s')) (valued h call fuel (ev (erase x)) cx s)).
  assert (H1 : srel (tick h (CB b i) s') s) by auto with sr.
  generalize (tick h (CB b i) s') H1. clear s' Hs H1. intros s' Hs.
  unfold valued at 1.
  set (cnd := E (mk KInjParen [E (mk KCond [validate_true_non_trivial; counter_expr (CT b i); E (mk KNullLit [])])])).
  change (ev' inc (rd h cx) s') with
    (bindr h (valued h call' fuel (fun cx s => bindv h (valued h call' fuel (ev' x) cx s)
                (fun v s1 => (CNorm (RVal v), set_tmp h v s1))) (rd h cx) s')
       (fun _ s1 => bindr h (valued h call' fuel (ev' cnd) (rd h cx) s1)
          (fun _ s2 => (CNorm (RVal (tmp h s2)), s2)))).
  assert (Hc : forall cx s, exists r s1, valued h call' fuel (ev' cnd) cx s = (CNorm (RVal r), s1) /\
                tmp h s1 = tmp h s /\ (forall s0, srel s s0 -> srel s1 s0)).
  { intros cx0 s0. unfold valued.
    change (ev' cnd (rd h cx0) s0) with
      (sem_cond h call' fuel dummy_span (ev' validate_true_non_trivial) (ev' (counter_expr (CT b i)))
         (ev' (E (mk KNullLit []))) (rd h cx0) s0).
    unfold sem_cond. destruct (puref_valued _ (puref_validate Hp) (rd h cx0) s0) as [r ->].
    unfold bindv, bindr at 2. cbn [fst snd].
    destruct (h_truthy h r); do 2 eexists; (split; [reflexivity|]); cbn [snd]; split; auto with sr. }
  specialize (Hx cx s' s Hs).
  rewrite assign_val.
  destruct (valued h call' fuel (ev' x) cx s') as [c' s1'].
  pose proof (valued_twice (ev (erase x)) cx s) as Htw.
  destruct (valued h call fuel (ev (erase x)) cx s) as [c s1].
  destruct Hx as [Hcc H1]. cbn [fst snd] in *. subst c'.
  destruct c as [[v|r]| | | | | | | ];
    try (unfold bindv, bindr; cbn [fst snd]; now apply rrel_intro).
  - unfold bindv, bindr at 3. cbn [fst snd]. unfold bindr at 2. cbn [fst snd].
    destruct (Hc (rd h cx) (set_tmp h v s1')) as (r & s2' & -> & Ht & H2).
    unfold bindr. cbn [fst snd]. rewrite Ht. cbn [tmp set_tmp getv]. apply rrel_intro.
    apply H2. auto with sr.
  - exfalso. unfold bindr in Htw. cbn [fst snd] in Htw. apply getv_val in Htw as [v Hv]. discriminate.
Qed.

(** Injected blocks *)
Lemma uv_twice : forall sp cs cx s,
  bindr h (ev (Node KStmt sp cs) cx s) (fun _ s1 => (uv h, s1)) = ev (Node KStmt sp cs) cx s.
Proof.
  intros sp cs cx s. cbn [Sem.ev]. unfold sem.
  destruct cs as [|c [|? ?]]; try reflexivity. cbn [map].
  destruct (ev c cx s) as [r s1]. unfold bindr. cbn [fst snd]. destruct r; reflexivity.
Qed.
Lemma fn_of_lex : forall x, lex_of x = [] -> fn_of x = [].
Proof.
  intros x H. unfold lex_of, fn_of in *. destruct (decl_view x) as [[k sp cs]|]; [|reflexivity].
  destruct k; try reflexivity. destruct cs as [|id [|fn [|? ?]]]; try reflexivity.
  cbn [lex_decl] in H. unfold named in H. destruct (nkind id); try reflexivity; discriminate.
Qed.

Lemma blist_ready : forall p ss, p = PBS \/ p = PAS -> Shs p KStmts 0 ss ->
  (forall c, In c ss -> Sh PO c -> DR (ev' c) (ev (erase c))) ->
  Forall (fun c => (Sh PO c /\ is_none c = false /\ DR (ev' c) (ev (erase c))) \/ Sh PD c \/ Sh PT c) ss.
Proof.
  intros p ss Hp Hk IH. apply Forall_forall. intros c Hc.
  destruct (Shs_In _ _ _ _ _ _ _ Hk Hc) as (j & q & Hok & Hq).
  assert (Hq' : (q = PO /\ is_stmt (erase c) = true) \/ q = PD).
  { destruct Hp as [-> | ->]; destruct q; try discriminate; auto. }
  destruct Hq' as [[-> Hst]| ->]; [left|auto]. split; [assumption|]. split; [|auto].
  unfold is_stmt in Hst. rewrite (PO_kind _ _ _ Hq) in Hst. unfold is_none. now destruct (nkind c).
Qed.

Lemma pb_rel : forall s1 s2 s3 ss, Shs PBS KStmts 0 ss ->
  (erase_list ss = [] \/ exists x, erase_list ss = [x] /\ lex_of x = []) ->
  (forall c, In c ss -> Sh PO c -> DR (ev' c) (ev (erase c))) ->
  DB (ev' (Node KStmt s1 [Node (KBlock true) s2 [Node KStmts s3 ss]]))
     (ev (erase (Node KStmt s1 [Node (KBlock true) s2 [Node KStmts s3 ss]]))).
Proof.
  intros s1 s2 s3 ss Hk Hl IH cx s' s Hs.
  pose proof (sem_stmts_rel ss (bmembers _ _ _ _ _ (or_introl eq_refl) Hk)
                (blist_ready _ _ (or_introl eq_refl) Hk IH) (rd h cx) s' s Hs) as Hr.
  change (ev' (Node KStmt s1 [Node (KBlock true) s2 [Node KStmts s3 ss]]) (rd h cx) s') with
    (bindr h (sem_stmts h ss (map ev' ss) (rd h cx) s') (fun _ s1 => (uv h, s1))).
  destruct (PB_erase _ s1 s2 s3 ss eq_refl) as [[Ha ->]|(x & [[Ha ->]|Ha])].
  - rewrite Ha in Hr. change (sem_stmts h [] (map ev []) (rd h cx) s) with (uv h, s) in Hr.
    change (ev hole (rd h cx) s) with (bindr h (uv h, s) (fun _ s1 => (uv h, s1))).
    apply rrel_bindr; auto with sr.
  - assert (Hx : lex_of x = []).
    { destruct Hl as [Hl|(y & Hl & Hy)]; rewrite Hl in Ha; inversion Ha; subst; assumption. }
    assert (Hst : is_stmt x = true).
    { assert (Hin : In x (erase_list ss)) by (rewrite Ha; now left).
      unfold erase_list in Hin. apply filter_In in Hin as [Hin Hnh]. apply in_map_iff in Hin as (c & <- & Hc).
      destruct (Shs_In _ _ _ _ _ _ _ Hk Hc) as (j & q & Hok & Hq). destruct q; try discriminate.
      - exact Hok.
      - rewrite (PD_hole _ _ _ Hq) in Hnh. discriminate. }
    rewrite Ha in Hr.
    assert (Hsem : sem_stmts h [x] (map ev [x]) (rd h cx) s =
                   bindr h (ev x (rd h cx) s) (fun _ s1 => (uv h, s1))).
    { unfold sem_stmts. cbn [cx_mode rd]. unfold lex_names, fns_of. simpl flat_map.
      rewrite Hx, (fn_of_lex _ Hx). reflexivity. }
    rewrite Hsem in Hr. destruct x as [[] xsp xcs]; try discriminate.
    rewrite <- uv_twice. rewrite <- (uv_twice xsp xcs (rd h cx) s). apply rrel_bindr; [|auto with sr].
    rewrite uv_twice in Hr. rewrite uv_twice. exact Hr.
  - destruct Hl as [Hl|(y & Hl & _)]; rewrite Hl in Ha; simpl in Ha; lia.
Qed.

(** Function bodies *)
Lemma sem_fn_rel : forall sp p' p b' b db' db,
  match p', p with Some d', Some d => DR d' d | None, None => True | _, _ => False end ->
  directives b' = directives b -> var_names b' = var_names b -> is_expr b' = is_expr b ->
  nspan b' = nspan b -> DR db' db ->
  DR (sem_fn h call' fuel sp p' b' db') (sem_fn h call fuel sp p b db).
Proof.
  intros sp p' p b' b db' db Hp Hd Hv He Hsp Hb cx s' s Hs. unfold sem_fn. rewrite Hd, Hv, He, Hsp.
  destruct (enter_fn_rel (directives b) (var_names b) (cx_sc h cx) s' s Hs) as [H1 H2].
  destruct (enter_fn h _ _ _ s') as [x' s1'], (enter_fn h _ _ _ s) as [x s1]. cbn [fst snd] in *. subst x'.
  apply rrel_bindr.
  { destruct p', p; try contradiction; auto with sr. }
  intros _ t' t Ht. destruct (is_expr b); apply finish_rel.
  - apply rrel_bindv; [apply DR_DV; auto with sr|]. auto with sr.
  - apply Hb. auto with sr.
Qed.

Lemma pa_rel : forall sp p' p s2 s3 ss ssp x,
  DR p' p -> Shs PAS KStmts 0 ss ->
  erase_list ss = [Node KStmt ssp [Node KReturn (nspan x) [x]]] -> is_expr x = true ->
  (forall c, In c ss -> Sh PO c -> DR (ev' c) (ev (erase c))) ->
  var_names (Node (KBlock true) s2 [Node KStmts s3 ss]) = [] ->
  directives (Node (KBlock true) s2 [Node KStmts s3 ss]) = [] ->
  DR (sem_fn h call' fuel sp (Some p') (Node (KBlock true) s2 [Node KStmts s3 ss])
        (ev' (Node (KBlock true) s2 [Node KStmts s3 ss])))
     (sem_fn h call fuel sp (Some p) x (ev x)).
Proof.
  intros sp p' p s2 s3 ss ssp x Hp Hk Hl Hx IH Hv Hd cx s' s Hs. unfold sem_fn. rewrite Hv, Hd, Hx.
  assert (Hxv : var_names x = [] /\ directives x = []).
  { destruct x as [[] xsp xcs]; try discriminate. split; reflexivity. }
  destruct Hxv as [-> ->].
  destruct (enter_fn_rel [] [] (cx_sc h cx) s' s Hs) as [H1 H2].
  destruct (enter_fn h _ _ _ s') as [x1' s1'], (enter_fn h _ _ _ s) as [x1 s1]. cbn [fst snd] in *. subst x1'.
  apply rrel_bindr; [apply Hp; assumption|]. intros _ t' t Ht. cbn [is_expr nkind].
  apply finish_rel. set (cb := mkCtx h x1 MRead [] (h_undef h)).
  pose proof (sem_stmts_rel ss (bmembers _ _ _ _ _ (or_intror eq_refl) Hk)
                (blist_ready _ _ (or_intror eq_refl) Hk IH) cb _ _ (srel_log sp (EFn sp) _ _ Ht)) as Hr.
  rewrite Hl in Hr.
  assert (Hsem : sem_stmts h [Node KStmt ssp [Node KReturn (nspan x) [x]]]
       (map ev [Node KStmt ssp [Node KReturn (nspan x) [x]]]) cb (log h sp (EFn sp) t) =
     bindv h (valued h call fuel (ev x) cb (log h (nspan x) (EStmt (nspan x)) (log h sp (EFn sp) t)))
                      (fun v s3 => (CRet v, s3))).
  { assert (Hxn : is_none x = false) by (destruct x as [[] ? ?]; try discriminate; reflexivity).
    unfold sem_stmts. cbn [cx_mode cb map run_list]. 
    change (lex_names [Node KStmt ssp [Node KReturn (nspan x) [x]]]) with (@nil (N * string)).
    change (fns_of [Node KStmt ssp [Node KReturn (nspan x) [x]]]) with (@nil (string * node)).
    cbn [enter_block hoist Sem.ev map]. unfold sem. rewrite Hxn.
    change (rd h (in_scope h (cx_sc h cb) cb)) with cb.
    destruct (valued h call fuel (ev x) cb _) as [c t1]. unfold bindv, bindr. cbn [fst snd].
    destruct c as [[v|r]| | | | | | | ]; reflexivity. }
  rewrite Hsem in Hr. exact Hr.
Qed.

Lemma none_kids : forall k cs, Shs PO k 0 cs -> list_kind k = false -> k <> KIf ->
  map is_none (erased_kids k cs) = map is_none cs.
Proof.
  intros k cs Hk Hl Hif.
  assert (Hmap : map is_none (map erase cs) = map is_none cs).
  { revert Hk. generalize 0%nat. induction cs as [|c cs IH]; intros i Hk; [reflexivity|].
    apply Shs_inv in Hk as [(q & Hok & Hq) Hk]. cbn [map]. rewrite (IH _ Hk). f_equal.
    destruct q; try discriminate; cbn [ok_at] in Hok.
    - symmetry. eapply member_nonhole. eassumption.
    - pose proof (erase_pw _ _ _ Hq) as H1. pose proof (PW_is_expr _ _ _ Hq) as H2. unfold is_expr, is_none in *.
      destruct (nkind (erase c)); try discriminate. destruct (nkind c); try discriminate. reflexivity.
    - congruence.
    - congruence.
    - apply andb_true_iff in Hok as [_ Hok]. apply PB_inv in Hq as (? & ? & ? & ? & -> & _).
      apply orb_true_iff in Hok as [Hok|Hok].
      + apply negb_true_iff in Hok. rewrite Hok. reflexivity.
      + destruct k; try discriminate. congruence.
    - apply PA_inv in Hq as (? & ? & ? & ? & ? & -> & _). reflexivity. }
  destruct k; try exact Hmap; try discriminate Hl. cbn [erased_kids].
  destruct cs as [|a [|b [|c [|? ?]]]]; try exact Hmap. cbn [map] in *. inversion Hmap as [[H1 H2 H3]].
  do 2 f_equal. apply Shs_inv in Hk as [_ Hk]. apply Shs_inv in Hk as [(q & Hok & Hq) _].
  destruct q; try discriminate.
  - unfold erase_arrow_body. rewrite (erase_po _ _ _ Hq). apply PO_inv in Hq as (bk & bsp & bcs & -> & Hi & _).
    cbn [nkind nspan nkids]. destruct (block_view _) as [[[[[] ?] ?] ?]|] eqn:Hb; try reflexivity.
    apply block_view_inv in Hb. inversion Hb; subst. discriminate.
  - apply PA_inv in Hq as (s2 & s3 & ss & ssp & x & -> & Hll & Hx & _).
    cbn [erase map erase_node].
    change (filter (fun c => negb (is_none c)) (map erase ss)) with (erase_list ss). rewrite Hll.
    unfold erase_arrow_body, return_view. cbn [block_view stmts_view stmt_view].
    destruct x as [[] ? ?]; try discriminate. reflexivity.
Qed.

Lemma erased_map : forall k cs, list_kind k = false -> k <> KArrow -> erased_kids k cs = map erase cs.
Proof. intros k cs Hl Ha. destruct k; try reflexivity; try discriminate. congruence. Qed.

Lemma odr_map : forall cs, (forall c, In c cs -> DR (ev' c) (ev (erase c))) ->
  forall i, odr (nth_error (map ev' cs) i) (nth_error (map ev (map erase cs)) i).
Proof.
  intros cs H i. rewrite map_map, !nth_error_map. destruct (nth_error cs i) as [c|] eqn:Hc; [|exact I].
  cbn [option_map odr]. apply H. now apply nth_error_In in Hc.
Qed.

Lemma closable_kids : forall k cs, Shs PO k 0 cs -> list_kind k = false ->
  forall j, closable k j = true ->
     match nth_error cs j with
     | Some c => nth_error (erased_kids k cs) j = Some (erase c) /\ Sh PO c
     | None => nth_error (erased_kids k cs) j = None
     end.
Proof.
  intros k cs Hk Hl j Hj. unfold closable in Hj. apply negb_true_iff in Hj.
  apply orb_false_iff in Hj as [Hj Ha]. apply orb_false_iff in Hj as [Hv Hb].
  assert (Hnth : nth_error (erased_kids k cs) j = nth_error (map erase cs) j).
  { destruct k; try reflexivity; try discriminate Hl. cbn [erased_kids].
    destruct cs as [|a [|b [|c [|? ?]]]]; try reflexivity. cbn [map].
    destruct j as [|[|[|?]]]; try reflexivity. discriminate Ha. }
  rewrite Hnth, nth_error_map. destruct (nth_error cs j) as [c|] eqn:Hc; [|reflexivity].
  split; [reflexivity|]. apply (kid_PO _ _ _ _ _ j c Hk Hc); auto.
  destruct k; try (left; discriminate). right. intros He. apply Nat.eqb_neq in Ha. auto.
Qed.

(** Nodes played by the host *)
Lemma opaque_po : forall k sp cs, Sh PO (Node k sp cs) -> Shs PO k 0 cs ->
  list_kind k = false -> k <> KArrow -> k <> KIf ->
  (forall i, vpos k i = false /\ bpos k i = false) ->
  (forall c, In c cs -> Sh PO c -> DR (ev' c) (ev (erase c))) ->
  DR (opaque h call' fuel k sp cs (map ev' cs))
     (opaque h call fuel k sp (erased_kids k cs) (map ev (erased_kids k cs))).
Proof.
  intros k sp cs Hself Hk Hl Ha Hi Hp IH. apply opaque_rel; auto.
  - exact (erase_po _ _ _ Hself).
  - now apply none_kids.
  - now apply closable_kids.
  - rewrite erased_map by assumption. apply odr_map. intros c Hc. apply IH; [assumption|].
    apply In_nth_error in Hc as [j Hj]. destruct (Hp j). apply (kid_PO _ _ _ _ _ j c Hk Hj); auto.
Qed.

Ltac inv_kid Hk q Hok Hq := apply Shs_inv in Hk as [(q & Hok & Hq) Hk].

Section Node.
Variables (k : kind) (cs : list node).
Hypothesis Hk : Shs PO k 0 cs.
Hypothesis Hpo : forall c, In c cs -> Sh PO c -> DR (ev' c) (ev (erase c)).
Hypothesis Hpw : forall c, In c cs -> Sh PW c -> DE (ev' c) (ev (erase c)).
Hypothesis Hpb : forall c, In c cs -> Sh PB c -> DB (ev' c) (ev (erase c)).

Lemma kid_DR : forall i c, nth_error cs i = Some c -> vpos k i = false -> bpos k i = false ->
  list_kind k = false -> (k <> KArrow \/ i <> 1%nat) -> Sh PO c /\ DR (ev' c) (ev (erase c)).
Proof using Hk Hpo Hpw Hpb Hcall.
  intros i c Hc Hv Hb Hl Ha.
  assert (H : Sh PO c) by (apply (kid_PO _ _ _ _ _ i c Hk Hc); auto).
  split; [assumption|]. apply Hpo; [|assumption]. now apply nth_error_In in Hc.
Qed.
Lemma kid_DV : forall i c, nth_error cs i = Some c -> bpos k i = false -> list_kind k = false -> k <> KArrow ->
  DV (ev' c) (ev (erase c)) /\ is_none (erase c) = is_none c.
Proof using Hk Hpo Hpw Hpb Hcall.
  intros i c Hc Hb Hl Ha. destruct (Shs_nth _ _ _ _ _ _ _ _ Hk Hc) as (q & Hok & Hq).
  apply nth_error_In in Hc. cbn [Nat.add] in Hok. destruct q; try discriminate; cbn [ok_at] in Hok.
  - split; [apply DR_DV; auto|]. symmetry. eapply member_nonhole. eassumption.
  - split; [apply DE_DV; auto|].
    pose proof (erase_pw _ _ _ Hq) as H1. pose proof (PW_is_expr _ _ _ Hq) as H2. unfold is_expr, is_none in *.
    destruct (nkind (erase c)); try discriminate. destruct (nkind c); try discriminate. reflexivity.
  - congruence.
  - congruence.
  - rewrite Hb in Hok. discriminate.
  - destruct k; try discriminate. congruence.
Qed.
Lemma kid_DB : forall i c, nth_error cs i = Some c -> vpos k i = false -> list_kind k = false -> k <> KArrow ->
  DB (ev' c) (ev (erase c)).
Proof using Hk Hpo Hpw Hpb Hcall.
  intros i c Hc Hv Hl Ha. destruct (Shs_nth _ _ _ _ _ _ _ _ Hk Hc) as (q & Hok & Hq).
  apply nth_error_In in Hc. cbn [Nat.add] in Hok. destruct q; try discriminate; cbn [ok_at] in Hok.
  - apply DR_DB; auto.
  - rewrite Hv in Hok. discriminate.
  - congruence.
  - congruence.
  - auto.
  - destruct k; try discriminate. congruence.
Qed.
End Node.

Lemma opt_rel : forall t' t d' d, is_none t = is_none t' -> DV d' d ->
  match opt h t' d', opt h t d with Some d', Some d => DV d' d | None, None => True | _, _ => False end.
Proof. intros t' t d' d Hn Hd. unfold opt. rewrite Hn. destruct (is_none t'); auto. Qed.

Lemma is_expr_erase : forall c, Sh PO c -> is_expr (erase c) = is_expr c.
Proof. intros c H. unfold is_expr. now rewrite (PO_kind _ _ _ H). Qed.
Lemma label_erase : forall c, Sh PO c -> label_of (erase c) = label_of c.
Proof. intros c H. unfold label_of. now rewrite (PO_kind _ _ _ H). Qed.

Lemma case_stmts_erase : forall c, Sh PO c ->
  case_stmts (erase c) = erase_list (case_stmts c) /\ Forall (member rl rlo) (case_stmts c) /\
  is_default c = is_default (erase c).
Proof.
  intros c H. rewrite (erase_po _ _ _ H). apply PO_inv in H as (k & sp & cs & -> & Hi & _ & Hk).
  cbn [nkind nspan nkids]. destruct k; try (split; [reflexivity|split; [constructor|reflexivity]]).
  cbn [erased_kids].
  assert (Hd : is_default (Node KSwitchCase sp cs) = is_default (Node KSwitchCase sp (map erase cs))).
  { destruct cs as [|t cs]; [reflexivity|]. cbn [map is_default].
    assert (Ht : Sh PO t) by (apply (kid_PO _ _ _ _ _ 0%nat t Hk); auto; left; discriminate).
    now apply (member_nonhole _ _ _ Ht). }
  split; [|split; [|exact Hd]].
  - destruct cs as [|t [|b [|? ?]]]; try reflexivity.
    + assert (Hb : Sh PO b) by (apply (kid_PO _ _ _ _ _ 1%nat b Hk); auto; left; discriminate).
      cbn [map]. rewrite (erase_po _ _ _ Hb). apply PO_inv in Hb as (bk & bsp & bcs & -> & _ & _ & Hbk).
      cbn [nkind nspan nkids]. destruct bk; reflexivity.
    + cbn [map]. assert (Hm : forall a b c l, case_stmts (Node KSwitchCase sp (a :: b :: c :: l)) = []).
      { intros a [[] ? ?] c0 l0; reflexivity. }
      now rewrite !Hm.
  - destruct cs as [|t [|b [|? ?]]]; try constructor.
    + assert (Hb : Sh PO b) by (apply (kid_PO _ _ _ _ _ 1%nat b Hk); auto; left; discriminate).
      apply PO_inv in Hb as (bk & bsp & bcs & -> & _ & _ & Hbk).
      destruct bk; try constructor. cbn [case_stmts]. now apply (members _ _ KStmts 0).
    + assert (Hm : forall a b c l, case_stmts (Node KSwitchCase sp (a :: b :: c :: l)) = []).
      { intros a [[] ? ?] c0 l0; reflexivity. }
      rewrite Hm. constructor.
Qed.

Lemma flat_cases : forall cs, (forall c, In c cs -> Sh PO c) ->
  flat_map case_stmts (map erase cs) = erase_list (flat_map case_stmts cs) /\
  Forall (member rl rlo) (flat_map case_stmts cs).
Proof.
  induction cs as [|c cs IH]; intros H; [split; [reflexivity|constructor]|]. cbn [map flat_map].
  destruct IH as [H1 H2]; [intros d Hd; apply H; now right|].
  destruct (case_stmts_erase c) as (H3 & H4 & _); [apply H; now left|].
  rewrite erase_list_app, H1, H3. split; [reflexivity|]. apply Forall_app. auto.
Qed.

Lemma list_kids_PO : forall k sp cs, Sh PO (Node k sp cs) -> list_kind k = false -> k <> KArrow ->
  (forall i, vpos k i = false /\ bpos k i = false) -> forall c, In c cs -> Sh PO c.
Proof.
  intros k sp cs H Hl Ha Hp c Hc. apply PO_inv in H as (k0 & sp0 & cs0 & He & _ & _ & Hk). inversion He; subst.
  apply In_nth_error in Hc as [j Hj]. destruct (Hp j). apply (kid_PO _ _ _ _ _ j c Hk Hj); auto.
Qed.

Lemma body_ready : forall k cs i b, Shs PO k 0 cs -> nth_error cs i = Some b -> fbody k i = true ->
  Sh PO b /\ directives b = directives (erase b) \/ k = KArrow /\ Sh PA b.
Proof.
  intros k cs i b Hk Hb Hf. destruct (Shs_nth _ _ _ _ _ _ _ _ Hk Hb) as (q & Hok & Hq).
  cbn [Nat.add] in Hok. destruct q; try discriminate; cbn [ok_at] in Hok.
  - left. split; [assumption|]. unfold fits in Hok. rewrite Hf in Hok. cbn [negb orb] in Hok.
    apply andb_true_iff in Hok as [Hok _]. apply andb_true_iff in Hok as [Hok _].
    apply andb_true_iff in Hok as [_ Hok].
    assert (He : directives (erase b) = []) by (destruct (directives (erase b)); [reflexivity|discriminate]).
    rewrite He. exact (directives_erase _ _ _ Hq He).
  - destruct k; try discriminate.
  - destruct k; discriminate.
  - destruct k; discriminate.
  - destruct k; discriminate.
  - right. destruct k; try discriminate. auto.
Qed.
Lemma arrow_body_po : forall b, Sh PO b -> erase_arrow_body (erase b) = erase b.
Proof.
  intros b Hq. unfold erase_arrow_body. rewrite (erase_po _ _ _ Hq).
  apply PO_inv in Hq as (bk & bsp & bcs & -> & Hi & _).
  cbn [nkind nspan nkids]. destruct (block_view _) as [[[[[] ?] ?] ?]|] eqn:Hb; try reflexivity.
  apply block_view_inv in Hb. inversion Hb; subst. discriminate.
Qed.
Lemma arrow_body_pa : forall s2 s3 ss ssp x,
  erase_list ss = [Node KStmt ssp [Node KReturn (nspan x) [x]]] -> is_expr x = true ->
  erase_arrow_body (erase (Node (KBlock true) s2 [Node KStmts s3 ss])) = x.
Proof.
  intros s2 s3 ss ssp x Hll Hx. cbn [erase map erase_node].
  change (filter (fun c => negb (is_none c)) (map erase ss)) with (erase_list ss). rewrite Hll.
  unfold erase_arrow_body, return_view. cbn [block_view stmts_view stmt_view].
  destruct x as [[] ? ?]; try discriminate. reflexivity.
Qed.
Lemma seq_rel : forall ds' ds, Forall2 DR ds' ds -> DR (seq_vals h call' fuel ds') (seq_vals h call fuel ds).
Proof.
  intros ds' ds H. induction H as [|d' d ds' ds Hd Hds IH]; intros cx s' s Hs; cbn [seq_vals].
  - unfold stuck. auto with sr.
  - destruct Hds as [|e' e ds' ds He Hds].
    + now apply DR_DV.
    + apply rrel_bindr; [now apply DR_DV|]. intros. now apply IH.
Qed.
Lemma fn_rel : forall k cs i b sp p' p, Shs PO k 0 cs -> nth_error cs i = Some b -> fbody k i = true -> k <> KArrow ->
  (forall c, In c cs -> Sh PO c -> DR (ev' c) (ev (erase c))) ->
  match p', p with Some d', Some d => DR d' d | None, None => True | _, _ => False end ->
  DR (sem_fn h call' fuel sp p' b (ev' b)) (sem_fn h call fuel sp p (erase b) (ev (erase b))).
Proof.
  intros k cs i b sp p' p Hk Hb Hf Ha IH Hp.
  destruct (body_ready _ _ _ _ Hk Hb Hf) as [[H1 H2]|[? _]]; [|congruence].
  apply sem_fn_rel; auto.
  - symmetry. apply (var_names_erase rl rlo). now left.
  - symmetry. now apply is_expr_erase.
  - symmetry. exact (PO_span _ _ _ H1).
  - apply IH; [|assumption]. now apply nth_error_In in Hb.
Qed.

Lemma node_rel : forall k sp cs,
  Sh PO (Node k sp cs) -> Shs PO k 0 cs ->
  (forall c, In c cs -> Sh PO c -> DR (ev' c) (ev (erase c))) ->
  (forall c, In c cs -> Sh PW c -> DE (ev' c) (ev (erase c))) ->
  (forall c, In c cs -> Sh PB c -> DB (ev' c) (ev (erase c))) ->
  (forall s2 s3 ss, In (Node (KBlock true) s2 [Node KStmts s3 ss]) cs -> Shs PAS KStmts 0 ss ->
     forall c, In c ss -> Sh PO c -> DR (ev' c) (ev (erase c))) ->
  DR (sem h call' fuel k sp cs (map ev' cs))
     (sem h call fuel k sp (erased_kids k cs) (map ev (erased_kids k cs))).
Proof.
  intros k sp cs Hself Hk Hpo Hpw Hpb Hpa.
  assert (Hinj : injected_kind k = false).
  { apply PO_inv in Hself as (? & ? & ? & He & Hi & _). now inversion He; subst. }
  assert (Hopq : list_kind k = false -> k <> KArrow -> k <> KIf ->
    (forall i, vpos k i = false /\ bpos k i = false) ->
    DR (opaque h call' fuel k sp cs (map ev' cs))
       (opaque h call fuel k sp (erased_kids k cs) (map ev (erased_kids k cs)))).
  { intros. now apply opaque_po. }
  assert (Hst : forall s' s, srel s' s -> srel (log h sp (EStmt sp) s') (log h sp (EStmt sp) s)) by auto with sr.
  pose proof (kid_DR k cs Hk Hpo Hpw Hpb) as KR. pose proof (kid_DV k cs Hk Hpo Hpw Hpb) as KV.
  pose proof (kid_DB k cs Hk Hpo Hpw Hpb) as KB.
  assert (Hstuck : forall s' s, srel s' s -> rrel (stuck h s') (stuck h s)) by (unfold stuck; auto with sr).
  assert (KR0 : forall i c, nth_error cs i = Some c -> vpos k i = false -> bpos k i = false ->
    list_kind k = false -> k <> KArrow -> Sh PO c /\ DR (ev' c) (ev (erase c))).
  { intros. eapply KR; eauto. }
  destruct k; try (intros cx s' s Hs; unfold sem; apply Hopq; auto; try discriminate; fail).
  all: try discriminate Hinj.
  all: intros cx s' s Hs; unfold sem; cbn [erased_kids].
  - (* KModule *)
    destruct cs as [|b [|? ?]]; cbn [map]; try (now apply Hstuck).
    destruct (KR0 0%nat b) as [Hb Db]; try reflexivity; try discriminate.
    rewrite <- (var_names_erase rl rlo b) by (now left).
    destruct (enter_fn_rel [] (var_names (erase b)) (cx_sc h cx) s' s Hs) as [H1 H2].
    destruct (enter_fn h _ _ _ s') as [x' s1'], (enter_fn h _ _ _ s) as [x s1]. cbn [fst snd] in *. subst x'.
    now apply Db.
  - (* KScript *)
    destruct cs as [|b [|? ?]]; cbn [map]; try (now apply Hstuck).
    destruct (KR0 0%nat b) as [Hb Db]; try reflexivity; try discriminate.
    assert (Hp : prologue (nkids (erase b)) = [] /\ prologue (nkids b) = []).
    { apply Shs_inv in Hk as [(q & Hok & Hq) _]. destruct q; try discriminate. cbn [ok_at] in Hok.
      unfold fits in Hok. apply andb_true_iff in Hok as [Hok _]. apply andb_true_iff in Hok as [_ Hok].
      assert (He : prologue (nkids (erase b)) = []) by (destruct (prologue (nkids (erase b))); [reflexivity|discriminate]).
      split; [exact He|]. rewrite (erase_po _ _ _ Hb) in He. apply PO_inv in Hb as (bk & bsp & bcs & -> & _ & _ & Hbk).
      cbn [nkids nkind] in *. destruct (list_kind bk) eqn:Hl.
      - apply (prologue_erase rl rlo); [now apply (members _ _ bk 0)|]. destruct bk; try discriminate; exact He.
      - destruct bcs as [|c bcs]; [reflexivity|].
        assert (Hs0 : str_stmt (erase c) = None -> str_stmt c = None -> prologue (c :: bcs) = []).
        { intros _ Hc. simpl. now rewrite Hc. }
        apply Shs_inv in Hbk as [(q & Hok' & Hc) _].
        destruct q; try discriminate; cbn [ok_at] in Hok'; try congruence.
        + simpl. rewrite <- (str_stmt_erase _ _ _ Hc).
          assert (Hn : nth_error (erased_kids bk (c :: bcs)) 0 = Some (erase c)).
          { destruct bk; try discriminate; try reflexivity. cbn [erased_kids]. 
            destruct bcs as [|? [|? [|? ?]]]; reflexivity. }
          destruct (erased_kids bk (c :: bcs)) as [|x l]; [discriminate|]. inversion Hn; subst.
          simpl in He. destruct (str_stmt (erase c)); [discriminate|reflexivity].
        + apply PW_is_expr in Hc. destruct c as [[] ? ?]; try discriminate. reflexivity.
        + apply PB_inv in Hc as (? & ? & ? & ? & -> & _). reflexivity.
        + apply PA_inv in Hc as (? & ? & ? & ? & ? & -> & _). reflexivity. }
    destruct Hp as [-> ->]. rewrite <- (var_names_erase rl rlo b) by (now left).
    destruct (enter_fn_rel [] (var_names (erase b)) (cx_sc h cx) s' s Hs) as [H1 H2].
    destruct (enter_fn h _ _ _ s') as [x' s1'], (enter_fn h _ _ _ s) as [x s1]. cbn [fst snd] in *. subst x'.
    now apply Db.
  - (* KModuleItems *)
    apply sem_stmts_rel; [now apply (members _ _ KModuleItems 0)| |assumption].
    apply Forall_forall. intros c Hc. destruct (Shs_In _ _ _ _ _ _ _ Hk Hc) as (j & q & Hok & Hq).
    destruct q; try discriminate; auto. left. split; [assumption|]. split; [|auto].
    cbn [ok_at] in Hok. unfold fits in Hok. cbn [solid negb orb] in Hok.
    rewrite (member_nonhole _ _ _ Hq). destruct (is_none (erase c)); [discriminate|reflexivity].
  - (* KModuleDecl *)
    destruct cs as [|b [|? ?]]; cbn [map]; try (now apply Hstuck).
    destruct (KR0 0%nat b) as [Hb Db]; try reflexivity; try discriminate. now apply Db.
  - (* KExportDecl *)
    destruct cs as [|b [|? ?]]; cbn [map]; try (now apply Hstuck).
    destruct (KR0 0%nat b) as [Hb Db]; try reflexivity; try discriminate. apply Db. auto with sr.
  - (* KStmt *)
    destruct cs as [|b [|? ?]]; cbn [map]; try (now apply Hstuck).
    destruct (KR0 0%nat b) as [Hb Db]; try reflexivity; try discriminate. apply rrel_bindr; auto with sr.
  - (* KStmts *)
    apply sem_stmts_rel; [now apply (members _ _ KStmts 0)| |assumption].
    apply Forall_forall. intros c Hc. destruct (Shs_In _ _ _ _ _ _ _ Hk Hc) as (j & q & Hok & Hq).
    destruct q; try discriminate; auto. left. split; [assumption|]. split; [|auto].
    cbn [ok_at] in Hok. unfold fits in Hok. cbn [solid negb orb] in Hok.
    rewrite (member_nonhole _ _ _ Hq). destruct (is_none (erase c)); [discriminate|reflexivity].
  - (* KExpr *)
    destruct cs as [|b [|? ?]]; cbn [map]; try (now apply Hstuck).
    destruct (KR0 0%nat b) as [Hb Db]; try reflexivity; try discriminate. now apply Db.
  - (* KList *)
    assert (Hall : Forall2 DR (map ev' cs) (map ev (map erase cs))).
    { rewrite map_map. clear - KR0. assert (H : forall c, In c cs -> DR (ev' c) (ev (erase c))).
      { intros c Hc. apply In_nth_error in Hc as [j Hj]. destruct (KR0 j c Hj) as [_ H]; try reflexivity; try discriminate. exact H. }
      clear KR0. induction cs as [|c cs IH]; [constructor|]. cbn [map]. constructor; [apply H; now left|].
      apply IH. intros d Hd. apply H. now right. }
    assert (Hpos : forall c, In c cs -> Sh PO c).
    { intros c Hc. apply In_nth_error in Hc as [j Hj]. destruct (KR0 j c Hj) as [H _]; try reflexivity; try discriminate. exact H. }
    destruct (cx_mode h cx);
      try (apply (Hopq eq_refl); [discriminate|discriminate|intros; split; reflexivity|assumption]).
    + apply run_list_rel; assumption.
    + apply run_list_rel; assumption.
    + apply sem_cases_rel; [|assumption|assumption].
      clear - Hpos. induction cs as [|c cs IH]; [constructor|]. cbn [map]. constructor.
      * apply (case_stmts_erase c). apply Hpos. now left.
      * apply IH. intros d Hd. apply Hpos. now right.
  - (* KNone *) now apply rrel_intro.
  - (* KTs *) now apply rrel_intro.
  - (* KBlock *)
    destruct cs as [|b [|? ?]]; cbn [map]; try (now apply Hstuck).
    destruct (KR0 0%nat b) as [Hb Db]; try reflexivity; try discriminate. now apply Db.
  - (* KExprStmt *)
    destruct cs as [|b [|? ?]]; cbn [map]; try (now apply Hstuck).
    destruct (KV 0%nat b) as [Db _]; try reflexivity; try discriminate. apply rrel_bindr; auto with sr.
  - (* KBreak *)
    destruct cs as [|b [|? ?]]; cbn [map]; try (now apply Hstuck).
    destruct (KR0 0%nat b) as [Hb Db]; try reflexivity; try discriminate.
    rewrite (label_erase _ Hb). auto with sr.
  - (* KContinue *)
    destruct cs as [|b [|? ?]]; cbn [map]; try (now apply Hstuck).
    destruct (KR0 0%nat b) as [Hb Db]; try reflexivity; try discriminate.
    rewrite (label_erase _ Hb). auto with sr.
  - (* KReturn *)
    destruct cs as [|b [|? ?]]; cbn [map]; try (now apply Hstuck).
    destruct (KV 0%nat b) as [Db Hn]; try reflexivity; try discriminate. rewrite Hn.
    destruct (is_none b); [auto with sr|]. apply rrel_bindv; auto with sr.
  - (* KThrow *)
    destruct cs as [|b [|? ?]]; cbn [map]; try (now apply Hstuck).
    destruct (KV 0%nat b) as [Db Hn]; try reflexivity; try discriminate. apply rrel_bindv; auto with sr.
  - (* KTry *)
    destruct cs as [|b [|hd [|fin [|? ?]]]]; cbn [map]; try (now apply Hstuck).
    destruct (KR0 0%nat b) as [_ Db]; try reflexivity; try discriminate.
    destruct (KR0 1%nat hd) as [Hh Dh]; try reflexivity; try discriminate.
    destruct (KR0 2%nat fin) as [Hf Df]; try reflexivity; try discriminate.
    unfold sem_try. rewrite <- (member_nonhole _ _ _ Hh), <- (member_nonhole _ _ _ Hf).
    specialize (Db (rd h cx) _ _ (Hst _ _ Hs)).
    destruct (ev' b (rd h cx) _) as [c' s1'], (ev (erase b) (rd h cx) _) as [c s1].
    destruct Db as [Hc H1]. cbn [fst snd] in *. subst c'.
    assert (Hr : rrel (match c with CThrow v => if is_none hd then (CThrow v, s1') else ev' hd (in_mode h (MBind VLet) v cx) s1' | _ => (c, s1') end)
                      (match c with CThrow v => if is_none hd then (CThrow v, s1) else ev (erase hd) (in_mode h (MBind VLet) v cx) s1 | _ => (c, s1) end)).
    { destruct c; auto with sr. destruct (is_none hd); auto with sr. }
    assert (Hfin : forall r' r, rrel r' r ->
      rrel (if is_none fin || final h (fst r') then r' else bindr h (ev' fin (rd h cx) (snd r')) (fun _ s2 => (fst r', s2)))
           (if is_none fin || final h (fst r) then r else bindr h (ev (erase fin) (rd h cx) (snd r)) (fun _ s2 => (fst r, s2)))).
    { intros r' r [H2 H3]. rewrite H2. destruct (is_none fin || final h (fst r)).
      - split; assumption.
      - apply rrel_bindr; auto with sr. }
    apply Hfin in Hr. destruct c; exact Hr.
  - (* KLabeled *)
    destruct cs as [|l [|b [|? ?]]]; cbn [map]; try (now apply Hstuck).
    destruct (KR0 0%nat l) as [Hl _]; try reflexivity; try discriminate.
    destruct (KR0 1%nat b) as [_ Db]; try reflexivity; try discriminate.
    unfold sem_labeled. rewrite (label_erase _ Hl). destruct (label_of l) as [x|]; [|auto].
    match goal with |- rrel (let (_, _) := ev' b ?c _ in _) _ => specialize (Db c _ _ (Hst _ _ Hs)) end.
    destruct (ev' b _ _) as [c' s1'], (ev (erase b) _ _) as [c s1]. destruct Db as [Hc H1]. cbn [fst snd] in *. subst c'.
    destruct c as [ | | [y|] | | | | | ]; auto with sr.
  - (* KFor *)
    destruct cs as [|i [|t [|u [|b [|? ?]]]]]; cbn [map]; try (now apply Hstuck).
    destruct (KR0 0%nat i) as [Hi Di]; try reflexivity; try discriminate.
    destruct (KV 1%nat t) as [Dt Ht]; try reflexivity; try discriminate.
    destruct (KV 2%nat u) as [Du Hu]; try reflexivity; try discriminate.
    pose proof (KB 3%nat b eq_refl eq_refl eq_refl ltac:(discriminate)) as Db.
    unfold sem_for. rewrite (lex_decl_erase _ _ _ Hi), (is_expr_erase _ Hi).
    destruct (enter_block_rel (lex_decl i) [] (cx_sc h cx) _ _ (Forall_nil _) (Hst _ _ Hs)) as [H1 H2].
    cbn [map] in H1, H2.
    destruct (enter_block h (lex_decl i) [] _ (log h sp (EStmt sp) s')) as [x' s1'],
      (enter_block h (lex_decl i) [] _ (log h sp (EStmt sp) s)) as [x s1]. cbn [fst snd] in *. subst x'.
    apply rrel_bindr.
    { destruct (is_expr i); [apply DR_DV; assumption|auto]. }
    intros _ s2' s2 H3.
    assert (Hper : forall x s' s, srel s' s ->
       fst ((match lex_decl i with [] => fun x s => (x, s) | _ => copy_scope h end) x s') =
       fst ((match lex_decl i with [] => fun x s => (x, s) | _ => copy_scope h end) x s) /\
       srel (snd ((match lex_decl i with [] => fun x s => (x, s) | _ => copy_scope h end) x s'))
            (snd ((match lex_decl i with [] => fun x s => (x, s) | _ => copy_scope h end) x s))).
    { intros y t' t0 H. destruct (lex_decl i); [auto|]. now apply copy_rel. }
    destruct (Hper x s2' s2 H3) as [H4 H5].
    destruct ((match lex_decl i with [] => fun x s => (x, s) | _ => copy_scope h end) x s2') as [x2' s3'].
    destruct ((match lex_decl i with [] => fun x s => (x, s) | _ => copy_scope h end) x s2) as [x2 s3].
    cbn [fst snd] in *. subst x2'.
    apply loop_rel; [now apply opt_rel|now apply opt_rel|exact Db|exact Hper|assumption].
  - (* KForIn *)
    apply opaque_rel; [assumption| | | | |exact (Hst _ _ Hs)].
    + exact (erase_po _ _ _ Hself).
    + apply (none_kids KForIn cs Hk); [reflexivity|discriminate].
    + apply (closable_kids KForIn cs Hk). reflexivity.
    + cbn [erased_kids]. destruct cs as [|l [|r [|b [|? ?]]]]; cbn [map iter_dens];
        try (intros j; destruct j; exact I).
      destruct (KR0 0%nat l) as [_ Dl]; try reflexivity; try discriminate.
      destruct (KR0 1%nat r) as [_ Dr]; try reflexivity; try discriminate.
      pose proof (KB 2%nat b eq_refl eq_refl eq_refl ltac:(discriminate)) as Db.
      intros [|[|[|j]]]; cbn [nth_error odr]; auto. destruct j; exact I.
  - (* KForOf *)
    apply opaque_rel; [assumption| | | | |exact (Hst _ _ Hs)].
    + exact (erase_po _ _ _ Hself).
    + apply (none_kids KForOf cs Hk); [reflexivity|discriminate].
    + apply (closable_kids KForOf cs Hk). reflexivity.
    + cbn [erased_kids]. destruct cs as [|l [|r [|b [|? ?]]]]; cbn [map iter_dens];
        try (intros j; destruct j; exact I).
      destruct (KR0 0%nat l) as [_ Dl]; try reflexivity; try discriminate.
      destruct (KR0 1%nat r) as [_ Dr]; try reflexivity; try discriminate.
      pose proof (KB 2%nat b eq_refl eq_refl eq_refl ltac:(discriminate)) as Db.
      intros [|[|[|j]]]; cbn [nth_error odr]; auto. destruct j; exact I.
  - (* KWhile *)
    destruct cs as [|t [|b [|? ?]]]; cbn [map]; try (now apply Hstuck).
    destruct (KV 0%nat t) as [Dt Ht]; try reflexivity; try discriminate.
    pose proof (KB 1%nat b eq_refl eq_refl eq_refl ltac:(discriminate)) as Db.
    apply loop_rel; auto.
  - (* KDoWhile *)
    destruct cs as [|t [|b [|? ?]]]; cbn [map]; try (now apply Hstuck).
    destruct (KV 0%nat t) as [Dt Ht]; try reflexivity; try discriminate.
    pose proof (KB 1%nat b eq_refl eq_refl eq_refl ltac:(discriminate)) as Db.
    apply do_loop_rel; auto.
  - (* KIf *)
    destruct cs as [|t [|c [|a [|? ?]]]]; cbn [map]; try (now apply Hstuck).
    destruct (KV 0%nat t) as [Dt _]; try reflexivity; try discriminate.
    pose proof (KB 1%nat c eq_refl eq_refl eq_refl ltac:(discriminate)) as Dc.
    pose proof (KB 2%nat a eq_refl eq_refl eq_refl ltac:(discriminate)) as Da.
    unfold sem_if. apply rrel_bindv; [auto|]. intros v s1' s1 H1. destruct (h_truthy h v); [auto with sr|].
    assert (Hev : forall x cx0 s0, is_none x = true -> ev x cx0 s0 = (uv h, s0)).
    { intros [[] ? ?] cx0 s0 Hx; try discriminate. reflexivity. }
    assert (Hev' : forall x cx0 s0, is_none x = true -> ev' x cx0 s0 = (uv h, s0)).
    { intros [[] ? ?] cx0 s0 Hx; try discriminate. reflexivity. }
    specialize (Da cx (log h sp (EArm sp true) s1') (log h sp (EArm sp true) s1) ltac:(auto with sr)).
    destruct (is_none a) eqn:Ha; [rewrite (Hev' _ _ _ Ha) in Da|];
    (destruct (is_none (erase a)) eqn:Hea; [rewrite (Hev _ _ _ Hea) in Da|]); assumption.
  - (* KSwitch *)
    destruct cs as [|d [|l [|? ?]]]; cbn [map]; try (now apply Hstuck).
    destruct (KV 0%nat d) as [Dd _]; try reflexivity; try discriminate.
    destruct (KR0 1%nat l) as [Hl Dl]; try reflexivity; try discriminate.
    assert (Hc : flat_map case_stmts (case_list (erase l)) = erase_list (flat_map case_stmts (case_list l)) /\
                 Forall (member rl rlo) (flat_map case_stmts (case_list l))).
    { rewrite (erase_po _ _ _ Hl). destruct l as [lk lsp lcs]. cbn [nkind nspan nkids].
      destruct lk; try (split; [reflexivity|constructor]). cbn [case_list erased_kids].
      apply flat_cases. apply (list_kids_PO _ _ _ Hl); [reflexivity|discriminate|split; reflexivity]. }
    destruct Hc as [Hc1 Hc2]. unfold sem_switch. rewrite Hc1.
    rewrite (lex_names_erase _ _ _ Hc2). destruct (fns_of_erase _ _ _ Hc2) as [-> Hfs].
    apply rrel_bindv; [auto|]. intros v s1' s1 H1.
    destruct (enter_block_rel (lex_names (flat_map case_stmts (case_list l))) _ (cx_sc h cx) _ _ Hfs H1) as [H2 H3].
    destruct (enter_block h _ _ _ s1') as [x' s2'], (enter_block h _ _ _ s1) as [x s2].
    cbn [fst snd] in *. subst x'. specialize (Dl (mkCtx h x MSwitch [] v) _ _ H3).
    destruct (ev' l _ s2') as [c' s3'], (ev (erase l) _ s2) as [c s3]. destruct Dl as [H4 H5].
    cbn [fst snd] in *. subst c'. auto with sr.
  - (* KSwitchCase *)
    destruct cs as [|t [|b [|? ?]]]; cbn [map]; try (now apply Hstuck).
    destruct (KV 0%nat t) as [Dt Ht]; try reflexivity; try discriminate.
    destruct (KR0 1%nat b) as [_ Db]; try reflexivity; try discriminate.
    unfold sem_case. rewrite Ht. destruct (cx_mode h cx); try (now apply Hstuck).
    + destruct (is_none t); [auto with sr|]. apply rrel_bindv; [auto|]. intros v s1' s1 H1.
      destruct (h_same h (cx_in h cx) v); auto with sr.
    + auto with sr.
  - (* KWith *)
    destruct cs as [|o [|b [|? ?]]]; cbn [map]; try (now apply Hstuck).
    destruct (KV 0%nat o) as [Do _]; try reflexivity; try discriminate.
    pose proof (KB 1%nat b eq_refl eq_refl eq_refl ltac:(discriminate)) as Db.
    unfold sem_with. apply rrel_bindv; [auto|]. intros v s1' s1 H1. rewrite (srel_world _ _ H1).
    destruct (h_with h v (cx_sc h cx) (hs h s1)) as [[ex|x] w]; [auto with sr|].
    apply (Db (mkCtx h x MRead [] (h_undef h))). auto with sr.
  - (* KVarDecl *)
    destruct cs as [|b [|? ?]]; cbn [map]; try (now apply Hstuck).
    destruct (KR0 0%nat b) as [Hb Db]; try reflexivity; try discriminate.
    destruct (cx_mode h cx); now apply Db.
  - (* KVarDeclarator *)
    destruct cs as [|n [|i [|? ?]]]; cbn [map]; try (now apply Hstuck).
    destruct (KR0 0%nat n) as [_ Dn]; try reflexivity; try discriminate.
    destruct (KV 1%nat i) as [Di Hn]; try reflexivity; try discriminate.
    unfold sem_declarator. rewrite Hn. destruct (is_none i).
    + destruct (cx_mode h cx) as [| |[]| | | | | ]; auto with sr.
    + apply rrel_bindv; auto with sr.
  - (* KFnDecl *) now apply rrel_intro.
  - (* KFunction *)
    destruct cs as [|p [|a [|b [|d [|? ?]]]]]; cbn [map]; try (now apply Hstuck).
    destruct (KR0 0%nat p) as [_ Dp]; try reflexivity; try discriminate.
    destruct (cx_mode h cx); try (now apply Hstuck).
    apply (fn_rel KFunction _ 2 b sp (Some (ev' p)) (Some (ev (erase p))) Hk); auto. discriminate.
  - (* KArrow *)
    destruct cs as [|p [|b [|d [|? ?]]]]; cbn [map]; try (now apply Hstuck).
    destruct (KR 0%nat p) as [_ Dp]; try reflexivity; try (right; discriminate).
    assert (Hop : DR (opaque h call' fuel KArrow sp [p; b; d] [])
                     (opaque h call fuel KArrow sp (erased_kids KArrow [p; b; d]) [])).
    { apply opaque_rel; [assumption| | | | ].
      - exact (erase_po _ _ _ Hself).
      - apply (none_kids KArrow _ Hk); [reflexivity|discriminate].
      - apply (closable_kids KArrow _ Hk). reflexivity.
      - intros []; exact I. }
    cbn [erased_kids map] in Hop.
    destruct (cx_mode h cx); try (now apply Hop).
    destruct (body_ready _ _ 1 b Hk eq_refl eq_refl) as [[H1 H2]|[_ H1]].
    + rewrite (arrow_body_po _ H1). apply (sem_fn_rel sp (Some (ev' p)) (Some (ev (erase p)))); auto.
      * symmetry. apply (var_names_erase rl rlo). now left.
      * symmetry. now apply is_expr_erase.
      * symmetry. exact (PO_span _ _ _ H1).
      * apply Hpo; [simpl; auto|assumption].
    + assert (Htop : top_role rl rlo b) by (right; right; now left).
      pose proof (var_names_erase rl rlo b Htop) as Hv.
      apply PA_inv in H1 as (s2 & s3 & ss & ssp & x & -> & Hll & Hx & Hkk).
      rewrite (arrow_body_pa s2 s3 ss ssp x Hll Hx).
      apply (pa_rel sp (ev' p) (ev (erase p)) s2 s3 ss ssp x); auto.
      * apply (Hpa s2 s3 ss); [simpl; auto|assumption].
      * rewrite <- Hv. cbn [erase map erase_node].
        change (filter (fun c => negb (is_none c)) (map erase ss)) with (erase_list ss). rewrite Hll.
        destruct x as [[] ? ?]; try discriminate. reflexivity.
      * change (prologue ss = []).
        apply (prologue_erase rl rlo); [exact (bmembers _ _ _ _ _ (or_intror eq_refl) Hkk)|].
        rewrite Hll. reflexivity.
  - (* KClassProp *)
    apply opaque_rel; [assumption| | | | |assumption].
    + exact (erase_po _ _ _ Hself).
    + apply (none_kids KClassProp cs Hk); [reflexivity|discriminate].
    + apply (closable_kids KClassProp cs Hk). reflexivity.
    + cbn [erased_kids]. intros j.
      assert (Hfar : forall i c, nth_error cs i = Some c -> i <> 1%nat -> DR (ev' c) (ev (erase c))).
      { intros i c Hc Hi. apply (KR0 i c Hc); try reflexivity; try discriminate. now apply Nat.eqb_neq. }
      destruct cs as [|n [|v cs]]; cbn [map field_dens].
      * destruct j; exact I.
      * destruct j as [|j]; [exact (Hfar 0%nat n eq_refl ltac:(discriminate))|]. destruct j; exact I.
      * destruct (KV 1%nat v) as [Dv _]; try reflexivity; try discriminate.
        destruct j as [|[|j]]; cbn [nth_error].
        -- exact (Hfar 0%nat n eq_refl ltac:(discriminate)).
        -- cbn [odr]. intros cx1 t' t Ht. unfold field_init. apply Dv. auto with sr.
        -- rewrite map_map, !nth_error_map. destruct (nth_error cs j) as [c|] eqn:Hc; [|exact I].
           cbn [option_map odr]. apply (Hfar (S (S j)) c Hc). discriminate.
  - (* KPrivateProp *)
    apply opaque_rel; [assumption| | | | |assumption].
    + exact (erase_po _ _ _ Hself).
    + apply (none_kids KPrivateProp cs Hk); [reflexivity|discriminate].
    + apply (closable_kids KPrivateProp cs Hk). reflexivity.
    + cbn [erased_kids]. intros j.
      assert (Hfar : forall i c, nth_error cs i = Some c -> i <> 1%nat -> DR (ev' c) (ev (erase c))).
      { intros i c Hc Hi. apply (KR0 i c Hc); try reflexivity; try discriminate. now apply Nat.eqb_neq. }
      destruct cs as [|n [|v cs]]; cbn [map field_dens].
      * destruct j; exact I.
      * destruct j as [|j]; [exact (Hfar 0%nat n eq_refl ltac:(discriminate))|]. destruct j; exact I.
      * destruct (KV 1%nat v) as [Dv _]; try reflexivity; try discriminate.
        destruct j as [|[|j]]; cbn [nth_error].
        -- exact (Hfar 0%nat n eq_refl ltac:(discriminate)).
        -- cbn [odr]. intros cx1 t' t Ht. unfold field_init. apply Dv. auto with sr.
        -- rewrite map_map, !nth_error_map. destruct (nth_error cs j) as [c|] eqn:Hc; [|exact I].
           cbn [option_map odr]. apply (Hfar (S (S j)) c Hc). discriminate.
  - (* KGetter *)
    destruct cs as [|p [|a [|b [|? ?]]]]; cbn [map]; try (now apply Hstuck).
    destruct (KR0 0%nat p) as [_ Dp]; try reflexivity; try discriminate.
    destruct (KR0 1%nat a) as [_ Da]; try reflexivity; try discriminate.
    assert (Hop : DR (opaque h call' fuel KGetter sp [p; a; b] [ev' p; ev' a])
                     (opaque h call fuel KGetter sp (erased_kids KGetter [p; a; b]) [ev (erase p); ev (erase a)])).
    { apply opaque_rel; [assumption| | | | ].
      - exact (erase_po _ _ _ Hself).
      - apply (none_kids KGetter _ Hk); [reflexivity|discriminate].
      - apply (closable_kids KGetter _ Hk). reflexivity.
      - intros [|[|[]]]; cbn [nth_error odr]; auto. }
    cbn [erased_kids map] in Hop.
    destruct (cx_mode h cx); try (now apply Hop).
    apply (fn_rel KGetter _ 2 b sp None None Hk); auto. discriminate.
  - (* KSetter *)
    destruct cs as [|a [|d [|p [|b [|? ?]]]]]; cbn [map]; try (now apply Hstuck).
    destruct (KR0 0%nat a) as [_ Da]; try reflexivity; try discriminate.
    destruct (KR0 1%nat d) as [_ Dd]; try reflexivity; try discriminate.
    destruct (KR0 2%nat p) as [_ Dp]; try reflexivity; try discriminate.
    assert (Hop : DR (opaque h call' fuel KSetter sp [a; d; p; b] [ev' a; ev' d])
                     (opaque h call fuel KSetter sp (erased_kids KSetter [a; d; p; b]) [ev (erase a); ev (erase d)])).
    { apply opaque_rel; [assumption| | | | ].
      - exact (erase_po _ _ _ Hself).
      - apply (none_kids KSetter _ Hk); [reflexivity|discriminate].
      - apply (closable_kids KSetter _ Hk). reflexivity.
      - intros [|[|[]]]; cbn [nth_error odr]; auto. }
    cbn [erased_kids map] in Hop.
    destruct (cx_mode h cx); try (now apply Hop).
    apply (fn_rel KSetter _ 3 b sp (Some (ev' p)) (Some (ev (erase p))) Hk); auto. discriminate.
  - (* KCond *)
    destruct cs as [|t [|c [|a [|? ?]]]]; cbn [map]; try (now apply Hstuck).
    destruct (KV 0%nat t) as [Dt _]; try reflexivity; try discriminate.
    destruct (KV 1%nat c) as [Dc _]; try reflexivity; try discriminate.
    destruct (KV 2%nat a) as [Da _]; try reflexivity; try discriminate.
    unfold sem_cond. apply rrel_bindv; [auto|]. intros v s1' s1 H1. destruct (h_truthy h v); auto with sr.
  - (* KBin *)
    destruct (is_logical_op op) eqn:Hop.
    + destruct cs as [|l [|r [|? ?]]]; cbn [map]; try (now apply Hstuck).
      destruct (KV 0%nat l) as [Dl _]; try reflexivity; try discriminate.
      destruct (KV 1%nat r) as [Dr _]; try reflexivity; try discriminate.
      unfold sem_logical. apply rrel_bindv; [auto with sr|]. intros v s1' s1 H1.
      destruct (stop_left h op v); auto with sr.
    + apply (Hopq eq_refl); [discriminate|discriminate|intros; split; [exact Hop|reflexivity]|assumption].
  - (* KAssignPat *)
    destruct cs as [|l [|r [|? ?]]]; cbn [map]; try (now apply Hstuck).
    destruct (KR0 0%nat l) as [_ Dl]; try reflexivity; try discriminate.
    destruct (KV 1%nat r) as [Dr _]; try reflexivity; try discriminate.
    unfold sem_assign_pat. destruct (h_is_undef h (cx_in h cx)); [|auto]. apply rrel_bindv; auto with sr.
  - (* KParen *)
    destruct cs as [|b [|? ?]]; cbn [map]; try (now apply Hstuck).
    destruct (KR0 0%nat b) as [Hb Db]; try reflexivity; try discriminate. now apply Db.
  - (* KSeq *)
    apply seq_rel; [|assumption]. rewrite map_map. clear - KR0.
    assert (H : forall c, In c cs -> DR (ev' c) (ev (erase c))).
    { intros c Hc. apply In_nth_error in Hc as [j Hj]. destruct (KR0 j c Hj) as [_ H]; try reflexivity; try discriminate. exact H. }
    clear KR0. induction cs as [|c cs IH]; [constructor|]. cbn [map]. constructor; [apply H; now left|].
    apply IH. intros d Hd. apply H. now right.
  - (* KNullLit *) now apply rrel_intro.
Qed.

Lemma ev_rel_n : forall n t, (size t < n)%nat ->
  (Sh PO t -> DR (ev' t) (ev (erase t))) /\ (Sh PW t -> DE (ev' t) (ev (erase t))).
Proof.
  induction n as [|n IH]; intros t Hn; [lia|]. split; intros H.
  - pose proof (erase_po _ _ _ H) as He. pose proof H as Hself.
    apply PO_inv in H as (k & sp & cs & -> & Hi & _ & Hk). rewrite He. cbn [nkind nspan nkids].
    assert (Hsz : forall c, In c cs -> (size c < n)%nat).
    { intros c Hc. pose proof (size_kid k sp cs c Hc). lia. }
    assert (Hin : forall (s3 : span) ss c, In c ss -> (size c < size (Node KStmts s3 ss))%nat).
    { intros s3 ss c Hc. apply size_kid. exact Hc. }
    intros cx s' s Hs. apply node_rel; auto.
    + intros c Hc. now apply IH, Hsz.
    + intros c Hc. now apply IH, Hsz.
    + intros c Hc Hb. specialize (Hsz c Hc). apply PB_inv in Hb as (s1 & s2 & s3 & ss & -> & Hl & Hss).
      apply pb_rel; auto. intros d Hd. apply IH. specialize (Hin s3 ss d Hd). cbn [size fold_right] in Hsz, Hin. lia.
    + intros s2 s3 ss Hc _ d Hd. apply IH. specialize (Hsz _ Hc). specialize (Hin s3 ss d Hd).
      cbn [size fold_right] in Hsz, Hin. lia.
  - apply PW_inv in H as [(s1 & s2 & s3 & s4 & s5 & s6 & c & x & p & -> & Hp & Hx & Hxe)
                         |(b & i & x & p & Hr & Hxe & Hp & Hx & ->)].
    + rewrite erase_wrapped by assumption. apply wrapped_rel; [assumption|].
      assert (Hsx : (size x < n)%nat) by (cbn [size fold_right] in Hn; lia).
      destruct Hp as [-> | ->]; [apply DR_DV|apply DE_DV]; now apply IH.
    + rewrite erase_temp by assumption. apply temp_rel; [auto|].
      assert (Hsx : (size x < n)%nat).
      { unfold increase_true_expr, E, mk in Hn. cbn [size fold_right] in Hn. lia. }
      destruct Hp as [-> | ->]; [apply DR_DV|apply DE_DV]; now apply IH.
Qed.
Lemma ev_rel : forall t, Sh PO t -> DR (ev' t) (ev (erase t)).
Proof. intros t. apply (ev_rel_n (S (size t))). lia. Qed.
End Level.

Lemma run_rel : forall n t cx s' s, Sh PO t -> srel s' s -> rrel (run h n t cx s') (run h n (erase t) cx s).
Proof.
  induction n as [|n IH]; intros t cx s' s Ht Hs; cbn [run].
  - apply ev_rel; auto. intros. now apply rrel_intro.
  - apply ev_rel; auto. clear t cx s' s Ht Hs. intros f x v s' s Hs.
    pose proof Hs as (_ & _ & H3 & H4). rewrite H3, nth_error_map.
    destruct (nth_error (funs h s') f) as [code|] eqn:Hf; cbn [option_map].
    + apply IH; [|assumption]. rewrite Forall_forall in H4. apply H4. now apply nth_error_In in Hf.
    + unfold stuck. now apply rrel_intro.
Qed.

(** A program and what is left of it without its injected code do the same: they complete in
    the same way, leave the world in the same state and pass the same places. *)
Theorem run_program_rel : forall n t x w, Sh PO t ->
  let (c', s') := run_program h n t x w in
  let (c, s) := run_program h n (erase t) x w in
  c' = c /\ hs h s' = hs h s /\ evs h s' = evs h s.
Proof.
  intros n t x w Ht. unfold run_program.
  assert (H : rrel (run h n t (mkCtx h x MRead [] (h_undef h)) (mkState h w [] [] [] (h_undef h)))
                   (run h n (erase t) (mkCtx h x MRead [] (h_undef h)) (mkState h w [] [] [] (h_undef h)))).
  { apply run_rel; [assumption|]. unfold srel. cbn [hs evs funs]. auto. }
  destruct (run h n t _ _) as [c' s'], (run h n (erase t) _ _) as [c s]. destruct H as [H1 (H2 & H3 & _)].
  auto.
Qed.
End Run.
