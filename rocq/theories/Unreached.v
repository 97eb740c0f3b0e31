(** Nothing inside a part of a program that was never reached is counted. *)
From Coq Require Import ZArith NArith String List Bool Lia PeanoNat.
Import ListNotations.
From Verif Require Import Base Oxide Hints Ast Sem Account Sites Accurate Ledger Consistent Keeps.
Open Scope list_scope. Open Scope N_scope.

(** ** Specification *)

(** The event with which the child [i] of a node with [n] children is entered *)
Definition entry (k : kind) (sp : span) (n i : nat) : option event :=
  match k, n, i with
  | KFunction, 4%nat, 2%nat | KArrow, 3%nat, 1%nat | KGetter, 3%nat, 2%nat | KSetter, 4%nat, 3%nat => Some (EFn sp)
  | KIf, 3%nat, 1%nat => Some (EArm sp false)
  | KIf, 3%nat, 2%nat => Some (EArm sp true)
  | KCond, 3%nat, 1%nat => Some (ECond sp false)
  | KCond, 3%nat, 2%nat => Some (ECond sp true)
  | KBin op, 2%nat, 1%nat => if is_logical_op op then Some (EOper sp true) else None
  | KSwitchCase, 2%nat, 1%nat => Some (ECase sp)
  | KAssignPat, 2%nat, 1%nat => Some (EDefault sp)
  | (KClassProp | KPrivateProp), S (S _), 1%nat => Some (EInit sp)
  | _, _, _ => None
  end.

(** The function a declaration makes before anything around it runs *)
Definition decl_fn (d : node) : list node :=
  match d with
  | Node KFnDecl _ [id; fn] => match nkind id with KIdent _ => [fn] | _ => [] end
  | _ => []
  end.
Definition export_fn (t : node) : list node := match t with Node KExportDecl _ [d] => decl_fn d | _ => [] end.

(** [guards e g u]: by the text of the node [u] the event [e] is only reached through [g]. *)
Inductive guards (e g : event) : node -> Prop :=
(** everything in a statement, an initialised variable or a logical expression *)
| G_first : forall k sp cs, arity k (length cs) = true -> nowhere sp = false -> first_event k sp cs = Some g ->
    export_fn (Node k sp cs) = [] -> In e (later_events k sp) \/ (exists c, In c cs /\ In e (events c)) -> guards e g (Node k sp cs)
(** everything in a function, an arm, a branch, a right operand, a default value, a field *)
| G_kid : forall k sp cs i c, entry k sp (length cs) i = Some g -> k <> KSwitchCase -> nowhere sp = false ->
    nth_error cs i = Some c -> In e (events c) -> guards e g (Node k sp cs)
(** the expression of an arrow function *)
| G_arrow : forall sp p b ty, g = EFn sp -> nowhere sp = false -> is_expr b = true -> nowhere (nspan b) = false -> e = EStmt (nspan b) ->
    guards e g (Node KArrow sp [p; b; ty])
(** everything in a case but the functions it declares *)
| G_case : forall sp t ssp ss y, g = ECase sp -> nowhere sp = false -> In y ss -> fn_of y = [] -> In e (events y) ->
    guards e g (Node KSwitchCase sp [t; Node KStmts ssp ss])
(** everything in a later statement, unless it declares a function *)
| G_after : forall k sp pre x post y, stmts_kind k = true -> opens g x -> In y post -> fn_of y = [] -> In e (events y) ->
    guards e g (Node k sp (pre ++ x :: post))
(** everything in a later variable of the same declaration *)
| G_decls : forall vk sp lsp pre x post y, opens g x -> In y post -> In e (events y) ->
    guards e g (Node (KVarDecl vk) sp [Node KList lsp (pre ++ x :: post)]).

(** [idle t log]: what is only reached through something that did not happen did not happen. *)
Definition idle (t : node) (log : list event) : Prop :=
  forall u e g, part u t -> guards e g u -> times log g = 0%nat -> times log e = 0%nat.

(** ** Proof *)
(** Nodes that do not make [e] before [g] *)
Inductive tame (e g : event) : node -> Prop :=
| T_all : forall k sp cs, ~ In e (own_events k sp cs) -> has_block k cs = true -> Forall (tame e g) cs -> tame e g (Node k sp cs)
| T_first : forall k sp cs, arity k (length cs) = true -> nowhere sp = false -> first_event k sp cs = Some g ->
    Forall (tame e g) (export_fn (Node k sp cs)) -> tame e g (Node k sp cs)
| T_kid : forall k sp cs i, entry k sp (length cs) i = Some g -> nowhere sp = false -> ~ In e (map fst (own_sites k sp cs)) ->
    has_block k cs = true -> (forall j c, nth_error cs j = Some c -> j <> i -> tame e g c) ->
    Forall (tame e g) (map snd (fns_of (case_stmts (Node k sp cs)))) -> tame e g (Node k sp cs)
| T_after : forall k sp pre x post, stmts_kind k = true -> opens g x -> Forall (tame e g) pre ->
    Forall (tame e g) (map snd (fns_of (pre ++ x :: post))) -> tame e g (Node k sp (pre ++ x :: post))
| T_decls : forall vk sp lsp pre x post, opens g x -> Forall (tame e g) pre -> tame e g (Node (KVarDecl vk) sp [Node KList lsp (pre ++ x :: post)]).

Section Tame.
Variables e g : event.
Notation tame := (tame e g).

Lemma decl_tame : forall d, tame d -> Forall tame (decl_fn d).
Proof.
  intros [k sp cs] H. destruct k; try constructor. destruct cs as [|id [|fn [|? ?]]]; try constructor. cbn [decl_fn].
  destruct (nkind id); constructor; [|constructor].
  inversion H as [? ? ? _ _ F| | | |]; subst; try discriminate. inversion F as [|? ? _ F2]; subst. now inversion F2; subst.
Qed.
Lemma export_tame : forall d, tame d -> Forall tame (export_fn d).
Proof.
  intros [k sp cs] H. destruct k; try constructor. inversion H as [? ? ? _ _ F|? ? ? _ _ _ F| | |]; subst; try discriminate; [|exact F].
  destruct cs as [|d [|? ?]]; try constructor. inversion F; subst. now apply decl_tame.
Qed.
Lemma fn_of_eq : forall t, map snd (fn_of t) =
  match t with Node KStmt _ [d] => decl_fn d | Node KModuleDecl _ [d] => export_fn d | _ => [] end.
Proof.
  assert (D : forall d, map snd (match d with Node KFnDecl _ [id; fn] => match nkind id with KIdent x => [(x, fn)] | _ => [] end | _ => [] end) = decl_fn d).
  { intros [k sp cs]. destruct k; try reflexivity. destruct cs as [|id [|fn [|? ?]]]; try reflexivity. cbn [decl_fn]. now destruct (nkind id). }
  intros [k sp cs]. unfold fn_of. destruct k; try reflexivity; destruct cs as [|d cs]; try reflexivity.
  - destruct d as [k2 sp2 cs2]. destruct cs as [|? ?]; destruct k2; try reflexivity; destruct cs2 as [|d2 [|? ?]]; try reflexivity. cbn [export_fn decl_view]. apply D.
  - destruct cs as [|? ?]; [apply D|reflexivity].
Qed.
Lemma fn_tame : forall t, tame t -> Forall tame (map snd (fn_of t)).
Proof.
  intros [k sp cs] H. rewrite fn_of_eq. destruct k; try constructor; destruct cs as [|d [|? ?]]; try constructor;
    (inversion H as [? ? ? _ _ F| | | |]; subst; try discriminate; inversion F; subst); [now apply export_tame|now apply decl_tame].
Qed.
Lemma fns_tame : forall ts, Forall tame ts -> Forall tame (map snd (fns_of ts)).
Proof.
  intros ts H. induction H as [|t ts Ht _ IH]; [constructor|]. rewrite fns_of_cons. apply Forall_app. split; [now apply fn_tame|exact IH].
Qed.
Lemma case_tame : forall t, tame t -> Forall tame (map snd (fns_of (case_stmts t))).
Proof.
  intros [k sp cs] H. destruct k; try constructor. inversion H as [? ? ? _ _ F| |? ? ? ? _ _ _ _ _ F| |]; subst; try discriminate; [|exact F].
  destruct cs as [|t [|[k2 ssp ss] cs]]; try constructor. cbn [case_stmts]. destruct k2; try (destruct cs; constructor).
  destruct cs; [|constructor].
  inversion F as [|? ? _ F2]; subst. inversion F2 as [|? ? B _]; subst.
  inversion B as [? ? ? _ _ F3| | |? ? ? ? ? _ _ _ F3|]; subst; try discriminate; [now apply fns_tame|exact F3].
Qed.
Lemma cases_tame : forall t, tame t -> Forall tame (map snd (fns_of (flat_map case_stmts (case_list t)))).
Proof.
  intros [k sp cs] H. destruct k; try constructor. cbn [case_list].
  inversion H as [? ? ? _ _ F| | | |]; subst; try discriminate.
  clear H. induction F as [|c cs Hc _ IH]; [constructor|]. cbn [flat_map]. unfold fns_of in *. rewrite flat_map_app, map_app.
  apply Forall_app. split; [now apply case_tame|exact IH].
Qed.
Lemma hoisted_tame : forall k cs, Forall tame cs -> Forall tame (hoisted k cs).
Proof.
  intros k cs H. destruct k; try constructor; try (now apply fns_tame).
  destruct cs as [|a [|b [|? ?]]]; try constructor. cbn [hoisted]. inversion H as [|? ? _ H2]; subst. inversion H2; subst. now apply cases_tame.
Qed.

(** A node without [e] *)
Lemma clean_tame : forall t, block_bodies t = true -> ~ In e (events t) -> tame t.
Proof.
  induction t as [k sp cs IH] using node_ind'. intros Hb He. rewrite (events_node (fun _ => Z0)) in He. apply T_all.
  - tauto.
  - cbn [block_bodies] in Hb. now apply andb_true_iff in Hb as [Hb _].
  - apply Forall_forall. intros c Hc. rewrite Forall_forall in IH. apply IH; auto; [eapply bodies_kid; eauto|]. intros K. apply He. eauto.
Qed.
(** A node in which [e] is only in one place that is tame *)
Lemma part_tame : forall u t, part u t -> tame u -> In e (events u) -> block_bodies t = true -> NoDup (events t) -> tame t.
Proof.
  intros u t H U Eu. induction H as [|k sp cs c Hc Hp IH]; intros Hb Hd; [exact U|].
  destruct (nodup_node k sp cs Hd) as (D1 & D2 & D3). pose proof (part_events u c e Hp Eu) as Ec. apply T_all.
  - intros K. exact (D1 e c K Hc Ec).
  - cbn [block_bodies] in Hb. now apply andb_true_iff in Hb as [Hb _].
  - apply In_nth_error in Hc as [i Hi]. apply Forall_forall. intros d Id. apply In_nth_error in Id as [j Hj].
    assert (Bd : block_bodies d = true) by (eapply bodies_kid; [exact Hb|eapply nth_error_In; eauto]).
    destruct (Nat.eq_dec j i) as [->|Hx].
    + replace d with c in * by congruence. apply IH; [exact Bd|eapply D2, nth_error_In; eauto].
    + apply clean_tame; [exact Bd|]. intros K. apply Hx. exact (D3 j i d c e Hj Hi K Ec).
Qed.
End Tame.

Section Runs.
Variable h : host.
Notation state := (state h).
Variable g : event.

(** Once [g] has happened it has happened. *)
Definition past (s : state) : Prop := In g (evs h s).
Lemma past_log : forall sp e s, past s -> past (log h sp e s).
Proof. intros sp e s H. unfold past, log in *. destruct (_ && _); [exact H|]. right. exact H. Qed.
Lemma now_past : forall sp s, nowhere sp = false -> past (log h sp g s).
Proof. intros sp s H. unfold past, log. unfold nowhere in H. rewrite H. left. reflexivity. Qed.
Definition step (n : nat) : nat -> hX h -> hV h -> state -> completion (hV h) (hR h) * state :=
  match n with
  | O => fun _ _ _ s => (CFuel, s)
  | S n' => fun f x v s =>
      match nth_error (funs h s) f with
      | Some code => run h n' code (mkCtx h x MCall [] v) s
      | None => stuck h s
      end
  end.
Lemma run_eq : forall n t, run h n t = ev h (step n) n t.
Proof. intros [|n] t; reflexivity. Qed.
Lemma past_all : forall n t, K h past (run h n t).
Proof.
  induction n as [|n IHn]; induction t as [k sp cs IH] using node_ind'; rewrite run_eq; refine (node_keeps h past (fun _ => True) (fun _ => True) _ _ _ _ _ _ _ _ _ _ _ _ _ _ _ _ _);
    try (intros; assumption); try (intros; now apply past_log); try (intros; exact I); try (apply Forall_forall; intros; exact I).
  - apply Forall_map. eapply Forall_impl; [|exact IH]. intros a Ha. cbv beta in Ha. rewrite run_eq in Ha. exact Ha.
  - intros f x v s Hs. cbn [step]. destruct (nth_error (funs h s) f); [now apply IHn|exact Hs].
  - apply Forall_map. eapply Forall_impl; [|exact IH]. intros a Ha. cbv beta in Ha. rewrite run_eq in Ha. exact Ha.
Qed.
Lemma past_step : forall n f x v s, past s -> R h past (step n f x v s).
Proof. intros [|n] f x v s Hs; [exact Hs|]. cbn [step]. destruct (nth_error (funs h s) f); [now apply past_all|exact Hs]. Qed.
Lemma past_ev : forall n t, K h past (ev h (step n) n t).
Proof. intros n t. rewrite <- run_eq. apply past_all. Qed.
Lemma past_val : forall n t, K h past (valued h (step n) n (ev h (step n) n t)).
Proof.
  intros n t. refine (valued_keeps h past (fun _ => True) _ _ _ _ _ _ _); try (intros; assumption); [apply past_step|apply past_ev].
Qed.
Lemma past_list : forall n ts, K h past (run_list h (map (ev h (step n) n) ts)).
Proof. intros n ts. apply run_list_keeps. apply Forall_map, Forall_forall. intros t _. apply past_ev. Qed.

(** A node that starts with [g] *)
Lemma opens_past : forall n x, opens g x -> forall cx s, past (snd (ev h (step n) n x cx s)).
Proof.
  intros n x H. remember g as e eqn:Eg. induction H as [k sp cs e Ha Hn He|k sp c cs e Hs Ha _ IH|vk sp lsp d ds e _ IH]; subst e; intros cx s.
  - cbn [ev]. eapply (rest_keeps h past (fun _ => True)) with (e := g); eauto; try (intros; exact I); try (intros; assumption).
    + apply past_step.
    + apply map_length.
    + apply Forall_map, Forall_forall. intros t _. apply past_ev.
    + apply Forall_forall. intros; exact I.
    + apply Forall_forall. intros; exact I.
    + intros e' s0 _ H0. now apply past_log.
    + now apply now_past.
  - specialize (IH eq_refl).
    assert (RL : forall cx s, past (snd (run_list h (map (ev h (step n) n) (c :: cs)) cx s))).
    { intros cx0 s0. cbn [map run_list]. apply R_bindr; [apply IH|]. intros v s1 H1. now apply past_list. }
    destruct k; try discriminate Hs; cbn [ev]; cbn [arity] in Ha; try (apply Nat.eqb_eq in Ha; destruct cs; [|discriminate Ha]); cbn [map sem]; try apply IH.
    + destruct (enter_fn h _ _ _ s) as [y s1]. apply IH.
    + destruct (enter_fn h _ _ _ s) as [y s1]. apply IH.
    + unfold sem_stmts. destruct (enter_block h _ _ _ s) as [y s1]. destruct (cx_mode h cx); apply RL.
    + apply R_bindr; [apply IH|]. intros v s1 H1. exact H1.
    + unfold sem_stmts. destruct (enter_block h _ _ _ s) as [y s1]. destruct (cx_mode h cx); apply RL.
  - specialize (IH eq_refl). cbn [ev map sem].
    assert (RL : forall cx s, past (snd (run_list h (map (ev h (step n) n) (d :: ds)) cx s))).
    { intros cx0 s0. cbn [map run_list]. apply R_bindr; [apply IH|]. intros v s1 H1. now apply past_list. }
    destruct (cx_mode h cx); cbn [ev sem in_mode cx_mode]; apply RL.
Qed.

(** Before [g] there is no [e]. *)
Variable e : event.
Notation tame := (tame e g).
Definition calm (s : state) : Prop := past s \/ (~ In e (evs h s) /\ Forall tame (funs h s)).
Definition harmless (e' : event) : Prop := e' = g \/ e' <> e.
Lemma calm_fun : forall t s, tame t -> calm s -> calm (add_fun h t s).
Proof.
  intros t s Ht [H|[H1 H2]]; [left; exact H|]. right. split; [exact H1|]. apply Forall_app. split; [exact H2|]. constructor; [exact Ht|constructor].
Qed.
Lemma calm_log : forall sp e' s, (nowhere sp = false -> harmless e') -> calm s -> calm (log h sp e' s).
Proof.
  intros sp e' s Hh [H|[H1 H2]]; [left; now apply past_log|]. unfold log. unfold nowhere in Hh.
  destruct (_ && _); [right; split; assumption|]. destruct (Hh eq_refl) as [->|Hn]; [left; left; reflexivity|].
  right. split; [|exact H2]. intros [K|K]; [congruence|exact (H1 K)].
Qed.
Lemma gate_ev : forall n t sp cx s, nowhere sp = false -> R h calm (ev h (step n) n t cx (log h sp g s)).
Proof. intros n t sp cx s Hn. left. now apply past_ev, now_past. Qed.
Lemma gate_val : forall n t sp cx s, nowhere sp = false -> R h calm (valued h (step n) n (ev h (step n) n t) cx (log h sp g s)).
Proof. intros n t sp cx s Hn. left. now apply past_val, now_past. Qed.

Lemma tame_node : forall n, (forall f x v s, calm s -> R h calm (step n f x v s)) ->
  forall t, (tame t -> K h calm (ev h (step n) n t)) /\ Forall (fun c => tame c -> K h calm (ev h (step n) n c)) (nkids t).
Proof.
  intros n Hcall. induction t as [k sp cs IH2] using node_ind'.
  assert (IH : Forall (fun c => tame c -> K h calm (ev h (step n) n c)) cs) by (eapply Forall_impl; [|exact IH2]; intros a [H _]; exact H).
  split; [|exact IH]. intros Ht. inversion Ht as
    [k' sp' cs' Ho Hb Hc|k' sp' cs' Ha Hn Hf _|k' sp' cs' i He Hn Ho Hb Hc Hq|k' sp' pre x post Hk Hx Hpre Hq|vk sp' lsp pre x post Hx Hpre]; subst.
  - refine (node_keeps h calm tame harmless _ _ _ _ _ _ _ _ _ _ _ _ _ _ _ _ _);
      try (intros; assumption); try (intros; now apply calm_log).
    + apply calm_fun.
    + exact Hcall.
    + apply Forall_map. rewrite Forall_forall in *. auto.
    + intros e' He'. right. intros ->. exact (Ho He').
    + congruence.
    + now apply hoisted_tame.
  - intros cx s Hs. left. apply opens_past. now apply O_first.
  - assert (W : forall e' s, In e' (map fst (own_sites k sp cs)) -> calm s -> calm (log h sp e' s)).
    { intros e' s He' Hs. apply calm_log; [|exact Hs]. intros _. right. intros ->. exact (Ho He'). }
    assert (KC : forall j c, nth_error cs j = Some c -> j <> i -> K h calm (ev h (step n) n c)).
    { intros j c Hj Hx. rewrite Forall_forall in IH. apply IH; [eapply nth_error_In; eauto|eauto]. }
    assert (Hhs : forall v s, calm s -> calm (set_hs h v s)) by (intros; assumption).
    destruct k; try discriminate He.
    + (* if *)
      destruct cs as [|c1 [|c2 [|c3 [|? ?]]]]; try discriminate He. 
      destruct i as [|[|[|i]]]; try discriminate He; injection He as He; intros cx s Hs; cbn [ev sem map];
        (apply (sem_if_keeps h calm tame); auto using calm_fun; [now apply (KC 0%nat)|..]).
      * intros cx0 s0 _. rewrite He. now apply gate_ev.
      * intros s0 H0. apply W; [right; right; left; reflexivity|exact H0].
      * intros cx0 s0 H0. apply (KC 2%nat); [reflexivity|discriminate|]. apply W; [right; right; left; reflexivity|exact H0].
      * apply W; [left; reflexivity|exact Hs].
      * intros cx0 s0 H0. apply (KC 1%nat); [reflexivity|discriminate|]. apply W; [right; left; reflexivity|exact H0].
      * intros s0 _. rewrite He. left. now apply now_past.
      * intros cx0 s0 _. rewrite He. now apply gate_ev.
      * apply W; [left; reflexivity|exact Hs].
    + (* case *)
      destruct cs as [|c1 [|c2 [|? ?]]]; try discriminate He. destruct i as [|[|i]]; try discriminate He. injection He as He.
      cbn [ev sem map]. apply (sem_case_keeps h calm tame); auto using calm_fun; [now apply (KC 0%nat)|].
      intros cx s _. rewrite He. now apply gate_ev.
    + (* function *)
      destruct cs as [|c1 [|c2 [|c3 [|c4 [|? ?]]]]]; try discriminate He. destruct i as [|[|[|i]]]; try discriminate He. injection He as He.
      cbn [has_block] in Hb. apply negb_true_iff in Hb.
      apply (function_keeps h calm); auto; [now apply (KC 0%nat)|].
      intros s Hs cx. rewrite Hb, He. now apply gate_ev.
    + (* arrow *)
      destruct cs as [|c1 [|c2 [|c3 [|? ?]]]]; try discriminate He. destruct i as [|[|i]]; try discriminate He. injection He as He.
      apply (arrow_keeps h calm tame); auto using calm_fun; [now apply (Hc 0%nat)|now apply (Hc 2%nat)|now apply (KC 0%nat)|].
      intros s Hs cx. cbv zeta. rewrite He. destruct (is_expr c2); [|now apply gate_ev]. left. now apply past_val, past_log, now_past.
    + (* fields *)
      destruct cs as [|c1 [|c2 cs]]; try discriminate He. destruct i as [|[|i]]; try discriminate He. injection He as He.
      apply (field_keeps h calm tame); auto using calm_fun; [now apply (Hc 0%nat)| |now apply (KC 0%nat)| |intros cx s Hs; rewrite He; now apply gate_val].
      * apply Forall_forall. intros c I. apply In_nth_error in I as [j I]. apply (Hc (S (S j)) c I). discriminate.
      * apply Forall_map, Forall_forall. intros c I. apply In_nth_error in I as [j I]. apply (KC (S (S j)) c I). discriminate.
    +
      destruct cs as [|c1 [|c2 cs]]; try discriminate He. destruct i as [|[|i]]; try discriminate He. injection He as He.
      apply (field_keeps h calm tame); auto using calm_fun; [now apply (Hc 0%nat)| |now apply (KC 0%nat)| |intros cx s Hs; rewrite He; now apply gate_val].
      * apply Forall_forall. intros c I. apply In_nth_error in I as [j I]. apply (Hc (S (S j)) c I). discriminate.
      * apply Forall_map, Forall_forall. intros c I. apply In_nth_error in I as [j I]. apply (KC (S (S j)) c I). discriminate.
    + (* getter *)
      destruct cs as [|c1 [|c2 [|c3 [|? ?]]]]; try discriminate He. destruct i as [|[|[|i]]]; try discriminate He. injection He as He.
      cbn [has_block] in Hb. apply negb_true_iff in Hb.
      apply (getter_keeps h calm tame); auto using calm_fun;
        [now apply (Hc 0%nat)|now apply (Hc 1%nat)|now apply (KC 0%nat)|now apply (KC 1%nat)|].
      intros s Hs cx. rewrite Hb, He. now apply gate_ev.
    + (* setter *)
      destruct cs as [|c1 [|c2 [|c3 [|c4 [|? ?]]]]]; try discriminate He. destruct i as [|[|[|[|i]]]]; try discriminate He. injection He as He.
      cbn [has_block] in Hb. apply negb_true_iff in Hb.
      apply (setter_keeps h calm tame); auto using calm_fun;
        [now apply (Hc 0%nat)|now apply (Hc 1%nat)|now apply (Hc 2%nat)|now apply (KC 0%nat)|now apply (KC 1%nat)|now apply (KC 2%nat)|].
      intros s Hs cx. rewrite Hb, He. now apply gate_ev.
    + (* conditional *)
      destruct cs as [|c1 [|c2 [|c3 [|? ?]]]]; try discriminate He. 
      destruct i as [|[|[|i]]]; try discriminate He; injection He as He; cbn [ev sem map];
        (apply (sem_cond_keeps h calm tame); auto using calm_fun; [now apply (KC 0%nat)|..]).
      * intros cx0 s0 _. rewrite He. now apply gate_val.
      * intros cx0 s0 H0. apply (valued_keeps h calm tame); auto using calm_fun; [now apply (KC 2%nat)|]. apply W; [right; left; reflexivity|exact H0].
      * intros cx0 s0 H0. apply (valued_keeps h calm tame); auto using calm_fun; [now apply (KC 1%nat)|]. apply W; [left; reflexivity|exact H0].
      * intros cx0 s0 _. rewrite He. now apply gate_val.
    + (* logical *)
      destruct cs as [|c1 [|c2 [|? ?]]]; try discriminate He. destruct i as [|[|i]]; try discriminate He. cbn [entry length] in He.
      destruct (is_logical_op op) eqn:Eo; [|discriminate He]. injection He as He. intros cx s Hs. cbn [ev sem map]. rewrite Eo.
      apply (sem_logical_keeps h calm); [| |exact Hs].
      * intros cx0 s0 H0. apply (valued_keeps h calm tame); auto using calm_fun; [now apply (KC 0%nat)|]. apply W; [|exact H0].
        cbn [own_sites]. rewrite Eo. left. reflexivity.
      * intros cx0 s0 _. rewrite He. now apply gate_val.
    + (* default value *)
      destruct cs as [|c1 [|c2 [|? ?]]]; try discriminate He. destruct i as [|[|i]]; try discriminate He. injection He as He.
      cbn [ev sem map]. apply (sem_assign_keeps h calm); [now apply (KC 0%nat)|]. intros cx s _. rewrite He. now apply gate_val.
  - assert (RL : K h calm (run_list h (map (ev h (step n) n) (pre ++ x :: post)))).
    { assert (IHp : Forall (K h calm) (map (ev h (step n) n) pre)).
      { apply Forall_map. rewrite Forall_app in IH. destruct IH as [IH _]. rewrite Forall_forall in *. auto. }
      clear - Hx IHp. induction pre as [|y pre IH]; intros cx s Hs.
      - cbn [app map run_list]. left. apply R_bindr; [now apply opens_past|]. intros v s1 H1. now apply past_list.
      - cbn [app map run_list]. inversion IHp; subst. apply R_bindr; [auto|]. intros v s1 Hv. now apply IH. }
    destruct k; try discriminate Hk; cbn [ev sem]; apply (stmts_keeps h calm tame); auto using calm_fun.
  - apply Forall_inv in IH2 as [_ IHl]. cbn [nkids] in IHl.
    assert (RL : K h calm (run_list h (map (ev h (step n) n) (pre ++ x :: post)))).
    { assert (IHp : Forall (K h calm) (map (ev h (step n) n) pre)).
      { apply Forall_map. rewrite Forall_app in IHl. destruct IHl as [IHl _]. rewrite Forall_forall in *. auto. }
      clear - Hx IHp. induction pre as [|y pre IH]; intros cx s Hs.
      - cbn [app map run_list]. left. apply R_bindr; [now apply opens_past|]. intros v s1 H1. now apply past_list.
      - cbn [app map run_list]. inversion IHp; subst. apply R_bindr; [auto|]. intros v s1 Hv. now apply IH. }
    intros cx s Hs. cbn [ev map sem]. destruct (cx_mode h cx); cbn [ev sem in_mode cx_mode]; now apply RL.
Qed.
Lemma tame_run : forall n t, tame t -> K h calm (run h n t).
Proof.
  induction n as [|n IH]; intros t Ht; rewrite run_eq; refine (proj1 (tame_node _ _ t) Ht); intros f x v s Hs; [exact Hs|].
  cbn [step]. destruct (nth_error (funs h s) f) as [code|] eqn:E; [|exact Hs]. destruct Hs as [Hs|[H1 H2]]; [left; now apply past_all|].
  apply IH; [|right; split; assumption]. rewrite Forall_forall in H2. eapply H2, nth_error_In; eauto.
Qed.
End Runs.

(** A guarded node is tame. *)
Lemma nodup_in : forall a y b (e : event), NoDup (flat_map events (a ++ y :: b)) -> In e (events y) ->
  Forall (fun c => ~ In e (events c)) (a ++ b).
Proof.
  intros a y b e H He. rewrite flat_map_app in H. apply nodup_app in H as (_ & H & H1). cbn [flat_map] in H, H1. apply nodup_app in H as (_ & _ & H2).
  apply Forall_app. split; apply Forall_forall; intros c Hc K.
  - apply (H1 e); [apply in_flat_map; eauto|]. apply in_app_iff. auto.
  - apply (H2 e He). apply in_flat_map. eauto.
Qed.
Lemma guards_in : forall e g u, guards e g u -> In e (events u).
Proof.
  intros e g u H. destruct H as [k sp cs Ha Hn Hf _ He|k sp cs i c He Hk Hn Hc Hi|sp p b ty -> Hn Hx Hn2 ->|sp t ssp ss y -> Hn Hy Hf Hi
    |k sp pre x post y Hk Hx Hy Hf Hi|vk sp lsp pre x post y Hx Hy Hi]; apply (events_node (fun _ => Z0)).
  - destruct He as [He|He]; [left; now apply (later_own (fun _ => Z0))|right; exact He].
  - right. exists c. split; [eapply nth_error_In; eauto|exact Hi].
  - left. apply in_app_iff. right. rewrite Hx. apply posed_in; [exact Hn2|]. left. reflexivity.
  - right. eexists. split; [right; left; reflexivity|]. apply (events_node (fun _ => Z0)). right. eauto.
  - right. exists y. split; [apply in_app_iff; right; right; exact Hy|exact Hi].
  - right. eexists. split; [left; reflexivity|]. apply (events_node (fun _ => Z0)). right. exists y. split; [apply in_app_iff; right; right; exact Hy|exact Hi].
Qed.
Lemma guards_tame : forall e g u, guards e g u -> block_bodies u = true -> NoDup (events u) -> tame e g u.
Proof.
  intros e g u H Hb Hd. pose proof Hb as Hb0. pose proof Hd as Hd0.
  destruct H as [k sp cs Ha Hn Hf Hx He|k sp cs i c He Hk Hn Hc Hi|sp p b ty -> Hn Hx Hn2 ->|sp t ssp ss y -> Hn Hy Hf Hi
    |k sp pre x post y Hk Hx Hy Hf Hi|vk sp lsp pre x post y Hx Hy Hi];
    cbn [block_bodies] in Hb0; apply andb_true_iff in Hb0 as [Hb0 _]; apply nodup_node in Hd0 as (D1 & D2 & D3).
  - apply T_first; auto. rewrite Hx. constructor.
  - assert (Ic : In c cs) by (eapply nth_error_In; eauto). eapply T_kid; eauto.
    + intros K. apply (D1 e c); auto. apply in_app_iff. left. now apply posed_in.
    + intros j d Hj Hne. apply clean_tame; [eapply bodies_kid; [exact Hb|eapply nth_error_In; eauto]|].
      intros K. apply Hne. exact (D3 j i d c e Hj Hc K Hi).
    + destruct k; try constructor. congruence.
  - apply (T_kid _ _ KArrow sp [p; b; ty] 1); auto; [|intros j c Hj Hne|constructor].
    + intros [K|[]]. discriminate.
    + assert (Ic : In c [p; b; ty]) by (eapply nth_error_In; eauto).
      apply clean_tame; [eapply bodies_kid; eauto|]. intros K. apply (D1 (EStmt (nspan b)) c); auto.
      apply in_app_iff. right. rewrite Hx. apply posed_in; [exact Hn2|]. left. reflexivity.
  - assert (Es : In e (events (Node KStmts ssp ss))) by (apply (events_node (fun _ => Z0)); eauto).
    apply (T_kid _ _ KSwitchCase sp [t; Node KStmts ssp ss] 1); auto.
    + intros K. apply (D1 e (Node KStmts ssp ss)); [apply in_app_iff; left; now apply posed_in|right; left; reflexivity|exact Es].
    + intros j d Hj Hne. apply clean_tame; [eapply bodies_kid; [exact Hb|eapply nth_error_In; eauto]|].
      intros K. apply Hne. exact (D3 j 1%nat d _ e Hj eq_refl K Es).
    + cbn [case_stmts]. specialize (D2 (Node KStmts ssp ss) (or_intror (or_introl eq_refl))).
      assert (Bs : block_bodies (Node KStmts ssp ss) = true) by (eapply bodies_kid; [exact Hb|right; left; reflexivity]).
      assert (Bk : forall c, In c ss -> block_bodies c = true) by (intros c Hc; eapply bodies_kid; eauto).
      apply nodup_list in D2. apply in_split in Hy as (a & b & ->). pose proof (nodup_in a y b e D2 Hi) as F.
      unfold fns_of. rewrite flat_map_app, map_app. cbn [flat_map]. rewrite Hf. cbn [app]. rewrite <- map_app, <- flat_map_app.
      apply (fns_tame e (ECase sp)). apply Forall_forall. intros c Hc. rewrite Forall_forall in F. apply clean_tame; [|now apply F].
      apply Bk. apply in_app_iff in Hc as [Hc|Hc]; apply in_app_iff; [left|right; right]; exact Hc.
  - apply nodup_list in Hd. assert (Bk : forall c, In c (pre ++ x :: post) -> block_bodies c = true) by (intros c Hc; eapply bodies_kid; eauto).
    apply in_split in Hy as (a & b & ->).
    assert (Ey : pre ++ x :: a ++ y :: b = (pre ++ x :: a) ++ y :: b) by (rewrite <- app_assoc; reflexivity).
    pose proof Hd as Hd1. rewrite Ey in Hd1. pose proof (nodup_in _ y b e Hd1 Hi) as F. rewrite Forall_forall in F.
    assert (FT : Forall (tame e g) ((pre ++ x :: a) ++ b)).
    { apply Forall_forall. intros c Hc. apply clean_tame; [|now apply F]. apply Bk. rewrite Ey.
      apply in_app_iff in Hc as [Hc|Hc]; apply in_app_iff; [left|right; right]; exact Hc. }
    apply T_after; auto.
    + apply Forall_app in FT as [FT _]. now apply Forall_app in FT as [FT _].
    + rewrite Ey. unfold fns_of. rewrite flat_map_app, map_app. cbn [flat_map]. rewrite Hf. cbn [app]. rewrite <- map_app, <- flat_map_app.
      now apply fns_tame.
  - specialize (D2 _ (or_introl eq_refl)). apply nodup_list in D2.
    assert (Bk : forall c, In c (pre ++ x :: post) -> block_bodies c = true).
    { intros c Hc. eapply bodies_kid; [|exact Hc]. eapply bodies_kid; [exact Hb|left; reflexivity]. }
    apply in_split in Hy as (a & b & ->).
    assert (Ey : pre ++ x :: a ++ y :: b = (pre ++ x :: a) ++ y :: b) by (rewrite <- app_assoc; reflexivity).
    rewrite Ey in D2. pose proof (nodup_in _ y b e D2 Hi) as F. rewrite Forall_forall in F.
    apply T_decls; auto. apply Forall_forall. intros c Hc. apply clean_tame; [apply Bk; apply in_app_iff; auto|].
    apply F. apply in_app_iff. left. apply in_app_iff. auto.
Qed.

(** Every run of a program: what is only reached through something that did not happen did not happen. *)
Theorem run_idle : forall h n t x v, NoDup (events t) -> block_bodies t = true -> idle t (evs h (snd (run_program h n t x v))).
Proof.
  intros h n t x v Hd Hb u e g Hp Hg Ht. unfold times in *.
  assert (T : tame e g t).
  { eapply part_tame; eauto; [|eapply guards_in; eauto]. apply guards_tame; [exact Hg|eapply part_bodies; eauto|eapply part_nodup; eauto]. }
  destruct (tame_run h g e n t T (mkCtx h x MRead [] (h_undef h)) (mkState h v [] [] [] (h_undef h))) as [H|[H _]].
  - right. split; [intros []|constructor].
  - apply (count_occ_not_In event_dec) in Ht. contradiction.
  - now apply count_occ_not_In.
Qed.
Lemma idle_app : forall t a b, idle t a -> idle t b -> idle t (a ++ b).
Proof.
  intros t a b A B u e g Hp Hg. rewrite !times_app. intros H. rewrite (A u e g Hp Hg), (B u e g Hp Hg); lia.
Qed.
Lemma idle_nil : forall t, idle t [].
Proof. intros t u e g _ _ _. reflexivity. Qed.
Lemma idle_concat : forall t logs, Forall (idle t) logs -> idle t (concat logs).
Proof. intros t logs H. induction H; cbn [concat]; [apply idle_nil|now apply idle_app]. Qed.
