(** The numbers of one report fit together: what is only reached through something else is not counted more often. *)
From Coq Require Import ZArith NArith String List Bool Lia PeanoNat Permutation.
Import ListNotations.
From Verif Require Import Base Oxide Hints Ast Sem Account Sites Accurate Ledger.
Open Scope list_scope. Open Scope Z_scope.

(** ** Specification *)

(** The event a node starts with *)
Definition first_event (k : kind) (sp : span) (cs : list node) : option event :=
  match k with
  | KExprStmt | KReturn | KThrow | KBreak | KContinue | KLabeled | KIf | KWhile | KDoWhile | KFor | KForIn | KForOf
  | KSwitch | KTry | KWith | KExportDecl => Some (EStmt sp)
  | KVarDeclarator => match cs with [_; i] => if is_none i then None else Some (EInit sp) | _ => None end
  | KBin op => if is_logical_op op then Some (EOper sp false) else None
  | _ => None
  end.
(** The other events it makes by itself, each at most once *)
Definition later_events (k : kind) (sp : span) : list event :=
  match k with
  | KIf => [EArm sp false; EArm sp true]
  | KCond => [ECond sp false; ECond sp true]
  | KBin op => if is_logical_op op then [EOper sp true] else []
  | _ => []
  end.
(** The number of children *)
Definition arity (k : kind) (n : nat) : bool :=
  match k with
  | KStmts | KModuleItems => true
  | KModule | KScript | KExpr | KParen | KModuleDecl | KStmt | KBlock _ | KExportDecl
  | KExprStmt | KReturn | KThrow | KBreak | KContinue => Nat.eqb n 1
  | KLabeled | KWhile | KDoWhile | KSwitch | KWith | KVarDeclarator => Nat.eqb n 2
  | KBin op => is_logical_op op && Nat.eqb n 2
  | KIf | KTry | KCond | KForIn | KForOf => Nat.eqb n 3
  | KFor => Nat.eqb n 4
  | _ => false
  end.
(** The children evaluated at most once each time the node is *)
Definition once (k : kind) (i : nat) : bool :=
  match k with
  | KStmts | KModuleItems | KModule | KScript | KExpr | KParen | KModuleDecl | KStmt | KBlock _ | KExportDecl
  | KExprStmt | KReturn | KThrow | KIf | KTry | KWith | KVarDeclarator | KCond | KBin _ => true
  | KLabeled => Nat.eqb i 1
  | KFor | KSwitch => Nat.eqb i 0
  | _ => false
  end.
(** Nodes that start with their first child *)
Definition starts (k : kind) : bool :=
  match k with
  | KStmts | KModuleItems | KModule | KScript | KExpr | KParen | KModuleDecl | KStmt | KBlock _ => true
  | _ => false
  end.

(** [opens e t]: each time [t] is evaluated, [e] happens first. *)
Inductive opens : event -> node -> Prop :=
| O_first : forall k sp cs e, arity k (length cs) = true -> nowhere sp = false -> first_event k sp cs = Some e ->
    opens e (Node k sp cs)
| O_kid : forall k sp c cs e, starts k = true -> arity k (length (c :: cs)) = true -> opens e c -> opens e (Node k sp (c :: cs))
| O_decl : forall vk sp lsp d ds e, opens e d -> opens e (Node (KVarDecl vk) sp [Node KList lsp (d :: ds)]).
(** [leads e t]: each time [t] is evaluated, the place [e] is about is reached at most once. *)
Inductive leads : event -> node -> Prop :=
| L_first : forall k sp cs e, arity k (length cs) = true -> nowhere sp = false -> first_event k sp cs = Some e -> leads e (Node k sp cs)
| L_later : forall k sp cs e, arity k (length cs) = true -> nowhere sp = false -> In e (later_events k sp) -> leads e (Node k sp cs)
| L_kid : forall k sp cs i c e, arity k (length cs) = true -> once k i = true -> nth_error cs i = Some c -> leads e c ->
    leads e (Node k sp cs)
| L_decl : forall vk sp lsp d ds e, In d ds -> leads e d -> leads e (Node (KVarDecl vk) sp [Node KList lsp ds]).

(** [follows b g t]: [b] is only reached through [g], by the text of the node [t]. *)
Inductive follows : event -> event -> node -> Prop :=
| F_within : forall b g t, opens g t -> leads b t -> g <> b -> follows b g t
| F_after : forall k sp pre x mid y post b g, stmts_kind k = true -> opens g x -> leads b y ->
    follows b g (Node k sp (pre ++ x :: mid ++ y :: post))
| F_function : forall sp p ds body ty b, nowhere sp = false -> is_expr body = false -> leads b body ->
    follows b (EFn sp) (Node KFunction sp [p; ds; body; ty])
| F_arrow : forall sp p body ty b, nowhere sp = false -> leads b body -> follows b (EFn sp) (Node KArrow sp [p; body; ty])
| F_arrow_expr : forall sp p body ty, nowhere sp = false -> is_expr body = true -> nowhere (nspan body) = false ->
    follows (EStmt (nspan body)) (EFn sp) (Node KArrow sp [p; body; ty])
| F_getter : forall sp k0 ty body b, nowhere sp = false -> is_expr body = false -> leads b body ->
    follows b (EFn sp) (Node KGetter sp [k0; ty; body])
| F_setter : forall sp k0 ty p body b, nowhere sp = false -> is_expr body = false -> leads b body ->
    follows b (EFn sp) (Node KSetter sp [k0; ty; p; body])
| F_then : forall sp t c a b, nowhere sp = false -> leads b c -> follows b (EArm sp false) (Node KIf sp [t; c; a])
| F_else : forall sp t c a b, nowhere sp = false -> leads b a -> follows b (EArm sp true) (Node KIf sp [t; c; a])
| F_consequent : forall sp t c a b, nowhere sp = false -> leads b c -> follows b (ECond sp false) (Node KCond sp [t; c; a])
| F_alternative : forall sp t c a b, nowhere sp = false -> leads b a -> follows b (ECond sp true) (Node KCond sp [t; c; a])
| F_right : forall op sp x y b, is_logical_op op = true -> nowhere sp = false -> leads b y ->
    follows b (EOper sp true) (Node (KBin op) sp [x; y])
| F_case : forall sp t body b, nowhere sp = false -> leads b body -> follows b (ECase sp) (Node KSwitchCase sp [t; body]).

(** [part u t]: [u] is a node of [t]. *)
Inductive part (u : node) : node -> Prop :=
| P_here : part u u
| P_kid : forall k sp cs c, In c cs -> part u c -> part u (Node k sp cs).

(** Functions other than arrow functions have a block or nothing for a body. *)
Definition has_block (k : kind) (cs : list node) : bool :=
  match k, cs with
  | KFunction, [_; _; b; _] | KGetter, [_; _; b] | KSetter, [_; _; _; b] => negb (is_expr b)
  | _, _ => true
  end.
Fixpoint block_bodies (t : node) : bool :=
  match t with Node k _ cs => has_block k cs && forallb block_bodies cs end.

(** All events a program can make *)
Definition events (t : node) : list event := map fst (sites t).

(** ** Bounds *)
Section Weights.
Variable w : event -> Z.
Notation bound := (bound w).
Notation weigh := (weigh w).

(** The bound of a node exists and is at least [m]. *)
Definition up_to (m : Z) (t : node) : Prop := exists n, bound t = Some n /\ m <= n.
Lemma up_le : forall m m' t, up_to m t -> m' <= m -> up_to m' t.
Proof. intros m m' t (n & E & L) H. exists n. split; [exact E|lia]. Qed.

Definition nonneg (l : list event) : Prop := forall e, In e l -> 0 <= w e.
Lemma weigh_nonneg : forall sp l e, nonneg (map fst (posed sp l)) -> In e (map fst l) -> 0 <= weigh sp e.
Proof.
  intros sp l e H K. unfold Ledger.weigh, posed in *. destruct (nowhere sp); [lia|]. now apply H.
Qed.
Lemma ge0_up : forall t, ge0 (fst (bounds w t)) = true <-> up_to 0 t.
Proof.
  intros t. unfold up_to, Ledger.bound, ge0. split.
  - destruct (fst (bounds w t)) as [n|]; [|discriminate]. intros H. apply Z.leb_le in H. eauto.
  - intros (n & E & L). rewrite E. now apply Z.leb_le.
Qed.
Lemma steady_up : forall cs, Forall (up_to 0) cs -> steady (map (fun c => fst (bounds w c)) cs) = true.
Proof. intros cs H. induction H as [|c cs Hc _ IH]; [reflexivity|]. cbn [map steady forallb]. apply ge0_up in Hc. rewrite Hc. exact IH. Qed.
Lemma turn_up : forall cs, Forall (up_to 0) cs -> exists n, in_turn (map (fun c => fst (bounds w c)) cs) = Some n /\ 0 <= n.
Proof.
  intros cs H. induction H as [|c cs (a & Ea & La) _ (b & Eb & Lb)]; [exists 0; split; [reflexivity|lia]|].
  cbn [map in_turn]. unfold Ledger.bound in Ea. rewrite Ea, Eb. eexists. split; [reflexivity|lia].
Qed.
(** The list of a declaration *)
Definition both_up (t : node) : Prop := up_to 0 t /\ exists n, snd (bounds w t) = Some n /\ 0 <= n.

Definition own_events (k : kind) (sp : span) (cs : list node) : list event :=
  map fst (posed sp (own_sites k sp cs)) ++
  match k with
  | KArrow => match cs with [_; b; _] => if is_expr b then map fst (posed (nspan b) [(EStmt (nspan b), nspan b)]) else [] | _ => [] end
  | _ => []
  end.
Lemma nonneg_app : forall a b, nonneg (a ++ b) <-> nonneg a /\ nonneg b.
Proof.
  intros a b. unfold nonneg. split.
  - intros H. split; intros e He; apply H, in_app_iff; auto.
  - intros [H1 H2] e He. apply in_app_iff in He as [He|He]; auto.
Qed.

Ltac ups := repeat match goal with
  | H : Forall both_up (_ :: _) |- _ =>
      let n := fresh "n" in let E := fresh "E" in let L := fresh "L" in let l := fresh "l" in
      pose proof (Forall_inv H) as [(n & E & L) l]; apply Forall_inv_tail in H; unfold Ledger.bound in E
  end.
Ltac has_bounds := repeat match goal with E : fst (bounds w ?c) = Some _ |- context [fst (bounds w ?c)] => rewrite E end.
Ltac weights W := repeat match goal with |- context [Ledger.weigh w ?sp ?e] =>
  lazymatch goal with H : 0 <= Ledger.weigh w sp e |- _ => fail | _ => assert (0 <= Ledger.weigh w sp e) by (apply W; cbn; tauto) end end.
Ltac finish := unfold steady, ge0, at_least; cbn [forallb andb option_map];
  repeat match goal with |- context [0 <=? ?x] => replace (0 <=? x) with true by (symmetry; apply Z.leb_le; lia) end; cbn [andb];
  eexists; (split; [reflexivity|lia]).
Lemma node_up : forall k sp cs, nonneg (own_events k sp cs) -> has_block k cs = true -> Forall both_up cs -> both_up (Node k sp cs).
Proof.
  intros k sp cs Ho Hb Hk.
  assert (K0 : Forall (up_to 0) cs) by (eapply Forall_impl; [|exact Hk]; intros t [H _]; exact H).
  assert (W : forall e, In e (map fst (own_sites k sp cs)) -> 0 <= weigh sp e).
  { intros e He. unfold own_events in Ho. apply nonneg_app in Ho as [Ho _]. exact (weigh_nonneg sp _ e Ho He). }
  pose proof (steady_up cs K0) as S0. pose proof (turn_up cs K0) as T0.
  assert (G : up_to 0 (Node k sp cs)).
  { unfold up_to, Ledger.bound. cbn [bounds fst].
    destruct k; cbn [bound_of]; rewrite ?S0; cbn [at_least];
      try (exists 0; split; [reflexivity|lia]); try exact T0.
    all: try (destruct cs as [|c1 [|c2 [|c3 [|c4 [|c5 cs]]]]]; ups; cbn [map]; has_bounds; weights W; finish; fail).
    - destruct cs as [|c1 [|? ?]]; [eexists; split; [reflexivity|lia]| |eexists; split; [reflexivity|lia]].
      apply Forall_inv in Hk as [_ L]. exact L.
    - destruct cs as [|c1 [|c2 [|c3 cs]]]; ups; cbn [map]; has_bounds; try (finish; fail).
      destruct (is_none c2) eqn:Hn; [finish|]. assert (0 <= weigh sp (EInit sp)) by (apply W; cbn; rewrite Hn; cbn; tauto). finish.
    - destruct cs as [|c1 [|c2 [|c3 [|c4 [|c5 cs]]]]]; ups; cbn [map]; has_bounds; try (finish; fail).
      cbn [has_block] in Hb. apply negb_true_iff in Hb. unfold fn_bound. rewrite Hb. weights W. finish.
    - destruct cs as [|c1 [|c2 [|c3 [|c4 cs]]]]; ups; cbn [map]; has_bounds; try (finish; fail).
      unfold fn_bound. assert (0 <= weigh sp (EFn sp)) by (apply W; cbn; tauto).
      unfold own_events in Ho. apply nonneg_app in Ho as [_ Ho].
      destruct (is_expr c2); [|finish].
      assert (0 <= weigh (nspan c2) (EStmt (nspan c2))) by (apply (weigh_nonneg _ _ _ Ho); cbn; tauto). finish.
    - destruct cs as [|c1 [|c2 [|c3 [|c4 cs]]]]; ups; cbn [map]; has_bounds; try (finish; fail).
      cbn [has_block] in Hb. apply negb_true_iff in Hb. unfold fn_bound. rewrite Hb. weights W. finish.
    - destruct cs as [|c1 [|c2 [|c3 [|c4 [|c5 cs]]]]]; ups; cbn [map]; has_bounds; try (finish; fail).
      cbn [has_block] in Hb. apply negb_true_iff in Hb. unfold fn_bound. rewrite Hb. weights W. finish.
    - destruct (is_logical_op op) eqn:Ho2; [|finish].
      destruct cs as [|c1 [|c2 [|c3 cs]]]; ups; cbn [map]; has_bounds; try (finish; fail).
      assert (0 <= weigh sp (EOper sp false)) by (apply W; cbn; rewrite Ho2; cbn; tauto).
      assert (0 <= weigh sp (EOper sp true)) by (apply W; cbn; rewrite Ho2; cbn; tauto). finish. }
  split; [exact G|]. cbn [bounds snd]. destruct k; try exact G. exact T0.
Qed.
Lemma events_node : forall k sp cs e, In e (events (Node k sp cs)) <->
  In e (own_events k sp cs) \/ exists c, In c cs /\ In e (events c).
Proof.
  intros k sp cs e. unfold events, own_events.
  assert (F : forall l, In e (map fst (flat_map sites l)) <-> exists c, In c l /\ In e (map fst (sites c))).
  { intros l. rewrite in_map_iff. split.
    - intros (p & E & Hp). apply in_flat_map in Hp as (c & Hc & Hp). exists c. split; [exact Hc|]. apply in_map_iff. eauto.
    - intros (c & Hc & Hp). apply in_map_iff in Hp as (p & E & Hp). exists p. split; [exact E|]. apply in_flat_map. eauto. }
  cbn [sites].
  assert (G : In e (map fst (posed sp (own_sites k sp cs) ++ flat_map sites cs)) <->
    In e (map fst (posed sp (own_sites k sp cs)) ++ []) \/ (exists c, In c cs /\ In e (map fst (sites c)))).
  { rewrite map_app, app_nil_r, in_app_iff, F. reflexivity. }
  destruct k; try exact G.
  destruct cs as [|p [|b [|ty [|? ?]]]]; try exact G.
  rewrite !map_app, !in_app_iff. split.
  - intros [H|[H|[H|[H|H]]]].
    + left. left. exact H.
    + right. exists p. cbn. tauto.
    + left. right. destruct (is_expr b); [exact H|destruct H].
    + right. exists b. cbn. tauto.
    + right. exists ty. cbn. tauto.
  - intros [[H|H]|(c & [<-|[<-|[<-|[]]]] & H)]; try tauto.
    right. right. left. destruct (is_expr b); [exact H|destruct H].
Qed.
Lemma nonneg_up : forall t, block_bodies t = true -> nonneg (events t) -> both_up t.
Proof.
  induction t as [k sp cs IH] using node_ind'. intros Hb Hn. cbn [block_bodies] in Hb. apply andb_true_iff in Hb as [Hb Hc].
  apply node_up; [|exact Hb|].
  - intros e He. apply Hn, events_node. auto.
  - rewrite Forall_forall in *. rewrite forallb_forall in Hc. intros c Ic. apply IH; auto.
    intros e He. apply Hn, events_node. eauto.
Qed.
Lemma ups_cons : forall ms c cs, Forall2 up_to ms (c :: cs) -> exists m ms', ms = m :: ms' /\ up_to m c /\ Forall2 up_to ms' cs.
Proof. intros ms c cs H. inversion H; subst. eauto. Qed.
Lemma ups_nil : forall ms, Forall2 up_to ms [] -> ms = [].
Proof. intros ms H. now inversion H. Qed.
Definition zsum (l : list Z) : Z := fold_right Z.add 0 l.
Lemma zsum_cons : forall m l, zsum (m :: l) = m + zsum l. Proof. reflexivity. Qed.
Lemma turn_sum : forall ms cs, Forall2 up_to ms cs -> Forall (fun m => m <= 0) ms ->
  exists n, in_turn (map (fun c => fst (bounds w c)) cs) = Some n /\ zsum ms <= n.
Proof.
  intros ms cs H. induction H as [|m c ms cs (a & Ea & La) _ IH]; intros F; [exists 0; split; [reflexivity|cbn; lia]|].
  inversion F; subst. destruct (IH H2) as (b & Eb & Lb). cbn [map in_turn]. unfold Ledger.bound in Ea. rewrite Ea, Eb.
  eexists. split; [reflexivity|]. cbn [zsum fold_right]. change (fold_right Z.add 0 ms) with (zsum ms).
  assert (zsum ms <= 0). { clear - H2. induction H2; cbn; [lia|]. change (fold_right Z.add 0 l) with (zsum l). lia. }
  lia.
Qed.
(** The bound of a node whose control flow is known, from bounds of its children and its events *)
Lemma flow_bound : forall k sp cs ms f m', arity k (length cs) = true -> Forall2 up_to ms cs -> Forall (fun m => m <= 0) ms ->
  (forall i m, once k i = false -> nth_error ms i = Some m -> m = 0) -> m' <= 0 -> Forall (fun e => m' <= weigh sp e) (later_events k sp) ->
  match first_event k sp cs with Some e => f <= weigh sp e | None => f <= 0 end -> up_to (f + zsum ms + m') (Node k sp cs).
Proof.
  intros k sp cs ms f m' Ha Hu Hm Ho Hm' Hl Hf.
  assert (T : stmts_kind k = true -> up_to (f + zsum ms + m') (Node k sp cs)).
  { intros Hk. destruct (turn_sum ms cs Hu Hm) as (n & E & L). exists n. unfold Ledger.bound. cbn [bounds fst].
    destruct k; try discriminate; cbn [bound_of]; (split; [exact E|cbn [first_event] in Hf; lia]). }
  destruct k; try discriminate Ha; try exact (T eq_refl); clear T; cbn [arity] in Ha;
    try (apply andb_true_iff in Ha as [Hop Ha]); apply Nat.eqb_eq in Ha.
  all: destruct cs as [|c1 [|c2 [|c3 [|c4 [|c5 cs]]]]]; try discriminate Ha; clear Ha.
  all: repeat match goal with H : Forall2 up_to _ (_ :: _) |- _ =>
      let n := fresh "n" in let E := fresh "E" in let L := fresh "L" in
      apply ups_cons in H; destruct H as (? & ? & -> & (n & E & L) & H); unfold Ledger.bound in E end;
    apply ups_nil in Hu; subst.
  all: pose proof (Ho 0%nat) as O0; pose proof (Ho 1%nat) as O1; pose proof (Ho 2%nat) as O2; pose proof (Ho 3%nat) as O3; clear Ho;
    cbn [once nth_error Nat.eqb] in O0, O1, O2, O3.
  all: repeat match goal with H : Forall (fun m => m <= 0) (_ :: _) |- _ =>
      pose proof (Forall_inv H); apply Forall_inv_tail in H; cbn beta in * end; cbn [zsum fold_right].
  all: repeat match goal with
    | O : false = false -> Some ?x = Some _ -> _ |- _ => fail
    | O : forall m : Z, true = false -> _ |- _ => clear O
    | O : forall m : Z, false = false -> None = Some m -> _ |- _ => clear O
    | O : forall m : Z, false = false -> Some ?x = Some m -> m = 0 |- _ => specialize (O x eq_refl eq_refl)
    end.
  all: unfold up_to, Ledger.bound; cbn [bounds fst bound_of map first_event later_events] in *; rewrite ?Hop in *; has_bounds.
  all: repeat match goal with H : Forall (fun e => _ <= _) (_ :: _) |- _ =>
      pose proof (Forall_inv H); apply Forall_inv_tail in H; cbn beta in * end.
  all: try (finish; fail).
  destruct (is_none c2); finish.
Qed.

(** ** The events of a node and of its children are different ones *)
Lemma events_perm : forall k sp cs, Permutation (events (Node k sp cs)) (own_events k sp cs ++ flat_map events cs).
Proof.
  intros k sp cs. unfold events at 1, own_events.
  assert (F : forall l, map fst (flat_map sites l) = flat_map events l).
  { induction l as [|c l IH]; [reflexivity|]. cbn [flat_map]. rewrite map_app, IH. reflexivity. }
  assert (G : Permutation (map fst (posed sp (own_sites k sp cs) ++ flat_map sites cs))
    ((map fst (posed sp (own_sites k sp cs)) ++ []) ++ flat_map events cs)) by (rewrite map_app, app_nil_r, F; reflexivity).
  cbn [sites]. destruct k; try exact G. destruct cs as [|p [|b [|ty [|? ?]]]]; try exact G.
  rewrite !map_app. cbn [flat_map]. rewrite app_nil_r. change (map fst (sites p)) with (events p).
  change (map fst (sites b)) with (events b). change (map fst (sites ty)) with (events ty).
  rewrite <- !app_assoc. apply Permutation_app_head.
  destruct (is_expr b); [|reflexivity]. apply Permutation_app_swap_app.
Qed.
Lemma nodup_app : forall A (a b : list A), NoDup (a ++ b) -> NoDup a /\ NoDup b /\ forall x, In x a -> In x b -> False.
Proof.
  intros A a b. induction a as [|y a IH]; intros H; [split; [constructor|split; [exact H|intros x []]]|].
  inversion H as [|? ? N H2]; subst. destruct (IH H2) as (I1 & I2 & I3). split; [|split; [exact I2|]].
  - constructor; [|exact I1]. intros K. apply N, in_app_iff. auto.
  - intros x [<-|Hx] Hb; [apply N, in_app_iff; auto|eauto].
Qed.
Lemma nodup_flat : forall (cs : list node), NoDup (flat_map events cs) ->
  (forall c, In c cs -> NoDup (events c)) /\
  (forall i j c d e, nth_error cs i = Some c -> nth_error cs j = Some d -> In e (events c) -> In e (events d) -> i = j).
Proof.
  induction cs as [|x cs IH]; intros H; [split; [intros c []|intros [|i] j c d e Hi; discriminate]|].
  cbn [flat_map] in H. apply nodup_app in H as (H1 & H2 & H3). destruct (IH H2) as [I1 I2].
  assert (K : forall i c e, nth_error cs i = Some c -> In e (events c) -> In e (events x) -> False).
  { intros i c e Hc He Hx. apply (H3 e Hx). apply in_flat_map. exists c. split; [eapply nth_error_In; eauto|exact He]. }
  split.
  - intros c [<-|Hc]; auto.
  - intros [|i] [|j] c d e Hi Hj Hc Hd; cbn in Hi, Hj; try reflexivity.
    + exfalso. inversion Hi; subst. eapply K; eauto.
    + exfalso. inversion Hj; subst. eapply K; eauto.
    + f_equal. eapply I2; eauto.
Qed.
Lemma nodup_node : forall k sp cs, NoDup (events (Node k sp cs)) ->
  (forall e c, In e (own_events k sp cs) -> In c cs -> In e (events c) -> False) /\
  (forall c, In c cs -> NoDup (events c)) /\
  (forall i j c d e, nth_error cs i = Some c -> nth_error cs j = Some d -> In e (events c) -> In e (events d) -> i = j).
Proof.
  intros k sp cs H. apply (Permutation_NoDup (events_perm k sp cs)) in H. apply nodup_app in H as (_ & H2 & H3).
  destruct (nodup_flat cs H2) as [I1 I2]. split; [|split; [exact I1|exact I2]].
  intros e c He Hc Hx. apply (H3 e He). apply in_flat_map. eauto.
Qed.
Lemma posed_in : forall sp l e, nowhere sp = false -> In e (map fst l) -> In e (map fst (posed sp l)).
Proof. intros sp l e H K. unfold posed. now rewrite H. Qed.
Lemma first_own : forall k sp cs e, arity k (length cs) = true -> nowhere sp = false -> first_event k sp cs = Some e -> In e (own_events k sp cs).
Proof.
  intros k sp cs e Ha Hn He. apply in_app_iff. left. apply posed_in; [exact Hn|].
  destruct k; try discriminate He; cbn [first_event own_sites] in *; try (inversion He; subst; left; reflexivity).
  - destruct cs as [|? [|i [|? ?]]]; try discriminate He. destruct (is_none i); [discriminate|]. inversion He; subst. left. reflexivity.
  - cbn [arity] in Ha. destruct (is_logical_op op); [|discriminate]. apply Nat.eqb_eq in Ha.
    destruct cs as [|? [|i [|? ?]]]; try discriminate Ha. inversion He; subst. left. reflexivity.
Qed.
Lemma later_own : forall k sp cs e, arity k (length cs) = true -> nowhere sp = false -> In e (later_events k sp) -> In e (own_events k sp cs).
Proof.
  intros k sp cs e Ha Hn He. apply in_app_iff. left. apply posed_in; [exact Hn|].
  destruct k; try contradiction He; cbn [later_events own_sites arity] in *.
  - cbn. tauto.
  - apply Nat.eqb_eq in Ha. destruct cs as [|? [|? [|? [|? ?]]]]; try discriminate Ha. cbn. tauto.
  - destruct (is_logical_op op); [|contradiction]. apply Nat.eqb_eq in Ha.
    destruct cs as [|? [|? [|? ?]]]; try discriminate Ha. cbn in *. tauto.
Qed.
Lemma first_later : forall k sp cs e e', first_event k sp cs = Some e -> In e' (later_events k sp) -> e <> e'.
Proof.
  intros k sp cs e e' H1 H2 <-. destruct k; try contradiction H2; try discriminate H1; cbn [first_event later_events] in *.
  - inversion H1; subst. cbn in H2. destruct H2 as [H2|[H2|[]]]; discriminate.
  - destruct (is_logical_op op); [|discriminate]. inversion H1; subst. cbn in H2. destruct H2 as [H2|[]]; discriminate.
Qed.
Lemma leads_in : forall e t, leads e t -> In e (events t).
Proof.
  intros e t H. induction H as [k sp cs e Ha Hn He|k sp cs e Ha Hn He|k sp cs i c e Ha Ho Hc _ IH|vk sp lsp d ds e Hd _ IH].
  - apply events_node. left. now apply first_own.
  - apply events_node. left. now apply later_own.
  - apply events_node. right. exists c. split; [eapply nth_error_In; eauto|exact IH].
  - apply events_node. right. exists (Node KList lsp ds). split; [left; reflexivity|]. apply events_node. right. eauto.
Qed.
Lemma opens_in : forall e t, opens e t -> In e (events t).
Proof.
  intros e t H. induction H as [k sp cs e Ha Hn He|k sp c cs e Hs Ha _ IH|vk sp lsp d ds e _ IH].
  - apply events_node. left. now apply first_own.
  - apply events_node. right. exists c. split; [left; reflexivity|exact IH].
  - apply events_node. right. exists (Node KList lsp (d :: ds)). split; [left; reflexivity|]. apply events_node. right.
    exists d. split; [left; reflexivity|exact IH].
Qed.

(** ** What opens and what leads *)
Lemma spike : forall cs i, (forall j c, nth_error cs j = Some c -> up_to (if Nat.eqb j i then -1 else 0) c) ->
  exists ms, Forall2 up_to ms cs /\ Forall (fun m => m <= 0) ms /\ -1 <= zsum ms /\ forall j m, nth_error ms j = Some m -> j <> i -> m = 0.
Proof.
  assert (Z0 : forall cs, (forall j c, nth_error cs j = Some c -> up_to 0 c) ->
    exists ms, Forall2 up_to ms cs /\ Forall (fun m => m <= 0) ms /\ 0 <= zsum ms /\ forall j m, nth_error ms j = Some m -> m = 0).
  { induction cs as [|c cs IH]; intros H.
    - exists []. split; [constructor|]. split; [constructor|]. split; [cbn; lia|]. intros [|j] m Hj; discriminate.
    - destruct (IH (fun j => H (S j))) as (ms & A & B & C & D). exists (0 :: ms).
      split; [constructor; [exact (H 0%nat c eq_refl)|exact A]|]. split; [constructor; [lia|exact B]|]. split; [rewrite zsum_cons; lia|].
      intros [|j] m Hj; [now inversion Hj|eauto]. }
  induction cs as [|c cs IH]; intros i H.
  - exists []. split; [constructor|]. split; [constructor|]. split; [cbn; lia|]. intros [|j] m Hj; discriminate.
  - destruct i as [|i].
    + destruct (Z0 cs (fun j => H (S j))) as (ms & A & B & C & D). exists (-1 :: ms).
      split; [constructor; [exact (H 0%nat c eq_refl)|exact A]|]. split; [constructor; [lia|exact B]|]. split; [rewrite zsum_cons; lia|].
      intros [|j] m Hj Hn; [congruence|eauto].
    + destruct (IH i (fun j => H (S j))) as (ms & A & B & C & D). exists (0 :: ms).
      split; [constructor; [exact (H 0%nat c eq_refl)|exact A]|]. split; [constructor; [lia|exact B]|]. split; [rewrite zsum_cons; lia|].
      intros [|j] m Hj Hn; [now inversion Hj|]. apply (D j m Hj). congruence.
Qed.
Lemma flat_ms : forall cs, Forall (up_to 0) cs ->
  exists ms, Forall2 up_to ms cs /\ Forall (fun m => m <= 0) ms /\ zsum ms = 0 /\ forall j m, nth_error ms j = Some m -> m = 0.
Proof.
  intros cs H. induction H as [|c cs Hc _ (ms & A & B & C & D)].
  - exists []. split; [constructor|]. split; [constructor|]. split; [reflexivity|]. intros [|j] m Hj; discriminate.
  - exists (0 :: ms). split; [constructor; assumption|]. split; [constructor; [lia|exact B]|]. split; [rewrite zsum_cons; lia|].
    intros [|j] m Hj; [now inversion Hj|eauto].
Qed.

(** Nothing but [b] may lower the sum. *)
Definition others (b : event) (t : node) : Prop := forall e, In e (events t) -> e <> b -> 0 <= w e.
Lemma kids_up : forall k sp cs b i, block_bodies (Node k sp cs) = true -> others b (Node k sp cs) ->
  (forall j c, nth_error cs j = Some c -> j <> i -> ~ In b (events c)) ->
  forall j c, nth_error cs j = Some c -> j <> i -> both_up c.
Proof.
  intros k sp cs b i Hb Ho Hn j c Hc Hj. assert (Ic : In c cs) by (eapply nth_error_In; eauto).
  cbn [block_bodies] in Hb. apply andb_true_iff in Hb as [_ Hb]. rewrite forallb_forall in Hb.
  apply nonneg_up; [now apply Hb|]. intros e He. apply Ho; [apply events_node; right; eauto|].
  intros ->. exact (Hn j c Hc Hj He).
Qed.
Lemma own_kids : forall k sp cs b, block_bodies (Node k sp cs) = true -> NoDup (events (Node k sp cs)) -> others b (Node k sp cs) ->
  In b (own_events k sp cs) -> Forall both_up cs.
Proof.
  intros k sp cs b Hb Hd Ho Hi. destruct (nodup_node k sp cs Hd) as (D1 & _ & _). apply Forall_forall. intros c Ic.
  apply In_nth_error in Ic as [j Hj]. apply (kids_up k sp cs b (length cs) Hb Ho) with (j := j); [|exact Hj|].
  - intros j0 c0 H0 _ K. apply (D1 b c0 Hi); [eapply nth_error_In; eauto|exact K].
  - apply Nat.lt_neq. apply nth_error_Some. congruence.
Qed.
Lemma weigh_at : forall sp e, nowhere sp = false -> weigh sp e = w e.
Proof. intros sp e H. unfold Ledger.weigh. now rewrite H. Qed.
Lemma weigh_le : forall sp e m, m <= w e -> m <= 0 -> m <= weigh sp e.
Proof. intros sp e m H H0. unfold Ledger.weigh. destruct (nowhere sp); lia. Qed.
Lemma later_up : forall k sp cs b, arity k (length cs) = true -> others b (Node k sp cs) -> (nowhere sp = false -> ~ In b (later_events k sp)) ->
  Forall (fun e => 0 <= weigh sp e) (later_events k sp).
Proof.
  intros k sp cs b Ha Ho Hb. apply Forall_forall. intros e He. unfold Ledger.weigh. destruct (nowhere sp) eqn:Hn; [lia|].
  apply Ho; [apply events_node; left; now apply later_own|]. intros ->. now apply Hb.
Qed.
Lemma first_up : forall k sp cs b, arity k (length cs) = true -> others b (Node k sp cs) -> (nowhere sp = false -> first_event k sp cs <> Some b) ->
  match first_event k sp cs with Some e => 0 <= weigh sp e | None => 0 <= 0 end.
Proof.
  intros k sp cs b Ha Ho Hb. destruct (first_event k sp cs) as [e|] eqn:E; [|lia]. unfold Ledger.weigh. destruct (nowhere sp) eqn:Hn; [lia|].
  apply Ho; [apply events_node; left; now apply first_own|]. intros ->. now apply Hb.
Qed.
Lemma up0 : forall cs, Forall both_up cs -> Forall (up_to 0) cs.
Proof. intros cs H. eapply Forall_impl; [|exact H]. intros t [K _]. exact K. Qed.
(** A list in which one element may lower the sum by one *)
Lemma list_down : forall cs d, In d cs -> NoDup (flat_map events cs) -> Forall (fun c => block_bodies c = true) cs ->
  forall b, In b (events d) -> (forall c, In c cs -> others b c) -> up_to (-1) d ->
  exists n, in_turn (map (fun c => fst (bounds w c)) cs) = Some n /\ -1 <= n.
Proof.
  intros cs d Hd Hn Hb b Ib Ho Hu. destruct (nodup_flat cs Hn) as [_ D]. apply In_nth_error in Hd as [i Hi].
  destruct (spike cs i) as (ms & A & B & C & _).
  { intros j c Hj. destruct (Nat.eqb_spec j i) as [->|Hne]; [now replace c with d by congruence|].
    assert (Ic : In c cs) by (eapply nth_error_In; eauto). rewrite Forall_forall in Hb.
    apply nonneg_up; [now apply Hb|]. intros e He. apply (Ho c Ic e He). intros ->.
    apply Hne. now apply (D j i c d b). }
  destruct (turn_sum ms cs A B) as (n & E & L). exists n. split; [exact E|lia].
Qed.
Lemma others_kid : forall k sp cs b c, others b (Node k sp cs) -> In c cs -> others b c.
Proof. intros k sp cs b c H Hc e He. apply H, events_node. eauto. Qed.
Lemma bodies_kid : forall k sp cs c, block_bodies (Node k sp cs) = true -> In c cs -> block_bodies c = true.
Proof. intros k sp cs c H Hc. cbn [block_bodies] in H. apply andb_true_iff in H as [_ H]. rewrite forallb_forall in H. auto. Qed.
Lemma nodup_list : forall k sp cs, NoDup (events (Node k sp cs)) -> NoDup (flat_map events cs).
Proof.
  intros k sp cs H. apply (Permutation_NoDup (events_perm k sp cs)) in H. now apply nodup_app in H as (_ & H & _).
Qed.
Lemma decl_bound : forall vk sp lsp ds, bound (Node (KVarDecl vk) sp [Node KList lsp ds]) = in_turn (map (fun c => fst (bounds w c)) ds).
Proof. reflexivity. Qed.

Lemma leads_up : forall b t, leads b t -> block_bodies t = true -> NoDup (events t) -> others b t -> -1 <= w b -> up_to (-1) t.
Proof.
  intros b t H. induction H as [k sp cs e Ha Hn He|k sp cs e Ha Hn He|k sp cs i c e Ha Hoc Hc Hl IH|vk sp lsp d ds e Hd Hl IH]; intros Hb Hd' Ho Hw.
  - assert (Ie : In e (own_events k sp cs)) by now apply first_own.
    destruct (flat_ms cs (up0 cs (own_kids k sp cs e Hb Hd' Ho Ie))) as (ms & A & B & C & D).
    eapply up_le; [apply (flow_bound k sp cs ms (-1) 0 Ha A B)|lia]; [eauto|lia| |].
    + apply (later_up k sp cs e Ha Ho). intros _ K. now apply (first_later k sp cs e e He K).
    + rewrite He. apply weigh_le; lia.
  - assert (Ie : In e (own_events k sp cs)) by now apply later_own.
    destruct (flat_ms cs (up0 cs (own_kids k sp cs e Hb Hd' Ho Ie))) as (ms & A & B & C & D).
    eapply up_le; [apply (flow_bound k sp cs ms 0 (-1) Ha A B)|lia]; [eauto|lia| |].
    + apply Forall_forall. intros e' He'. apply weigh_le; [|lia]. destruct (event_dec e' e) as [->|Hne]; [lia|].
      assert (0 <= w e'); [|lia]. apply Ho; [|exact Hne]. apply events_node. left. now apply later_own.
    + apply (first_up k sp cs e Ha Ho). intros _ K. now apply (first_later k sp cs e e K He).
  - destruct (nodup_node k sp cs Hd') as (D1 & D2 & D3). pose proof (leads_in e c Hl) as Ie.
    assert (Ic : In c cs) by (eapply nth_error_In; eauto).
    destruct (spike cs i) as (ms & A & B & C & D).
    { intros j c0 Hj. destruct (Nat.eqb_spec j i) as [->|Hne].
      - replace c0 with c by congruence. apply IH; [eapply bodies_kid; eauto|now apply D2|eapply others_kid; eauto|exact Hw].
      - apply (kids_up k sp cs e i Hb Ho) with (j := j); [|exact Hj|exact Hne].
        intros j0 c1 H0 Hne0 K. apply Hne0. now apply (D3 j0 i c1 c e). }
    eapply up_le; [apply (flow_bound k sp cs ms 0 0 Ha A B)|lia]; [|lia| |].
    + intros j m Hof Hj. apply (D j m Hj). intros ->. congruence.
    + apply (later_up k sp cs e Ha Ho). intros Hn K. apply (D1 e c); [now apply later_own|exact Ic|exact Ie].
    + apply (first_up k sp cs e Ha Ho). intros Hn K. apply (D1 e c); [now apply first_own|exact Ic|exact Ie].
  - unfold up_to. rewrite decl_bound. assert (Il : In (Node KList lsp ds) [Node KList lsp ds]) by (left; reflexivity).
    destruct (nodup_node _ _ _ Hd') as (_ & D2 & _). pose proof (D2 _ Il) as Dl. destruct (nodup_node _ _ _ Dl) as (_ & D3 & _).
    pose proof (bodies_kid _ _ _ _ Hb Il) as Bl. pose proof (others_kid _ _ _ _ _ Ho Il) as Ol.
    apply (list_down ds d Hd (nodup_list _ _ _ Dl)) with (b := e).
    + apply Forall_forall. intros c Hc. eapply bodies_kid; eauto.
    + now apply leads_in.
    + intros c Hc. eapply others_kid; eauto.
    + apply IH; [eapply bodies_kid; eauto|now apply D3|eapply others_kid; eauto|exact Hw].
Qed.
Lemma in_turn_cons : forall c cs a b, up_to a c -> (exists n, in_turn (map (fun c => fst (bounds w c)) cs) = Some n /\ b <= n) ->
  exists n, in_turn (map (fun c => fst (bounds w c)) (c :: cs)) = Some n /\ Z.min a (a + b) <= n.
Proof.
  intros c cs a b (x & Ex & Lx) (y & Ey & Ly). cbn [map in_turn]. unfold Ledger.bound in Ex. rewrite Ex, Ey.
  eexists. split; [reflexivity|lia].
Qed.
Lemma starts_bound : forall k sp c cs m, starts k = true -> arity k (length (c :: cs)) = true ->
  (exists n, in_turn (map (fun c => fst (bounds w c)) (c :: cs)) = Some n /\ m <= n) -> up_to m (Node k sp (c :: cs)).
Proof.
  intros k sp c cs m Hs Ha (n & E & L). unfold up_to, Ledger.bound. cbn [bounds fst].
  assert (S1 : cs = [] -> up_to m c).
  { intros ->. cbn [map in_turn] in E. unfold up_to, Ledger.bound. destruct (fst (bounds w c)) as [a|]; [|discriminate].
    inversion E; subst. exists a. split; [reflexivity|lia]. }
  destruct k; try discriminate Hs; cbn [bound_of]; try (exists n; split; assumption);
    (apply Nat.eqb_eq in Ha; destruct cs; [|discriminate Ha]; exact (S1 eq_refl)).
Qed.
Lemma opens_up : forall g t, opens g t -> block_bodies t = true -> nonneg (events t) -> up_to (w g) t.
Proof.
  intros g t H. induction H as [k sp cs e Ha Hn He|k sp c cs e Hs Ha H IH|vk sp lsp d ds e H IH]; intros Hb Hp.
  - assert (K : Forall both_up cs).
    { apply Forall_forall. intros c Hc. apply nonneg_up; [eapply bodies_kid; eauto|]. intros e' He'. apply Hp, events_node. eauto. }
    destruct (flat_ms cs (up0 cs K)) as (ms & A & B & C & D).
    eapply up_le; [apply (flow_bound k sp cs ms (w e) 0 Ha A B)|lia]; [eauto|lia| |].
    + apply Forall_forall. intros e' He'. unfold Ledger.weigh. rewrite Hn. apply Hp, events_node. left. now apply later_own.
    + rewrite He, weigh_at; [lia|exact Hn].
  - apply starts_bound; [exact Hs|exact Ha|].
    assert (0 <= w e) by (apply Hp, opens_in; now constructor).
    destruct (in_turn_cons c cs (w e) 0) as (n & E & L).
    + apply IH; [eapply bodies_kid; [exact Hb|left; reflexivity]|]. intros e' He'. apply Hp, events_node. right. exists c. split; [left; reflexivity|exact He'].
    + apply turn_up. apply up0. apply Forall_forall. intros x Hx. apply nonneg_up; [eapply bodies_kid; [exact Hb|right; exact Hx]|].
      intros e' He'. apply Hp, events_node. right. exists x. split; [right; exact Hx|exact He'].
    + exists n. split; [exact E|lia].
  - unfold up_to. rewrite decl_bound. assert (0 <= w e) by (apply Hp, opens_in; now constructor).
    assert (Il : In (Node KList lsp (d :: ds)) [Node KList lsp (d :: ds)]) by (left; reflexivity).
    pose proof (bodies_kid _ _ _ _ Hb Il) as Bl.
    assert (Pl : nonneg (events (Node KList lsp (d :: ds)))) by (intros e' He'; apply Hp, events_node; right; eauto).
    destruct (in_turn_cons d ds (w e) 0) as (n & E & L).
    + apply IH; [eapply bodies_kid; [exact Bl|left; reflexivity]|]. intros e' He'. apply Pl, events_node. right. exists d. split; [left; reflexivity|exact He'].
    + apply turn_up. apply up0. apply Forall_forall. intros x Hx. apply nonneg_up; [eapply bodies_kid; [exact Bl|right; exact Hx]|].
      intros e' He'. apply Pl, events_node. right. exists x. split; [right; exact Hx|exact He'].
    + exists n. split; [exact E|lia].
Qed.

(** Two elements of a list: the first raises the sum, the other one may lower it. *)
Lemma tail_down : forall c cs d b, In d cs -> NoDup (flat_map events (c :: cs)) -> Forall (fun c => block_bodies c = true) (c :: cs) ->
  In b (events d) -> (forall x, In x (c :: cs) -> others b x) -> up_to (-1) d -> up_to 1 c ->
  exists n, in_turn (map (fun c => fst (bounds w c)) (c :: cs)) = Some n /\ 0 <= n.
Proof.
  intros c cs d b Hd Hn Hb Ib Ho Hu Hc. destruct (in_turn_cons c cs 1 (-1) Hc) as (n & E & L).
  - cbn [flat_map] in Hn. apply nodup_app in Hn as (_ & Hn & _).
    apply (list_down cs d Hd Hn) with (b := b); auto; [now inversion Hb|]. intros x Hx. apply Ho. right. exact Hx.
  - exists n. split; [exact E|lia].
Qed.
Lemma apart_up : forall c cs d b, In d cs -> NoDup (flat_map events (c :: cs)) -> block_bodies c = true -> In b (events d) ->
  others b c -> nonneg (events c).
Proof.
  intros c cs d b Hd Hn Hb Ib Ho e He. apply Ho; [exact He|]. intros ->. cbn [flat_map] in Hn. apply nodup_app in Hn as (_ & _ & Hn).
  apply (Hn b He). apply in_flat_map. eauto.
Qed.
Lemma head_up : forall c cs b, NoDup (flat_map events (c :: cs)) -> Forall (fun c => block_bodies c = true) cs -> In b (events c) ->
  (forall x, In x cs -> others b x) -> up_to 0 c -> exists n, in_turn (map (fun c => fst (bounds w c)) (c :: cs)) = Some n /\ 0 <= n.
Proof.
  intros c cs b Hn Hb Ib Ho Hu. destruct (in_turn_cons c cs 0 0 Hu) as (n & E & L).
  - apply turn_up, up0, Forall_forall. intros x Hx. rewrite Forall_forall in Hb. apply nonneg_up; [now apply Hb|].
    intros e He. apply (Ho x Hx e He). intros ->. cbn [flat_map] in Hn. apply nodup_app in Hn as (_ & _ & Hn).
    apply (Hn b Ib). apply in_flat_map. eauto.
  - exists n. split; [exact E|lia].
Qed.
Lemma within_up : forall g t, opens g t -> forall b, leads b t -> g <> b -> block_bodies t = true -> NoDup (events t) -> others b t ->
  1 <= w g -> -1 <= w b -> up_to 0 t.
Proof.
  intros g t H. induction H as [k sp cs g Ha Hn Hg|k sp c cs g Hs Ha H IH|vk sp lsp d ds g H IH]; intros b Hl Hne Hb Hd Ho Wg Wb.
  - assert (Kb : forall c, In c cs -> block_bodies c = true) by (intros c Hc; eapply bodies_kid; eauto).
    destruct (nodup_node k sp cs Hd) as (D1 & D2 & D3).
    inversion Hl as [k1 sp1 cs1 e1 A1 A2 A3|k1 sp1 cs1 e1 A1 A2 A3|k1 sp1 cs1 i c e1 A1 A2 A3 A4|vk1 sp1 lsp1 d1 ds1 e1 A1 A2]; subst.
    + congruence.
    + assert (Ie : In b (own_events k sp cs)) by now apply later_own.
      destruct (flat_ms cs (up0 cs (own_kids k sp cs b Hb Hd Ho Ie))) as (ms & A & B & C & D).
      eapply up_le; [apply (flow_bound k sp cs ms 1 (-1) Ha A B)|lia]; [eauto|lia| |].
      * apply Forall_forall. intros e' He'. apply weigh_le; [|lia]. destruct (event_dec e' b) as [->|Hx]; [lia|].
        assert (0 <= w e'); [|lia]. apply Ho; [|exact Hx]. apply events_node. left. now apply later_own.
      * rewrite Hg, weigh_at; [lia|exact Hn].
    + pose proof (leads_in b c A4) as Ie. assert (Ic : In c cs) by (eapply nth_error_In; eauto).
      destruct (spike cs i) as (ms & A & B & C & D).
      { intros j c0 Hj. destruct (Nat.eqb_spec j i) as [->|Hx].
        - replace c0 with c by congruence. apply (leads_up b c A4); [now apply Kb|now apply D2|eapply others_kid; eauto|exact Wb].
        - apply (kids_up k sp cs b i Hb Ho) with (j := j); [|exact Hj|exact Hx].
          intros j0 c1 H0 Hx0 K. apply Hx0. now apply (D3 j0 i c1 c b). }
      eapply up_le; [apply (flow_bound k sp cs ms 1 0 Ha A B)|lia]; [|lia| |].
      * intros j m Hof Hj. apply (D j m Hj). intros ->. congruence.
      * apply (later_up k sp cs b Ha Ho). intros _ K. apply (D1 b c); [now apply later_own|exact Ic|exact Ie].
      * rewrite Hg, weigh_at; [lia|exact Hn].
    + discriminate Hg.
  - pose proof (nodup_list _ _ _ Hd) as Dl. destruct (nodup_node k sp (c :: cs) Hd) as (_ & D2 & _).
    assert (Kb : Forall (fun c => block_bodies c = true) (c :: cs)) by (apply Forall_forall; intros x Hx; eapply bodies_kid; eauto).
    assert (Ko : forall x, In x (c :: cs) -> others b x) by (intros x Hx; eapply others_kid; eauto).
    apply starts_bound; [exact Hs|exact Ha|].
    inversion Hl as [k1 sp1 cs1 e1 A1 A2 A3|k1 sp1 cs1 e1 A1 A2 A3|k1 sp1 cs1 i c1 e1 A1 A2 A3 A4|vk1 sp1 lsp1 d1 ds1 e1 A1 A2]; subst.
    + exfalso. destruct k; discriminate.
    + exfalso. destruct k; try discriminate; contradiction.
    + pose proof (leads_in b c1 A4) as Ie. destruct i as [|i].
      * inversion A3; subst c1. apply (head_up c cs b Dl); [now inversion Kb|exact Ie|intros x Hx; apply Ko; right; exact Hx|].
        apply (IH b A4 Hne); auto; [now inversion Kb|apply D2; left; reflexivity|apply Ko; left; reflexivity].
      * cbn [nth_error] in A3. apply nth_error_In in A3.
        apply (tail_down c cs c1 b A3 Dl Kb Ie Ko).
        -- apply (leads_up b c1 A4); [rewrite Forall_forall in Kb; apply Kb; right; exact A3|apply D2; right; exact A3|apply Ko; right; exact A3|exact Wb].
        -- eapply up_le; [apply (opens_up g c H)|exact Wg]; [now inversion Kb|].
           apply (apart_up c cs c1 b A3 Dl); [now inversion Kb|exact Ie|apply Ko; left; reflexivity].
    + discriminate Hs.
  - assert (Il : In (Node KList lsp (d :: ds)) [Node KList lsp (d :: ds)]) by (left; reflexivity).
    destruct (nodup_node _ _ _ Hd) as (_ & D0 & _). pose proof (D0 _ Il) as Dk. pose proof (nodup_list _ _ _ Dk) as Dl.
    destruct (nodup_node _ _ _ Dk) as (_ & D2 & _).
    pose proof (bodies_kid _ _ _ _ Hb Il) as Bl. pose proof (others_kid _ _ _ _ _ Ho Il) as Ol.
    assert (Kb : Forall (fun c => block_bodies c = true) (d :: ds)) by (apply Forall_forall; intros x Hx; eapply bodies_kid; eauto).
    assert (Ko : forall x, In x (d :: ds) -> others b x) by (intros x Hx; eapply others_kid; eauto).
    unfold up_to. rewrite decl_bound.
    inversion Hl as [k1 sp1 cs1 e1 A1 A2 A3|k1 sp1 cs1 e1 A1 A2 A3|k1 sp1 cs1 i c1 e1 A1 A2 A3 A4|vk1 sp1 lsp1 d1 ds1 e1 A1 A2]; subst.
    + discriminate A3.
    + contradiction A3.
    + discriminate A1.
    + pose proof (leads_in b d1 A2) as Ie. destruct A1 as [<-|A1].
      * apply (head_up d ds b Dl); [now inversion Kb|exact Ie|intros x Hx; apply Ko; right; exact Hx|].
        apply (IH b A2 Hne); auto; [now inversion Kb|apply D2; left; reflexivity|apply Ko; left; reflexivity].
      * apply (tail_down d ds d1 b A1 Dl Kb Ie Ko).
        -- apply (leads_up b d1 A2); [rewrite Forall_forall in Kb; apply Kb; right; exact A1|apply D2; right; exact A1|apply Ko; right; exact A1|exact Wb].
        -- eapply up_le; [apply (opens_up g d H)|exact Wg]; [now inversion Kb|].
           apply (apart_up d ds d1 b A1 Dl); [now inversion Kb|exact Ie|apply Ko; left; reflexivity].
Qed.

Lemma turn_app : forall pre cs, Forall (up_to 0) pre -> (exists n, in_turn (map (fun c => fst (bounds w c)) cs) = Some n /\ 0 <= n) ->
  exists n, in_turn (map (fun c => fst (bounds w c)) (pre ++ cs)) = Some n /\ 0 <= n.
Proof.
  intros pre cs H K. induction H as [|c pre Hc _ IH]; [exact K|].
  destruct (in_turn_cons c (pre ++ cs) 0 0 Hc IH) as (n & E & L). exists n. split; [exact E|lia].
Qed.
Lemma follows_in : forall b g t, follows b g t -> In b (events t).
Proof.
  assert (L : forall b c k sp cs, leads b c -> In c cs -> In b (events (Node k sp cs))).
  { intros b c k sp cs H Hc. apply events_node. right. exists c. split; [exact Hc|now apply leads_in]. }
  intros b g t H. destruct H; try (eapply L; [eassumption|cbn; tauto]).
  - now apply leads_in.
  - eapply L; [eassumption|]. apply in_app_iff. right. right. apply in_app_iff. right. left. reflexivity.
  - apply events_node. left. apply in_app_iff. right. rewrite H0. apply posed_in; [exact H1|]. left. reflexivity.
Qed.
Lemma follows_through : forall b g t, follows b g t -> In g (events t).
Proof.
  assert (G : forall g k sp cs, nowhere sp = false -> In g (map fst (own_sites k sp cs)) -> In g (events (Node k sp cs))).
  { intros g k sp cs Hn Hg. apply events_node. left. apply in_app_iff. left. now apply posed_in. }
  intros b g t H. destruct H; try (apply G; [assumption|cbn; tauto]).
  - now apply opens_in.
  - apply events_node. right. exists x. split; [apply in_app_iff; right; left; reflexivity|now apply opens_in].
  - apply G; [assumption|]. cbn [own_sites]. rewrite H. cbn. tauto.
Qed.

(** One child may lower the sum by one, everything else does not. *)
Lemma one_kid : forall k sp cs i c b, nth_error cs i = Some c -> leads b c -> block_bodies (Node k sp cs) = true ->
  NoDup (events (Node k sp cs)) -> others b (Node k sp cs) -> -1 <= w b ->
  (forall j c', nth_error cs j = Some c' -> up_to (if Nat.eqb j i then -1 else 0) c') /\ nonneg (own_events k sp cs).
Proof.
  intros k sp cs i c b Hc Hl Hb Hd Ho Wb. destruct (nodup_node k sp cs Hd) as (D1 & D2 & D3).
  pose proof (leads_in b c Hl) as Ie. assert (Ic : In c cs) by (eapply nth_error_In; eauto). split.
  - intros j c' Hj. destruct (Nat.eqb_spec j i) as [->|Hx].
    + replace c' with c by congruence. apply (leads_up b c Hl); [eapply bodies_kid; eauto|now apply D2|eapply others_kid; eauto|exact Wb].
    + apply (kids_up k sp cs b i Hb Ho) with (j := j); [|exact Hj|exact Hx].
      intros j0 c1 H0 Hx0 K. apply Hx0. now apply (D3 j0 i c1 c b).
  - intros e He. apply Ho; [apply events_node; auto|]. intros ->. exact (D1 b c He Ic Ie).
Qed.
Lemma own_weigh : forall k sp cs e, nonneg (own_events k sp cs) -> In e (map fst (own_sites k sp cs)) -> 0 <= weigh sp e.
Proof.
  intros k sp cs e H He. unfold own_events in H. apply nonneg_app in H as [H _]. exact (weigh_nonneg sp _ e H He).
Qed.
Definition plain_list (t : node) : Prop := match t with Node KList _ _ => False | _ => True end.
Lemma follows_plain : forall b g t, follows b g t -> plain_list t.
Proof.
  intros b g t H. destruct H as [b g t H _ _|k sp pre x mid y post b g H _ _| | | | | | | | | | |]; try exact I.
  - destruct H as [k sp cs e Ha _ _|k sp c cs e Hs _ _|]; [| |exact I]; destruct k; try exact I; discriminate.
  - destruct k; try exact I; discriminate.
Qed.
Lemma plain_both : forall t, plain_list t -> up_to 0 t -> both_up t.
Proof.
  intros [k sp cs] H U. split; [exact U|]. destruct U as (n & E & L). exists n. split; [|exact L]. unfold Ledger.bound in E.
  cbn [bounds fst snd] in *. destruct k; try exact E. destruct H.
Qed.

Ltac kid K j := let n := fresh "n" in let E := fresh "E" in let L := fresh "L" in
  destruct (K j _ eq_refl) as (n & E & L); cbn [Nat.eqb] in L; unfold Ledger.bound in E.
Lemma follows_up : forall b g t, follows b g t -> block_bodies t = true -> NoDup (events t) -> others b t -> 1 <= w g -> -1 <= w b -> up_to 0 t.
Proof.
  intros b g t H Hb Hd Ho Wg Wb. destruct H as
    [b g t H1 H2 Hne|k sp pre x mid y post b g Hk Hx Hy|sp p ds body ty b Hn Hbd Hl|sp p body ty b Hn Hl|sp p body ty Hn He Hn2
    |sp k0 ty body b Hn Hbd Hl|sp k0 ty p body b Hn Hbd Hl|sp t c a b Hn Hl|sp t c a b Hn Hl|sp t c a b Hn Hl|sp t c a b Hn Hl
    |op sp x y b Hop Hn Hl|sp t body b Hn Hl].
  - eapply within_up; eauto.
  - set (cs := pre ++ x :: mid ++ y :: post) in *.
    assert (Iy : In y cs) by (apply in_app_iff; right; right; apply in_app_iff; right; left; reflexivity).
    assert (Ix : In x cs) by (apply in_app_iff; right; left; reflexivity).
    destruct (nodup_node k sp cs Hd) as (_ & D2 & _). pose proof (nodup_list k sp cs Hd) as Dl. pose proof (leads_in b y Hy) as Ib.
    assert (Kb : forall c, In c cs -> block_bodies c = true) by (intros c Hc; eapply bodies_kid; eauto).
    assert (Ko : forall c, In c cs -> others b c) by (intros c Hc; eapply others_kid; eauto).
    assert (T : exists n, in_turn (map (fun c => fst (bounds w c)) cs) = Some n /\ 0 <= n).
    { unfold cs in Dl. rewrite flat_map_app in Dl. apply nodup_app in Dl as (_ & Dr & Dx). unfold cs. apply turn_app.
      - apply Forall_forall. intros c Hc. assert (Ic : In c cs) by (apply in_app_iff; auto).
        apply nonneg_up; [now apply Kb|]. intros e He. apply (Ko c Ic e He). intros ->.
        apply (Dx b); [apply in_flat_map; eauto|]. apply in_flat_map. exists y. split; [right; apply in_app_iff; right; left; reflexivity|exact Ib].
      - assert (S : forall c, In c (x :: mid ++ y :: post) -> In c cs) by (intros c Hc; apply in_app_iff; auto).
        apply (tail_down x (mid ++ y :: post) y b); auto.
        + apply in_app_iff. right. left. reflexivity.
        + apply Forall_forall. auto.
        + apply (leads_up b y Hy); auto.
        + eapply up_le; [apply (opens_up g x Hx)|exact Wg]; [now apply Kb|].
          apply (apart_up x (mid ++ y :: post) y b); auto. apply in_app_iff. right. left. reflexivity. }
    destruct T as (n & E & L). exists n. split; [|exact L]. unfold Ledger.bound. cbn [bounds fst]. destruct k; try discriminate; exact E.
  - destruct (one_kid KFunction sp [p; ds; body; ty] 2 body b eq_refl Hl Hb Hd Ho Wb) as [K O]. kid K 0%nat. kid K 2%nat.
    unfold up_to, Ledger.bound. cbn [bounds fst bound_of map]. has_bounds. unfold fn_bound. rewrite Hbd, weigh_at by exact Hn. finish.
  - destruct (one_kid KArrow sp [p; body; ty] 1 body b eq_refl Hl Hb Hd Ho Wb) as [K O]. kid K 0%nat. kid K 1%nat. kid K 2%nat.
    unfold up_to, Ledger.bound. cbn [bounds fst bound_of map]. has_bounds. unfold fn_bound. rewrite weigh_at by exact Hn.
    unfold own_events in O. apply nonneg_app in O as [_ O].
    destruct (is_expr body); [|finish].
    assert (0 <= weigh (nspan body) (EStmt (nspan body))) by (apply (weigh_nonneg _ _ _ O); cbn; tauto). finish.
  - assert (Io : In (EStmt (nspan body)) (own_events KArrow sp [p; body; ty])).
    { apply in_app_iff. right. rewrite He. apply posed_in; [exact Hn2|]. left. reflexivity. }
    pose proof (own_kids _ _ _ _ Hb Hd Ho Io) as K. ups.
    unfold up_to, Ledger.bound. cbn [bounds fst bound_of map]. has_bounds. unfold fn_bound. rewrite He, !weigh_at by assumption. finish.
  - destruct (one_kid KGetter sp [k0; ty; body] 2 body b eq_refl Hl Hb Hd Ho Wb) as [K O]. kid K 0%nat. kid K 1%nat. kid K 2%nat.
    unfold up_to, Ledger.bound. cbn [bounds fst bound_of map]. has_bounds. unfold fn_bound. rewrite Hbd, weigh_at by exact Hn. finish.
  - destruct (one_kid KSetter sp [k0; ty; p; body] 3 body b eq_refl Hl Hb Hd Ho Wb) as [K O]. kid K 0%nat. kid K 1%nat. kid K 2%nat. kid K 3%nat.
    unfold up_to, Ledger.bound. cbn [bounds fst bound_of map]. has_bounds. unfold fn_bound. rewrite Hbd, weigh_at by exact Hn. finish.
  - destruct (one_kid KIf sp [t; c; a] 1 c b eq_refl Hl Hb Hd Ho Wb) as [K O]. kid K 0%nat. kid K 1%nat. kid K 2%nat.
    assert (0 <= weigh sp (EStmt sp)) by (apply (own_weigh _ _ _ _ O); cbn; tauto).
    assert (0 <= weigh sp (EArm sp true)) by (apply (own_weigh _ _ _ _ O); cbn; tauto).
    unfold up_to, Ledger.bound. cbn [bounds fst bound_of map]. has_bounds. rewrite (weigh_at sp (EArm sp false)) by exact Hn. finish.
  - destruct (one_kid KIf sp [t; c; a] 2 a b eq_refl Hl Hb Hd Ho Wb) as [K O]. kid K 0%nat. kid K 1%nat. kid K 2%nat.
    assert (0 <= weigh sp (EStmt sp)) by (apply (own_weigh _ _ _ _ O); cbn; tauto).
    assert (0 <= weigh sp (EArm sp false)) by (apply (own_weigh _ _ _ _ O); cbn; tauto).
    unfold up_to, Ledger.bound. cbn [bounds fst bound_of map]. has_bounds. rewrite (weigh_at sp (EArm sp true)) by exact Hn. finish.
  - destruct (one_kid KCond sp [t; c; a] 1 c b eq_refl Hl Hb Hd Ho Wb) as [K O]. kid K 0%nat. kid K 1%nat. kid K 2%nat.
    assert (0 <= weigh sp (ECond sp true)) by (apply (own_weigh _ _ _ _ O); cbn; tauto).
    unfold up_to, Ledger.bound. cbn [bounds fst bound_of map]. has_bounds. rewrite (weigh_at sp (ECond sp false)) by exact Hn. finish.
  - destruct (one_kid KCond sp [t; c; a] 2 a b eq_refl Hl Hb Hd Ho Wb) as [K O]. kid K 0%nat. kid K 1%nat. kid K 2%nat.
    assert (0 <= weigh sp (ECond sp false)) by (apply (own_weigh _ _ _ _ O); cbn; tauto).
    unfold up_to, Ledger.bound. cbn [bounds fst bound_of map]. has_bounds. rewrite (weigh_at sp (ECond sp true)) by exact Hn. finish.
  - destruct (one_kid (KBin op) sp [x; y] 1 y b eq_refl Hl Hb Hd Ho Wb) as [K O]. kid K 0%nat. kid K 1%nat.
    assert (0 <= weigh sp (EOper sp false)) by (apply (own_weigh _ _ _ _ O); cbn; rewrite Hop; cbn; tauto).
    unfold up_to, Ledger.bound. cbn [bounds fst bound_of map]. rewrite Hop. has_bounds. rewrite (weigh_at sp (EOper sp true)) by exact Hn. finish.
  - destruct (one_kid KSwitchCase sp [t; body] 1 body b eq_refl Hl Hb Hd Ho Wb) as [K O]. kid K 0%nat. kid K 1%nat.
    unfold up_to, Ledger.bound. cbn [bounds fst bound_of map]. has_bounds. rewrite (weigh_at sp (ECase sp)) by exact Hn. finish.
Qed.

(** A node is fine in the whole if everything outside it is. *)
Lemma part_up : forall u t, part u t -> both_up u -> block_bodies t = true -> NoDup (events t) ->
  (forall e, In e (events t) -> ~ In e (events u) -> 0 <= w e) -> both_up t.
Proof.
  intros u t H U. induction H as [|k sp cs c Hc Hp IH]; intros Hb Hd Ho; [exact U|].
  destruct (nodup_node k sp cs Hd) as (D1 & D2 & D3).
  assert (S : forall e, In e (events u) -> In e (events c)).
  { clear - w Hp. induction Hp as [|k sp cs c Hc _ IH]; intros e He; [exact He|]. apply events_node. right. eauto. }
  apply node_up.
  - intros e He. apply Ho; [apply events_node; auto|]. intros K. exact (D1 e c He Hc (S e K)).
  - cbn [block_bodies] in Hb. now apply andb_true_iff in Hb as [Hb _].
  - apply In_nth_error in Hc as [i Hi]. apply Forall_forall. intros d Id. apply In_nth_error in Id as [j Hj].
    assert (Bd : block_bodies d = true) by (eapply bodies_kid; [exact Hb|eapply nth_error_In; eauto]).
    destruct (Nat.eq_dec j i) as [->|Hx].
    + replace d with c in * by congruence. apply IH; [exact Bd|eapply D2, nth_error_In; eauto|].
      intros e He Hu. apply Ho; [|exact Hu]. apply events_node. right. exists c. split; [eapply nth_error_In; eauto|exact He].
    + apply nonneg_up; [exact Bd|]. intros e He. apply Ho.
      * apply events_node. right. exists d. split; [eapply nth_error_In; eauto|exact He].
      * intros K. apply Hx. exact (D3 j i d c e Hj Hi He (S e K)).
Qed.

(** An if statement takes one of its two ways, or none. *)
Lemma if_up : forall sp t c a, block_bodies (Node KIf sp [t; c; a]) = true -> NoDup (events (Node KIf sp [t; c; a])) ->
  (forall e, In e (events (Node KIf sp [t; c; a])) -> ~ In e [EArm sp false; EArm sp true] -> 0 <= w e) ->
  nowhere sp = false -> 1 <= w (EStmt sp) -> -1 <= w (EArm sp false) -> -1 <= w (EArm sp true) -> up_to 0 (Node KIf sp [t; c; a]).
Proof.
  intros sp t c a Hb Hd Ho Hn W1 W2 W3. destruct (nodup_node _ _ _ Hd) as (D1 & D2 & D3).
  assert (F : Forall both_up [t; c; a]).
  { apply Forall_forall. intros d Id. apply nonneg_up; [eapply bodies_kid; eauto|]. intros e He. apply Ho.
    - apply events_node. eauto.
    - intros K. apply (D1 e d); auto. apply in_app_iff. left. apply posed_in; [exact Hn|]. cbn. destruct K as [<-|[<-|[]]]; tauto. }
  ups. unfold up_to, Ledger.bound. cbn [bounds fst bound_of map]. has_bounds. rewrite !weigh_at by exact Hn. finish.
Qed.
End Weights.

(** ** Counting *)
(** +1 for the events of the first list, -1 for those of the second *)
Definition balance (gs bs : list event) (e : event) : Z :=
  Z.of_nat (count_occ event_dec gs e) - Z.of_nat (count_occ event_dec bs e).
Definition times (log : list event) (e : event) : nat := count_occ event_dec log e.
Lemma balance_total : forall g bs log, total (balance [g] bs) log =
  Z.of_nat (times log g) - fold_right (fun b n => Z.of_nat (times log b) + n) 0 bs.
Proof.
  intros g bs. induction log as [|e log IH].
  - assert (E : fold_right (fun b n => Z.of_nat (times [] b) + n) 0 bs = 0).
    { induction bs as [|b bs IH]; [reflexivity|]. cbn [fold_right]. rewrite IH. reflexivity. }
    rewrite E. reflexivity.
  - unfold total in *. cbn [fold_right]. rewrite IH. clear IH. unfold balance.
    assert (A : forall x, Z.of_nat (times (e :: log) x) = Z.of_nat (times log x) + Z.of_nat (count_occ event_dec [x] e)).
    { intros x. unfold times. cbn. destruct (event_dec e x), (event_dec x e); try congruence; lia. }
    rewrite A.
    assert (B : fold_right (fun b n => Z.of_nat (times (e :: log) b) + n) 0 bs =
      fold_right (fun b n => Z.of_nat (times log b) + n) 0 bs + Z.of_nat (count_occ event_dec bs e)).
    { induction bs as [|b bs IH]; [reflexivity|]. cbn [fold_right]. rewrite IH, A. cbn. destruct (event_dec b e); lia. }
    rewrite B. lia.
Qed.

(** [fits t log]: the counts of the events of the program [t] in [log] agree with its text. *)
Definition fits (t : node) (log : list event) : Prop :=
  (forall u b g, part u t -> follows b g u -> (times log b <= times log g)%nat) /\
  (forall sp x y z, part (Node KIf sp [x; y; z]) t -> nowhere sp = false ->
     (times log (EArm sp false) + times log (EArm sp true) <= times log (EStmt sp))%nat).

Lemma part_events : forall u t e, part u t -> In e (events u) -> In e (events t).
Proof.
  intros u t e H. induction H as [|k sp cs c Hc _ IH]; intros He; [exact He|].
  apply (events_node (fun _ => 0)). right. eauto.
Qed.
Lemma part_bodies : forall u t, part u t -> block_bodies t = true -> block_bodies u = true.
Proof. intros u t H. induction H as [|k sp cs c Hc _ IH]; intros Hb; [exact Hb|]. apply IH. eapply bodies_kid; eauto. Qed.
Lemma part_nodup : forall u t, part u t -> NoDup (events t) -> NoDup (events u).
Proof.
  intros u t H. induction H as [|k sp cs c Hc _ IH]; intros Hd; [exact Hd|]. apply IH.
  destruct (nodup_node k sp cs Hd) as (_ & D & _). now apply D.
Qed.
Lemma follows_differ : forall b g u, follows b g u -> NoDup (events u) -> g <> b.
Proof.
  intros b g u H Hd E.
  assert (O : forall e k sp cs c, nowhere sp = false -> In e (map fst (own_sites k sp cs)) -> In c cs -> leads e c ->
    NoDup (events (Node k sp cs)) -> False).
  { intros e k sp cs c Hn He Hc Hl D. destruct (nodup_node k sp cs D) as (D1 & _ & _). apply (D1 e c); auto.
    - apply in_app_iff. left. now apply posed_in.
    - now apply (leads_in (fun _ => 0)). }
  destruct H; subst; [congruence| |..]; try (eapply O; try eassumption; cbn; tauto).
  - apply nodup_list in Hd. rewrite flat_map_app in Hd. apply nodup_app in Hd as (_ & Hd & _). cbn [flat_map] in Hd.
    apply nodup_app in Hd as (_ & _ & Hd). apply (Hd b); [now apply (opens_in (fun _ => 0))|]. apply in_flat_map. exists y.
    split; [apply in_app_iff; right; left; reflexivity|now apply (leads_in (fun _ => 0))].
  - discriminate E.
  - eapply O; try eassumption; [|right; left; reflexivity]. cbn [own_sites]. rewrite H. cbn. tauto.
Qed.

(** Every run of a program: what is only reached through something else happens at most as often. *)
Theorem run_fits : forall h n t x v, NoDup (events t) -> block_bodies t = true -> fits t (evs h (snd (run_program h n t x v))).
Proof.
  intros h n t x v Hd Hb. split.
  - intros u b g Hp Hf. set (w := balance [g] [b]).
    pose proof (follows_differ b g u Hf (part_nodup u t Hp Hd)) as Hne.
    assert (Wo : forall e, e <> b -> 0 <= w e). { intros e He. unfold w, balance. cbn. destruct (event_dec b e); [congruence|]. lia. }
    assert (Wg : 1 <= w g). { unfold w, balance. cbn. destruct (event_dec g g), (event_dec b g); try congruence. lia. }
    assert (Wb : -1 <= w b). { unfold w, balance. cbn. destruct (event_dec g b), (event_dec b b); try congruence; lia. }
    assert (U : both_up w u).
    { apply plain_both; [eapply follows_plain; eauto|].
      apply (follows_up w b g u Hf); auto; [eapply part_bodies; eauto|eapply part_nodup; eauto|]. intros e _ He. now apply Wo. }
    assert (T : both_up w t).
    { apply (part_up w u t Hp U Hb Hd). intros e _ He. apply Wo. intros ->. apply He. eapply follows_in; eauto. }
    pose proof (run_bounded w h n t x v (proj1 T)) as R. unfold w in R. rewrite balance_total in R. cbn [fold_right] in R. lia.
  - intros sp a c d Hp Hn. set (w := balance [EStmt sp] [EArm sp false; EArm sp true]).
    assert (Wo : forall e, ~ In e [EArm sp false; EArm sp true] -> 0 <= w e).
    { intros e He. unfold w, balance. rewrite (proj1 (count_occ_not_In event_dec [EArm sp false; EArm sp true] e) He). lia. }
    assert (N1 : EArm sp false <> EArm sp true) by (intros K; inversion K).
    assert (W : 1 <= w (EStmt sp) /\ -1 <= w (EArm sp false) /\ -1 <= w (EArm sp true)).
    { unfold w, balance. cbn [count_occ].
      repeat match goal with |- context [event_dec ?a ?b] => destruct (event_dec a b); try congruence end; lia. }
    destruct W as (W1 & W2 & W3).
    assert (U : both_up w (Node KIf sp [a; c; d])).
    { apply plain_both; [exact I|]. apply if_up; auto; [eapply part_bodies; eauto|eapply part_nodup; eauto]. }
    assert (T : both_up w t).
    { apply (part_up w _ t Hp U Hb Hd). intros e _ He. apply Wo. intros K. apply He. apply (events_node (fun _ => 0)). left.
      apply in_app_iff. left. apply posed_in; [exact Hn|]. cbn. destruct K as [<-|[<-|[]]]; tauto. }
    pose proof (run_bounded w h n t x v (proj1 T)) as R. unfold w in R. rewrite balance_total in R. cbn [fold_right] in R. lia.
Qed.
Lemma times_app : forall a b e, times (a ++ b) e = (times a e + times b e)%nat.
Proof. intros a b e. unfold times. now rewrite count_occ_app. Qed.
Lemma fits_app : forall t a b, fits t a -> fits t b -> fits t (a ++ b).
Proof.
  intros t a b [A1 A2] [B1 B2]. split.
  - intros u x g Hp Hf. rewrite !times_app. specialize (A1 u x g Hp Hf). specialize (B1 u x g Hp Hf). lia.
  - intros sp x y z Hp Hn. rewrite !times_app. specialize (A2 sp x y z Hp Hn). specialize (B2 sp x y z Hp Hn). lia.
Qed.
Lemma fits_nil : forall t, fits t [].
Proof. intros t. split; intros; cbn; lia. Qed.
Lemma fits_concat : forall t logs, Forall (fits t) logs -> fits t (concat logs).
Proof. intros t logs H. induction H; cbn [concat]; [apply fits_nil|now apply fits_app]. Qed.
