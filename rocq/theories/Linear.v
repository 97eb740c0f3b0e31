(** C66: output and record are at most a fixed number of times as large as the program. *)
From Coq Require Import NArith String List Bool Lia PeanoNat.
Import ListNotations.
From Verif Require Import Base IndexMap Decimal Oxide SourceCov SourceCovProofs Hints Ast Visitor VisitorRel VisitorEx Erase OneEntry.
Open Scope N_scope.

(** ** Specification *)
(** The number of nodes *)
Fixpoint size (t : node) : nat := match t with Node _ _ cs => S (list_sum (map size cs)) end.
(** The number of entries of the tables, a path of a branch counting as one *)
Definition rows (fc : file_coverage) : nat :=
  (length (fc_statement_map fc) + length (fc_fn_map fc) + length (fc_branch_map fc) +
   list_sum (map (fun p => length (b_locations (snd p))) (fc_branch_map fc)))%nat.

(** ** Tables *)
Lemma insert_length : forall V k (v : V) (m : imap N V), (length (im_insert k v m) <= S (length m))%nat.
Proof. intros V k v m. induction m as [|[k' v'] m IH]; cbn [im_insert length]; [lia|]. destruct (eqb k k'); cbn [length]; lia. Qed.
Definition locs (m : imap N branch) : nat := list_sum (map (fun p => length (b_locations (snd p))) m).
Lemma locs_cons : forall p m, locs (p :: m) = (length (b_locations (snd p)) + locs m)%nat.
Proof. reflexivity. Qed.
Lemma insert_locs : forall k b m, b_locations b = [] -> (locs (im_insert k b m) <= locs m)%nat.
Proof.
  intros k b m E. induction m as [|[k' v'] m IH]; cbn [im_insert]; [unfold locs; cbn; now rewrite E|].
  destruct (eqb k k'); rewrite !locs_cons; cbn [snd]; [rewrite E; cbn; lia|lia].
Qed.
Lemma update_locs : forall k f m, (forall b, length (b_locations (f b)) = S (length (b_locations b))) -> (locs (im_update k f m) <= S (locs m))%nat.
Proof.
  intros k f m E. induction m as [|[k' v'] m IH]; cbn [im_update]; [unfold locs; cbn; lia|].
  destruct (eqb k k'); rewrite !locs_cons; cbn [snd]; [rewrite E; lia|lia].
Qed.
Lemma update_length : forall V k f (m : imap N V), length (im_update k f m) = length m.
Proof. intros V k f m. induction m as [|[k' v'] m IH]; cbn [im_update length]; [reflexivity|]. destruct (eqb k k'); cbn [length]; lia. Qed.
Lemma retain_length : forall V p (m : imap N V), (length (im_retain p m) <= length m)%nat.
Proof. intros V p m. unfold im_retain. induction m as [|x m IH]; cbn [filter length]; [lia|]. destruct (p (fst x) (snd x)); cbn [length]; lia. Qed.
Lemma retain_locs : forall p m, (locs (im_retain p m) <= locs m)%nat.
Proof. intros p m. unfold im_retain. induction m as [|x m IH]; cbn [filter]; [lia|]. destruct (p (fst x) (snd x)); rewrite !locs_cons; lia. Qed.
Definition entries (c : source_cov) : nat := rows (sc_fc c).
Lemma entries_stmt : forall r c c' i, new_statement r c = (c', i) -> (entries c' <= entries c + 1)%nat.
Proof.
  intros r c c' i H. injection H as <- _. unfold entries, rows. cbn -[list_sum].
  pose proof (insert_length _ (sc_s c) r (fc_statement_map (sc_fc c))). lia.
Qed.
Lemma entries_fn : forall n d l c c' i, new_function n d l c = (c', i) -> (entries c' <= entries c + 1)%nat.
Proof.
  intros n d l c c' i H. injection H as <- _. unfold entries, rows. cbn -[list_sum].
  match goal with |- context [im_insert ?k ?v ?m] => pose proof (insert_length _ k v m) end. lia.
Qed.
Lemma entries_branch : forall t l f c c' i, new_branch t l f c = (c', i) -> (entries c' <= entries c + 1)%nat.
Proof.
  intros t l f c c' i H. injection H as <- _. unfold entries, rows. cbn [sc_fc set_branches fc_statement_map fc_fn_map fc_branch_map].
  match goal with |- context [im_insert ?k ?v ?m] => pose proof (insert_length _ k v m); pose proof (insert_locs k v m eq_refl) as L end.
  unfold locs in L. lia.
Qed.
Lemma entries_path : forall b r c c' i, add_branch_path b r c = Ok (c', i) -> (entries c' <= entries c + 1)%nat.
Proof.
  intros b r c c' i H. unfold add_branch_path in H.
  apply bind_ok in H as [x1 [_ H]]. apply bind_ok in H as [x2 [_ H]]. apply bind_ok in H as [x3 [_ H]]. injection H as <- _.
  unfold entries, rows. cbn [sc_fc set_branches fc_statement_map fc_fn_map fc_branch_map]. rewrite update_length.
  match goal with |- context [im_update ?k ?f (fc_branch_map ?m)] => pose proof (update_locs k f (fc_branch_map m)) as L end.
  unfold locs in L. assert (P : forall b0, length (b_locations (push_location r b0)) = S (length (b_locations b0))) by (intros b0; cbn; rewrite app_length; cbn; lia).
  specialize (L P). lia.
Qed.
Lemma entries_freeze : forall c, (entries (freeze c) <= entries c)%nat.
Proof.
  intros c. unfold entries, rows, freeze. cbn [sc_fc set_branches fc_statement_map fc_fn_map fc_branch_map].
  pose proof (retain_length _ (fun _ b => has_paths b) (fc_branch_map (sc_fc c))).
  pose proof (retain_locs (fun _ b => has_paths b) (fc_branch_map (sc_fc c))) as L. unfold locs in L. lia.
Qed.

(** ** What a node can cost *)
Definition cost (k : kind) : nat :=
  match k with
  | KArrow | KCond | KSwitchCase | KBin _ | KAssignPat | KModuleDecl | KModuleItems | KScript => 83
  | _ => if marked_kind k then 5 else if marking k || fn_kind k || accessor_kind k then 83 else 0
  end.
Fixpoint budget (t : node) : nat := match t with Node k _ cs => S (cost k + list_sum (map budget cs)) end.
Definition sizes (ts : list node) : nat := list_sum (map size ts).
Definition budgets (ts : list node) : nat := list_sum (map budget ts).
Lemma size_node : forall k sp cs, size (Node k sp cs) = S (sizes cs).
Proof. reflexivity. Qed.
Lemma budget_node : forall k sp cs, budget (Node k sp cs) = S (cost k + budgets cs).
Proof. reflexivity. Qed.
Lemma sizes_cons : forall t ts, sizes (t :: ts) = (size t + sizes ts)%nat.
Proof. reflexivity. Qed.
Lemma budgets_cons : forall t ts, budgets (t :: ts) = (budget t + budgets ts)%nat.
Proof. reflexivity. Qed.
Lemma sizes_app : forall a b, sizes (a ++ b) = (sizes a + sizes b)%nat.
Proof. intros. unfold sizes. now rewrite map_app, list_sum_app. Qed.
Lemma budgets_app : forall a b, budgets (a ++ b) = (budgets a + budgets b)%nat.
Proof. intros. unfold budgets. now rewrite map_app, list_sum_app. Qed.
Lemma size_budget : forall t, (size t <= budget t)%nat.
Proof.
  induction t as [k sp cs IH] using node_ind'. rewrite size_node, budget_node. enough (sizes cs <= budgets cs)%nat by lia.
  induction IH as [|c cs Hc _ IHc]; [reflexivity|]. rewrite sizes_cons, budgets_cons. lia.
Qed.
Lemma sizes_budgets : forall ts, (sizes ts <= budgets ts)%nat.
Proof. induction ts as [|t ts IH]; [reflexivity|]. rewrite sizes_cons, budgets_cons. pose proof (size_budget t). lia. Qed.
Lemma cost_le : forall k, (cost k <= 83)%nat.
Proof. intros k. destruct k; cbn; lia. Qed.
Lemma budget_size : forall t, (budget t <= 84 * size t)%nat.
Proof.
  induction t as [k sp cs IH] using node_ind'. rewrite size_node, budget_node.
  assert (budgets cs <= 84 * sizes cs)%nat. { induction IH as [|c cs Hc _ IHc]; [reflexivity|]. rewrite sizes_cons, budgets_cons. lia. }
  pose proof (cost_le k). lia.
Qed.
(** Injected code *)
Lemma size_counter : forall c, size (counter_stmt c) = 4%nat.
Proof. reflexivity. Qed.
Lemma budget_fn_counter : forall i, budget (counter_stmt (CF i)) = 9%nat.
Proof. reflexivity. Qed.
Lemma size_paren : forall c x, size (paren_seq c x) = (size x + 6)%nat.
Proof. intros c x. unfold paren_seq, counter_expr, E, mk. cbn. lia. Qed.
Lemma budget_paren : forall c x, budget (paren_seq c x) = (budget x + 6)%nat.
Proof. intros c x. unfold paren_seq, counter_expr, E, mk. cbn. lia. Qed.
Lemma size_true : forall b i x, size (E (mk KInjSeq [counter_expr (CB b i); increase_true_expr b i x])) = (size x + 40)%nat.
Proof. intros b i x. unfold increase_true_expr, counter_expr, E, mk. cbn. lia. Qed.

Section Cost.
Variable e : env.
Notation nti := no_tagged_init.
Lemma mark_cost : forall sp s, (sizes (before (mark_prepend_stmt_counter e sp s)) + entries (cov (mark_prepend_stmt_counter e sp s)) <= sizes (before s) + entries (cov s) + 5)%nat /\
  (entries (cov (mark_prepend_stmt_counter e sp s)) <= entries (cov s) + 1)%nat /\
  (sizes (before (mark_prepend_stmt_counter e sp s)) = sizes (before s) + 4)%nat.
Proof.
  intros sp s. unfold mark_prepend_stmt_counter. destruct (new_statement _ _) as [c i] eqn:Hs. apply entries_stmt in Hs. cbn [before cov].
  rewrite sizes_app. change (sizes [counter_stmt (CS i)]) with 4%nat. lia.
Qed.
Lemma prepend_cost : forall c b b', prepend_to_block (CF c) b = Some b' -> budget b' = (budget b + 9)%nat.
Proof.
  intros c b b' H. unfold prepend_to_block in H. destruct (block_view b) as [[[[i bsp] ssp] ss]|] eqn:Hb; [|discriminate].
  apply block_view_inv in Hb. injection H as <-. subst b. rewrite !budget_node, !budgets_cons, !budget_node, !budgets_cons, budget_fn_counter. cbn [cost marked_kind marking fn_kind accessor_kind orb]. lia.
Qed.
Lemma create_fn_cost : forall id fn s fn' s', create_fn_instrumentation e id fn s = Ok (fn', s') ->
  budget fn' = (budget fn + 9)%nat /\ nti fn' = nti fn /\ before s' = before s /\ (entries (cov s') <= entries (cov s) + 1)%nat.
Proof.
  intros id fn s fn' s' H. destruct (create_fn_total e (fun _ => true) _ _ _ _ _ H) as (_ & _ & N). destruct (create_fn_facts e _ _ _ _ _ H) as [_ B].
  split; [|split; [exact N|split; [exact B|]]]; clear N B; destruct fn as [k sp cs]; unfold create_fn_instrumentation in H;
  destruct k; try discriminate; destruct cs as [|p [|d [|b [|ty [|? ?]]]]]; try discriminate;
  destruct (new_function _ _ _ _) as [c i] eqn:Hf; (destruct (is_none b); [discriminate|]);
  destruct (prepend_to_block (CF i) b) as [b'|] eqn:Hp; try discriminate; injection H as <- <-.
  - rewrite !budget_node, !budgets_cons, (prepend_cost _ _ _ Hp). cbn [cost marked_kind marking fn_kind accessor_kind orb]. lia.
  - apply entries_fn in Hf. exact Hf.
Qed.
Lemma accessor_cost : forall name sp s b b' s', accessor_body e name sp s b = Ok (b', s') ->
  (budget b' <= budget b + 9)%nat /\ nti b' = nti b /\ before s' = before s /\ (entries (cov s') <= entries (cov s) + 1)%nat.
Proof.
  intros name sp s b b' s' H. destruct (accessor_total e (fun _ => true) _ _ _ _ _ _ H) as (_ & _ & N). destruct (accessor_facts e _ _ _ _ _ _ H) as [_ B].
  split; [|split; [exact N|split; [exact B|]]]; clear N B; unfold accessor_body in H; (destruct (is_none b); [injection H as <- <-; lia|]);
  destruct (new_function _ _ _ _) as [c i] eqn:Hf; destruct (prepend_to_block (CF i) b) as [b''|] eqn:Hp; try discriminate; injection H as <- <-.
  - rewrite (prepend_cost _ _ _ Hp). lia.
  - apply entries_fn in Hf. exact Hf.
Qed.
Lemma covered_cost : forall x s x' s', covered e x s x' s' ->
  (budget x' + (sizes (before s') + entries (cov s')) <= budget x + (sizes (before s) + entries (cov s)) + 12)%nat /\ nti x' = nti x.
Proof.
  intros x s x' s' H. split; [|eapply (covered_total e (fun _ => true)); eauto]. destruct H as (s1 & Hs1 & Hx).
  assert (M1 : (sizes (before s1) + entries (cov s1) <= sizes (before s) + entries (cov s) + 5)%nat).
  { destruct Hs1 as [->| ->]; [lia|]. apply mark_cost. }
  destruct Hx as [[-> Hs]|[_ Hx]].
  - destruct Hs as [->| ->]; [lia|]. pose proof (mark_cost (nspan x) s1). lia.
  - unfold replace_expr_with_stmt_counter in Hx. destruct (new_statement _ _) as [c i] eqn:Hn. apply entries_stmt in Hn.
    injection Hx as <- <-. rewrite budget_paren. cbn [before cov set_cov]. lia.
Qed.
Lemma replace_cost : forall b x s x' s', replace_expr_with_branch_counter e x b s = Ok (x', s') ->
  budget x' = (budget x + 6)%nat /\ size x' = (size x + 6)%nat /\ nti x' = nti x /\ before s' = before s /\ (entries (cov s') <= entries (cov s) + 1)%nat.
Proof.
  intros b x s x' s' H. destruct (replace_total e (fun _ => true) _ _ _ _ _ H) as (_ & _ & N). unfold replace_expr_with_branch_counter in H.
  destruct (negb (is_expr x)); [discriminate|]. apply bind_ok in H as [[c i] [Hp H]]. injection H as <- <-. apply entries_path in Hp.
  split; [apply budget_paren|]. split; [apply size_paren|]. split; [exact N|]. split; [reflexivity|exact Hp].
Qed.
Lemma arm_cost : forall b x s x' s', cond_arm e b x s x' s' ->
  (budget x' <= budget x + 6)%nat /\ nti x' = nti x /\ before s' = before s /\ (entries (cov s') <= entries (cov s) + 1)%nat.
Proof.
  intros b x s x' s' [[-> ->]|H]; [repeat split; lia|]. apply replace_cost in H as (A & _ & B & C & D). repeat split; auto. lia.
Qed.
Lemma block_last_cost : forall cs cs', block_last cs = Some cs' -> (budgets cs' <= budgets cs + 3)%nat.
Proof.
  induction cs as [|c cs IH]; intros cs' H; [discriminate|]. destruct cs as [|c2 cs].
  - simpl in H. unfold to_block in H. destruct (stmt_view c) as [[sp x]|]; [|discriminate]. destruct (is_block x); injection H as <-; [lia|].
    unfold mk. rewrite !budgets_cons, !budget_node, !budgets_cons, !budget_node, !budgets_cons, !budget_node, !budgets_cons. cbn [cost marked_kind marking fn_kind accessor_kind orb]. change (budgets []) with 0%nat. lia.
  - change (block_last (c :: c2 :: cs)) with (option_map (cons c) (block_last (c2 :: cs))) in H.
    destruct (block_last (c2 :: cs)) as [l|] eqn:Hl; [|discriminate]. injection H as <-. rewrite !(budgets_cons c). pose proof (IH l eq_refl). lia.
Qed.

Definition CV (t : node) (s : st) (t' : node) (s' : st) : Prop :=
  nti t = true -> (size t' + (sizes (before s') + entries (cov s')) <= budget t + (sizes (before s) + entries (cov s)))%nat.
(** Operands and arms of a node which pays for them *)
Definition CW (extra : nat) (t : node) (s : st) (t' : node) (s' : st) : Prop :=
  nti t = true -> (size t' + (sizes (before s') + entries (cov s')) <= budget t + (sizes (before s) + entries (cov s)) + extra)%nat.
Definition CK (ts : list node) (s : st) (ts' : list node) (s' : st) : Prop :=
  forallb nti ts = true -> (sizes ts' + (sizes (before s') + entries (cov s')) <= budgets ts + (sizes (before s) + entries (cov s)))%nat.

Ltac rwst :=
  repeat match goal with
  | H : on_enter e _ _ _ = (_, _, _) |- _ => let C := fresh "Hc" in let B := fresh "Hb" in apply on_enter_facts in H as (C & B & _ & _)
  | H : on_enter_with_span e _ _ = (_, _, _) |- _ => let C := fresh "Hc" in let B := fresh "Hb" in apply on_enter_with_span_facts in H as (C & B & _ & _)
  end;
  cbn [cov before on_exit pop push set_ign set_cov spawn clear_before] in *.
Ltac gsplit :=
  repeat match goal with
  | H : forallb nti (_ :: _) = true |- _ => cbn [forallb] in H
  | H : _ && _ = true |- _ => apply andb_true_iff in H as [? ?]
  | H : nti (Node ?k ?sp ?cs) = true |- _ => let N := fresh "Hn" in let G := fresh "Hg" in apply nti_split in H as [N G]
  | H : forallb nti (_ ++ _) = true |- _ => rewrite forallb_app in H
  end.
Ltac prem := solve [ assumption
  | cbn [no_tagged_init init_kind forallb]; rewrite ?andb_true_iff; repeat split; solve [assumption|reflexivity|congruence]
  | rewrite forallb_app; cbn [no_tagged_init init_kind forallb]; rewrite ?andb_true_iff; repeat split; solve [assumption|reflexivity|congruence]].
Ltac ih H := match type of H with _ -> (_ <= _)%nat => specialize (H ltac:(prem)) end.
Ltac ihs := repeat match goal with H : _ = true -> (_ <= _)%nat |- _ => ih H end.
Ltac marks := repeat match goal with
  | |- context [mark_prepend_stmt_counter e ?sp ?s] => destruct (mark_cost sp s) as (? & ? & ?); generalize dependent (mark_prepend_stmt_counter e sp s); intros
  | H : context [mark_prepend_stmt_counter e ?sp ?s] |- _ => destruct (mark_cost sp s) as (? & ? & ?); generalize dependent (mark_prepend_stmt_counter e sp s); intros
  end.
Ltac rw_all := unfold mk in *; repeat first
  [ rewrite size_counter in * | rewrite budget_fn_counter in *
  | rewrite size_node in * | rewrite budget_node in * | rewrite sizes_cons in * | rewrite budgets_cons in * | rewrite sizes_app in * | rewrite budgets_app in *
  | progress change (sizes []) with 0%nat in * | progress change (budgets []) with 0%nat in * ].
Ltac t := rw_all; repeat match goal with Hc : cov ?a = cov ?b |- _ => rewrite Hc in *; clear Hc | Hc : before ?a = before ?b |- _ => rewrite Hc in *; clear Hc end;
  cbn [cost marked_kind marking fn_kind accessor_kind orb] in *; lia.

Theorem cost_all :
  (forall v t s t' s', Vis e v t s t' s' -> CV t s t' s') /\
  (forall v cs s cs' s', Kids e v cs s cs' s' -> CK cs s cs' s') /\
  (forall ss s ss' s', Ins e ss s ss' s' -> CK ss s ss' s') /\
  (forall v b x s x' s', Wrap e v b x s x' s' -> CW 41 x s x' s') /\
  (forall b r cur x s x' s', Arm e b r cur x s x' s' -> CW 8 x s x' s') /\
  (forall xs s xs' s', Items e xs s xs' s' -> CK xs s xs' s') /\
  (forall xs s xs' s', SItems e xs s xs' s' -> CK xs s xs' s').
Proof.
  apply Vis_all_ind; unfold CV, CK, CW; intros; rwst; gsplit; ihs.
  all: repeat match goal with
    | H : create_fn_instrumentation _ _ _ _ = _ |- _ => apply create_fn_cost in H as (? & ? & ? & ?)
    | H : accessor_body _ _ _ _ _ = _ |- _ => apply accessor_cost in H as (? & ? & ? & ?)
    | H : covered _ _ _ _ _ |- _ => apply covered_cost in H as (? & ?)
    | H : cond_arm _ _ _ _ _ _ |- _ => apply arm_cost in H as (? & ? & ? & ?)
    | H : replace_expr_with_branch_counter _ _ _ _ = _ |- _ => apply replace_cost in H as (? & ? & ? & ? & ?)
    | H : block_last _ = _ |- _ => pose proof (proj2 (block_last_total e (fun _ => true) _ _ H)); apply block_last_cost in H
    | H : new_logical_branch _ _ _ = _ |- _ => unfold new_logical_branch in H; destruct (new_branch _ _ _ _) eqn:?; injection H as <- <-
    | H : new_function _ _ _ _ = _ |- _ => apply entries_fn in H
    | H : new_branch _ _ _ _ = _ |- _ => apply entries_branch in H
    | H : add_branch_path _ _ _ = Ok _ |- _ => apply entries_path in H
    end; rwst; ihs.
  all: try match goal with H : fn_kind ?k = true |- _ => assert (cost k = 83%nat) by (destruct k; try discriminate H; reflexivity) end.
  all: try match goal with H : accessor_kind ?k = true |- _ => assert (cost k = 83%nat) by (destruct k; try discriminate H; reflexivity) end.
  all: try match goal with H : init_kind ?k = true |- _ => assert (cost k = 83%nat) by (destruct k; try discriminate H; reflexivity) end.
  all: try match goal with H : loop_kind ?k = true |- _ => assert (cost k = 83%nat) by (destruct k; try discriminate H; reflexivity) end.
  all: try match goal with H : marked_kind ?k = true |- _ => assert (cost k = 5%nat) by (destruct k; try discriminate H; reflexivity) end.
  all: repeat match goal with
    | |- context [mark_prepend_stmt_counter e ?sp ?s] => let s' := fresh "sm" in destruct (mark_cost sp s) as (? & ? & ?); set (s' := mark_prepend_stmt_counter e sp s) in *; clearbody s'
    end.
  all: try solve [t].
  all: repeat match goal with
    | |- context [Node _ _ (?p :: _)] => is_var p; lazymatch goal with H : (size p <= budget p)%nat |- _ => fail | _ => pose proof (size_budget p) end
    | |- context [size ?p] => is_var p; lazymatch goal with H : (size p <= budget p)%nat |- _ => fail | _ => pose proof (size_budget p) end
    | |- context [?p :: _] => is_var p; lazymatch goal with H : (size p <= budget p)%nat |- _ => fail | _ => pose proof (size_budget p) end
    | |- context [Node _ _ ?p] => is_var p; lazymatch goal with H : (sizes p <= budgets p)%nat |- _ => fail | _ => pose proof (sizes_budgets p) end
    end.
  all: try solve [t].
  all: try (rewrite size_true; solve [t]).
  all: repeat match goal with
    | H : (_ <= _)%nat |- _ => match type of H with context [mark_prepend_stmt_counter e ?sp ?s] =>
        let s' := fresh "sm" in destruct (mark_cost sp s) as (? & ? & ?); set (s' := mark_prepend_stmt_counter e sp s) in *; clearbody s' end
    end.
  all: try solve [t].
  - (* V_init_tagged *) exfalso.
    match goal with H : init_kind k = true |- _ => specialize (Hn H) end. unfold is_tagged_tpl in Hn. cbn [expr_view] in Hn.
    match goal with H : nkind tpl = _ |- _ => rewrite H in Hn end. discriminate.
  - (* V_module_items *) match goal with H : out = _ |- _ => rewrite H; clear H end. match goal with H : get_coverage_templates _ = _ |- _ => injection H as <- <- <- end.
    rwst. pose proof (entries_freeze (cov s1)).
    match goal with H : cov s3 = _ |- _ => rewrite H end. destruct items'; t.
  - match goal with H : get_coverage_templates _ = _ |- _ => injection H as <- <- <- end.
    rwst. pose proof (entries_freeze (cov s1)). t.
  - rewrite size_true. pose proof (size_budget x). lia.
  - match goal with H : s2 = s1 \/ exists esp, export_const_span _ = _ /\ _ |- _ => rename H into Hs end.
    assert (C : (sizes (before s2) + entries (cov s2) <= sizes (before s1) + entries (cov s1) + cost k)%nat).
    { destruct Hs as [->|(esp & Hx & ->)]; [lia|]. destruct k; try discriminate Hx. pose proof (mark_cost esp s1). cbn [cost]. lia. }
    t.
Qed.
End Cost.

(** ** Without tagged-template initialisers *)
(** The instrumented program and its tables together have at most 84 nodes and entries for each
    node of the program. *)
Theorem growth_is_linear_partial : forall e n path ism t t' c,
  instrument e n path ism t = Ok (t', c) -> no_tagged_init t = true ->
  (size t' + rows (sc_fc c) <= 84 * size t)%nat.
Proof.
  intros e n path ism t t' c H Hn. unfold instrument, visit_program in H.
  destruct (should_ignore_file (e_word e) (e_comments e) (nspan t)).
  - cbn [bind] in H. injection H as <- <-. cbn. pose proof (size_budget t). pose proof (budget_size t). lia.
  - apply bind_ok in H as [[t2 s2] [H Hr]]. injection Hr as <- <-. apply bind_ok in H as [[t3 s3] [H Hr]]. injection Hr as <- <-.
    apply visit_sound in H. pose proof (proj1 (cost_all e) _ _ _ _ _ H Hn) as B. pose proof (budget_size t).
    assert (Z : (sizes (before (push NProgram (init_state e path ism))) + entries (cov (push NProgram (init_state e path ism))) = 0)%nat).
    { unfold push, init_state, entries, rows. cbn. destruct ism; reflexivity. }
    rewrite Z in B. unfold entries in B. change (cov (pop s3)) with (cov s3). lia.
Qed.

(** ** With them *)
(** [class { a = class { a = x`` }`` }``], nested [d] times *)
Fixpoint nest (d : nat) : node :=
  match d with
  | O => X 1 2 KTaggedTpl [var 1 2 "x"; mk KTs []; mk (KOther 2) []]
  | S d => X 1 2 KTaggedTpl
      [X 1 2 KClassExpr [none; at_ 1 2 KClass
         [list_ []; list_ [at_ 1 2 KClassProp [at_ 1 2 (KIdent "a") []; nest d; mk KTs []; list_ []]]; none; mk KTs []]];
       mk KTs []; mk (KOther 2) []]
  end.
Definition nested (d : nat) : node := module_ 1 2 [let_ 1 2 VConst [declarator 1 2 "f" (nest d)]].
Lemma nest_size : forall d, size (nest d) = (6 + 16 * d)%nat.
Proof. induction d as [|d IH]; [reflexivity|]. cbn in *. rewrite IH. lia. Qed.
Lemma nested_size : forall d, size (nested d) = (13 + 16 * d)%nat.
Proof. intros d. cbn. rewrite nest_size. lia. Qed.

(** The statement table is numbered without gaps. *)
Definition numbered (c : source_cov) : Prop := Forall (fun p => fst p < sc_s c) (fc_statement_map (sc_fc c)).
Definition stmts (s : st) : nat := length (fc_statement_map (sc_fc (cov s))).
Lemma insert_fresh : forall V (v : V) i (m : imap N V), Forall (fun p => fst p < i) m ->
  length (im_insert i v m) = S (length m) /\ Forall (fun p => fst p < i + 1) (im_insert i v m).
Proof.
  intros V v i m H. induction H as [|[k w] m Hk _ [IH1 IH2]]; [split; [reflexivity|]; constructor; [cbn; lia|constructor]|].
  cbn [fst] in Hk. cbn [im_insert]. destruct (eqb i k) eqn:E.
  - apply N.eqb_eq in E. lia.
  - split; [cbn [length]; lia|]. constructor; [cbn [fst]; lia|exact IH2].
Qed.
Record stepped (s s' : st) (w : nat) : Prop := mkStepped {
  sp_ign : ign s' = None; sp_stack : stack s' = stack s; sp_num : numbered (cov s'); sp_stmts : stmts s' = (stmts s + w)%nat }.
Definition idle (s : st) : Prop := ign s = None /\ numbered (cov s).
Lemma mark_stepped : forall sp s, idle s -> stepped s (mark_prepend_stmt_counter plain_env sp s) 1.
Proof.
  intros sp s [I N]. unfold mark_prepend_stmt_counter. destruct (new_statement _ _) as [c i] eqn:H. injection H as <- <-.
  destruct (insert_fresh _ (range_of plain_env sp) _ _ N) as [L F]. split; cbn -[im_insert]; auto. unfold stmts. cbn -[im_insert]. rewrite L. lia.
Qed.
Lemma enter_plain : forall n sp s, ign s = None -> on_enter plain_env n sp s = (push n s, None, None).
Proof. intros n sp [c b k i] H. cbn in H. subst i. reflexivity. Qed.
Definition W (d : nat) : nat := (3 * 2 ^ d - 2)%nat.

(** Visiting [t] with fuel at least [f] leaves it as it is and adds [w] statements. *)
Definition visits (t : node) (w f : nat) : Prop := forall m s, idle s -> (f <= m)%nat -> exists s',
  visit plain_env m VCov t s = Ok (t, s') /\ stepped s s' w.
Definition visits_all (ts : list node) (w f : nat) : Prop := forall m s, idle s -> (f <= m)%nat -> exists s',
  visit_list (visit plain_env m) VCov ts s = Ok (ts, s') /\ stepped s s' w.
Lemma stepped_idle : forall s s' w, stepped s s' w -> idle s'.
Proof. intros s s' w [A B C D]. split; assumption. Qed.
Lemma all_nil : forall f, visits_all [] 0 f.
Proof. intros f m s [I N] _. exists s. split; [reflexivity|]. split; auto. Qed.
Lemma all_cons : forall t ts w1 w2 f, visits t w1 f -> visits_all ts w2 f -> visits_all (t :: ts) (w1 + w2) f.
Proof.
  intros t ts w1 w2 f H1 H2 m s I Hm. destruct (H1 m s I Hm) as (s1 & E1 & S1). destruct (H2 m s1 (stepped_idle _ _ _ S1) Hm) as (s2 & E2 & S2).
  exists s2. cbn [visit_list]. rewrite E1. cbn [bind]. rewrite E2. split; [reflexivity|]. destruct S1, S2. split; auto; [congruence|lia].
Qed.
Definition inert (k : kind) : bool :=
  match k with KExpr | KList | KNone | KIdent _ | KOther _ | KClassExpr | KClass | KStmt => true | _ => false end.
Lemma visits_inert : forall k sp cs w f, inert k = true -> visits_all cs w f -> visits (Node k sp cs) w (S f).
Proof.
  intros k sp cs w f Hk H m s I Hm. destruct m as [|m]; [lia|]. destruct (H m s I ltac:(lia)) as (s' & E & S1). exists s'. split; [|exact S1].
  cbn [visit visit_body]. destruct k; try discriminate Hk; cbn [visit_instr nkind visit_children]; rewrite E; reflexivity.
Qed.
Lemma visits_types : forall sp cs f, visits (Node KTs sp cs) 0 (S f).
Proof. intros sp cs f m s [I N] Hm. destruct m as [|m]; [lia|]. exists s. split; [reflexivity|]. split; auto. Qed.
Lemma visits_tagged : forall sp cs w f, visits_all cs w f -> visits (Node KTaggedTpl sp cs) (S w) (S f).
Proof.
  intros sp cs w f H m s [I N] Hm. destruct m as [|m]; [lia|].
  assert (M := mark_stepped sp (push NTaggedTpl s) (conj I N)).
  destruct (H m _ (stepped_idle _ _ _ M) ltac:(lia)) as (s' & E & S1). exists (on_exit None s').
  cbn [visit visit_body visit_instr nkind]. unfold visit_marked_skip, enter_exit. cbn [nspan]. rewrite (enter_plain _ _ _ I). cbn [is_next bind visit_children].
  rewrite E. split; [reflexivity|]. destruct M, S1. split; cbn [ign stack cov on_exit pop set_ign]; auto.
  - rewrite sp_stack1, sp_stack0. reflexivity.
  - change (stmts (on_exit None s')) with (stmts s'). change (stmts (push NTaggedTpl s)) with (stmts s) in *. lia.
Qed.
Lemma visits_field : forall sp name vsp tsp ts rest w u f, visits_all [Node KTaggedTpl tsp ts] w f ->
  visits_all (name :: Node KExpr vsp [Node KTaggedTpl tsp ts] :: rest) u f ->
  visits (Node KClassProp sp (name :: Node KExpr vsp [Node KTaggedTpl tsp ts] :: rest)) (S (w + u)) (S f) /\
  visits (Node KVarDeclarator sp (name :: Node KExpr vsp [Node KTaggedTpl tsp ts] :: rest)) (S (w + u)) (S f).
Proof.
  intros sp name vsp tsp ts rest w u f Hv H.
  split; intros m s [I N] Hm; (destruct m as [|m]; [lia|]); match goal with |- context [Node ?k sp _] => set (n := match k with KClassProp => NClassProp | _ => NVarDeclarator end) end;
  assert (M := mark_stepped vsp (push n s) (conj I N));
  destruct (Hv m _ (stepped_idle _ _ _ M) ltac:(lia)) as (s1 & E1 & S1); destruct (H m _ (stepped_idle _ _ _ S1) ltac:(lia)) as (s2 & E2 & S2);
  exists (on_exit None s2); cbn [visit visit_body visit_instr nkind]; unfold visit_initialized, enter_exit; cbn [nspan nkids nkind];
  rewrite (enter_plain _ _ _ I); cbn [is_next is_none nkind]; unfold cover_statement; cbn [nspan is_expr nkind negb is_tagged_tpl expr_view visit_children];
  fold n; rewrite E1; cbn [bind visit_children]; rewrite E2; (split; [reflexivity|]); destruct M, S1, S2;
  (split; cbn [ign stack cov on_exit pop set_ign]; auto; [rewrite sp_stack2, sp_stack1, sp_stack0; reflexivity|]);
  change (stmts (on_exit None s2)) with (stmts s2); change (stmts (push n s)) with (stmts s) in *; lia.
Qed.
Lemma W_next : forall d, W (S d) = S (S (W d + W d)).
Proof. intros d. unfold W. cbn [Nat.pow]. pose proof (Nat.pow_nonzero 2 d). lia. Qed.
Lemma more_fuel : forall t w f f', visits t w f -> (f <= f')%nat -> visits t w f'.
Proof. intros t w f f' H L m s I Hm. apply H; [exact I|lia]. Qed.
Lemma all_more_fuel : forall t w f f', visits_all t w f -> (f <= f')%nat -> visits_all t w f'.
Proof. intros t w f f' H L m s I Hm. apply H; [exact I|lia]. Qed.
Lemma leaf : forall k sp f, inert k = true -> visits (Node k sp []) 0 (S f).
Proof. intros. apply visits_inert; [assumption|apply all_nil]. Qed.
Lemma nest_visits : forall d, exists sp ts, nest d = Node KExpr sp [Node KTaggedTpl sp ts] /\
  visits (Node KTaggedTpl sp ts) (W d) (3 + 9 * d).
Proof.
  induction d as [|d (sp & ts & E & IH)]; do 2 eexists; (split; [reflexivity|]).
  - change (W 0) with (1 + 0)%nat. apply visits_tagged.
    apply all_cons with (w1 := 0%nat) (w2 := 0%nat); [apply visits_inert; [reflexivity|]; apply all_cons with (w1 := 0%nat) (w2 := 0%nat); [apply leaf; reflexivity|apply all_nil]|].
    apply all_cons with (w1 := 0%nat) (w2 := 0%nat); [apply visits_types|]. apply all_cons with (w1 := 0%nat) (w2 := 0%nat); [apply leaf; reflexivity|apply all_nil].
  - fold nest. rewrite E. rewrite W_next.
    assert (V : visits_all [Node KTaggedTpl sp ts] (W d) (3 + 9 * d)).
    { replace (W d) with (W d + 0)%nat by lia. apply all_cons; [exact IH|apply all_nil]. }
    assert (P : visits (at_ 1 2 KClassProp [at_ 1 2 (KIdent "a") []; Node KExpr sp [Node KTaggedTpl sp ts]; mk KTs []; list_ []]) (S (W d + W d)) (5 + 9 * d)).
    { apply (visits_field (mkSpan 1 2) (at_ 1 2 (KIdent "a") []) sp sp ts [mk KTs []; list_ []] (W d) (W d) (4 + 9 * d)); [eapply all_more_fuel; [exact V|lia]|].
      apply (all_cons _ _ 0 (W d)); [apply leaf; reflexivity|]. replace (W d) with (W d + 0)%nat by lia. apply all_cons; [apply visits_inert; [reflexivity|]; replace (W d + 0)%nat with (W d) by lia; exact V|].
      apply (all_cons _ _ 0 0); [apply visits_types|]. apply (all_cons _ _ 0 0); [apply leaf; reflexivity|apply all_nil]. }
    replace (3 + 9 * S d)%nat with (S (11 + 9 * d)) by lia. apply visits_tagged.
    replace (S (W d + W d)) with (S (W d + W d) + 0)%nat by lia. apply all_cons; [|apply (all_cons _ _ 0 0); [apply visits_types|]; apply (all_cons _ _ 0 0); [apply leaf; reflexivity|apply all_nil]].
    eapply more_fuel with (f := (10 + 9 * d)%nat); [|lia].
    assert (P2 : visits_all [at_ 1 2 KClassProp [at_ 1 2 (KIdent "a") []; Node KExpr sp [Node KTaggedTpl sp ts]; mk KTs []; list_ []]] (S (W d + W d)) (5 + 9 * d)).
    { replace (S (W d + W d)) with (S (W d + W d) + 0)%nat by lia. apply all_cons; [exact P|apply all_nil]. }
    set (w := S (W d + W d)) in *.
    apply visits_inert with (f := (9 + 9 * d)%nat); [reflexivity|]. replace w with (w + 0)%nat by lia. apply all_cons; [|apply all_nil].
    apply visits_inert with (f := (8 + 9 * d)%nat); [reflexivity|]. apply (all_cons _ _ 0 w); [apply leaf; reflexivity|]. replace w with (w + 0)%nat by lia. apply all_cons; [|apply all_nil].
    apply visits_inert with (f := (7 + 9 * d)%nat); [reflexivity|]. apply (all_cons _ _ 0 w); [apply leaf; reflexivity|]. replace w with (w + 0)%nat by lia.
    apply all_cons; [apply visits_inert with (f := (6 + 9 * d)%nat); [reflexivity|]; eapply all_more_fuel; [exact P2|lia]|].
    apply (all_cons _ _ 0 0); [apply leaf; reflexivity|]. apply (all_cons _ _ 0 0); [apply visits_types|apply all_nil].
Qed.
Lemma visits_var : forall vk sp cs w f, visits_all cs w f -> visits (Node (KVarDecl vk) sp cs) w (S f).
Proof.
  intros vk sp cs w f H m s [I N] Hm. destruct m as [|m]; [lia|].
  destruct (H m (push NVarDecl s) (conj I N) ltac:(lia)) as (s' & E & S1). exists (on_exit None s').
  cbn [visit visit_body visit_instr nkind]. unfold enter_exit. cbn [nspan]. rewrite (enter_plain _ _ _ I). cbn [is_next bind visit_children].
  rewrite E. split; [reflexivity|]. destruct S1. split; cbn [ign stack cov on_exit pop set_ign]; auto. rewrite sp_stack0. reflexivity.
Qed.
Lemma declaration_visits : forall d, exists x, let_ 1 2 VConst [declarator 1 2 "f" (nest d)] = Node KStmt (mkSpan 1 2) [x] /\
  visits_all [x] (S (W d + W d)) (7 + 9 * d).
Proof.
  intros d. destruct (nest_visits d) as (sp & ts & E & H). rewrite E. eexists. split; [reflexivity|].
  assert (V : visits_all [Node KTaggedTpl sp ts] (W d) (3 + 9 * d)).
  { replace (W d) with (W d + 0)%nat by lia. apply all_cons; [exact H|apply all_nil]. }
  assert (D : visits (declarator 1 2 "f" (Node KExpr sp [Node KTaggedTpl sp ts])) (S (W d + W d)) (5 + 9 * d)).
  { apply (visits_field (mkSpan 1 2) (at_ 1 2 (KIdent "f") []) sp sp ts [] (W d) (W d) (4 + 9 * d)); [eapply all_more_fuel; [exact V|lia]|].
    apply (all_cons _ _ 0 (W d)); [apply leaf; reflexivity|]. replace (W d) with (W d + 0)%nat by lia. apply all_cons; [apply visits_inert; [reflexivity|]; replace (W d + 0)%nat with (W d) by lia; exact V|apply all_nil]. }
  set (w := S (W d + W d)) in *. replace w with (w + 0)%nat by lia. apply all_cons; [|apply all_nil].
  apply visits_var with (f := (6 + 9 * d)%nat). replace w with (w + 0)%nat by lia. apply all_cons; [|apply all_nil].
  apply visits_inert; [reflexivity|]. replace w with (w + 0)%nat by lia. apply all_cons; [exact D|apply all_nil].
Qed.
Lemma nested_instrumented : forall d, exists t' c,
  instrument plain_env (9 + 9 * d) "f.js" None (nested d) = Ok (t', c) /\
  length (fc_statement_map (sc_fc c)) = (6 * 2 ^ d - 3)%nat.
Proof.
  intros d. destruct (declaration_visits d) as (x & E & H). unfold nested. rewrite E.
  set (s0 := push NStmt (push NProgram (init_state plain_env "f.js" None))).
  destruct (H (7 + 9 * d)%nat s0 ltac:(split; [reflexivity|constructor]) ltac:(lia)) as (s1 & E1 & S1).
  change (9 + 9 * d)%nat with (S (S (7 + 9 * d))).
  unfold instrument, visit_program. change (should_ignore_file _ _ _) with false. cbv iota.
  set (f := (7 + 9 * d)%nat) in *. clearbody f. unfold module_, at_, mk.
  cbn [visit visit_body visit_instr nkind visit_children visit_list]. unfold visit_module_items. cbn [nkids].
  change (rev (stack (push NProgram (init_state plain_env "f.js" None)))) with [NProgram]. cbv iota zeta.
  cbn [visit_items].
  replace (directive_continue (Node KStmt (mkSpan 1 2) [x])) with false by (injection E as <-; reflexivity).
  cbn [nkind nspan export_const_span visit_children]. rewrite enter_plain by reflexivity. cbv iota beta zeta. fold s0. rewrite E1.
  cbn [bind]. do 2 eexists. split; [reflexivity|]. destruct S1 as [_ _ _ L].
  change (stmts s1 = 0 + S (W d + W d))%nat in L. unfold stmts in L. cbn -[W Nat.pow]. rewrite L. unfold W. pose proof (Nat.pow_nonzero 2 d). lia.
Qed.
Lemma power_beats : forall a, exists d, (a * (d + 1) < 2 ^ d)%nat.
Proof.
  intros a. exists (2 * (2 * a))%nat. rewrite Nat.pow_mul_r. change (2 ^ 2)%nat with (2 * 2)%nat. rewrite Nat.pow_mul_l.
  assert (P : forall m, (m + 1 <= 2 ^ m)%nat) by (induction m as [|m IH]; [cbn; lia|cbn [Nat.pow]; lia]).
  pose proof (P (2 * a)%nat). nia.
Qed.

(** Nesting initialisers which are tagged templates doubles the table of statements with each level:
    the program grows by 16 nodes a level. *)
Theorem tagged_init_doubles : forall d, exists n t t' c,
  instrument plain_env n "f.js" None t = Ok (t', c) /\ size t = (13 + 16 * d)%nat /\
  length (fc_statement_map (sc_fc c)) = (6 * 2 ^ d - 3)%nat.
Proof.
  intros d. destruct (nested_instrumented d) as (t' & c & H & L). exists (9 + 9 * d)%nat, (nested d), t', c.
  split; [exact H|]. split; [apply nested_size|exact L].
Qed.
(** So no factor bounds the record by the size of the program. *)
Theorem growth_unbounded : forall factor : nat, exists e n path ism t t' c,
  instrument e n path ism t = Ok (t', c) /\ (factor * size t < rows (sc_fc c))%nat.
Proof.
  intros a. destruct (power_beats (16 * a)) as [d Hd]. destruct (tagged_init_doubles d) as (n & t & t' & c & H & Z & L).
  exists plain_env, n, "f.js"%string, None, t, t', c. split; [exact H|]. rewrite Z. unfold rows. rewrite L. pose proof (Nat.pow_nonzero 2 d). nia.
Qed.

(** In particular, the bound of [growth_is_linear_partial] does not hold of all programs. *)
Theorem growth_is_linear_refuted : exists e n path ism t t' c,
  instrument e n path ism t = Ok (t', c) /\ (84 * size t < size t' + rows (sc_fc c))%nat.
Proof.
  destruct (growth_unbounded 84) as (e & n & path & ism & t & t' & c & H & L).
  exists e, n, path, ism, t, t', c. split; [exact H|]. lia.
Qed.

(** [function f(a) { if (a) return 1; return a || 2; }]: 29 nodes become 74, with 10 entries. *)
Example linear_ex : exists t' c, instrument plain_env 40 "f.js" None ex_function = Ok (t', c) /\
  no_tagged_init ex_function = true /\ (size ex_function, size t', rows (sc_fc c)) = (29, 74, 10)%nat.
Proof.
  destruct (instrument plain_env 40 "f.js" None ex_function) as [[t' c]| |] eqn:H; vm_compute in H; try discriminate H. injection H as <- <-.
  do 2 eexists. split; [reflexivity|]. split; [reflexivity|]. vm_compute. reflexivity.
Qed.
