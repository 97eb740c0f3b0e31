(** The counters of a coverage record and the places they belong to.  Registering more places
    and freezing never changes the place of a counter. *)
From Coq Require Import NArith String List Bool Lia PeanoNat.
Import ListNotations.
From Verif Require Import Base IndexMap Oxide SourceCov SourceCovProofs Hints Ast Visitor VisitorRel Counting.
Open Scope N_scope.

(** The place a counter stands for, according to the record *)
Definition loc_of (fc : file_coverage) (c : counter) : option range :=
  match c with
  | CS i => im_get i (fc_statement_map fc)
  | CF i => option_map f_loc (im_get i (fc_fn_map fc))
  | CB b i =>
      match im_get b (fc_branch_map fc) with
      | Some br => nth_error (b_locations br) (N.to_nat i)
      | None => None
      end
  | CT _ _ => None
  end.

(** Identifiers not yet given out are not in use; a branch has one counter per path. *)
Definition fresh (sc : source_cov) : Prop :=
  let fc := sc_fc sc in
  im_wf (fc_branch_map fc) /\ im_wf (fc_b fc) /\
  (forall i, sc_s sc <= i -> im_get i (fc_statement_map fc) = None) /\
  (forall i, sc_f sc <= i -> im_get i (fc_fn_map fc) = None) /\
  (forall b, sc_b sc <= b -> im_get b (fc_branch_map fc) = None) /\
  (forall b br, im_get b (fc_branch_map fc) = Some br ->
     exists n, im_get b (fc_b fc) = Some n /\ length n = length (b_locations br)).

Definition grows (sc sc' : source_cov) : Prop :=
  fresh sc -> fresh sc' /\ forall c r, loc_of (sc_fc sc) c = Some r -> loc_of (sc_fc sc') c = Some r.

Lemma grows_refl : forall sc, grows sc sc. Proof. intros sc H. auto. Qed.
Lemma grows_trans : forall a b d, grows a b -> grows b d -> grows a d.
Proof. intros a b d H1 H2 Hf. destruct (H1 Hf) as [Hf1 L1]. destruct (H2 Hf1) as [Hf2 L2]. auto. Qed.

Lemma new_statement_grows : forall r sc sc' i, new_statement r sc = (sc', i) ->
  grows sc sc' /\ (fresh sc -> loc_of (sc_fc sc') (CS i) = Some r).
Proof.
  intros r sc sc' i H. inversion H; subst; clear H. unfold grows, fresh, set_stmts.
  cbn [sc_fc sc_s sc_f sc_b fc_statement_map fc_fn_map fc_branch_map fc_b loc_of].
  split; [|intros _; rewrite im_get_insert, eqb_refl; reflexivity].
  intros (Wm & Wb & Fs & Ff & Fb & Fa). repeat split; auto.
  - intros i Hi. rewrite im_get_insert. change (eqb i (sc_s sc)) with (i =? sc_s sc).
    destruct (N.eqb_spec i (sc_s sc)); [lia|apply Fs; lia].
  - intros [i|i|b i|b i] r0 Hr; cbn [loc_of fc_statement_map fc_fn_map fc_branch_map] in *; auto.
    rewrite im_get_insert. change (eqb i (sc_s sc)) with (i =? sc_s sc).
    destruct (N.eqb_spec i (sc_s sc)); [|assumption]. subst. rewrite Fs in Hr by lia. discriminate.
Qed.

Lemma new_function_grows : forall n d r sc sc' i, new_function n d r sc = (sc', i) ->
  grows sc sc' /\ (fresh sc -> loc_of (sc_fc sc') (CF i) = Some r).
Proof.
  intros n d r sc sc' i H. inversion H; subst; clear H. unfold grows, fresh, set_fns.
  cbn [sc_fc sc_s sc_f sc_b fc_statement_map fc_fn_map fc_branch_map fc_b loc_of].
  split; [|intros _; rewrite im_get_insert, eqb_refl; reflexivity].
  intros (Wm & Wb & Fs & Ff & Fb & Fa). repeat split; auto.
  - intros i Hi. rewrite im_get_insert. change (eqb i (sc_f sc)) with (i =? sc_f sc).
    destruct (N.eqb_spec i (sc_f sc)); [lia|apply Ff; lia].
  - intros [i|i|b i|b i] r0 Hr; cbn [loc_of fc_statement_map fc_fn_map fc_branch_map] in *; auto.
    rewrite im_get_insert. change (eqb i (sc_f sc)) with (i =? sc_f sc).
    destruct (N.eqb_spec i (sc_f sc)); [|assumption]. subst. rewrite Ff in Hr by lia. discriminate.
Qed.

Lemma new_branch_grows : forall t r f sc sc' b, new_branch t r f sc = (sc', b) -> grows sc sc'.
Proof.
  intros t r f sc sc' b H. inversion H; subst; clear H. unfold grows, fresh, set_branches.
  cbn [sc_fc sc_s sc_f sc_b fc_statement_map fc_fn_map fc_branch_map fc_b].
  intros (Wm & Wb & Fs & Ff & Fb & Fa). repeat split; auto; try (apply im_wf_insert; assumption).
  - intros b Hb. rewrite im_get_insert. change (eqb b (sc_b sc)) with (b =? sc_b sc).
    destruct (N.eqb_spec b (sc_b sc)); [lia|apply Fb; lia].
  - intros b br Hb. rewrite im_get_insert in Hb. rewrite im_get_insert. change (eqb b (sc_b sc)) with (b =? sc_b sc) in *.
    destruct (N.eqb_spec b (sc_b sc)); [|now apply Fa]. inversion Hb; subst. exists []. split; reflexivity.
  - intros [i|i|b i|b i] r0 Hr; cbn [loc_of fc_statement_map fc_fn_map fc_branch_map] in *; auto.
    rewrite im_get_insert. change (eqb b (sc_b sc)) with (b =? sc_b sc).
    destruct (N.eqb_spec b (sc_b sc)); [|assumption]. subst. rewrite Fb in Hr by lia. discriminate.
Qed.

Lemma add_branch_path_grows : forall b r sc sc' i, add_branch_path b r sc = Ok (sc', i) ->
  grows sc sc' /\ (fresh sc -> loc_of (sc_fc sc') (CB b i) = Some r).
Proof.
  intros b r sc sc' i H. unfold add_branch_path in H.
  destruct (im_get b (fc_branch_map (sc_fc sc))) as [br|] eqn:Hbr; [|discriminate].
  destruct (im_get b (fc_b (sc_fc sc))) as [n|] eqn:Hn; [|discriminate].
  cbn [expect bind] in H. rewrite im_get_update, eqb_refl, Hn in H. cbn [option_map expect bind] in H.
  inversion H; subst; clear H. unfold grows, fresh, set_branches.
  cbn [sc_fc sc_s sc_f sc_b fc_statement_map fc_fn_map fc_branch_map fc_b loc_of].
  split.
  - intros (Wm & Wb & Fs & Ff & Fb & Fa). repeat split; auto; try (unfold im_wf; rewrite im_update_keys; assumption).
    + intros b' Hb'. rewrite im_get_update. change (eqb b' b) with (b' =? b).
      destruct (N.eqb_spec b' b); [subst; rewrite Fb by assumption; reflexivity|now apply Fb].
    + intros b' br' Hb'. rewrite im_get_update in Hb'. rewrite im_get_update. change (eqb b' b) with (b' =? b) in *.
      destruct (N.eqb_spec b' b); [|now apply Fa]. subst. rewrite Hbr in Hb'. rewrite Hn. inversion Hb'; subst.
      eexists. split; [reflexivity|]. cbn [push_location b_locations]. rewrite !app_length.
      destruct (Fa _ _ Hbr) as (n' & Hn' & Hl). rewrite Hn in Hn'. inversion Hn'; subst. now rewrite Hl.
    + intros [j|j|b' j|b' j] r0 Hr; cbn [loc_of fc_statement_map fc_fn_map fc_branch_map] in *; auto.
      rewrite im_get_update. change (eqb b' b) with (b' =? b).
      destruct (N.eqb_spec b' b); [|assumption]. subst. rewrite Hbr in Hr |- *. cbn [option_map push_location b_locations].
      rewrite nth_error_app1; [assumption|]. apply nth_error_Some. congruence.
  - intros (Wm & Wb & Fs & Ff & Fb & Fa). rewrite im_get_update, eqb_refl, Hbr. cbn [option_map push_location b_locations].
    destruct (Fa _ _ Hbr) as (n' & Hn' & Hl). rewrite Hn in Hn'. inversion Hn'; subst.
    rewrite app_length, Nnat.Nat2N.id. cbn [length]. replace (length n' + 1 - 1)%nat with (length n') by lia.
    rewrite Hl, nth_error_app2, Nat.sub_diag by lia. reflexivity.
Qed.

Lemma freeze_grows : forall sc, grows sc (freeze sc).
Proof.
  intros sc. unfold grows, fresh, freeze, set_branches.
  cbn [sc_fc sc_s sc_f sc_b fc_statement_map fc_fn_map fc_branch_map fc_b].
  intros (Wm & Wb & Fs & Ff & Fb & Fa).
  destruct (prune_facts _ (fc_branch_map (sc_fc sc)) (fc_b (sc_fc sc)) Wb Wm) as [Wb' Gb].
  assert (G : forall k, im_get k (im_retain (fun _ b => has_paths b) (fc_branch_map (sc_fc sc))) =
     if pathless (fc_branch_map (sc_fc sc)) k then None else im_get k (fc_branch_map (sc_fc sc))).
  { intros k. rewrite im_get_retain by assumption. unfold pathless.
    destruct (im_get k (fc_branch_map (sc_fc sc))) as [b|]; [|reflexivity]. now destruct (has_paths b). }
  repeat split; auto; try (apply im_wf_retain; assumption).
  - intros b Hb. rewrite G, Fb by assumption. now destruct (pathless _ _).
  - intros b br Hb. rewrite G in Hb. rewrite Gb. destruct (pathless _ _); [discriminate|now apply Fa].
  - intros [j|j|b' j|b' j] r0 Hr; cbn [loc_of fc_statement_map fc_fn_map fc_branch_map] in *; auto.
    rewrite G. unfold pathless. destruct (im_get b' _) as [br|]; [|discriminate]. unfold has_paths.
    destruct (b_locations br) eqn:El; [destruct (N.to_nat j); discriminate|cbn [negb]; now rewrite El].
Qed.

(** ** Visits *)
Section Grow.
Variable e : env.
Notation mark := (mark_prepend_stmt_counter e).

Lemma mark_grows : forall sp s, grows (cov s) (cov (mark sp s)).
Proof.
  intros sp s. unfold mark_prepend_stmt_counter. destruct (new_statement _ _) as [c i] eqn:H.
  apply new_statement_grows in H as [H _]. exact H.
Qed.
Lemma replace_stmt_grows : forall x s x' s', replace_expr_with_stmt_counter e x s = (x', s') -> grows (cov s) (cov s').
Proof.
  intros x s x' s'. unfold replace_expr_with_stmt_counter. destruct (new_statement _ _) as [c i] eqn:H.
  apply new_statement_grows in H as [H _]. intros E. now inversion E; subst.
Qed.
Lemma replace_branch_grows : forall x b s x' s',
  replace_expr_with_branch_counter e x b s = Ok (x', s') -> grows (cov s) (cov s').
Proof.
  intros x b s x' s' H. unfold replace_expr_with_branch_counter in H. destruct (negb _); [discriminate|].
  destruct (add_branch_path _ _ _) as [[c i]| |] eqn:Hp; try discriminate.
  apply add_branch_path_grows in Hp as [Hp _]. now inversion H; subst.
Qed.
Lemma cond_arm_grows : forall b x s x' s', cond_arm e b x s x' s' -> grows (cov s) (cov s').
Proof. intros b x s x' s' [[_ ->]|H]; [apply grows_refl|now apply replace_branch_grows in H]. Qed.
Lemma covered_grows : forall x s x' s', covered e x s x' s' -> grows (cov s) (cov s').
Proof.
  intros x s x' s' (s1 & H1 & H2). apply grows_trans with (cov s1).
  - destruct H1 as [->| ->]; [apply grows_refl|apply mark_grows].
  - destruct H2 as [[_ [->| ->]]|[_ H2]]; [apply grows_refl|apply mark_grows|now apply replace_stmt_grows in H2].
Qed.
Lemma create_fn_grows : forall id fn s fn' s', create_fn_instrumentation e id fn s = Ok (fn', s') ->
  grows (cov s) (cov s').
Proof.
  intros id [k sp cs] s fn' s' H. unfold create_fn_instrumentation in H. destruct k; try discriminate.
  destruct cs as [|p [|d [|b [|ty [|? ?]]]]]; try discriminate.
  destruct (new_function _ _ _ _) as [c i] eqn:Hn. apply new_function_grows in Hn as [Hn _].
  destruct (is_none b); [discriminate|]. destruct (prepend_to_block _ _); [|discriminate].
  now inversion H; subst.
Qed.
Lemma accessor_grows : forall name sp s b b' s', accessor_body e name sp s b = Ok (b', s') -> grows (cov s) (cov s').
Proof.
  intros name sp s b b' s' H. unfold accessor_body in H. destruct (is_none b); [inversion H; apply grows_refl|].
  destruct (new_function _ _ _ _) as [c i] eqn:Hn. apply new_function_grows in Hn as [Hn _].
  destruct (prepend_to_block _ _); [|discriminate]. now inversion H; subst.
Qed.
Lemma logical_branch_grows : forall sp s s' b, new_logical_branch e sp s = (s', b) -> grows (cov s) (cov s').
Proof.
  intros sp s s' b H. unfold new_logical_branch in H. destruct (new_branch _ _ _ _) as [c i] eqn:Hn.
  apply new_branch_grows in Hn. now inversion H; subst.
Qed.
Lemma templates_grow : forall s a b s', get_coverage_templates s = (a, b, s') -> grows (cov s) (cov s').
Proof. intros s a b s' H. inversion H; subst. apply freeze_grows. Qed.
Lemma enter_cov : forall n sp s s1 old cur, on_enter e n sp s = (s1, old, cur) -> cov s1 = cov s.
Proof.
  intros n sp s s1 old cur H. unfold on_enter, on_enter_with_span in H. destruct (is_next _); now inversion H.
Qed.
Lemma enter_span_cov : forall sp s s1 old cur, on_enter_with_span e sp s = (s1, old, cur) -> cov s1 = cov s.
Proof. intros sp s s1 old cur H. unfold on_enter_with_span in H. destruct (is_next _); now inversion H. Qed.

Ltac rwst := cbn [cov on_exit pop push set_ign set_cov spawn clear_before] in *;
  repeat match goal with
  | H : on_enter e _ _ _ = (_, _, _) |- _ => apply enter_cov in H
  | H : on_enter_with_span e _ _ = (_, _, _) |- _ => apply enter_span_cov in H
  end; cbn [cov on_exit pop push set_ign set_cov spawn clear_before] in *;
  repeat match goal with
  | H : cov ?a = cov ?b |- _ => rewrite H in *; clear H
  end.
Ltac steps := repeat match goal with
  | H : covered e _ _ _ _ |- _ => apply covered_grows in H
  | H : cond_arm e _ _ _ _ _ |- _ => apply cond_arm_grows in H
  | H : create_fn_instrumentation e _ _ _ = Ok _ |- _ => apply create_fn_grows in H
  | H : accessor_body e _ _ _ _ = Ok _ |- _ => apply accessor_grows in H
  | H : replace_expr_with_branch_counter e _ _ _ = Ok _ |- _ => apply replace_branch_grows in H
  | H : new_logical_branch e _ _ = _ |- _ => apply logical_branch_grows in H
  | H : new_function _ _ _ _ = _ |- _ => apply new_function_grows in H; destruct H as [H _]
  | H : new_branch _ _ _ _ = _ |- _ => apply new_branch_grows in H
  | H : add_branch_path _ _ _ = Ok _ |- _ => apply add_branch_path_grows in H; destruct H as [H _]
  | H : get_coverage_templates _ = _ |- _ => apply templates_grow in H
  end.
Ltac chain := match goal with
  | |- grows ?a ?a => apply grows_refl
  | H : grows ?a ?b |- grows ?a ?b => exact H
  | H : grows ?a ?b |- grows ?a _ => apply (grows_trans a b); [exact H|clear H; chain]
  | H : grows (cov (mark_prepend_stmt_counter e ?sp ?s)) _ |- grows (cov ?s) _ =>
      apply (grows_trans _ _ _ (mark_grows sp s)); chain
  | H : cov ?s1 = cov ?s |- grows (cov ?s) _ => rewrite <- H; clear H; chain
  end.
Theorem grows_all :
  (forall v t s t' s', Vis e v t s t' s' -> grows (cov s) (cov s')) /\
  (forall v cs s cs' s', Kids e v cs s cs' s' -> grows (cov s) (cov s')) /\
  (forall ss s ss' s', Ins e ss s ss' s' -> grows (cov s) (cov s')) /\
  (forall v b x s x' s', Wrap e v b x s x' s' -> grows (cov s) (cov s')) /\
  (forall b r cur x s x' s', Arm e b r cur x s x' s' -> grows (cov s) (cov s')) /\
  (forall xs s xs' s', Items e xs s xs' s' -> grows (cov s) (cov s')) /\
  (forall xs s xs' s', SItems e xs s xs' s' -> grows (cov s) (cov s')).
Proof.
  apply Vis_all_ind; intros; rwst; steps; rwst; try chain.
  (* M_visit *) apply grows_trans with (cov s2); [|chain].
    destruct H1 as [->|[esp ->]]; [rewrite H0; apply grows_refl|]. rewrite <- H0. apply mark_grows.
Qed.
End Grow.
