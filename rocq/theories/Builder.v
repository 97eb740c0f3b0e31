(** The only ways the instrumenter changes its tables: it registers statements, functions, branches and
    branch paths with positions of source spans, and freezes the tables (C46, C49). *)
From Coq Require Import NArith String List Bool Lia PeanoNat.
Import ListNotations.
From Verif Require Import Base IndexMap Decimal Oxide SourceCov SourceCovProofs Hints Ast Visitor VisitorRel VisitorEx Counting Slots Produced Json CovJson JsonParse Serde CountingRoot.
Open Scope N_scope.

Definition spanned (e : env) (r : range) : Prop := exists sp, r = get_range_from_span (e_lookup e) sp.
Inductive op (e : env) : source_cov -> source_cov -> Prop :=
| O_stmt : forall r sc sc' i, spanned e r -> new_statement r sc = (sc', i) -> op e sc sc'
| O_fn : forall n d r sc sc' i, spanned e d -> spanned e r -> new_function n d r sc = (sc', i) -> op e sc sc'
| O_branch : forall t r f sc sc' i, spanned e r -> new_branch t r f sc = (sc', i) -> op e sc sc'
| O_path : forall b r sc sc' i, spanned e r -> add_branch_path b r sc = Ok (sc', i) -> op e sc sc'
| O_freeze : forall sc, op e sc (freeze sc).
Inductive built (e : env) : source_cov -> source_cov -> Prop :=
| B_refl : forall sc, built e sc sc
| B_op : forall a b c, op e a b -> built e b c -> built e a c.
Lemma built_trans : forall e a b c, built e a b -> built e b c -> built e a c.
Proof. intros e a b c H K. induction H as [|a b d H _ IH]; [exact K|]. apply B_op with b; auto. Qed.
Lemma op_built : forall e a b, op e a b -> built e a b.
Proof. intros e a b H. apply B_op with b; [exact H|constructor]. Qed.

(** ** Visits *)
Section Built.
Variable e : env.
Notation mark := (mark_prepend_stmt_counter e).
Lemma range_spanned : forall sp, spanned e (range_of e sp).
Proof. intros sp. now exists sp. Qed.
Ltac sp := repeat match goal with |- context [match ?x with _ => _ end] => destruct x end; apply range_spanned.
Lemma new_function_built : forall n d r sc sc' i, new_function n (range_of e d) (range_of e r) sc = (sc', i) -> built e sc sc'.
Proof. intros n d r sc sc' i H. apply op_built. eapply O_fn; [| |exact H]; sp. Qed.
Lemma new_branch_built : forall t r f sc sc' b, new_branch t (range_of e r) f sc = (sc', b) -> built e sc sc'.
Proof. intros t r f sc sc' b H. apply op_built. eapply O_branch; [|exact H]. sp. Qed.
Lemma add_branch_path_built : forall b r sc sc' i, spanned e r -> add_branch_path b r sc = Ok (sc', i) -> built e sc sc'.
Proof. intros b r sc sc' i K H. apply op_built. eapply O_path; [exact K|exact H]. Qed.

Lemma mark_built : forall sp s, built e (cov s) (cov (mark sp s)).
Proof.
  intros sp s. unfold mark_prepend_stmt_counter. destruct (new_statement _ _) as [c i] eqn:H.
  apply op_built. eapply O_stmt; [|exact H]. sp.
Qed.
Lemma replace_stmt_built : forall x s x' s', replace_expr_with_stmt_counter e x s = (x', s') -> built e (cov s) (cov s').
Proof.
  intros x s x' s'. unfold replace_expr_with_stmt_counter. destruct (new_statement _ _) as [c i] eqn:H.
  intros E. inversion E; subst. apply op_built. eapply O_stmt; [|exact H]. sp.
Qed.
Lemma replace_branch_built : forall x b s x' s',
  replace_expr_with_branch_counter e x b s = Ok (x', s') -> built e (cov s) (cov s').
Proof.
  intros x b s x' s' H. unfold replace_expr_with_branch_counter in H. destruct (negb _); [discriminate|].
  destruct (add_branch_path _ _ _) as [[c i]| |] eqn:Hp; try discriminate.
  inversion H; subst. apply op_built. eapply O_path; [|exact Hp]. sp.
Qed.
Lemma cond_arm_built : forall b x s x' s', cond_arm e b x s x' s' -> built e (cov s) (cov s').
Proof. intros b x s x' s' [[_ ->]|H]; [apply B_refl|now apply replace_branch_built in H]. Qed.
Lemma covered_built : forall x s x' s', covered e x s x' s' -> built e (cov s) (cov s').
Proof.
  intros x s x' s' (s1 & H1 & H2). apply built_trans with (cov s1).
  - destruct H1 as [->| ->]; [apply B_refl|apply mark_built].
  - destruct H2 as [[_ [->| ->]]|[_ H2]]; [apply B_refl|apply mark_built|now apply replace_stmt_built in H2].
Qed.
Lemma create_fn_built : forall id fn s fn' s', create_fn_instrumentation e id fn s = Ok (fn', s') ->
  built e (cov s) (cov s').
Proof.
  intros id [k sp cs] s fn' s' H. unfold create_fn_instrumentation in H. destruct k; try discriminate.
  destruct cs as [|p [|d [|b [|ty [|? ?]]]]]; try discriminate.
  destruct (new_function _ _ _ _) as [c i] eqn:Hn. 
  destruct (is_none b); [discriminate|]. destruct (prepend_to_block _ _); [|discriminate].
  inversion H; subst. apply op_built. eapply O_fn; [| |exact Hn]; sp.
Qed.
Lemma accessor_built : forall name sp s b b' s', accessor_body e name sp s b = Ok (b', s') -> built e (cov s) (cov s').
Proof.
  intros name sp s b b' s' H. unfold accessor_body in H. destruct (is_none b); [inversion H; apply B_refl|].
  destruct (new_function _ _ _ _) as [c i] eqn:Hn. 
  destruct (prepend_to_block _ _); [|discriminate].
  inversion H; subst. apply op_built. eapply O_fn; [| |exact Hn]; sp.
Qed.
Lemma logical_branch_built : forall sp s s' b, new_logical_branch e sp s = (s', b) -> built e (cov s) (cov s').
Proof.
  intros sp s s' b H. unfold new_logical_branch in H. destruct (new_branch _ _ _ _) as [c i] eqn:Hn.
  inversion H; subst. apply op_built. eapply O_branch; [|exact Hn]. sp.
Qed.
Lemma templates_built : forall s a b s', get_coverage_templates s = (a, b, s') -> built e (cov s) (cov s').
Proof. intros s a b s' H. inversion H; subst. apply op_built, O_freeze. Qed.
Ltac rwst := cbn [cov on_exit pop push set_ign set_cov spawn clear_before] in *;
  repeat match goal with
  | H : on_enter e _ _ _ = (_, _, _) |- _ => apply enter_cov in H
  | H : on_enter_with_span e _ _ = (_, _, _) |- _ => apply enter_span_cov in H
  end; cbn [cov on_exit pop push set_ign set_cov spawn clear_before] in *;
  repeat match goal with
  | H : cov ?a = cov ?b |- _ => rewrite H in *; clear H
  end.
Ltac steps := repeat match goal with
  | H : covered e _ _ _ _ |- _ => apply covered_built in H
  | H : cond_arm e _ _ _ _ _ |- _ => apply cond_arm_built in H
  | H : create_fn_instrumentation e _ _ _ = Ok _ |- _ => apply create_fn_built in H
  | H : accessor_body e _ _ _ _ = Ok _ |- _ => apply accessor_built in H
  | H : replace_expr_with_branch_counter e _ _ _ = Ok _ |- _ => apply replace_branch_built in H
  | H : new_logical_branch e _ _ = _ |- _ => apply logical_branch_built in H
  | H : new_function _ _ _ _ = _ |- _ => apply new_function_built in H
  | H : new_branch _ _ _ _ = _ |- _ => apply new_branch_built in H
  | H : add_branch_path _ _ _ = Ok _ |- _ => apply add_branch_path_built in H; [|assumption || apply range_spanned]
  | H : spanned e (range_of e ?sp) -> _ |- _ => specialize (H (range_spanned sp))
  | H : get_coverage_templates _ = _ |- _ => apply templates_built in H
  end.
Ltac chain := match goal with
  | |- built e ?a ?a => apply B_refl
  | H : built e ?a ?b |- built e ?a ?b => exact H
  | H : built e ?a ?b |- built e ?a _ => apply (built_trans e a b); [exact H|clear H; chain]
  | H : built e (cov (mark_prepend_stmt_counter e ?sp ?s)) _ |- built e (cov ?s) _ =>
      apply (built_trans e _ _ _ (mark_built sp s)); chain
  | H : cov ?s1 = cov ?s |- built e (cov ?s) _ => rewrite <- H; clear H; chain
  end.
Theorem built_all :
  (forall v t s t' s', Vis e v t s t' s' -> built e (cov s) (cov s')) /\
  (forall v cs s cs' s', Kids e v cs s cs' s' -> built e (cov s) (cov s')) /\
  (forall ss s ss' s', Ins e ss s ss' s' -> built e (cov s) (cov s')) /\
  (forall v b x s x' s', Wrap e v b x s x' s' -> built e (cov s) (cov s')) /\
  (forall b r cur x s x' s', Arm e b r cur x s x' s' -> spanned e r -> built e (cov s) (cov s')) /\
  (forall xs s xs' s', Items e xs s xs' s' -> built e (cov s) (cov s')) /\
  (forall xs s xs' s', SItems e xs s xs' s' -> built e (cov s) (cov s')).
Proof.
  apply Vis_all_ind; intros; rwst; steps; rwst; try chain.
  (* M_visit *) apply built_trans with (cov s2); [|chain].
    destruct H1 as [->|[esp ->]]; [rewrite H0; apply B_refl|]. rewrite <- H0. apply mark_built.
Qed.
End Built.

(** ** Positions *)
(** Every position in the record satisfies [Q]. *)
Definition positions (Q : range -> Prop) (fc : file_coverage) : Prop :=
  Forall (fun kv => Q (snd kv)) (fc_statement_map fc) /\
  Forall (fun kv => Q (f_decl (snd kv)) /\ Q (f_loc (snd kv))) (fc_fn_map fc) /\
  Forall (fun kv => (forall r, b_loc (snd kv) = Some r -> Q r) /\ Forall Q (b_locations (snd kv))) (fc_branch_map fc).
Lemma forall_insert : forall V (Q : V -> Prop) k v (m : imap N V), Forall (fun kv => Q (snd kv)) m -> Q v ->
  Forall (fun kv => Q (snd kv)) (im_insert k v m).
Proof.
  intros V Q k v m H Hv. induction H as [|[k' v'] m H1 H IH]; cbn [im_insert]; [constructor; auto|].
  destruct (eqb k k'); constructor; auto.
Qed.
Lemma forall_update : forall V (Q : V -> Prop) k f (m : imap N V), Forall (fun kv => Q (snd kv)) m -> (forall v, Q v -> Q (f v)) ->
  Forall (fun kv => Q (snd kv)) (im_update k f m).
Proof.
  intros V Q k f m H Hf. induction H as [|[k' v'] m H1 H IH]; cbn [im_update]; [constructor|].
  destruct (eqb k k'); constructor; auto. cbn in *. auto.
Qed.
Lemma op_positions : forall e a b, op e a b -> positions (spanned e) (sc_fc a) -> positions (spanned e) (sc_fc b).
Proof.
  intros e a b H (A & B & C). destruct H as [r sc sc' i R H|n d r sc sc' i D R H|t r f sc sc' i R H|b r sc sc' i R H|sc].
  - inversion H; subst. split; [|split]; [|exact B|exact C]. now apply (forall_insert _ (spanned e)).
  - inversion H; subst. split; [|split]; [exact A| |exact C].
    apply (forall_insert _ (fun f => spanned e (f_decl f) /\ spanned e (f_loc f))); auto.
  - inversion H; subst. split; [|split]; [exact A|exact B|].
    apply (forall_insert _ (fun b => (forall r, b_loc b = Some r -> spanned e r) /\ Forall (spanned e) (b_locations b))); [exact C|].
    cbn [b_loc b_locations]. split; [|constructor]. intros r0 E. now injection E as <-.
  - unfold add_branch_path in H. destruct (im_get b (fc_branch_map (sc_fc sc))); [|discriminate].
    destruct (im_get b (fc_b (sc_fc sc))); [|discriminate]. cbn [expect bind] in H. destruct (im_get b (im_update _ _ _)); [|discriminate].
    cbn [expect bind] in H. inversion H; subst. split; [|split]; [exact A|exact B|].
    apply (forall_update _ (fun b => (forall r, b_loc b = Some r -> spanned e r) /\ Forall (spanned e) (b_locations b))); [exact C|].
    intros br [X Y]. cbn [push_location b_loc b_locations]. split; [exact X|]. apply Forall_app. auto.
  - split; [|split]; [exact A|exact B|]. cbn. apply Forall_forall. intros kv Hin. apply filter_In in Hin as [Hin _].
    rewrite Forall_forall in C. now apply C.
Qed.
Theorem instrument_built : forall e n path ism t items t' sc, program_items t = Some items ->
  instrument e n path ism t = Ok (t', sc) -> built e (cov (init_state e path ism)) sc.
Proof.
  intros e n path ism t items t' sc Hi H. unfold instrument in H.
  apply bind_ok in H as [[t1 s1] [Hv H]]. inversion H; subst. clear H.
  unfold visit_program in Hv. destruct (should_ignore_file _ _ _); [inversion Hv; subst; constructor|].
  apply bind_ok in Hv as [[t1 s2] [Hv H]]. inversion H; subst. clear H. apply visit_sound in Hv.
  exact (proj1 (built_all e) _ _ _ _ _ Hv).
Qed.
(** Every position in an instrumented file's record is the position of a source span. *)
Theorem produced_positions : forall e n path ism t items t' sc, program_items t = Some items ->
  instrument e n path ism t = Ok (t', sc) ->
  positions (fun r => exists sp, r = get_range_from_span (e_lookup e) sp) (sc_fc sc).
Proof.
  intros e n path ism t items t' sc Hi H. pose proof (instrument_built e n path ism t items t' sc Hi H) as B.
  assert (I : positions (spanned e) (sc_fc (cov (init_state e path ism)))) by (repeat split; constructor).
  induction B as [|a b c O _ IH]; [exact I|]. apply IH; [exact H|]. now apply (op_positions e a b).
Qed.
Lemma range_fits : forall lk sp, range_u32 (get_range_from_span lk sp).
Proof.
  intros lk sp. unfold get_range_from_span. destruct (_ || _); [repeat split|].
  repeat split; cbn; unfold is_u32, as_u32; apply N.mod_lt; unfold u32_mod; lia.
Qed.
(** As long as a file has fewer than 2^32 counters of each kind, its record is a value of the Rust type. *)
Lemma produced_fits : forall e n path ism t items t' sc, program_items t = Some items ->
  instrument e n path ism t = Ok (t', sc) ->
  sc_s sc <= u32_mod -> sc_f sc <= u32_mod -> sc_b sc <= u32_mod -> (forall m, ism = Some m -> is_u32 (sm_version m)) ->
  fc_u32 (sc_fc sc).
Proof.
  intros e n path ism t items t' sc Hi H Ls Lf Lb Hm.
  destruct (produced_positions e n path ism t items t' sc Hi H) as (PA & PB & PC).
  destruct (instrument_made e n path ism t items t' sc Hi H) as [M _].
  destruct M as (A & B & C & (D1 & D2) & (F1 & F2 & F3) & (G1 & G2 & G3 & G4 & G5 & G6)).
  assert (FK : forall V (m : imap N V) k, im_keys m = first_ids k -> k <= u32_mod -> forall kv, In kv m -> is_u32 (fst kv)).
  { intros V m k E L kv Hin. apply (in_map fst) in Hin. change (In (fst kv) (im_keys m)) in Hin. rewrite E in Hin.
    apply first_ids_in in Hin. unfold is_u32. lia. }
  assert (ND : forall V (m : imap N V) k, im_keys m = first_ids k -> NoDup (map fst m)).
  { intros V m k E. change (NoDup (im_keys m)). rewrite E. apply first_ids_nodup. }
  assert (Q : forall r, (exists sp, r = get_range_from_span (e_lookup e) sp) -> range_u32 r) by (intros r [sp ->]; apply range_fits).
  rewrite Forall_forall in PA, PB, PC.
  assert (BK : forall k br, In (k, br) (fc_branch_map (sc_fc sc)) -> is_u32 k).
  { intros k br Hin. apply (im_in_get _ G1) in Hin. unfold is_u32. destruct (N.lt_ge_cases k (sc_b sc)) as [|L]; [lia|].
    rewrite (G3 k L) in Hin. discriminate. }
  assert (HK : forall (f : branch -> option (list N)) (m : branch_hit_map), im_wf m ->
     (forall k, im_get k m = match im_get k (fc_branch_map (sc_fc sc)) with Some br => f br | None => None end) ->
     (forall br l, f br = Some l -> Forall is_u32 l) -> map_u32 (Forall is_u32) m).
  { intros f m W E Hf. split; [exact W|]. apply Forall_forall. intros [k l] Hin. cbn [fst snd].
    apply (im_in_get _ W) in Hin. rewrite E in Hin. destruct (im_get k (fc_branch_map (sc_fc sc))) as [br|] eqn:Eb; [|discriminate].
    split; [apply im_get_in in Eb; eapply BK; exact Eb|]. now apply (Hf br). }
  assert (Z : forall br, Forall is_u32 (no_hits br)).
  { intros br. unfold no_hits. apply Forall_forall. intros x Hx. apply repeat_spec in Hx. now subst. }
  assert (S0 : forall V (m : imap N V) k, im_keys m = first_ids k -> k <= u32_mod -> map_u32 is_u32 (map (fun kv => (fst kv, 0)) m)).
  { intros V m k E L. split.
    - rewrite map_map. cbn [fst]. eapply ND; exact E.
    - apply Forall_forall. intros kv Hin. apply in_map_iff in Hin as (kv' & <- & Hin). cbn [fst snd]. split; [|reflexivity].
      eapply FK; eauto. }
  split; [|split; [|split; [|split; [|split; [|split; [|split]]]]]].
  - split; [eapply ND; exact D1|]. apply Forall_forall. intros kv Hin. split; [eapply FK; eauto|]. apply Q. now apply PA.
  - split; [eapply ND; exact F1|]. apply Forall_forall. intros kv Hin. split; [eapply FK; eauto|].
    destruct (PB kv Hin) as [X Y]. rewrite Forall_forall in F3. destruct (F3 kv Hin) as [_ E]. apply Q in X, Y.
    split; [exact X|]. split; [exact Y|]. rewrite E. apply Y.
  - split; [exact G1|]. apply Forall_forall. intros [k br] Hin. cbn [fst snd]. split; [eapply BK; exact Hin|].
    destruct (PC _ Hin) as [X Y]. cbn [snd] in X, Y. split; [intros r E; apply Q, X, E|]. split.
    + apply Forall_forall. intros r Hr. rewrite Forall_forall in Y. apply Q, Y, Hr.
    + intros m E. apply (im_in_get _ G1) in Hin. destruct (G5 k br Hin) as (r & E1 & E2). rewrite E2 in E. injection E as <-.
      apply (Q r (X r E1)).
  - rewrite D2. eapply S0; eauto.
  - rewrite F2. eapply S0; eauto.
  - apply (HK (fun br => Some (no_hits br))); [exact G2| |]; [|intros br l E; now injection E as <-].
    intros k. rewrite G4. now destruct (im_get k (fc_branch_map (sc_fc sc))).
  - intros m E. destruct (e_report_logic e).
    + destruct G6 as (bt & Eb & W & G6). rewrite Eb in E. injection E as ->.
      apply (HK (fun br => if is_logical br then Some (no_hits br) else None)); [exact W|exact G6|].
      intros br l. destruct (is_logical br); [|discriminate]. intros E. now injection E as <-.
    + rewrite G6 in E. discriminate.
  - intros m E. rewrite C in E. now apply Hm.
Qed.
(** The record of an instrumented file, serialized and deserialized, comes back unchanged. *)
Theorem produced_round_trip : forall e n path ism t items t' sc, program_items t = Some items ->
  instrument e n path ism t = Ok (t', sc) ->
  sc_s sc <= u32_mod -> sc_f sc <= u32_mod -> sc_b sc <= u32_mod -> (forall m, ism = Some m -> is_u32 (sm_version m)) ->
  from_str de_file_coverage (fc_text (sc_fc sc)) = Some (sc_fc sc).
Proof. intros. apply record_round_trip. eapply produced_fits; eauto. Qed.
(** The theorem applies to [function f(a) { if (a) return 1; return a || 2; }] with reportLogic. *)
Example produced_round_trip_ex :
  match instrument logic_env 60 "f.js"%string None ex_function with
  | Ok (_, sc) => (sc_s sc, sc_f sc, sc_b sc) = (3, 1, 2) /\
                  from_str de_file_coverage (fc_text (sc_fc sc)) = Some (sc_fc sc)
  | _ => False
  end.
Proof.
  destruct (instrument logic_env 60 "f.js"%string None ex_function) as [[t sc]|p|] eqn:E; [|vm_compute in E; discriminate..].
  assert (C : (sc_s sc, sc_f sc, sc_b sc) = (3, 1, 2)) by (vm_compute in E; injection E as _ <-; reflexivity).
  split; [exact C|]. injection C as Cs Cf Cb.
  destruct (program_items ex_function) as [items|] eqn:I; [|vm_compute in I; discriminate].
  apply (produced_round_trip _ _ _ _ _ items t sc I E); rewrite ?Cs, ?Cf, ?Cb; try (unfold u32_mod; lia). discriminate.
Qed.
