(** What the record of an instrumented file looks like before anything ran: numbers, zero counters,
    one counter per table entry, and names taken from the source. *)
From Coq Require Import NArith String List Bool Lia PeanoNat.
Import ListNotations.
From Verif Require Import Base IndexMap Decimal Oxide OxideSpec SourceCov SourceCovProofs Hints Ast Visitor VisitorRel
  VisitorEx Slots CountingRoot OxideMerge OxideViews Json CovJson DataObject Template Runtime.
Open Scope string_scope. Open Scope list_scope. Open Scope N_scope.

(** The identifiers and property names of a text *)
Definition own_ident (k : kind) : list string :=
  match k with KIdent x | KPropIdent x => [x] | _ => [] end.
Fixpoint idents (t : node) : list string :=
  match t with Node k _ cs => own_ident k ++ flat_map idents cs end.

(** 0, 1, ..., n-1 *)
Definition first_ids (n : N) : list N := map N.of_nat (seq 0 (N.to_nat n)).
Lemma first_ids_S : forall n, first_ids (n + 1) = first_ids n ++ [n].
Proof.
  intros n. unfold first_ids. rewrite N.add_1_r, Nnat.N2Nat.inj_succ, seq_S, map_app. cbn [map].
  now rewrite Nat.add_0_l, Nnat.N2Nat.id.
Qed.
Lemma first_ids_in : forall n k, In k (first_ids n) -> k < n.
Proof. intros n k H. apply in_map_iff in H as (x & <- & H). apply in_seq in H. lia. Qed.
Lemma first_ids_nodup : forall n, NoDup (first_ids n).
Proof.
  intros n. unfold first_ids. apply FinFun.Injective_map_NoDup; [|apply seq_NoDup].
  intros a b H. now apply Nnat.Nat2N.inj.
Qed.

Definition is_logical (b : branch) : bool := match b_type b with BinaryExpr => true | _ => false end.
Definition no_hits (b : branch) : list N := repeat 0 (length (b_locations b)).

Section Made.
Variable e : env.
Variable path : string.
Variable ism : option source_map.
Variable P : string -> bool.
Notation mark := (mark_prepend_stmt_counter e).

(** A name given by the instrumenter, or one satisfying [P] *)
Definition fn_named (kf : N * func) : Prop :=
  f_name (snd kf) = ("(anonymous_" ++ dec (fst kf) ++ ")")%string \/ f_name (snd kf) = "anonymous" \/ P (f_name (snd kf)) = true.

Definition stmts_made (n : N) (sm : statement_map) (s : line_hit_map) : Prop :=
  im_keys sm = first_ids n /\ s = map (fun kv => (fst kv, 0)) sm.
Definition fns_made (n : N) (fm : function_map) (f : line_hit_map) : Prop :=
  im_keys fm = first_ids n /\ f = map (fun kv => (fst kv, 0)) fm /\
  Forall (fun kf => fn_named kf /\ f_line (snd kf) = line (rstart (f_loc (snd kf)))) fm.
Definition branches_made (n : N) (bm : branch_map) (b : branch_hit_map) (bt : option branch_hit_map) : Prop :=
  im_wf bm /\ im_wf b /\
  (forall k, n <= k -> im_get k bm = None) /\
  (forall k, im_get k b = option_map no_hits (im_get k bm)) /\
  (forall k br, im_get k bm = Some br -> exists r, b_loc br = Some r /\ b_line br = Some (line (rstart r))) /\
  if e_report_logic e then
    exists t, bt = Some t /\ im_wf t /\
      forall k, im_get k t = match im_get k bm with
                             | Some br => if is_logical br then Some (no_hits br) else None
                             | None => None
                             end
  else bt = None.
Definition made (sc : source_cov) : Prop :=
  let fc := sc_fc sc in
  fc_all fc = false /\ fc_path fc = path /\ fc_input_source_map fc = ism /\
  stmts_made (sc_s sc) (fc_statement_map fc) (fc_s fc) /\
  fns_made (sc_f sc) (fc_fn_map fc) (fc_f fc) /\
  branches_made (sc_b sc) (fc_branch_map fc) (fc_b fc) (fc_b_t fc).

Lemma keys_zero : forall V (m : imap N V), im_keys (map (fun kv => (fst kv, 0)) m) = im_keys m.
Proof. intros V m. unfold im_keys. rewrite map_map. now apply map_ext. Qed.

Lemma made_init : made (cov (init_state e path ism)).
Proof.
  unfold made, init_state. cbn [cov]. unfold set_input_source_map, sc_new, fc_empty.
  cbn [sc_fc sc_s sc_f sc_b fc_all fc_path fc_input_source_map fc_statement_map fc_s fc_fn_map fc_f fc_branch_map fc_b fc_b_t].
  do 3 (split; [reflexivity|]). split; [split; reflexivity|].
  split; [split; [reflexivity|split; [reflexivity|constructor]]|].
  unfold branches_made. split; [constructor|]. split; [constructor|]. split; [reflexivity|]. split; [reflexivity|].
  split; [discriminate|]. destruct (e_report_logic e); [|reflexivity].
  exists []. split; [reflexivity|]. split; [constructor|reflexivity].
Qed.

Lemma insert_next : forall V n (m : imap N V) v, im_keys m = first_ids n -> im_insert n v m = m ++ [(n, v)].
Proof.
  intros V n m v H. apply im_insert_fresh. rewrite H. intros Hi. apply first_ids_in in Hi. lia.
Qed.
Lemma new_statement_made : forall r sc sc' i, new_statement r sc = (sc', i) -> made sc -> made sc'.
Proof.
  intros r sc sc' i H. inversion H; subst. clear H. unfold made, set_stmts.
  cbn [sc_fc sc_s sc_f sc_b fc_all fc_path fc_input_source_map fc_statement_map fc_s fc_fn_map fc_f fc_branch_map fc_b fc_b_t].
  intros (A & B & C & (D1 & D2) & F & G). repeat (split; [assumption|]). split; [|split; assumption].
  unfold stmts_made. rewrite (insert_next _ _ _ _ D1), D2. split.
  - unfold im_keys in *. rewrite map_app, D1, first_ids_S. reflexivity.
  - rewrite map_app. apply insert_next. now rewrite keys_zero.
Qed.
Lemma new_function_made : forall n d r sc sc' i, new_function n d r sc = (sc', i) ->
  (forall x, n = Some x -> x = "anonymous" \/ P x = true) -> made sc -> made sc'.
Proof.
  intros n d r sc sc' i H. inversion H; subst. clear H. intros Hn. unfold made, set_fns.
  cbn [sc_fc sc_s sc_f sc_b fc_all fc_path fc_input_source_map fc_statement_map fc_s fc_fn_map fc_f fc_branch_map fc_b fc_b_t].
  intros (A & B & C & D & (F1 & F2 & F3) & G). repeat (split; [assumption|]). split; [|assumption].
  unfold fns_made. rewrite (insert_next _ _ _ _ F1), F2. split; [|split].
  - unfold im_keys in *. rewrite map_app, F1, first_ids_S. reflexivity.
  - rewrite map_app. apply insert_next. now rewrite keys_zero.
  - apply Forall_app. split; [assumption|]. constructor; [|constructor]. unfold fn_named. cbn [fst snd f_name f_line f_loc].
    split; [|reflexivity]. destruct n as [x|]; [right|left; reflexivity]. now apply Hn.
Qed.
Lemma new_branch_made : forall t r f sc sc' b, new_branch t r f sc = (sc', b) ->
  (t = BinaryExpr -> f = e_report_logic e) -> made sc -> made sc'.
Proof.
  intros t r f sc sc' b H Hf. inversion H; subst. clear H. unfold made, set_branches.
  cbn [sc_fc sc_s sc_f sc_b fc_all fc_path fc_input_source_map fc_statement_map fc_s fc_fn_map fc_f fc_branch_map fc_b fc_b_t].
  intros (A & B & C & D & F & (G1 & G2 & G3 & G4 & G5 & G6)). repeat (split; [assumption|]).
  unfold branches_made. split; [now apply im_wf_insert|]. split; [now apply im_wf_insert|]. split; [|split; [|split]].
  - intros k Hk. rewrite im_get_insert. change (eqb k (sc_b sc)) with (k =? sc_b sc).
    destruct (N.eqb_spec k (sc_b sc)); [lia|apply G3; lia].
  - intros k. rewrite !im_get_insert. change (eqb k (sc_b sc)) with (k =? sc_b sc).
    destruct (N.eqb_spec k (sc_b sc)); [reflexivity|apply G4].
  - intros k br. rewrite im_get_insert. change (eqb k (sc_b sc)) with (k =? sc_b sc).
    destruct (N.eqb_spec k (sc_b sc)); [|apply G5]. intros H. inversion H; subst. cbn [b_loc b_line]. eauto.
  - unfold maybe_new_branch_true. destruct (e_report_logic e) eqn:Hr.
    + destruct G6 as (bt & -> & W & G6).
      assert (Same : t <> BinaryExpr -> exists t0, Some bt = Some t0 /\ im_wf t0 /\
        forall k, im_get k t0 = match im_get k (im_insert (sc_b sc) (mkBranch (Some r) t [] (Some (line (rstart r)))) (fc_branch_map (sc_fc sc))) with
                                | Some br => if is_logical br then Some (no_hits br) else None | None => None end).
      { intros Ht. exists bt. split; [reflexivity|]. split; [assumption|]. intros k.
        rewrite im_get_insert, G6. change (eqb k (sc_b sc)) with (k =? sc_b sc).
        destruct (N.eqb_spec k (sc_b sc)); [|reflexivity]. subst. rewrite G3 by lia.
        destruct t; try reflexivity. congruence. }
      destruct t; try (destruct f; apply Same; discriminate). rewrite (Hf eq_refl).
      eexists. split; [reflexivity|]. split; [now apply im_wf_insert|]. intros k.
      rewrite !im_get_insert, G6. change (eqb k (sc_b sc)) with (k =? sc_b sc).
      destruct (N.eqb_spec k (sc_b sc)); reflexivity.
    + rewrite G6. destruct f; [|reflexivity]. destruct t; try reflexivity. now specialize (Hf eq_refl).
Qed.
Lemma repeat_snoc : forall (x : N) n, repeat x n ++ [x] = repeat x (S n).
Proof. intros x n. induction n; [reflexivity|]. cbn [repeat app]. now rewrite IHn. Qed.
Lemma no_hits_push : forall r br, no_hits (push_location r br) = no_hits br ++ [0].
Proof.
  intros r br. unfold no_hits, push_location. cbn [b_locations]. rewrite app_length, Nat.add_1_r. symmetry. apply repeat_snoc.
Qed.
Lemma add_branch_path_made : forall b r sc sc' i, add_branch_path b r sc = Ok (sc', i) -> made sc -> made sc'.
Proof.
  intros b r sc sc' i H. unfold add_branch_path in H.
  destruct (im_get b (fc_branch_map (sc_fc sc))) as [br|] eqn:Hbr; [|discriminate].
  destruct (im_get b (fc_b (sc_fc sc))) as [n|] eqn:Hn; [|discriminate].
  cbn [expect bind] in H. destruct (im_get b (im_update _ _ _)) as [x|]; [|discriminate]. cbn [expect bind] in H.
  inversion H; subst; clear H. unfold made, set_branches.
  cbn [sc_fc sc_s sc_f sc_b fc_all fc_path fc_input_source_map fc_statement_map fc_s fc_fn_map fc_f fc_branch_map fc_b fc_b_t].
  intros (A & B & C & D & F & (G1 & G2 & G3 & G4 & G5 & G6)). repeat (split; [assumption|]).
  unfold branches_made. split; [unfold im_wf; now rewrite im_update_keys|]. split; [unfold im_wf; now rewrite im_update_keys|].
  split; [|split; [|split]].
  - intros k Hk. rewrite im_get_update, (G3 k Hk). now destruct (eqb k b).
  - intros k. rewrite !im_get_update, G4. destruct (eqb k b); [|reflexivity].
    destruct (im_get k (fc_branch_map (sc_fc sc))) as [br'|]; [|reflexivity]. cbn [option_map]. now rewrite no_hits_push.
  - intros k br'. rewrite im_get_update. destruct (eqb k b); [|apply G5].
    destruct (im_get k (fc_branch_map (sc_fc sc))) as [b0|] eqn:E; [|discriminate]. intros H. inversion H; subst.
    cbn [push_location b_loc b_line]. now apply (G5 k).
  - destruct (e_report_logic e); [|now rewrite G6]. destruct G6 as (bt & -> & W & G6). cbn [maybe_add_branch_true].
    eexists. split; [reflexivity|]. split; [unfold im_wf; now rewrite im_update_keys|]. intros k.
    rewrite !im_get_update, G6. destruct (eqb k b); [|reflexivity].
    destruct (im_get k (fc_branch_map (sc_fc sc))) as [b0|]; [|reflexivity]. cbn [option_map].
    change (is_logical (push_location r b0)) with (is_logical b0). destruct (is_logical b0); [|reflexivity].
    cbn [option_map]. now rewrite no_hits_push.
Qed.

(** Freezing removes the branches without paths. *)
Lemma freeze_made : forall sc, made sc -> made (freeze sc) /\
  forall k br, im_get k (fc_branch_map (sc_fc (freeze sc))) = Some br -> b_locations br <> [].
Proof.
  intros sc (A & B & C & D & F & (G1 & G2 & G3 & G4 & G5 & G6)).
  unfold made, freeze, set_branches.
  cbn [sc_fc sc_s sc_f sc_b fc_all fc_path fc_input_source_map fc_statement_map fc_s fc_fn_map fc_f fc_branch_map fc_b fc_b_t].
  assert (R : forall k, im_get k (im_retain (fun _ b => has_paths b) (fc_branch_map (sc_fc sc))) =
     if pathless (fc_branch_map (sc_fc sc)) k then None else im_get k (fc_branch_map (sc_fc sc))).
  { intros k. rewrite im_get_retain by assumption. unfold pathless.
    destruct (im_get k (fc_branch_map (sc_fc sc))) as [b|]; [|reflexivity]. now destruct (has_paths b). }
  destruct (prune_facts _ (fc_branch_map (sc_fc sc)) (fc_b (sc_fc sc)) G2 G1) as [Wb Gb].
  split.
  - repeat (split; [assumption|]). unfold branches_made. split; [now apply im_wf_retain|]. split; [exact Wb|].
    split; [|split; [|split]].
    + intros k Hk. rewrite R, (G3 k Hk). now destruct (pathless _ _).
    + intros k. rewrite Gb, R, G4. now destruct (pathless _ _).
    + intros k br. rewrite R. destruct (pathless _ _); [discriminate|]. apply G5.
    + destruct (e_report_logic e); [|now rewrite G6]. destruct G6 as (bt & -> & W & G6).
      destruct (prune_facts _ (fc_branch_map (sc_fc sc)) bt W G1) as [Wt Gt].
      eexists. split; [reflexivity|]. split; [exact Wt|]. intros k. rewrite Gt, R, G6. now destruct (pathless _ _).
  - intros k br. rewrite R. unfold pathless. destruct (im_get k _) as [b|]; [|discriminate]. unfold has_paths.
    destruct (b_locations b) eqn:El; [discriminate|]. cbn [negb]. intros H. inversion H; subst. rewrite El. discriminate.
Qed.

(** ** Visits *)
Fixpoint named (t : node) : bool :=
  match t with Node k _ cs => forallb P (own_ident k) && forallb named cs end.
Lemma named_idents : forall t, forallb P (idents t) = true -> named t = true.
Proof.
  induction t as [k sp cs IH] using node_ind'. cbn [idents named]. rewrite forallb_app. intros H.
  apply andb_true_iff in H as [-> H]. cbn [andb]. induction IH as [|c cs Hc _ IH]; [reflexivity|].
  cbn [flat_map] in H. rewrite forallb_app in H. apply andb_true_iff in H as [H1 H2]. cbn [forallb].
  now rewrite Hc, IH.
Qed.

Definition okst (s : st) : Prop := forallb named (before s) = true /\ made (cov s).

Lemma counter_named : forall c, named (counter_stmt c) = true. Proof. reflexivity. Qed.
Lemma counter_expr_named : forall c, named (counter_expr c) = true. Proof. reflexivity. Qed.
Lemma paren_seq_named : forall c x, named (paren_seq c x) = named x.
Proof. intros c x. cbn. now rewrite ?andb_true_r. Qed.
Lemma increase_named : forall b i x, named (increase_true_expr b i x) = named x.
Proof. intros. cbn. now rewrite ?andb_true_r. Qed.

Lemma mark_ok : forall sp s, okst s -> okst (mark sp s).
Proof.
  intros sp s [A B]. unfold mark_prepend_stmt_counter. destruct (new_statement _ _) as [c i] eqn:H.
  split; cbn [before cov]; [now rewrite forallb_app, A|]. now apply (new_statement_made _ _ _ _ H).
Qed.
Lemma replace_stmt_ok : forall x s x' s', replace_expr_with_stmt_counter e x s = (x', s') ->
  named x = true -> okst s -> named x' = true /\ okst s'.
Proof.
  intros x s x' s'. unfold replace_expr_with_stmt_counter. destruct (new_statement _ _) as [c i] eqn:H.
  intros E N [A B]. inversion E; subst. rewrite paren_seq_named. split; [assumption|]. split; [exact A|].
  now apply (new_statement_made _ _ _ _ H).
Qed.
Lemma replace_branch_ok : forall x b s x' s', replace_expr_with_branch_counter e x b s = Ok (x', s') ->
  named x = true -> okst s -> named x' = true /\ okst s'.
Proof.
  intros x b s x' s' H N [A B]. unfold replace_expr_with_branch_counter in H. destruct (negb _); [discriminate|].
  destruct (add_branch_path _ _ _) as [[c i]| |] eqn:Hp; try discriminate. cbn [bind] in H. inversion H; subst.
  rewrite paren_seq_named. split; [assumption|]. split; [exact A|]. now apply (add_branch_path_made _ _ _ _ _ Hp).
Qed.
Lemma cond_arm_ok : forall b x s x' s', cond_arm e b x s x' s' ->
  named x = true -> okst s -> named x' = true /\ okst s'.
Proof. intros b x s x' s' [[-> ->]|H]; [auto|]. exact (replace_branch_ok _ _ _ _ _ H). Qed.
Lemma covered_ok : forall x s x' s', covered e x s x' s' ->
  named x = true -> okst s -> named x' = true /\ okst s'.
Proof.
  intros x s x' s' (s1 & H1 & H2) N K.
  assert (K1 : okst s1) by (destruct H1 as [->| ->]; [assumption|now apply mark_ok]).
  destruct H2 as [[-> [->| ->]]|[_ H2]]; [auto|split; [auto|now apply mark_ok]|].
  exact (replace_stmt_ok _ _ _ _ H2 N K1).
Qed.
Lemma prepend_named : forall c b b', prepend_to_block c b = Some b' -> named b = true -> named b' = true.
Proof.
  intros c b b' H. unfold prepend_to_block in H. destruct (block_view b) as [[[[bi bsp] ssp] ss]|] eqn:E; [|discriminate].
  apply block_view_inv in E. inversion H; subst. intros K. exact K.
Qed.
Lemma create_fn_ok : forall id fn s fn' s', create_fn_instrumentation e id fn s = Ok (fn', s') ->
  (forall x sp, id = Some (x, sp) -> x = "anonymous" \/ P x = true) ->
  named fn = true -> okst s -> named fn' = true /\ okst s'.
Proof.
  intros id [k sp cs] s fn' s' H Hn N [A B]. unfold create_fn_instrumentation in H. destruct k; try discriminate.
  destruct cs as [|p [|d [|b [|ty [|? ?]]]]]; try discriminate.
  destruct (new_function _ _ _ _) as [c i] eqn:Hf. destruct (is_none b); [discriminate|].
  destruct (prepend_to_block _ _) as [b'|] eqn:Hb; [|discriminate]. cbn [expect bind] in H. inversion H; subst.
  cbn [named own_ident forallb andb] in *. rewrite !andb_true_iff in *. destruct N as (N1 & N2 & N3 & N4).
  split; [repeat (split; [assumption|]); split; [now apply (prepend_named _ _ _ Hb)|assumption]|].
  split; [exact A|]. apply (new_function_made _ _ _ _ _ _ Hf); [|assumption].
  intros x Hx. destruct id as [[y ysp]|]; [|discriminate]. inversion Hx; subst. now apply (Hn x ysp).
Qed.
Lemma accessor_ok : forall name sp s b b' s', accessor_body e name sp s b = Ok (b', s') ->
  name = "anonymous" \/ P name = true -> named b = true -> okst s -> named b' = true /\ okst s'.
Proof.
  intros name sp s b b' s' H Hn N [A B]. unfold accessor_body in H. destruct (is_none b).
  { inversion H; subst. split; [assumption|now split]. }
  destruct (new_function _ _ _ _) as [c i] eqn:Hf.
  destruct (prepend_to_block _ _) as [b0|] eqn:Hb; [|discriminate]. cbn [expect bind] in H. inversion H; subst.
  split; [now apply (prepend_named _ _ _ Hb)|]. split; [exact A|]. apply (new_function_made _ _ _ _ _ _ Hf); [|assumption].
  intros x Hx. inversion Hx; subst. assumption.
Qed.
Lemma logical_branch_ok : forall sp s s' b, new_logical_branch e sp s = (s', b) -> okst s -> okst s'.
Proof.
  intros sp s s' b H [A B]. unfold new_logical_branch in H. destruct (new_branch _ _ _ _) as [c i] eqn:Hn.
  inversion H; subst. split; [exact A|]. now apply (new_branch_made _ _ _ _ _ _ Hn).
Qed.
Lemma templates_ok : forall s a b s', get_coverage_templates s = (a, b, s') -> okst s ->
  named a = true /\ named b = true /\ okst s'.
Proof.
  intros s a b s' H [A B]. inversion H; subst. do 2 (split; [reflexivity|]). split; [exact A|]. now apply freeze_made.
Qed.
Lemma block_last_named : forall cs cs', block_last cs = Some cs' -> forallb named cs = true -> forallb named cs' = true.
Proof.
  induction cs as [|c cs IH]; intros cs' H N; [discriminate|]. destruct cs as [|c2 cs].
  - cbn [block_last] in H. unfold to_block in H. destruct (stmt_view c) as [[sp x]|] eqn:Hv; [|discriminate].
    apply stmt_view_inv in Hv. subst. destruct (is_block x); inversion H; subst; [exact N|].
    cbn [forallb named own_ident mk andb] in *. now rewrite ?andb_true_r in *.
  - change (block_last (c :: c2 :: cs)) with (option_map (cons c) (block_last (c2 :: cs))) in H.
    destruct (block_last (c2 :: cs)) as [l|] eqn:Hl; [|discriminate]. inversion H; subst.
    cbn [forallb] in N |- *. apply andb_true_iff in N as [-> N]. cbn [andb]. now apply IH.
Qed.
Lemma key_name_ok : forall key x, key_name key x -> named key = true -> x = "anonymous" \/ P x = true.
Proof.
  intros [k sp cs] x [H|[H|H]] N; [now left| |]; right; cbn [nkind] in H; subst; cbn in N;
    apply andb_true_iff in N as [N _]; now rewrite andb_true_r in N.
Qed.
Lemma enter_before : forall n sp s s1 old cur, on_enter e n sp s = (s1, old, cur) -> before s1 = before s.
Proof.
  intros n sp s s1 old cur H. unfold on_enter, on_enter_with_span in H. destruct (is_next _); now inversion H.
Qed.
Lemma enter_ok : forall n sp s s1 old cur, on_enter e n sp s = (s1, old, cur) -> okst s -> okst s1.
Proof.
  intros n sp s s1 old cur H [A B]. split; [now rewrite (enter_before _ _ _ _ _ _ H)|now rewrite (enter_cov _ _ _ _ _ _ _ H)].
Qed.
Lemma enter_span_ok : forall sp s s1 old cur, on_enter_with_span e sp s = (s1, old, cur) -> okst s -> okst s1.
Proof.
  intros sp s s1 old cur H [A B]. unfold on_enter_with_span in H. destruct (is_next _); inversion H; subst; split; assumption.
Qed.
Lemma spawn_ok : forall s cur, okst s -> okst (spawn s cur).
Proof. intros s cur [A B]. split; [reflexivity|exact B]. Qed.
Lemma clear_ok : forall s, okst s -> okst (clear_before s).
Proof. intros s [A B]. split; [reflexivity|exact B]. Qed.
Lemma set_cov_ok : forall c s, okst s -> made c -> okst (set_cov c s).
Proof. intros c s [A B] C. now split. Qed.

Definition OV (t : node) (s : st) (t' : node) (s' : st) : Prop :=
  named t = true -> okst s -> named t' = true /\ okst s'.
Definition OK (cs : list node) (s : st) (cs' : list node) (s' : st) : Prop :=
  forallb named cs = true -> okst s -> forallb named cs' = true /\ okst s'.

Lemma named_node : forall k sp cs, named (Node k sp cs) = forallb P (own_ident k) && forallb named cs.
Proof. reflexivity. Qed.
Ltac nm := repeat match goal with
  | H : named (Node _ _ _) = true |- _ => rewrite named_node in H
  | H : forallb named (_ :: _) = true |- _ => cbn [forallb] in H
  | H : forallb named (_ ++ _) = true |- _ => rewrite forallb_app in H
  | H : (_ && _) = true |- _ => apply andb_true_iff in H; destruct H
  end.
Lemma push_ok : forall n s, okst s -> okst (push n s). Proof. intros n s H. exact H. Qed.
Lemma pop_ok : forall s, okst s -> okst (pop s). Proof. intros s H. exact H. Qed.
Lemma exit_ok : forall o s, okst s -> okst (on_exit o s). Proof. intros o s H. exact H. Qed.
Lemma ok_made : forall s, okst s -> made (cov s). Proof. intros s [_ H]. exact H. Qed.
Lemma ok_before : forall s, okst s -> forallb named (before s) = true. Proof. intros s [H _]. exact H. Qed.
Ltac ng := cbn [own_ident]; unfold E, mk in *; repeat match goal with
  | |- context [named (Node _ _ _)] => rewrite named_node
  | |- context [named (paren_seq _ _)] => rewrite paren_seq_named
  | |- context [named (counter_stmt _)] => rewrite counter_named
  | |- context [named (increase_true_expr _ _ _)] => rewrite increase_named
  | |- context [named (counter_expr _)] => rewrite counter_expr_named
  | K : okst ?s |- context [forallb named (before ?s)] => rewrite (ok_before s K)
  | |- context [forallb named (_ ++ _)] => rewrite forallb_app
  | |- context [forallb named (_ :: _)] => cbn [forallb]
  | H : ?x = true |- context [?x] => rewrite H
  end; cbn [forallb own_ident andb]; try reflexivity.
Hint Resolve mark_ok spawn_ok clear_ok set_cov_ok push_ok pop_ok exit_ok ok_made : okdb.
Ltac ok1 := solve [eauto 8 with okdb].
Ltac learn H := let T := type of H in lazymatch goal with _ : T |- _ => fail | _ => pose proof H end.
Ltac fwd := repeat first
  [ progress nm
  | match goal with
    | H : on_enter e _ _ ?s = (?s1, _, _) |- _ =>
        assert (okst s1) by (apply (enter_ok _ _ _ _ _ _ H); ok1); clear H
    | H : on_enter_with_span e _ ?s = (?s1, _, _) |- _ =>
        assert (okst s1) by (apply (enter_span_ok _ _ _ _ _ H); ok1); clear H
    | H : new_branch ?t _ false (cov ?s) = (?c, _) |- _ =>
        assert (made c) by (apply (new_branch_made _ _ _ _ _ _ H); [discriminate|apply ok_made; ok1]); clear H
    | H : new_logical_branch e _ ?s = (?s', _) |- _ =>
        assert (okst s') by (apply (logical_branch_ok _ _ _ _ H); ok1); clear H
    | H : new_function None _ _ (cov ?s) = (?c, _) |- _ =>
        assert (made c) by (apply (new_function_made _ _ _ _ _ _ H); [discriminate|apply ok_made; ok1]); clear H
    | H : add_branch_path _ _ (cov ?s) = Ok (?c, _) |- _ =>
        assert (made c) by (apply (add_branch_path_made _ _ _ _ _ H); apply ok_made; ok1); clear H
    | H : cond_arm e _ ?x ?s ?x' ?s' |- _ =>
        assert (named x' = true /\ okst s') as [? ?] by (apply (cond_arm_ok _ _ _ _ _ H); [assumption|ok1]); clear H
    | H : covered e ?x ?s ?x' ?s' |- _ =>
        assert (named x' = true /\ okst s') as [? ?] by (apply (covered_ok _ _ _ _ H); [assumption|ok1]); clear H
    | H : replace_expr_with_branch_counter e ?x _ ?s = Ok (?x', ?s') |- _ =>
        assert (named x' = true /\ okst s') as [? ?] by (apply (replace_branch_ok _ _ _ _ _ H); [ng|ok1]); clear H
    | H : block_last ?cs = Some ?cs' |- _ =>
        assert (forallb named cs' = true) by (apply (block_last_named _ _ H); ng); clear H
    | H : get_coverage_templates ?s = (?a, ?b, ?s') |- _ =>
        assert (named a = true /\ named b = true /\ okst s') as (? & ? & ?) by (apply (templates_ok _ _ _ _ H); ok1); clear H
    | H : create_fn_instrumentation e ?id ?fn ?s = Ok (?fn', ?s') , K : forall nm isp, ?id = Some (nm, isp) -> key_name ?key nm |- _ =>
        assert (named fn' = true /\ okst s') as [? ?]
          by (apply (create_fn_ok _ _ _ _ _ H);
              [intros x0 sp0 E0; apply (key_name_ok _ _ (K _ _ E0)); assumption|assumption|ok1]); clear H
    | IH : ?a = true -> okst ?s -> ?c = true /\ okst ?s' |- _ =>
        let A := fresh in let B := fresh in
        assert (A : a = true) by ng; assert (B : okst s) by ok1;
        destruct (IH A B) as [? ?]; clear IH
    end ].
Theorem made_all :
  (forall v t s t' s', Vis e v t s t' s' -> OV t s t' s') /\
  (forall v cs s cs' s', Kids e v cs s cs' s' -> OK cs s cs' s') /\
  (forall ss s ss' s', Ins e ss s ss' s' -> OK ss s ss' s') /\
  (forall v b x s x' s', Wrap e v b x s x' s' -> OV x s x' s') /\
  (forall b r cur x s x' s', Arm e b r cur x s x' s' -> OV x s x' s') /\
  (forall xs s xs' s', Items e xs s xs' s' -> OK xs s xs' s') /\
  (forall xs s xs' s', SItems e xs s xs' s' -> OK xs s xs' s').
Proof.
  apply Vis_all_ind; unfold OV, OK; intros; fwd; try (split; [solve [ng]|ok1]).
  - (* V_accessor *)
    assert (Hk : name = "anonymous" \/ P name = true).
    { destruct pre as [|key pre]; cbn [app] in H6.
      - apply (key_name_ok _ _ (H6 _ _ eq_refl)). assumption.
      - cbn [forallb] in H9. apply andb_true_iff in H9 as [H9 _]. now apply (key_name_ok _ _ (H6 _ _ eq_refl)). }
    destruct (accessor_ok _ _ _ _ _ _ H3 Hk) as [? ?]; auto. fwd. split; [ng|ok1].
  - (* V_module_items *)
    assert (okst s0) by (destruct H8; split; congruence). fwd.
    split; [|match goal with K : okst s2 |- _ => destruct K; split; congruence end].
    subst out. destruct items' as [|i is]; fwd; ng.
  - (* M_visit *)
    assert (okst s2) by (destruct H1 as [->|[esp ->]]; ok1). fwd. split; [ng|ok1].
Qed.
End Made.

(** ** Whole programs *)

Definition among (l : list string) (x : string) : bool := existsb (String.eqb x) l.
Lemma among_all : forall l, forallb (among l) l = true.
Proof.
  intros l. apply forallb_forall. intros x Hx. apply existsb_exists. exists x. split; [assumption|apply String.eqb_refl].
Qed.
Lemma among_in : forall l x, among l x = true -> In x l.
Proof. intros l x H. apply existsb_exists in H as (y & Hy & He). apply String.eqb_eq in He. now subst. Qed.

Definition no_idle_branch (sc : source_cov) : Prop :=
  forall k br, im_get k (fc_branch_map (sc_fc sc)) = Some br -> b_locations br <> [].
Theorem instrument_made : forall e n path ism t items t' sc, program_items t = Some items ->
  instrument e n path ism t = Ok (t', sc) ->
  made e path ism (among (idents t)) sc /\ no_idle_branch sc.
Proof.
  intros e n path ism t items t' sc Hi H. unfold instrument in H.
  apply bind_ok in H as [[t1 s1] [Hv H]]. inversion H; subst. clear H.
  unfold visit_program in Hv. destruct (should_ignore_file _ _ _).
  { inversion Hv; subst. split; [apply made_init|]. intros k br Hk. discriminate. }
  apply bind_ok in Hv as [[t1 s2] [Hv H]]. inversion H; subst. clear H. apply visit_sound in Hv.
  destruct (made_all e path ism (among (idents t))) as (_ & _ & _ & _ & _ & MI & MS).
  pose proof (named_idents _ _ (among_all (idents t))) as Hn.
  assert (K0 : okst e path ism (among (idents t)) (push NProgram (init_state e path ism))) by (split; [reflexivity|apply made_init]).
  remember (idents t) as names eqn:En. clear En.
  destruct t as [k sp cs]. destruct k; try discriminate; destruct cs as [|[k2 sp2 cs2] [|? ?]]; try discriminate;
      destruct k2; try discriminate; inversion Hi; subst; clear Hi;
      cbn [named own_ident forallb andb] in Hn; rewrite !andb_true_r in Hn.
  - apply module_inv in Hv as (s0 & items' & sa & tp & ca & sb & Hc0 & Hb0 & Hm & Ht & Hcv & ->).
    destruct (MI _ _ _ _ Hm) as [_ [_ Ka]]; [exact Hn|destruct K0; split; congruence|].
    inversion Ht; subst. cbn [cov pop]. rewrite Hcv. cbn [set_cov cov]. now apply freeze_made.
  - apply script_inv in Hv as (body' & sa & tp & ca & Hm & Ht & ->).
    destruct (MS _ _ _ _ Hm) as [_ [_ Ka]]; [exact Hn|exact K0|].
    inversion Ht; subst. cbn [cov pop set_cov]. now apply freeze_made.
Qed.

(** The record embedded in an instrumented file: path and source map as given, statements and functions
    numbered from 0 without gaps, one zero counter per entry and per path, lines and positions of branches
    consistent, truthiness counters for exactly the logical branches. *)
Theorem produced_record : forall e n path ism t items t' sc, program_items t = Some items ->
  instrument e n path ism t = Ok (t', sc) ->
  let fc := sc_fc sc in
  let zeros := fun br => repeat 0 (length (b_locations br)) in
  fc_all fc = false /\ fc_path fc = path /\ fc_input_source_map fc = ism /\
  im_keys (fc_statement_map fc) = map N.of_nat (seq 0 (length (fc_statement_map fc))) /\
  im_keys (fc_fn_map fc) = map N.of_nat (seq 0 (length (fc_fn_map fc))) /\
  fc_s fc = map (fun kv => (fst kv, 0)) (fc_statement_map fc) /\
  fc_f fc = map (fun kv => (fst kv, 0)) (fc_fn_map fc) /\
  (forall k f, In (k, f) (fc_fn_map fc) -> f_line f = line (rstart (f_loc f))) /\
  NoDup (im_keys (fc_branch_map fc)) /\ NoDup (im_keys (fc_b fc)) /\
  (forall k br, im_get k (fc_branch_map fc) = Some br ->
     b_locations br <> [] /\ exists r, b_loc br = Some r /\ b_line br = Some (line (rstart r))) /\
  (forall k, im_get k (fc_b fc) = option_map zeros (im_get k (fc_branch_map fc))) /\
  match fc_b_t fc with
  | Some bt => e_report_logic e = true /\ NoDup (im_keys bt) /\
      forall k v, im_get k bt = Some v <->
        exists br, im_get k (fc_branch_map fc) = Some br /\ b_type br = BinaryExpr /\ v = zeros br
  | None => e_report_logic e = false
  end.
Proof.
  intros e n path ism t items t' sc Hi H fc zeros. destruct (instrument_made e n path ism t items t' sc Hi H) as [M Np].
  destruct M as (A & B & C & (D1 & D2) & (F1 & F2 & F3) & (G1 & G2 & G3 & G4 & G5 & G6)). fold fc in A, B, C, D1, D2, F1, F2, F3, G1, G2, G3, G4, G5, G6.
  assert (Len : forall V (m : imap N V) k, im_keys m = first_ids k -> im_keys m = map N.of_nat (seq 0 (length m))).
  { intros V m k E. rewrite E. unfold first_ids. f_equal. f_equal.
    apply (f_equal (@length N)) in E. unfold im_keys, first_ids in E. rewrite !map_length, seq_length in E. now symmetry. }
  do 3 (split; [assumption|]). split; [eapply Len; eauto|]. split; [eapply Len; eauto|]. do 2 (split; [assumption|]).
  split. { intros k f Hf. rewrite Forall_forall in F3. apply (F3 _ Hf). }
  split; [exact G1|]. split; [exact G2|]. split. { intros k br Hk. split; [now apply (Np k)|now apply (G5 k)]. }
  split; [exact G4|]. destruct (e_report_logic e).
  - destruct G6 as (bt & -> & W & G6). split; [reflexivity|]. split; [exact W|]. intros k v. rewrite G6. unfold is_logical.
    split.
    + destruct (im_get k (fc_branch_map fc)) as [br|]; [|discriminate]. destruct (b_type br) eqn:Ht; try discriminate.
      intros E. inversion E; subst. exists br. auto.
    + intros (br & -> & -> & ->). reflexivity.
  - now rewrite G6.
Qed.

(** Functions are named by an identifier or property name of the source, "anonymous" or their number. *)
Theorem function_names : forall e n path ism t items t' sc k f, program_items t = Some items ->
  instrument e n path ism t = Ok (t', sc) -> In (k, f) (fc_fn_map (sc_fc sc)) ->
  f_name f = ("(anonymous_" ++ dec k ++ ")")%string \/ f_name f = "anonymous" \/ In (f_name f) (idents t).
Proof.
  intros e n path ism t items t' sc k f Hi H Hf. destruct (instrument_made e n path ism t items t' sc Hi H) as [M _].
  destruct M as (_ & _ & _ & _ & (_ & _ & F3) & _). rewrite Forall_forall in F3. destruct (F3 _ Hf) as [[E|[E|E]] _]; auto.
  right. right. now apply among_in.
Qed.

Lemma produced_unique_keys : forall e n path ism t items t' sc, program_items t = Some items ->
  instrument e n path ism t = Ok (t', sc) -> unique_keys (sc_fc sc).
Proof.
  intros e n path ism t items t' sc Hi H. pose proof (produced_record e n path ism t items t' sc Hi H) as R. cbv zeta in R.
  destruct R as (_ & _ & _ & S1 & F1 & S2 & F2 & _ & B1 & B2 & _ & _ & T).
  assert (U : forall n0, NoDup (map N.of_nat (seq 0 n0))).
  { intros n0. apply FinFun.Injective_map_NoDup; [intros a b E; now apply Nnat.Nat2N.inj|apply seq_NoDup]. }
  unfold unique_keys. rewrite S2, F2, !keys_zero, S1, F1. do 2 (split; [apply U|]). split; [exact B1|].
  do 2 (split; [apply U|]). split; [exact B2|]. destruct (fc_b_t (sc_fc sc)); [apply T|exact I].
Qed.
Lemma plain_app : forall a b, DataObject.plain a -> DataObject.plain b -> DataObject.plain (a ++ b)%string.
Proof.
  intros a b Ha Hb. unfold DataObject.plain in *. induction a as [|c a IH]; [exact Hb|]. cbn in *.
  apply andb_true_iff in Ha as [-> Ha]. now rewrite IH.
Qed.
Lemma all_chars_impl : forall p q s, (forall c, p c = true -> q c = true) -> all_chars p s = true -> all_chars q s = true.
Proof.
  intros p q s H. induction s as [|c s IH]; [reflexivity|]. cbn. intros K. apply andb_true_iff in K as [K1 K2].
  now rewrite (H _ K1), IH.
Qed.
Lemma digit_plain : forall c, is_digit c = true -> plain_char c = true.
Proof. intros [[] [] [] [] [] [] [] []]; cbn; intros H; try reflexivity; discriminate. Qed.
Lemma plain_dec : forall n, DataObject.plain (dec n).
Proof. intros n. apply (all_chars_impl is_digit); [exact digit_plain|apply dec_digits]. Qed.

(** If no identifier of the source contains a character that has to be escaped (identifiers of
    JavaScript never do), the literal in the output is the record: C20 for every instrumented file. *)
Theorem produced_literal : forall e n path ism t items t' sc, program_items t = Some items ->
  instrument e n path ism t = Ok (t', sc) -> Forall DataObject.plain (idents t) ->
  (forall gcv, output_of (emitted_for gcv path (sc_fc sc)) (sc_fc sc)) /\
  exists v fc', eval (snd (coverage_data_object (sc_fc sc))) = Some (JObj v) /\
    read_fc (JObj v) = Some fc' /\ same_data fc' (sc_fc sc).
Proof.
  intros e n path ism t items t' sc Hi H Hp.
  pose proof (produced_unique_keys e n path ism t items t' sc Hi H) as U.
  assert (N : fc_names_plain (sc_fc sc)).
  { apply Forall_forall. intros [k f] Hf. cbn [snd].
    destruct (function_names e n path ism t items t' sc k f Hi H Hf) as [->|[->|E]].
    - apply plain_app; [reflexivity|]. apply plain_app; [apply plain_dec|reflexivity].
    - reflexivity.
    - rewrite Forall_forall in Hp. now apply Hp. }
  split; [intros gcv; split; [reflexivity|now split]|].
  destruct (literal_is_the_data (sc_fc sc) N U) as (v & fc' & A & _ & B & C & _). eauto.
Qed.

(** ** Reports of instrumented files *)

(** [r] is a record of the same file as [fc], with other numbers. *)
Definition same_tables (fc r : file_coverage) : Prop :=
  fc_all r = fc_all fc /\ fc_path r = fc_path fc /\ fc_input_source_map r = fc_input_source_map fc /\
  fc_statement_map r = fc_statement_map fc /\ fc_fn_map r = fc_fn_map fc /\ fc_branch_map r = fc_branch_map fc /\
  im_keys (fc_s r) = im_keys (fc_s fc) /\ im_keys (fc_f r) = im_keys (fc_f fc) /\
  map (fun kv => (fst kv, length (snd kv))) (fc_b r) = map (fun kv => (fst kv, length (snd kv))) (fc_b fc) /\
  option_map (map (fun kv => (fst kv, length (snd kv)))) (fc_b_t r) =
  option_map (map (fun kv => (fst kv, length (snd kv)))) (fc_b_t fc).

Lemma same_b_keys : forall (a b : branch_hit_map),
  map (fun kv => (fst kv, length (snd kv))) a = map (fun kv => (fst kv, length (snd kv))) b -> im_keys a = im_keys b.
Proof.
  intros a b H. apply (f_equal (map fst)) in H. rewrite !map_map in H. exact H.
Qed.
Lemma produced_tables_ok : forall e n path ism t items t' sc r, program_items t = Some items ->
  instrument e n path ism t = Ok (t', sc) -> same_tables (sc_fc sc) r -> tables_ok r /\ branches_ok r.
Proof.
  intros e n path ism t items t' sc r Hi H (_ & _ & _ & E1 & E2 & E3 & E4 & E5 & E6 & _).
  pose proof (produced_record e n path ism t items t' sc Hi H) as R. cbv zeta in R.
  destruct R as (_ & _ & _ & S1 & F1 & S2 & F2 & _ & B1 & B2 & B3 & B4 & _). apply same_b_keys in E6.
  assert (Has : forall V (m : imap N V) k, In k (im_keys m) -> exists v, im_get k m = Some v).
  { intros V m k Hk. destruct (im_get k m) as [v|] eqn:E; [eauto|]. apply im_get_None in E. contradiction. }
  split.
  - unfold tables_ok, table_ok. rewrite E1, E2, E3, E4, E5, E6, S2, F2, !keys_zero. split; [|split]; intros k Hk.
    + destruct (Has _ _ _ Hk) as [v Hv]. exists v, v. now split.
    + destruct (Has _ _ _ Hk) as [v Hv]. exists v, (f_loc v). now split.
    + destruct (Has _ _ _ Hk) as [v Hv]. rewrite B4 in Hv.
      destruct (im_get k (fc_branch_map (sc_fc sc))) as [br|] eqn:Eb; [|discriminate].
      destruct (B3 k br Eb) as [Hl _]. destruct (b_locations br) as [|r0 l] eqn:El; [congruence|].
      exists br, r0. split; [reflexivity|]. unfold br_loc. now rewrite El.
  - unfold branches_ok. rewrite E3. intros k b Hb. apply (im_in_get _ B1) in Hb.
    destruct (B3 k b Hb) as (_ & r0 & L1 & L2). split.
    + unfold branch_line_spec. rewrite L2. now destruct (line (rstart r0)).
    + intros K. apply im_get_None in K. rewrite E6 in K. apply im_get_None in K. rewrite B4, Hb in K. discriminate.
Qed.

(** Whatever numbers the counters of an instrumented file have, the views of its record are computed
    without a panic, and (without truthiness counters) two such records can be merged. *)
Theorem reports_never_panic : forall e n path ism t items t' sc r, program_items t = Some items ->
  instrument e n path ism t = Ok (t', sc) -> same_tables (sc_fc sc) r ->
  (exists l, get_line_coverage r = Ok l) /\ (exists l, get_uncovered_lines r = Ok l) /\
  (exists l, get_branch_coverage_by_line r = Ok l) /\
  (forall m, N.of_nat (length (concat (im_values (fc_b r)))) < u32_mod ->
     (forall bt, fc_b_t r = Some bt -> N.of_nat (length (concat (im_values bt))) < u32_mod) ->
     exists s, to_summary m r = Ok s) /\
  (e_report_logic e = false -> forall r2, same_tables (sc_fc sc) r2 -> exists q, fc_merge Release r r2 = Ok q).
Proof.
  intros e n path ism t items t' sc r Hi H Hr.
  destruct (produced_tables_ok e n path ism t items t' sc r Hi H Hr) as [T B]. pose proof (proj1 T) as TS.
  split; [eexists; now apply line_coverage_spec|]. split; [eexists; now apply uncovered_spec|].
  split; [eexists; now apply branch_by_line_spec|]. split.
  { intros m Hb Ht. eexists. now apply to_summary_spec. }
  intros Hl r2 Hr2. destruct (produced_tables_ok e n path ism t items t' sc r2 Hi H Hr2) as [T2 _].
  pose proof (produced_record e n path ism t items t' sc Hi H) as R. cbv zeta in R.
  destruct R as (A & _ & _ & _ & _ & _ & _ & _ & _ & _ & _ & _ & Bt).
  apply merge_total_release; auto.
  - rewrite (proj1 Hr). exact A.
  - rewrite (proj1 Hr2). exact A.
  - left. destruct (fc_b_t (sc_fc sc)) as [bt|] eqn:E; [destruct Bt; congruence|].
    destruct Hr as (_ & _ & _ & _ & _ & _ & _ & _ & _ & K). rewrite E in K. destruct (fc_b_t r); [discriminate|reflexivity].
Qed.

(** [switch (x) {}  a || b] with reportLogic: the branch of the empty switch is pruned, the logical branch
    keeps its number 1, and merging two records of this file looks up number 1 in the renumbered table. *)
Definition ex_pruned : node :=
  module_ 1 40 [T 1 14 KSwitch [var 9 10 "x"; list_ []];
                T 20 26 KExprStmt [X 20 26 (KBin OpOr) [var 20 21 "a"; var 25 26 "b"]]].
Theorem produced_merge_panics_refuted : exists e t items t' sc, program_items t = Some items /\
  instrument e 40 "f.js" None t = Ok (t', sc) /\
  forall m, fc_merge m (sc_fc sc) (sc_fc sc) = Panic RMapValueMissing.
Proof.
  exists logic_env, ex_pruned. do 3 eexists. split; [reflexivity|]. split; [vm_compute; reflexivity|].
  intros []; vm_compute; reflexivity.
Qed.

(** [const x = f`t`]: the initialiser is registered twice, with the same location; when two reports of
    this file are merged, a hit of the first is lost. *)
Definition ex_twice : node :=
  module_ 1 20 [let_ 1 20 VConst [declarator 7 19 "x" (X 11 19 KTaggedTpl [var 11 12 "f"; at_ 12 19 (KOther 1) []])]].
Theorem produced_merge_loses_hits_refuted : exists e t items t' sc r q, program_items t = Some items /\
  instrument e 40 "f.js" None t = Ok (t', sc) /\ same_tables (sc_fc sc) r /\
  fc_merge Debug r r = Ok q /\ total_hits q < total_hits r + total_hits r.
Proof.
  exists plain_env, ex_twice. do 3 eexists. eexists (mkFC _ _ _ _ _ [(0, 1); (1, 1); (2, 1)] _ _ _ _). eexists.
  split; [reflexivity|]. split; [vm_compute; reflexivity|]. split; [repeat split|]. split; vm_compute; reflexivity.
Qed.

(** ** Example *)
(** The theorems apply to [function f(a) { if (a) return 1; return a || 2; }]. *)
Example produced_ex :
  match instrument logic_env 60 "f.js" None ex_function with
  | Ok (_, sc) =>
      idents ex_function = ["f"; "a"; "a"; "a"] /\ map (fun kf => f_name (snd kf)) (fc_fn_map (sc_fc sc)) = ["f"] /\
      fc_s (sc_fc sc) = [(0, 0); (1, 0); (2, 0)] /\ fc_b (sc_fc sc) = [(0, [0; 0]); (1, [0; 0])] /\
      fc_b_t (sc_fc sc) = Some [(1, [0; 0])]
  | _ => False
  end.
Proof. vm_compute. repeat split. Qed.
