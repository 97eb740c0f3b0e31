(** Counters in the output and slots in the tables (C29-C32): an accounting invariant of the
    visitors. *)
From Coq Require Import NArith String List Bool Lia PeanoNat.
Import ListNotations.
From Verif Require Import Base IndexMap Oxide SourceCov SourceCovProofs Hints Ast Visitor VisitorRel
  VisitorEx Erase.
Open Scope N_scope.

(** ** Specification *)

Definition counter_eqb (a b : counter) : bool :=
  match a, b with
  | CS i, CS j | CF i, CF j => i =? j
  | CB b i, CB b' j | CT b i, CT b' j => (b =? b') && (i =? j)
  | _, _ => false
  end.

(** How often a counter is incremented in the text of a tree. *)
Fixpoint occ (c : counter) (t : node) : nat :=
  match t with
  | Node k _ cs =>
      ((match k with KCounter c' => if counter_eqb c c' then 1 else 0 | _ => 0 end) +
       list_sum (map (occ c) cs))%nat
  end.

(** The slot of a counter exists in a coverage record. *)
Definition has_row (m : branch_hit_map) (b i : N) : bool :=
  match im_get b m with Some l => i <? N.of_nat (length l) | None => false end.
Definition slot_exists (fc : file_coverage) (c : counter) : bool :=
  match c with
  | CS i => match im_get i (fc_s fc) with Some _ => true | None => false end
  | CF i => match im_get i (fc_f fc) with Some _ => true | None => false end
  | CB b i => has_row (fc_b fc) b i
  | CT b i => match fc_b_t fc with Some m => has_row m b i | None => false end
  end.

(** Statement counters of these parts of a node go into the buffer [before] of whoever visits
    the node. *)
Fixpoint leaks (t : node) : bool :=
  match t with
  | Node k _ cs =>
      match k with
      | KStmts | KTs | KArrow | KModuleItems | KScript => false
      | _ => marking k || existsb leaks cs
      end
  end.

(** No module or script inside; if [strict], moreover no discriminant or case test of a
    switch statement leaks. *)
Definition root_kind (k : kind) : bool := match k with KModuleItems | KScript => true | _ => false end.
Definition node_ok (strict : bool) (k : kind) (cs : list node) : bool :=
  negb (root_kind k) &&
  (negb strict || match k with KSwitch => negb (existsb leaks cs) | _ => true end).
Fixpoint good (strict : bool) (t : node) : bool :=
  match t with Node k _ cs => node_ok strict k cs && forallb (good strict) cs end.

(** ** Counting *)

Lemma counter_eqb_spec : forall a b, reflect (a = b) (counter_eqb a b).
Proof.
  intros [i|i|b i|b i] [j|j|b' j|b' j]; simpl; try (constructor; discriminate).
  - destruct (N.eqb_spec i j); constructor; congruence.
  - destruct (N.eqb_spec i j); constructor; congruence.
  - destruct (N.eqb_spec b b'), (N.eqb_spec i j); simpl; constructor; congruence.
  - destruct (N.eqb_spec b b'), (N.eqb_spec i j); simpl; constructor; congruence.
Qed.

Section Count.
Variables (e : env) (path : string) (strict : bool) (c : counter).

Definition occl (l : list node) : nat := list_sum (map (occ c) l).
Definition hit (c0 : counter) : nat := if counter_eqb c c0 then 1%nat else 0%nat.

Lemma occl_nil : occl [] = 0%nat. Proof. reflexivity. Qed.
Lemma occl_cons : forall x l, occl (x :: l) = (occ c x + occl l)%nat.
Proof. reflexivity. Qed.
Lemma occl_app : forall a b, occl (a ++ b) = (occl a + occl b)%nat.
Proof. intros. unfold occl. now rewrite map_app, list_sum_app. Qed.
Lemma occ_node : forall k sp cs, occ c (Node k sp cs) =
  ((match k with KCounter c' => hit c' | _ => 0 end) + occl cs)%nat.
Proof. reflexivity. Qed.
Lemma occ_counter_stmt : forall c0, occ c (counter_stmt c0) = hit c0.
Proof. intros. unfold counter_stmt, counter_expr, E, mk. simpl. fold (hit c0). lia. Qed.
Lemma occ_paren_seq : forall c0 x, occ c (paren_seq c0 x) = (hit c0 + occ c x)%nat.
Proof. intros. unfold paren_seq, counter_expr, E, mk. simpl. fold (hit c0). lia. Qed.
Lemma occ_true : forall b i x,
  occ c (E (mk KInjSeq [counter_expr (CB b i); increase_true_expr b i x])) =
  (hit (CB b i) + hit (CT b i) + occ c x)%nat.
Proof.
  intros. unfold increase_true_expr, counter_expr, E, mk, hit.
  simpl occ. fold (hit (CB b i)). fold (hit (CT b i)). lia.
Qed.
Lemma occl_sonly : forall l, sonly l -> match c with CS _ => False | _ => True end -> occl l = 0%nat.
Proof.
  intros l H Hc. induction H as [|x l [i ->] _ IH]; [reflexivity|].
  rewrite occl_cons, occ_counter_stmt, IH. unfold hit. destruct c; try reflexivity. contradiction.
Qed.

(** ** Slots *)

Definition btype (sc : source_cov) (b : N) : option branch_type :=
  option_map b_type (im_get b (fc_branch_map (sc_fc sc))).
Definition logical_type (t : option branch_type) : bool :=
  match t with Some (BinaryExpr | DefaultArg) => true | _ => false end.

(** [CT]: the slots that would be there if default values had truthiness counters, too. *)
Definition slots (sc : source_cov) (c : counter) : nat :=
  let n := match c with
    | CS i => i <? sc_s sc
    | CF i => i <? sc_f sc
    | CB b i => has_row (fc_b (sc_fc sc)) b i
    | CT b i => e_report_logic e && logical_type (btype sc b) && has_row (fc_b (sc_fc sc)) b i
    end in if n then 1%nat else 0%nat.
Notation sl sc := (slots sc c).

(** Logical branches are registered with the report_logic option. *)
Definition flags_ok (h : list call) : Prop :=
  Forall (fun x => match x with CBranch BinaryExpr _ f => f = e_report_logic e | _ => True end) h.
Definition okst (sc : source_cov) : Prop :=
  exists h, calls_valid h = true /\ flags_ok h /\ sc = spec_state path (e_report_logic e) h.
Definition ext (sc sc' : source_cov) : Prop :=
  forall b t, btype sc b = Some t -> btype sc' b = Some t.

Lemma ext_refl : forall sc, ext sc sc. Proof. intros sc b t H. exact H. Qed.
Lemma ext_trans : forall a b d, ext a b -> ext b d -> ext a d.
Proof. intros a b d H1 H2 x t H. auto. Qed.

Lemma btype_spec : forall h b, btype (spec_state path (e_report_logic e) h) b =
  option_map (fun x => fst (fst x)) (nth_error (branches_of h) (N.to_nat b)).
Proof.
  intros h b. unfold btype, spec_state. rewrite spec_record_alt. cbn [sc_fc fc_branch_map].
  unfold spec_bm. rewrite (im_get_map _ _ _ _ (bm_entry h)), im_get_number_from.
  destruct (N.leb_spec 0 b); [|lia]. rewrite N.sub_0_r.
  destruct (nth_error (branches_of h) (N.to_nat b)) as [[[t l] f]|]; reflexivity.
Qed.

Lemma has_row_spec : forall h b i, calls_valid h = true ->
  has_row (fc_b (sc_fc (spec_state path (e_report_logic e) h))) b i = (i <? lenN (paths_of b h)).
Proof.
  intros h b i Hv. unfold has_row, spec_state. rewrite spec_record_alt. cbn [sc_fc fc_b].
  rewrite spec_b_get. destruct (N.ltb_spec b (lenN (branches_of h))) as [Hl|Hl].
  - now rewrite zeros_length.
  - rewrite (calls_valid_bound h b 0 Hv) by (simpl; lia). unfold lenN; simpl.
    symmetry. apply N.ltb_ge. lia.
Qed.

Lemma flags_snoc : forall h x, flags_ok h ->
  match x with CBranch BinaryExpr _ f => f = e_report_logic e | _ => True end -> flags_ok (h ++ [x]).
Proof. intros h x H Hx. apply Forall_app. split; [assumption|]. now constructor. Qed.

Lemma call_ok : forall x sc sc' r, okst sc ->
  match x with CBranch BinaryExpr _ f => f = e_report_logic e | _ => True end ->
  do_call x sc = Ok (sc', r) ->
  exists h, calls_valid h = true /\ sc = spec_state path (e_report_logic e) h /\
    calls_valid (h ++ [x]) = true /\ sc' = spec_state path (e_report_logic e) (h ++ [x]) /\
    r = spec_return h x /\ okst sc'.
Proof.
  intros x sc sc' r (h & Hv & Hf & ->) Hx H. rewrite do_call_spec in H by assumption.
  destruct (calls_valid (h ++ [x])) eqn:Hv'; [|discriminate]. inversion H; subst.
  exists h. repeat split; auto. exists (h ++ [x])%list. repeat split; auto using flags_snoc.
Qed.

Lemma ext_snoc : forall h x,
  ext (spec_state path (e_report_logic e) h) (spec_state path (e_report_logic e) (h ++ [x])).
Proof.
  intros h x b t H. rewrite btype_spec in *. rewrite branches_snoc.
  destruct (nth_error (branches_of h) (N.to_nat b)) as [y|] eqn:Hy; [|discriminate].
  rewrite nth_error_app1; [now rewrite Hy|]. apply nth_error_Some. now rewrite Hy.
Qed.

Lemma btype_snoc_path : forall h b l b',
  btype (spec_state path (e_report_logic e) (h ++ [CPath b l])) b' =
  btype (spec_state path (e_report_logic e) h) b'.
Proof. intros. rewrite !btype_spec, branches_snoc. now rewrite app_nil_r. Qed.

Lemma lenN_snoc : forall A (l : list A) x, lenN (l ++ [x]) = lenN l + 1.
Proof. intros. unfold lenN. rewrite app_length. simpl. lia. Qed.

Lemma ltb_succ : forall i n, (i <? n + 1) = (i <? n) || (i =? n).
Proof.
  intros. destruct (N.ltb_spec i (n + 1)), (N.ltb_spec i n), (N.eqb_spec i n); simpl; try reflexivity; lia.
Qed.

Lemma new_statement_count : forall r sc sc' i, okst sc -> new_statement r sc = (sc', i) ->
  okst sc' /\ ext sc sc' /\ sl sc' = (sl sc + hit (CS i))%nat.
Proof.
  intros r sc sc' i Hok H.
  destruct (call_ok (CStmt r) sc sc' (Some i) Hok I) as (h & Hv & Hs & Hv' & Hs' & Hr & Hok').
  { unfold do_call. now rewrite H. }
  split; [assumption|]. subst sc sc'. split; [apply ext_snoc|].
  inversion Hr; subst i. unfold slots, hit. destruct c as [j|j|b j|b j]; simpl counter_eqb;
    rewrite ?btype_spec, ?has_row_spec by assumption; rewrite ?paths_snoc, ?branches_snoc, ?app_nil_r;
    try (now rewrite Nat.add_0_r).
  - cbn [spec_state sc_s]. rewrite stmts_snoc, lenN_snoc, ltb_succ.
    destruct (N.ltb_spec j (lenN (stmts_of h))), (N.eqb_spec j (lenN (stmts_of h))); try reflexivity; lia.
  - cbn [spec_state sc_f]. rewrite fns_snoc, app_nil_r. lia.
Qed.

Lemma new_function_count : forall n d l sc sc' i, okst sc -> new_function n d l sc = (sc', i) ->
  okst sc' /\ ext sc sc' /\ sl sc' = (sl sc + hit (CF i))%nat.
Proof.
  intros n d l sc sc' i Hok H.
  destruct (call_ok (CFn n d l) sc sc' (Some i) Hok I) as (h & Hv & Hs & Hv' & Hs' & Hr & Hok').
  { unfold do_call. now rewrite H. }
  split; [assumption|]. subst sc sc'. split; [apply ext_snoc|].
  inversion Hr; subst i. unfold slots, hit. destruct c as [j|j|b j|b j]; simpl counter_eqb;
    rewrite ?btype_spec, ?has_row_spec by assumption; rewrite ?paths_snoc, ?branches_snoc, ?app_nil_r;
    try (now rewrite Nat.add_0_r).
  - cbn [spec_state sc_s]. rewrite stmts_snoc, app_nil_r. lia.
  - cbn [spec_state sc_f]. rewrite fns_snoc, lenN_snoc, ltb_succ.
    destruct (N.ltb_spec j (lenN (fns_of h))), (N.eqb_spec j (lenN (fns_of h))); try reflexivity; lia.
Qed.

Lemma new_branch_count : forall t l f sc sc' b, okst sc -> new_branch t l f sc = (sc', b) ->
  match t with BinaryExpr => f = e_report_logic e | _ => True end ->
  okst sc' /\ ext sc sc' /\ sl sc' = sl sc /\ btype sc' b = Some t.
Proof.
  intros t l f sc sc' b Hok H Hf.
  destruct (call_ok (CBranch t l f) sc sc' (Some b) Hok) as (h & Hv & Hs & Hv' & Hs' & Hr & Hok').
  { now destruct t. }
  { unfold do_call. now rewrite H. }
  split; [assumption|]. subst sc sc'. split; [apply ext_snoc|].
  inversion Hr; subst b. split.
  - unfold slots. destruct c as [j|j|b j|b j];
      rewrite ?btype_spec, ?has_row_spec by assumption;
      rewrite ?paths_snoc, ?app_nil_r; try reflexivity.
    + cbn [spec_state sc_s]. now rewrite stmts_snoc, app_nil_r.
    + cbn [spec_state sc_f]. now rewrite fns_snoc, app_nil_r.
    + destruct (N.ltb_spec j (lenN (paths_of b h))) as [Hj|Hj]; [|now rewrite !andb_false_r].
      rewrite !andb_true_r. rewrite branches_snoc, nth_error_app1; [reflexivity|].
      destruct (N.ltb_spec b (lenN (branches_of h))) as [Hb|Hb]; [unfold lenN in Hb; lia|].
      rewrite (calls_valid_bound h b 0 Hv) in Hj by (simpl; lia). unfold lenN in Hj. simpl in Hj. lia.
  - rewrite btype_spec, branches_snoc, nth_error_app2 by (unfold lenN; lia).
    unfold lenN. rewrite Nat2N.id, Nat.sub_diag. reflexivity.
Qed.

Definition thit (sc : source_cov) (b i : N) : nat :=
  if e_report_logic e && logical_type (btype sc b) then hit (CT b i) else 0%nat.

Lemma add_branch_path_count : forall b r sc sc' i, okst sc -> add_branch_path b r sc = Ok (sc', i) ->
  okst sc' /\ ext sc sc' /\ sl sc' = (sl sc + hit (CB b i) + thit sc b i)%nat.
Proof.
  intros b r sc sc' i Hok H.
  destruct (call_ok (CPath b r) sc sc' (Some i) Hok I) as (h & Hv & Hs & Hv' & Hs' & Hr & Hok').
  { unfold do_call. rewrite H. reflexivity. }
  split; [assumption|]. subst sc sc'. split; [apply ext_snoc|].
  inversion Hr; subst i. unfold slots, thit, hit. destruct c as [j|j|b' j|b' j]; simpl counter_eqb;
    rewrite ?btype_snoc_path, ?has_row_spec by assumption.
  - cbn [spec_state sc_s]. rewrite stmts_snoc, app_nil_r.
    destruct (_ && logical_type _); destruct (_ <? _); reflexivity.
  - cbn [spec_state sc_f]. rewrite fns_snoc, app_nil_r.
    destruct (_ && logical_type _); destruct (_ <? _); reflexivity.
  - rewrite paths_snoc. rewrite (N.eqb_sym b' b).
    destruct (N.eqb_spec b b') as [->|]; cbn [andb].
    + rewrite lenN_snoc, ltb_succ.
      destruct (_ && logical_type _);
      destruct (N.ltb_spec j (lenN (paths_of b' h))), (N.eqb_spec j (lenN (paths_of b' h))); try reflexivity; lia.
    + rewrite app_nil_r. destruct (_ && logical_type _); destruct (_ <? _); reflexivity.
  - rewrite paths_snoc. rewrite (N.eqb_sym b' b).
    destruct (N.eqb_spec b b') as [->|]; cbn [andb].
    + rewrite lenN_snoc, ltb_succ. destruct (_ && logical_type _); [|reflexivity].
      destruct (N.ltb_spec j (lenN (paths_of b' h))), (N.eqb_spec j (lenN (paths_of b' h))); try reflexivity; lia.
    + rewrite app_nil_r. destruct (_ && logical_type (btype _ b));
        destruct (_ && logical_type _ && _); reflexivity.
Qed.
End Count.

(** ** What a visit does to [good], [leaks] and the buffer *)

Section Shape.
Variables (e : env) (strict : bool).
Notation gd := (good strict).

Lemma good_split : forall k sp cs,
  gd (Node k sp cs) = true -> node_ok strict k cs = true /\ forallb gd cs = true.
Proof. intros k sp cs H. cbn [good] in H. now apply andb_true_iff in H. Qed.

Lemma good_rebuild : forall k sp cs sp' cs', node_ok strict k cs = true -> forallb gd cs' = true ->
  existsb leaks cs' = existsb leaks cs -> gd (Node k sp' cs') = true /\
  leaks (Node k sp' cs') = leaks (Node k sp cs).
Proof.
  intros k sp cs sp' cs' Hn Hg Hl. split.
  - cbn [good]. rewrite Hg, andb_true_r. unfold node_ok in *. now rewrite Hl.
  - cbn [leaks]. now rewrite Hl.
Qed.

Lemma leaks_kids : forall k sp cs, leaks (Node k sp cs) = false ->
  match k with KStmts | KTs | KArrow | KModuleItems | KScript => True
  | _ => marking k = false /\ existsb leaks cs = false end.
Proof. intros k sp cs H. destruct k; auto; cbn [leaks] in H; now apply orb_false_iff in H. Qed.

Lemma leaks_marking : forall k sp cs, marking k = true -> root_kind k = false -> leaks (Node k sp cs) = true.
Proof. intros k sp cs Hm Hr. destruct k; try discriminate; reflexivity. Qed.

Lemma plain_leaks : forall v k sp cs, is_instr v = true -> plain v k = true ->
  node_ok strict k cs = true -> leaks (Node k sp cs) = false -> existsb leaks cs = false.
Proof.
  intros v k sp cs Hv Hp Hn Hk. unfold plain in Hp. rewrite Hv in Hp.
  destruct k; try discriminate; now apply leaks_kids in Hk as [_ Hk].
Qed.

Lemma enter_leaks : forall k sp cs, enter_kind k = true -> 
  leaks (Node k sp cs) = false -> marking k = false /\ existsb leaks cs = false.
Proof. intros k sp cs He Hk. destruct k; try discriminate; now apply leaks_kids in Hk. Qed.
Lemma marking_enter_leaks : forall k sp cs, enter_kind k = true -> marking k = true ->
  leaks (Node k sp cs) = true.
Proof. intros k sp cs He Hm. destruct k; try discriminate; reflexivity. Qed.
Lemma init_marking : forall k, init_kind k = true -> enter_kind k = true /\ marking k = true /\
  match k with KSwitch => False | _ => True end.
Proof. intros [] H; try discriminate; auto. Qed.
Lemma loop_marking : forall k, loop_kind k = true -> enter_kind k = true /\ marking k = true /\
  match k with KSwitch => False | _ => True end.
Proof. intros [] H; try discriminate; auto. Qed.
Lemma fn_enter : forall k, fn_kind k = true -> enter_kind k = true.
Proof. intros [] H; try discriminate; auto. Qed.
Lemma accessor_enter : forall k, accessor_kind k = true -> enter_kind k = true.
Proof. intros [] H; try discriminate; auto. Qed.
Lemma good_marking : forall k sp cs sp' cs', enter_kind k = true -> marking k = true ->
  match k with KSwitch => False | _ => True end ->
  node_ok strict k cs = true -> forallb gd cs' = true ->
  gd (Node k sp' cs') = true /\ leaks (Node k sp' cs') = leaks (Node k sp cs).
Proof.
  intros k sp cs sp' cs' He Hm Hs Hn Hg. split; [|now rewrite !marking_enter_leaks].
  cbn [good]. rewrite Hg, andb_true_r. unfold node_ok in *. destruct k; (discriminate || contradiction || auto).
Qed.

Lemma good_counter_stmt : forall c, gd (counter_stmt c) = true.
Proof. intros. cbn. unfold node_ok. simpl. now rewrite !orb_true_r. Qed.
Lemma good_sonly : forall l, sonly l -> forallb gd l = true.
Proof. intros l H. induction H as [|x l [i ->] _ IH]; [reflexivity|]. cbn [forallb]. now rewrite good_counter_stmt. Qed.

Lemma good_paren_seq : forall c x, gd x = true -> gd (paren_seq c x) = true.
Proof. intros c x H. cbn. unfold node_ok. simpl. now rewrite H, !orb_true_r. Qed.
Lemma leaks_paren_seq : forall c x, leaks (paren_seq c x) = leaks x.
Proof. intros. cbn. now rewrite !orb_false_r. Qed.
Lemma good_true : forall b i x, gd x = true ->
  gd (E (mk KInjSeq [counter_expr (CB b i); increase_true_expr b i x])) = true.
Proof. intros b i x H. cbn. unfold node_ok. simpl. now rewrite H, !orb_true_r. Qed.
Lemma leaks_true : forall b i x,
  leaks (E (mk KInjSeq [counter_expr (CB b i); increase_true_expr b i x])) = leaks x.
Proof. intros. cbn. now rewrite !orb_false_r. Qed.

Lemma prepend_shape : forall c b b', prepend_to_block c b = Some b' ->
  gd b = true -> gd b' = true /\ leaks b' = leaks b.
Proof.
  intros c b b' H Hg. unfold prepend_to_block in H.
  destruct (block_view b) as [[[[i bsp] ssp] ss]|] eqn:Hb; [|discriminate].
  apply block_view_inv in Hb. inversion H; subst. split; [|reflexivity].
  cbn [good] in *. cbn [forallb] in *. cbn [good] in *. cbn [forallb].
  rewrite good_counter_stmt. exact Hg.
Qed.

Lemma create_fn_shape : forall id fn s fn' s', create_fn_instrumentation e id fn s = Ok (fn', s') ->
  gd fn = true -> gd fn' = true /\ leaks fn' = leaks fn /\ before s' = before s.
Proof.
  intros id [k sp cs] s fn' s' H Hg. unfold create_fn_instrumentation in H.
  destruct k; try discriminate. destruct cs as [|p [|d [|b [|ty [|? ?]]]]]; try discriminate.
  destruct (new_function _ _ _ _) as [c i]. destruct (is_none b); [discriminate|].
  destruct (prepend_to_block (CF i) b) as [b'|] eqn:Hp; [|discriminate]. inversion H; subst.
  apply good_split in Hg as [Hn Hg]. simpl in Hg.
  apply andb_true_iff in Hg as [Hp' Hg]. apply andb_true_iff in Hg as [Hd Hg].
  apply andb_true_iff in Hg as [Hb Hty].
  destruct (prepend_shape _ _ _ Hp Hb) as [Hgb Hlb].
  rewrite <- and_assoc. split; [|reflexivity].
  apply good_rebuild with (cs := [p; d; b; ty]); [assumption| |].
  - simpl. now rewrite Hp', Hd, Hgb, Hty.
  - simpl. now rewrite Hlb.
Qed.

Lemma accessor_shape : forall name sp s b b' s', accessor_body e name sp s b = Ok (b', s') ->
  gd b = true -> gd b' = true /\ leaks b' = leaks b /\ before s' = before s.
Proof.
  intros name sp s b b' s' H Hg. unfold accessor_body in H.
  destruct (is_none b); [inversion H; subst; auto|].
  destruct (new_function _ _ _ _) as [c i].
  destruct (prepend_to_block (CF i) b) as [b''|] eqn:Hp; [|discriminate]. inversion H; subst.
  destruct (prepend_shape _ _ _ Hp Hg). auto.
Qed.

Lemma inj_block_good : forall l, forallb gd l = true ->
  gd (mk KStmt [mk (KBlock true) [mk KStmts l]]) = true.
Proof. intros l H. unfold mk. cbn [good forallb]. unfold node_ok. simpl. now rewrite H, !orb_true_r. Qed.

Lemma block_last_shape : forall cs cs', block_last cs = Some cs' -> forallb gd cs = true ->
  forallb gd cs' = true.
Proof.
  induction cs as [|c cs IH]; intros cs' H Hg; [discriminate|].
  destruct cs as [|c2 cs].
  - simpl in H. unfold to_block in H. destruct (stmt_view c) as [[sp x]|] eqn:Hv; [|discriminate].
    destruct (is_block x); inversion H; subst; [assumption|].
    change (gd (mk KStmt [mk (KBlock true) [mk KStmts [c]]]) && true = true).
    rewrite inj_block_good; [reflexivity|exact Hg].
  - change (block_last (c :: c2 :: cs)) with (option_map (cons c) (block_last (c2 :: cs))) in H.
    destruct (block_last (c2 :: cs)) as [l|] eqn:Hl; [|discriminate]. inversion H; subst.
    cbn [forallb] in *. apply andb_true_iff in Hg as [Hc Hg]. rewrite Hc. now apply IH.
Qed.

Lemma covered_shape : forall x s x' s', covered e x s x' s' -> gd x = true -> gd x' = true.
Proof.
  intros x s x' s' (s1 & H1 & [[-> H2]|[_ H2]]) Hg; [assumption|].
  unfold replace_expr_with_stmt_counter, new_statement in H2. inversion H2; subst.
  now apply good_paren_seq.
Qed.

Lemma replace_branch_shape : forall x b s x' s',
  replace_expr_with_branch_counter e x b s = Ok (x', s') -> gd x = true ->
  gd x' = true /\ leaks x' = leaks x /\ before s' = before s.
Proof.
  intros x b s x' s' H Hg. unfold replace_expr_with_branch_counter in H.
  destruct (is_expr x); [|discriminate]. cbn [negb] in H.
  apply bind_ok in H as [[c i] [_ H]]. inversion H; subst.
  rewrite leaks_paren_seq. auto using good_paren_seq.
Qed.

Lemma cond_arm_shape : forall b x s x' s', cond_arm e b x s x' s' -> gd x = true ->
  gd x' = true /\ leaks x' = leaks x /\ before s' = before s.
Proof.
  intros b x s x' s' [[-> ->]|H] Hg; [auto|]. eapply replace_branch_shape; eauto.
Qed.

Definition SV (v : vis) (t : node) (s : st) (t' : node) (s' : st) : Prop :=
  gd t = true ->
  gd t' = true /\ leaks t' = leaks t /\
  (leaks t = false \/ is_instr v = false -> before s' = before s).
Definition SK (v : vis) (cs : list node) (s : st) (cs' : list node) (s' : st) : Prop :=
  forallb gd cs = true ->
  forallb gd cs' = true /\ existsb leaks cs' = existsb leaks cs /\
  (existsb leaks cs = false \/ is_instr v = false -> before s' = before s).
Definition SI (ss : list node) (s : st) (ss' : list node) (s' : st) : Prop :=
  forallb gd ss = true -> forallb gd ss' = true /\ before s' = before s.

Ltac ent :=
  repeat match goal with
  | H : on_enter e _ _ _ = (_, _, _) |- _ =>
      let C := fresh "Hc" in let B := fresh "Hb" in
      apply on_enter_facts in H as (C & B & _ & _)
  | H : on_enter_with_span e _ _ = (_, _, _) |- _ =>
      let C := fresh "Hc" in let B := fresh "Hb" in
      apply on_enter_with_span_facts in H as (C & B & _ & _)
  end; cbn [before on_exit pop push set_ign set_cov spawn clear_before] in *.

Lemma spawned_sonly : forall v cs s cs' s', Kids e v cs s cs' s' -> before s = [] -> sonly (before s').
Proof.
  intros v cs s cs' s' H Hs. apply (proj1 (proj2 (erase_all e))) in H.
  apply H. rewrite Hs. constructor.
Qed.
Lemma spawned_sonly_vis : forall v t s t' s', Vis e v t s t' s' -> before s = [] -> sonly (before s').
Proof.
  intros v t s t' s' H Hs. apply (proj1 (erase_all e)) in H.
  apply H. rewrite Hs. constructor.
Qed.

Ltac gsplit :=
  repeat match goal with
  | H : forallb gd (_ :: _) = true |- _ => cbn [forallb] in H
  | H : _ && _ = true |- _ => apply andb_true_iff in H as [? ?]
  | H : gd (Node ?k ?sp ?cs) = true |- _ =>
      let N := fresh "Hn" in let G := fresh "Hg" in
      apply good_split in H as [N G]
  | H : forallb gd (_ ++ _) = true |- _ => rewrite forallb_app in H
  end.

Ltac spc := repeat match goal with
  | H : ?P \/ ?Q -> _ |- _ =>
      let X := fresh "X" in assert (X : P \/ Q) by auto; specialize (H X); clear X
  end.

Theorem shape_all :
  (forall v t s t' s', Vis e v t s t' s' -> SV v t s t' s') /\
  (forall v cs s cs' s', Kids e v cs s cs' s' -> SK v cs s cs' s') /\
  (forall ss s ss' s', Ins e ss s ss' s' -> SI ss s ss' s') /\
  (forall v b x s x' s', Wrap e v b x s x' s' -> SV v x s x' s') /\
  (forall b r cur x s x' s', Arm e b r cur x s x' s' ->
     gd x = true -> gd x' = true /\ before s' = before s) /\
  (forall xs s xs' s', Items e xs s xs' s' -> True) /\
  (forall xs s xs' s', SItems e xs s xs' s' -> True).
Proof.
  apply Vis_all_ind; unfold SV, SK, SI; intros; ent; auto.
  - (* V_plain *)
    gsplit. destruct (H1 Hg) as (Hg' & Hl & Hb).
    destruct (good_rebuild k sp cs sp cs' Hn Hg' Hl). repeat split; auto.
    intros Hk. apply Hb. destruct (is_instr v) eqn:Hv; [|now right].
    destruct Hk as [Hk|Hk]; [|discriminate]. left. apply (plain_leaks v k sp cs); auto.
  - (* V_logical_expr *)
    gsplit. destruct (H1 Hg) as (Hg' & Hl & Hbb).
    destruct (good_rebuild KExpr sp cs sp cs' Hn Hg' Hl). repeat split; auto.
    intros _. rewrite (Hbb (or_intror eq_refl)). assumption.
  - (* V_enter *)
    gsplit. destruct (H3 Hg) as (Hg' & Hl & Hbb).
    destruct (good_rebuild k sp cs sp cs' Hn Hg' Hl). repeat split; auto.
    intros [Hk|Hk]; [|congruence]. apply enter_leaks in Hk as [_ Hk]; [|assumption].
    rewrite Hbb by auto. assumption.
  - (* V_marked *)
    gsplit. destruct (H5 Hg) as (Hg' & Hl & Hbb).
    destruct (good_rebuild k sp cs sp cs' Hn Hg' Hl). repeat split; auto.
    rewrite marking_enter_leaks by assumption. intros [Hk|Hk]; congruence.
  - (* V_stmts *)
    gsplit. destruct (H1 Hg) as [Hg' Hb]. repeat split; auto.
    cbn [good]. rewrite Hg', andb_true_r. assumption.
  - (* V_fn *)
    gsplit. match goal with H : create_fn_instrumentation _ _ _ _ = _, G : gd fn = true |- _ =>
      destruct (create_fn_shape _ _ _ _ _ H G) as (Hgf & Hlf & Hbf) end.
    assert (Hk' : forallb gd [key; fn'] = true).
    { simpl. rewrite Hgf, andb_true_r. assumption. }
    destruct (H5 Hk') as (Hg' & Hl & Hbb).
    assert (Hl' : existsb leaks cs' = existsb leaks [key; fn]).
    { rewrite Hl. simpl. now rewrite Hlf. }
    destruct (good_rebuild k sp [key; fn] sp cs' Hn Hg' Hl'). repeat split; auto.
    intros [Hk|Hk]; [|congruence]. apply enter_leaks in Hk as [_ Hk]; [|now apply fn_enter].
    rewrite Hbb; [congruence|]. left. simpl in *. now rewrite Hlf.
  - (* V_accessor *)
    gsplit. match goal with H : accessor_body _ _ _ _ _ = _, G : gd body = true |- _ =>
      destruct (accessor_shape _ _ _ _ _ _ H G) as (Hgf & Hlf & Hbf) end.
    assert (Hk' : forallb gd (pre ++ [body']) = true).
    { rewrite forallb_app. simpl. rewrite Hgf, andb_true_r. assumption. }
    destruct (H5 Hk') as (Hg' & Hl & Hbb).
    assert (Hl' : existsb leaks cs' = existsb leaks (pre ++ [body])).
    { rewrite Hl, !existsb_app. simpl. now rewrite Hlf. }
    destruct (good_rebuild k sp (pre ++ [body]) sp cs' Hn Hg' Hl'). repeat split; auto.
    intros [Hk|Hk]; [|congruence]. apply enter_leaks in Hk as [_ Hk]; [|now apply accessor_enter].
    rewrite Hbb; [congruence|]. left. rewrite existsb_app in *. simpl in *. now rewrite Hlf.
  - (* V_arrow_block *)
    gsplit. match goal with H : forallb gd ss = true -> _, G : forallb gd ss = true |- _ =>
      destruct (H G) as [Hg' Hbb] end.
    repeat split; [|congruence]. cbn [good forallb].
    rewrite good_counter_stmt, Hg'. cbn [andb]. rewrite !andb_true_iff. auto 10.
  - (* V_arrow_expr *)
    gsplit.
    match goal with H : forallb gd [_; _] = true -> _ |- _ => destruct H as [Hg' Hbb] end.
    { cbn [forallb]. rewrite good_counter_stmt. cbn [good forallb].
      rewrite !andb_true_iff. unfold node_ok. simpl. rewrite orb_true_r. auto 10. }
    repeat split; [|congruence]. unfold mk. cbn [good forallb].
    rewrite Hg'. unfold node_ok. simpl. rewrite !orb_true_r, !andb_true_iff. auto 10.
  - (* V_init *)
    apply init_marking in H0 as (He & Hm & Hsw). gsplit.
    match goal with H : covered _ _ _ _ _, G : gd value = true |- _ =>
      pose proof (covered_shape _ _ _ _ H G) as Hgv end.
    match goal with H : forallb gd (name :: _) = true -> _ |- _ => destruct H as (Hg' & _) end.
    { cbn [forallb]. rewrite !andb_true_iff. auto. }
    destruct (good_marking k sp (name :: value :: rest) sp cs' He Hm) as [? ?]; auto.
    repeat split; auto. rewrite marking_enter_leaks by assumption. intros [Hk|Hk]; congruence.
  - (* V_init_tagged *)
    apply init_marking in H0 as (He & Hm & Hsw). gsplit.
    match goal with H : gd tpl = true -> _, G : gd tpl = true |- _ => destruct (H G) as (Hgv & Hlv & _) end.
    match goal with H : forallb gd (name :: _) = true -> _ |- _ => destruct H as (Hg' & _) end.
    { cbn [forallb good]. rewrite !andb_true_iff. repeat split; auto. }
    destruct (good_marking k sp (name :: Node KExpr vsp [tpl] :: rest) sp cs' He Hm) as [? ?]; auto.
    repeat split; auto. rewrite marking_enter_leaks by assumption. intros [Hk|Hk]; congruence.
  - (* V_loop *)
    apply loop_marking in H0 as (He & Hm & Hsw). gsplit.
    match goal with H : block_last _ = _ |- _ => pose proof (block_last_shape _ _ H Hg) as Hgb end.
    match goal with H : forallb gd cs1 = true -> _ |- _ => destruct (H Hgb) as (Hg' & _) end.
    destruct (good_marking k sp cs sp cs' He Hm) as [? ?]; auto.
    repeat split; auto. rewrite marking_enter_leaks by assumption. intros [Hk|Hk]; congruence.
  - (* V_cond *)
    gsplit.
    match goal with H : cond_arm _ _ con _ _ _, G : gd con = true |- _ =>
      destruct (cond_arm_shape _ _ _ _ _ H G) as (Hgc & Hlc & Hbc) end.
    match goal with H : cond_arm _ _ alt _ _ _, G : gd alt = true |- _ =>
      destruct (cond_arm_shape _ _ _ _ _ H G) as (Hga & Hla & Hba) end.
    match goal with H : forallb gd (test :: _) = true -> _ |- _ => destruct H as (Hg' & Hl & Hbb) end.
    { cbn [forallb]. rewrite !andb_true_iff. auto. }
    assert (Hl' : existsb leaks cs' = existsb leaks [test; con; alt]).
    { rewrite Hl. simpl. now rewrite Hlc, Hla. }
    destruct (good_rebuild KCond sp [test; con; alt] sp cs' Hn Hg' Hl'). repeat split; auto.
    intros [Hk|Hk]; [|congruence]. apply enter_leaks in Hk as [_ Hk]; [|reflexivity].
    rewrite Hbb; [cbn [before set_cov] in *; congruence|]. left. simpl in *. now rewrite Hlc, Hla.
  - (* V_switch *)
    gsplit. destruct (H4 Hg) as (Hg' & Hl & Hbb).
    destruct (good_rebuild KSwitch sp cs sp cs' Hn Hg' Hl). repeat split; auto.
    intros [Hk|Hk]; [discriminate|congruence].
  - (* V_case *)
    gsplit. destruct (H3 Hg) as (Hg' & Hl & Hbb). gsplit.
    assert (Hg2 : forallb gd [test'; Node KStmts ssp (counter_stmt (CB b i) :: ss')] = true).
    { cbn [forallb good]. rewrite good_counter_stmt, !andb_true_iff. auto 10. }
    destruct (good_rebuild KSwitchCase sp cs sp _ Hn Hg2 Hl) as [? ?]. repeat split; auto.
    intros [Hk|Hk]; [|discriminate]. apply enter_leaks in Hk as [_ Hk]; [|reflexivity].
    rewrite Hbb; auto.
  - (* V_if *)
    gsplit.
    repeat match goal with H : gd ?x = true -> _, G : gd ?x = true |- _ => specialize (H G) end.
    repeat match goal with H : _ /\ _ |- _ => destruct H end.
    destruct (good_marking KIf sp [test; con; alt] sp [test'; con'; alt']) as [? ?]; auto.
    { cbn [forallb]. rewrite !andb_true_iff. auto. }
    repeat split; auto. intros [Hk|Hk]; [discriminate|congruence].
  - (* V_with_block *)
    gsplit. match goal with H : forallb gd ss = true -> _, G : forallb gd ss = true |- _ =>
      destruct (H G) as [Hg' Hbb] end.
    repeat split.
    + cbn [good forallb]. rewrite Hg', !andb_true_iff. auto 10.
    + intros [Hk|Hk]; [discriminate|congruence].
  - (* V_with_stmt *)
    gsplit.
    assert (Hs : sonly (before sv)) by (eapply spawned_sonly_vis; [eassumption|reflexivity]).
    match goal with H : gd (Node KStmt wsp [x]) = true -> _ |- _ => destruct H as (Hg' & _) end.
    { cbn [good forallb]. rewrite !andb_true_iff. auto. }
    repeat split.
    + cbn [good]. cbn [forallb]. rewrite inj_block_good.
      * rewrite !andb_true_iff. auto.
      * rewrite forallb_app, good_sonly by assumption. cbn [forallb andb]. now rewrite Hg'.
    + intros [Hk|Hk]; [discriminate|congruence].
  - (* V_bin *)
    gsplit. destruct (H1 Hg) as (Hg' & Hl & Hbb).
    destruct (good_rebuild (KBin op) sp cs sp cs' Hn Hg' Hl). repeat split; auto.
    intros [Hk|Hk].
    + apply leaks_kids in Hk as [_ Hk]. rewrite Hbb by auto. assumption.
    + rewrite Hbb by auto. assumption.
  - (* V_logical_new *)
    gsplit.
    match goal with H : new_logical_branch _ _ _ = _ |- _ =>
      unfold new_logical_branch in H; destruct (new_branch _ _ _ _); inversion H; subst end.
    repeat match goal with H : gd ?x = true -> _, G : gd ?x = true |- _ => specialize (H G) end.
    repeat match goal with H : _ /\ _ |- _ => destruct H end.
    destruct (good_rebuild (KBin op) sp [l; r] sp [l'; r']) as [? ?]; auto.
    { cbn [forallb]. rewrite !andb_true_iff. auto. }
    { cbn [existsb]. congruence. }
    repeat split; auto. intros [Hk|Hk]; [|congruence].
    apply leaks_kids in Hk as [_ Hk]. simpl in Hk. rewrite orb_false_r in Hk.
    apply orb_false_iff in Hk as [Hk1 Hk2].
    spc.
    cbn [before set_cov push] in *. congruence.
  - (* V_logical_inner *)
    gsplit.
    repeat match goal with H : gd ?x = true -> _, G : gd ?x = true |- _ => specialize (H G) end.
    repeat match goal with H : _ /\ _ |- _ => destruct H end.
    destruct (good_rebuild (KBin op) sp [l; r] sp [l'; r']) as [? ?]; auto.
    { cbn [forallb]. rewrite !andb_true_iff. auto. }
    { cbn [existsb]. congruence. }
    repeat split; auto. intros _.
    spc.
    congruence.
  - (* V_assign_pat *)
    gsplit.
    repeat match goal with H : gd ?x = true -> _, G : gd ?x = true |- _ => specialize (H G) end.
    repeat match goal with H : _ /\ _ |- _ => destruct H end.
    destruct (good_rebuild KAssignPat sp [l; r] sp [l; r']) as [? ?]; auto.
    { cbn [forallb]. rewrite !andb_true_iff. auto. }
    { cbn [existsb]. congruence. }
    repeat split; auto. intros [Hk|Hk]; [|congruence].
    apply leaks_kids in Hk as [_ Hk]. simpl in Hk. rewrite orb_false_r in Hk.
    apply orb_false_iff in Hk as [Hk1 Hk2].
    spc.
    congruence.
  - (* V_module_items *) discriminate.
  - (* V_script *) discriminate.
  - (* K_cons *)
    gsplit.
    repeat match goal with
    | H : gd ?x = true -> _, G : gd ?x = true |- _ => specialize (H G)
    | H : forallb gd ?x = true -> _, G : forallb gd ?x = true |- _ => specialize (H G)
    | H : _ /\ _ |- _ => destruct H end.
    cbn [forallb existsb]. repeat split.
    + rewrite !andb_true_iff. auto.
    + congruence.
    + rewrite orb_false_iff. intros [[Ha Hb]|Hv];
        spc; congruence.
  - (* I_injected *)
    gsplit. match goal with H : forallb gd ss = true -> _, G : forallb gd ss = true |- _ =>
      destruct (H G) as [Hg' Hbb] end.
    cbn [forallb]. rewrite !andb_true_iff. auto.
  - (* I_skip *)
    gsplit. match goal with H : forallb gd ss = true -> _, G : forallb gd ss = true |- _ =>
      destruct (H G) as [Hg' Hbb] end.
    cbn [forallb]. rewrite !andb_true_iff. split; [auto|congruence].
  - (* I_visit *)
    gsplit.
    assert (Hs : sonly (before sv)) by (eapply spawned_sonly; [eassumption|reflexivity]).
    repeat match goal with
    | H : forallb gd ?x = true -> _, G : forallb gd ?x = true |- _ => specialize (H G)
    | H : _ /\ _ |- _ => destruct H end.
    split; [|congruence].
    rewrite !forallb_app, (good_sonly (before sv)) by assumption. cbn [forallb].
    destruct (good_rebuild k sp cs sp cs') as [? ?]; auto.
    rewrite !andb_true_iff. auto.
  - (* W_nested *)
    gsplit.
    repeat match goal with
    | H : forallb gd ?x = true -> _, G : forallb gd ?x = true |- _ => specialize (H G)
    | H : _ /\ _ |- _ => destruct H end.
    destruct (good_rebuild k sp cs sp cs') as [? ?]; auto.
  - (* W_report *)
    rewrite leaks_true. auto using good_true.
  - (* W_leaf *)
    gsplit.
    repeat match goal with
    | H : forallb gd ?x = true -> _, G : forallb gd ?x = true |- _ => specialize (H G)
    | H : _ /\ _ |- _ => destruct H end.
    destruct (good_rebuild k sp cs sp cs') as [? ?]; auto.
    match goal with H : replace_expr_with_branch_counter _ _ _ _ = _ |- _ =>
      pose proof H as Hr; apply replace_branch_shape in H as (? & ? & ?); [|assumption] end.
    repeat split; [assumption|congruence|].
    assert (k = KExpr).
    { unfold replace_expr_with_branch_counter, is_expr in Hr. simpl in Hr.
      destruct k; try discriminate; reflexivity. }
    subst k. intros [Hk|Hk].
    + apply leaks_kids in Hk as [_ Hk].
      spc. congruence.
    + spc. congruence.
  - (* A_block *)
    gsplit. match goal with H : forallb gd ss = true -> _, G : forallb gd ss = true |- _ =>
      destruct (H G) as [Hg' Hbb] end.
    split; [|assumption]. cbn [good forallb]. rewrite good_counter_stmt, Hg', !andb_true_iff. auto 10.
  - (* A_none *)
    split; [|reflexivity]. apply inj_block_good. cbn [forallb]. now rewrite good_counter_stmt.
  - (* A_stmt *)
    assert (Hs : sonly (before sv)) by (eapply spawned_sonly_vis; [eassumption|reflexivity]).
    match goal with H : gd ?x = true -> _, G : gd ?x = true |- _ => destruct (H G) as (Hg' & _) end.
    split; [|reflexivity]. apply inj_block_good.
    rewrite !forallb_app, (good_sonly (before sv)) by assumption. cbn [forallb].
    now rewrite good_counter_stmt, Hg'.
Qed.
End Shape.

(** ** The accounting invariant *)

Section Account.
Variables (e : env) (path : string) (strict : bool) (c : counter).
Notation gd := (good strict).
Notation okst := (okst e path).
Notation occ := (occ c).
Notation occl := (occl c).
Notation sl sc := (slots e sc c).
Notation hit := (hit c).

(** Statement counters may get lost in a switch statement, unless [strict]. *)
Definition exact_count : bool := strict || match c with CS _ => false | _ => true end.
Definition law (l r : nat) : Prop := if exact_count then l = r else (l <= r)%nat.

Definition logical_branch (sc : source_cov) (b : N) : Prop := logical_type (btype sc b) = true.
Definition vis_ok (v : vis) (sc : source_cov) : Prop :=
  match v with
  | VLogical b => logical_branch sc b
  | VSwitch b => btype sc b = Some BSwitch
  | _ => True
  end.

Lemma logical_ext : forall sc sc' b, ext sc sc' -> logical_branch sc b -> logical_branch sc' b.
Proof.
  unfold logical_branch. intros sc sc' b He H. destruct (btype sc b) as [t|] eqn:Hb; [|discriminate].
  now rewrite (He _ _ Hb).
Qed.
Lemma vis_ok_ext : forall v sc sc', ext sc sc' -> vis_ok v sc -> vis_ok v sc'.
Proof. intros [| |b|b] sc sc' He H; simpl in *; auto. eapply logical_ext; eauto. Qed.

Lemma mark_count : forall sp s, okst (cov s) ->
  let s' := mark_prepend_stmt_counter e sp s in
  okst (cov s') /\ ext (cov s) (cov s') /\
  (occl (before s') + sl (cov s) = occl (before s) + sl (cov s'))%nat.
Proof.
  intros sp s Hok. unfold mark_prepend_stmt_counter.
  destruct (new_statement (range_of e sp) (cov s)) as [sc' i] eqn:H.
  apply (new_statement_count e path c) in H as (Hok' & He & Hs); [|assumption]. cbn [cov before].
  repeat split; auto. rewrite occl_app, Hs.
  rewrite occl_cons, occ_counter_stmt, occl_nil. lia.
Qed.

Lemma covered_count : forall x s x' s', covered e x s x' s' -> okst (cov s) ->
  okst (cov s') /\ ext (cov s) (cov s') /\
  (occ x' + occl (before s') + sl (cov s) = occ x + occl (before s) + sl (cov s'))%nat.
Proof.
  intros x s x' s' (s1 & H1 & H2) Hok.
  assert (okst (cov s1) /\ ext (cov s) (cov s1) /\
    (occl (before s1) + sl (cov s) = occl (before s) + sl (cov s1))%nat) as (Hok1 & He1 & Hl1).
  { destruct H1 as [->| ->]; [auto using ext_refl|]. now apply mark_count. }
  destruct H2 as [[-> H2]|[_ H2]].
  - destruct H2 as [->| ->]; [split; [assumption|split; [assumption|lia]]|].
    destruct (mark_count (nspan x) s1 Hok1) as (Hok2 & He2 & Hl2).
    split; [assumption|split; [eapply ext_trans; eauto|lia]].
  - unfold replace_expr_with_stmt_counter in H2.
    destruct (new_statement (range_of e (nspan x)) (cov s1)) as [sc' i] eqn:H. inversion H2; subst.
    apply (new_statement_count e path c) in H as (Hok' & He & Hs); [|assumption].
    cbn [cov before set_cov]. rewrite occ_paren_seq, Hs.
    split; [assumption|split; [eapply ext_trans; eauto|lia]].
Qed.

Lemma replace_branch_count : forall x b s x' s',
  replace_expr_with_branch_counter e x b s = Ok (x', s') -> okst (cov s) ->
  e_report_logic e && logical_type (btype (cov s) b) = false ->
  okst (cov s') /\ ext (cov s) (cov s') /\ before s' = before s /\
  (occ x' + sl (cov s) = occ x + sl (cov s'))%nat.
Proof.
  intros x b s x' s' H Hok Ht. unfold replace_expr_with_branch_counter in H.
  destruct (is_expr x); [|discriminate]. cbn [negb] in H.
  apply bind_ok in H as [[sc' i] [H Hx]]. inversion Hx; subst.
  apply (add_branch_path_count e path c) in H as (Hok' & He & Hs); [|assumption].
  unfold thit in Hs. rewrite Ht in Hs. cbn [cov before set_cov]. rewrite occ_paren_seq, Hs.
  repeat split; auto. lia.
Qed.

Lemma cond_arm_count : forall b x s x' s', cond_arm e b x s x' s' -> okst (cov s) ->
  btype (cov s) b = Some CondExpr ->
  okst (cov s') /\ ext (cov s) (cov s') /\ before s' = before s /\
  (occ x' + sl (cov s) = occ x + sl (cov s'))%nat.
Proof.
  intros b x s x' s' [[-> ->]|H] Hok Hb; [repeat split; auto using ext_refl|].
  eapply replace_branch_count; eauto. rewrite Hb. now rewrite andb_false_r.
Qed.

Lemma prepend_count : forall c0 b b', prepend_to_block c0 b = Some b' -> occ b' = (hit c0 + occ b)%nat.
Proof.
  intros c0 b b' H. unfold prepend_to_block in H.
  destruct (block_view b) as [[[[i bsp] ssp] ss]|] eqn:Hb; [|discriminate].
  apply block_view_inv in Hb. inversion H; subst.
  rewrite !occ_node, !occl_cons, !occl_nil, !occ_node, occl_cons, occ_counter_stmt. lia.
Qed.

Lemma create_fn_count : forall id fn s fn' s', create_fn_instrumentation e id fn s = Ok (fn', s') ->
  okst (cov s) ->
  okst (cov s') /\ ext (cov s) (cov s') /\ before s' = before s /\
  (occ fn' + sl (cov s) = occ fn + sl (cov s'))%nat.
Proof.
  intros id [k sp cs] s fn' s' H Hok. unfold create_fn_instrumentation in H.
  destruct k; try discriminate. destruct cs as [|p [|d [|b [|ty [|? ?]]]]]; try discriminate.
  match type of H with context [new_function ?a ?b ?c ?d] =>
    destruct (new_function a b c d) as [sc' i] eqn:Hf end.
  destruct (is_none b); [discriminate|].
  destruct (prepend_to_block (CF i) b) as [b'|] eqn:Hp; [|discriminate]. inversion H; subst.
  apply (new_function_count e path c) in Hf as (Hok' & He & Hs); [|assumption].
  apply prepend_count in Hp. cbn [cov before set_cov]. repeat split; auto.
  rewrite !occ_node, !occl_cons, occl_nil, Hs, Hp. lia.
Qed.

Lemma accessor_count : forall name sp s b b' s', accessor_body e name sp s b = Ok (b', s') ->
  okst (cov s) ->
  okst (cov s') /\ ext (cov s) (cov s') /\ before s' = before s /\
  (occ b' + sl (cov s) = occ b + sl (cov s'))%nat.
Proof.
  intros name sp s b b' s' H Hok. unfold accessor_body in H.
  destruct (is_none b); [inversion H; subst; auto using ext_refl|].
  match type of H with context [new_function ?a ?b ?c ?d] =>
    destruct (new_function a b c d) as [sc' i] eqn:Hf end.
  destruct (prepend_to_block (CF i) b) as [b''|] eqn:Hp; [|discriminate]. inversion H; subst.
  apply (new_function_count e path c) in Hf as (Hok' & He & Hs); [|assumption].
  apply prepend_count in Hp. cbn [cov before set_cov]. repeat split; auto. lia.
Qed.

Lemma occ_inj_block : forall l, occ (mk KStmt [mk (KBlock true) [mk KStmts l]]) = occl l.
Proof. intros. unfold mk. rewrite !occ_node, !occl_cons, !occl_nil, !occ_node, occl_cons, occl_nil, occ_node. lia. Qed.

Lemma block_last_count : forall cs cs', block_last cs = Some cs' -> occl cs' = occl cs.
Proof.
  induction cs as [|x cs IH]; intros cs' H; [discriminate|].
  destruct cs as [|c2 cs].
  - simpl in H. unfold to_block in H. destruct (stmt_view x) as [[sp y]|] eqn:Hv; [|discriminate].
    destruct (is_block y); inversion H; subst; [reflexivity|].
    rewrite occl_cons, occl_nil, occ_inj_block. lia.
  - change (block_last (x :: c2 :: cs)) with (option_map (cons x) (block_last (c2 :: cs))) in H.
    destruct (block_last (c2 :: cs)) as [l|] eqn:Hl; [|discriminate]. inversion H; subst.
    rewrite (occl_cons c x l), (occl_cons c x (c2 :: cs)). now rewrite (IH l).
Qed.

Definition bal (o : nat) (s : st) (o' : nat) (s' : st) : Prop :=
  okst (cov s') /\ ext (cov s) (cov s') /\
  law (o' + occl (before s') + sl (cov s)) (o + occl (before s) + sl (cov s')).

Definition CV (v : vis) (t : node) (s : st) (t' : node) (s' : st) : Prop :=
  okst (cov s) -> vis_ok v (cov s) -> gd t = true -> bal (occ t) s (occ t') s'.
Definition CK (v : vis) (cs : list node) (s : st) (cs' : list node) (s' : st) : Prop :=
  okst (cov s) -> vis_ok v (cov s) -> forallb gd cs = true -> bal (occl cs) s (occl cs') s'.
Definition CI (ss : list node) (s : st) (ss' : list node) (s' : st) : Prop :=
  okst (cov s) -> forallb gd ss = true -> bal (occl ss) s (occl ss') s'.

Lemma bal_trans : forall o s o1 s1 o2 s2, bal o s o1 s1 -> bal o1 s1 o2 s2 -> bal o s o2 s2.
Proof.
  unfold bal, law. intros o s o1 s1 o2 s2 (A1 & A2 & A3) (B1 & B2 & B3).
  repeat split; [assumption|eapply ext_trans; eauto|]. destruct exact_count; lia.
Qed.
Lemma bal_refl : forall o s, okst (cov s) -> bal o s o s.
Proof. intros. unfold bal, law. repeat split; [assumption|apply ext_refl|]. destruct exact_count; lia. Qed.
(** Add the same amount on both sides. *)
Lemma bal_frame : forall k o s o' s' a a', bal o s o' s' -> (a = k + o)%nat -> (a' = k + o')%nat -> bal a s a' s'.
Proof. unfold bal, law. intros k o s o' s' a a' (A1 & A2 & A3) -> ->. repeat split; auto. destruct exact_count; lia. Qed.
(** States are compared by [cov] and [before] only. *)
Lemma bal_st : forall o s s0 o' s' s0', bal o s o' s' ->
  cov s0 = cov s -> before s0 = before s -> cov s0' = cov s' -> before s0' = before s' -> bal o s0 o' s0'.
Proof. unfold bal. intros o s s0 o' s' s0' H -> -> -> ->. exact H. Qed.
Lemma bal_mark : forall o sp s, okst (cov s) -> bal o s o (mark_prepend_stmt_counter e sp s).
Proof.
  intros o sp s H. destruct (mark_count sp s H) as (A & B & D). unfold bal, law.
  repeat split; auto. destruct exact_count; lia.
Qed.
Lemma bal_ok : forall o s o' s', bal o s o' s' -> okst (cov s').
Proof. intros o s o' s' H. apply H. Qed.
Lemma bal_ext : forall o s o' s', bal o s o' s' -> ext (cov s) (cov s').
Proof. intros o s o' s' H. apply H. Qed.

Lemma btype_logical : forall sc b t, btype sc b = Some t -> logical_type (Some t) = true -> logical_branch sc b.
Proof. unfold logical_branch. intros sc b t -> H. exact H. Qed.

Ltac rwst :=
  repeat match goal with
  | H : on_enter e _ _ _ = (_, _, _) |- _ =>
      let C := fresh "Hc" in let B := fresh "Hb" in
      apply on_enter_facts in H as (C & B & _ & _)
  | H : on_enter_with_span e _ _ = (_, _, _) |- _ =>
      let C := fresh "Hc" in let B := fresh "Hb" in
      apply on_enter_with_span_facts in H as (C & B & _ & _)
  end;
  unfold CV, CK, CI, bal in *;
  cbn [cov before on_exit pop push set_ign set_cov spawn clear_before vis_ok] in *.
Ltac eqst :=
  repeat match goal with
  | Hc : cov ?a = cov ?b |- _ => rewrite Hc in *; clear Hc
  | Hb : before ?a = before ?b |- _ => rewrite Hb in *; clear Hb
  end.

Ltac gsplit :=
  repeat match goal with
  | H : forallb gd (_ :: _) = true |- _ => cbn [forallb] in H
  | H : _ && _ = true |- _ => apply andb_true_iff in H as [? ?]
  | H : gd (Node ?k ?sp ?cs) = true |- _ =>
      let N := fresh "Hn" in let G := fresh "Hg" in
      apply good_split in H as [N G]
  | H : forallb gd (_ ++ _) = true |- _ => rewrite forallb_app in H
  end.

(** Premises of induction hypotheses and counting lemmas *)
Ltac prem :=
  solve [ assumption | exact I
        | repeat match goal with Hc : cov ?a = cov ?b |- context [cov ?a] => rewrite Hc end; assumption
        | repeat match goal with Hc : cov ?a = cov ?b |- context [cov ?a] => rewrite Hc end;
          eauto 7 using vis_ok_ext, logical_ext, ext_trans, btype_logical
        | cbn [forallb]; rewrite !andb_true_iff; auto 7
        | cbn [good forallb]; rewrite !andb_true_iff; auto 7 ].
Ltac use H :=
  let A := fresh "Ok" in let B := fresh "Ex" in let L := fresh "L" in
  destruct H as (A & B & L); [prem ..|]; cbn [cov before set_cov] in A, B, L;
  repeat match goal with Hc : cov ?a = cov ?b |- _ => rewrite Hc in B end.
Ltac use4 H :=
  let A := fresh "Ok" in let B := fresh "Ex" in let L := fresh "L" in let D := fresh "Hb" in
  destruct H as (A & B & D & L); [prem ..|]; cbn [cov before set_cov] in A, B, D, L;
  repeat match goal with Hc : cov ?a = cov ?b |- _ => rewrite Hc in B end.
Ltac useb H :=
  let A := fresh "Ok" in let B := fresh "Ex" in let L := fresh "L" in let D := fresh "Hbt" in
  destruct H as (A & B & L & D); [prem ..|]; cbn [cov before set_cov] in A, B, D, L;
  repeat match goal with Hc : cov ?a = cov ?b |- _ => rewrite Hc in B end.
Ltac ctr := rewrite ?occ_node, ?occl_app, ?occl_cons, ?occl_nil, ?occ_counter_stmt in *.
Ltac fin :=
  eqst; split; [assumption|split; [eauto 7 using ext_trans, ext_refl|]];
  repeat (ctr; cbn [Nat.add]); unfold law in *; destruct exact_count; lia.

Theorem count_all :
  (forall v t s t' s', Vis e v t s t' s' -> CV v t s t' s') /\
  (forall v cs s cs' s', Kids e v cs s cs' s' -> CK v cs s cs' s') /\
  (forall ss s ss' s', Ins e ss s ss' s' -> CI ss s ss' s') /\
  (forall v b x s x' s', Wrap e v b x s x' s' -> logical_branch (cov s) b -> CV v x s x' s') /\
  (forall b r cur x s x' s', Arm e b r cur x s x' s' -> btype (cov s) b = Some BIf -> CV VStmt x s x' s') /\
  (forall xs s xs' s', Items e xs s xs' s' -> CI xs s xs' s') /\
  (forall xs s xs' s', SItems e xs s xs' s' -> CI xs s xs' s').
Proof.
  apply Vis_all_ind; intros; rwst; intros; gsplit.
  - (* V_plain *) use H1. fin.
  - (* V_ts *) fin.
  - (* V_logical_expr *) use H1. fin.
  - (* V_keep *) fin.
  - (* V_enter *) use H3. fin.
  - (* V_marked *) use (mark_count sp s1). use H5. fin.
  - (* V_stmts *) use H1. fin.
  - (* V_fn *)
    use4 (create_fn_count _ _ _ _ _ H3).
    destruct (create_fn_shape e strict _ _ _ _ _ H3) as (Hgf & _ & _); [assumption|].
    use H5. fin.
  - (* V_accessor *)
    use4 (accessor_count _ _ _ _ _ _ H3).
    destruct (accessor_shape e strict _ _ _ _ _ _ H3) as (Hgf & _ & _); [assumption|].
    assert (forallb gd (pre ++ [body']) = true) by (rewrite forallb_app; simpl; now rewrite Hgf, andb_true_r).
    use H5. fin.
  - (* V_arrow_block *)
    pose proof (fun K => new_function_count e path c _ _ _ _ _ _ K H2) as N. use N. use H4. fin.
  - (* V_arrow_expr *)
    pose proof (fun K => new_function_count e path c _ _ _ _ _ _ K H2) as N. use N.
    assert (forallb gd [counter_stmt (CF index); Node KStmt esp [Node KReturn esp [Node KExpr esp xs]]] = true).
    { cbn [forallb]. rewrite good_counter_stmt. cbn [good forallb].
      rewrite !andb_true_iff. unfold node_ok. simpl. rewrite orb_true_r. auto 10. }
    use H4. unfold mk. fin.
  - (* V_init *)
    pose proof (covered_shape e strict _ _ _ _ H3 ltac:(assumption)) as Hgv.
    use (covered_count _ _ _ _ H3). use H5. fin.
  - (* V_init_tagged *)
    use (mark_count vsp s1).
    destruct (proj1 (shape_all e strict) _ _ _ _ _ H3) as (Hgv & _ & _); [assumption|].
    use H4. use H6. fin.
  - (* V_loop *)
    pose proof (block_last_shape strict _ _ H3 Hg) as Hgb. pose proof (block_last_count _ _ H3) as Hcb.
    use (mark_count sp s1). use H5. fin.
  - (* V_cond *)
    pose proof (fun K => new_branch_count e path c _ _ _ _ _ _ K H2 I) as N.
    useb N.
    use4 (cond_arm_count _ _ _ _ _ H3).
    assert (btype (cov s3) b = Some CondExpr) by (cbn [cov set_cov] in *; auto).
    use4 (cond_arm_count _ _ _ _ _ H4).
    destruct (cond_arm_shape e strict _ _ _ _ _ H3) as (? & _); [assumption|].
    destruct (cond_arm_shape e strict _ _ _ _ _ H4) as (? & _); [assumption|].
    use H6. fin.
  - (* V_switch *)
    use (mark_count sp s1).
    pose proof (fun K => new_branch_count e path c _ _ _ _ _ _ K H2 I) as N. useb N.
    assert (Hlost : exact_count = true -> occl (before sv) = 0%nat).
    { unfold exact_count. intros Hx. apply orb_true_iff in Hx as [Hx|Hx].
      - unfold node_ok in Hn. rewrite Hx in Hn. simpl in Hn. apply negb_true_iff in Hn.
        destruct (proj1 (proj2 (shape_all e strict)) _ _ _ _ _ H3 Hg) as (_ & _ & Hbb).
        rewrite Hbb by auto. reflexivity.
      - apply occl_sonly; [eapply spawned_sonly; [eassumption|reflexivity]|].
        destruct c; try exact I; discriminate. }
    use H4. eqst. split; [assumption|split; [eauto 7 using ext_trans, ext_refl|]].
    repeat (ctr; cbn [Nat.add]). unfold law in *. destruct exact_count; [|lia].
    rewrite (Hlost eq_refl) in *. lia.
  - (* V_case *)
    pose proof (fun K => add_branch_path_count e path c _ _ _ _ _ K H1) as N. use N.
    assert (Ht : thit e c (cov s1) b i = 0%nat).
    { unfold thit. rewrite Hc, H4. now rewrite andb_false_r. }
    use H3. rewrite Ht in *. fin.
  - (* V_if *)
    use (mark_count sp s1).
    pose proof (fun K => new_branch_count e path c _ _ _ _ _ _ K H2 I) as N. useb N.
    use (H4 ltac:(assumption)).
    assert (btype (cov s4) b = Some BIf) by auto.
    use (H6 ltac:(assumption)). use H8. fin.
  - (* V_with_block *)
    use (mark_count sp s1). use H3. fin.
  - (* V_with_stmt *)
    use (mark_count sp s1). use H4. eqst.
    split; [assumption|split; [eauto 7 using ext_trans, ext_refl|]].
    rewrite !occ_node, !occl_cons, occ_inj_block. ctr. unfold law in *. destruct exact_count; lia.
  - (* V_bin *) use H1. fin.
  - (* V_logical_new *)
    unfold new_logical_branch in H3.
    destruct (new_branch BinaryExpr (range_of e sp) (e_report_logic e) (cov (push NLogicalExpr s1)))
      as [sc0 b0] eqn:Hnb. inversion H3; subst. clear H3.
    pose proof (fun K => new_branch_count e path c _ _ _ _ _ _ K Hnb eq_refl) as N.
    cbn [cov before set_cov push] in *. useb N.
    use (H5 ltac:(prem)). use (H7 ltac:(prem)). fin.
  - (* V_logical_inner *)
    assert (logical_branch (cov s1) b) by prem.
    use (H3 ltac:(assumption)). use (H5 ltac:(prem)). fin.
  - (* V_assign_pat *)
    pose proof (fun K => new_branch_count e path c _ _ _ _ _ _ K H2 I) as N. useb N.
    use (H4 ltac:(prem)). fin.
  - (* V_module_items *) discriminate.
  - (* V_script *) discriminate.
  - (* K_nil *) fin.
  - (* K_cons *) use H0. use H2. fin.
  - (* I_nil *) fin.
  - (* I_injected *) use H1. fin.
  - (* I_skip *) use H3. fin.
  - (* I_visit *) use H3. use H5. fin.
  - (* W_next *) fin.
  - (* W_nested *)
    use H2. assert (Hz : before sv = []).
    { destruct (proj1 (proj2 (shape_all e strict)) _ _ _ _ _ H1 ltac:(assumption)) as (_ & _ & Hbb).
      rewrite Hbb by auto. reflexivity. }
    rewrite Hz in *. fin.
  - (* W_report *)
    pose proof (fun K => add_branch_path_count e path c _ _ _ _ _ K H3) as N. use N.
    assert (Ht : thit e c (cov s) b i = hit (CT b i)).
    { unfold thit. rewrite H2. unfold logical_branch in H4. now rewrite H4. }
    rewrite Ht in *. rewrite occ_true. fin.
  - (* W_leaf *)
    use H3. pose proof (fun K => replace_branch_count _ _ _ _ _ H4 K) as N.
    assert (Hr : e_report_logic e && logical_type (btype (cov s1) b) = false) by now rewrite H1.
    use4 (N ltac:(assumption) Hr). fin.
  - (* A_keep *) fin.
  - (* A_block *)
    pose proof (fun K => add_branch_path_count e path c _ _ _ _ _ K H) as N. use N.
    assert (Ht : thit e c (cov s) b i = 0%nat) by (unfold thit; rewrite H2; now rewrite andb_false_r).
    use H1. rewrite Ht in *. fin.
  - (* A_none *)
    pose proof (fun K => add_branch_path_count e path c _ _ _ _ _ K H) as N. use N.
    assert (Ht : thit e c (cov s) b i = 0%nat) by (unfold thit; rewrite H0; now rewrite andb_false_r).
    rewrite occ_inj_block. rewrite Ht in *. fin.
  - (* A_stmt *)
    pose proof (fun K => add_branch_path_count e path c _ _ _ _ _ K H0) as N. use N.
    assert (Ht : thit e c (cov s) b i = 0%nat) by (unfold thit; rewrite H3; now rewrite andb_false_r).
    use H2. rewrite occ_inj_block. rewrite Ht in *. fin.
  - (* M_nil *) fin.
  - (* M_directive *) use H1. fin.
  - (* M_visit *)
    assert (Hm : okst (cov s2) /\ ext (cov s1) (cov s2) /\
      (occl (before s2) + sl (cov s1) = occl (before s1) + sl (cov s2))%nat).
    { destruct H1 as [->|[esp ->]]; [repeat split; [prem|apply ext_refl]|apply mark_count; prem]. }
    use Hm. use H3. use H5. fin.
  - (* S_nil *) fin.
  - (* S_visit *) use H0. use H2. fin.
Qed.
End Account.
