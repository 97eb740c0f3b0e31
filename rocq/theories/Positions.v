(** C64: the output has the positions of the input, and a record has no others. *)
From Coq Require Import NArith String List Bool Lia PeanoNat.
Import ListNotations.
From Verif Require Import Base IndexMap Decimal Oxide SourceCov Hints Ast Visitor VisitorRel VisitorEx Erase Prologue Layout.
Open Scope N_scope.

(** ** Specification *)
(** A list without some of its elements *)
Inductive thinned {A} : list A -> list A -> Prop :=
| th_nil : thinned [] []
| th_keep : forall x a b, thinned a b -> thinned (x :: a) (x :: b)
| th_drop : forall x a b, thinned a b -> thinned a (x :: b).
(** The positions of a tree from left to right; injected nodes have the dummy span of lookup_range.rs 8-27, which is none. *)
Definition real (sp : span) : bool := negb ((lo sp =? 0) && (hi sp =? 0)).
Definition places (t : node) : list span := filter real (all_spans t).
(** The location of a node of the program, or the location 0:0 of nodes without position *)
Definition located (e : env) (t : node) (r : range) : Prop :=
  exists sp, (In sp (all_spans t) \/ sp = dummy_span) /\ r = range_of e sp.
Definition located_fn (e : env) (t : node) (f : func) : Prop :=
  located e t (f_decl f) /\ located e t (f_loc f) /\ exists r, located e t r /\ f_line f = line (rstart r).
Definition located_branch (e : env) (t : node) (b : branch) : Prop :=
  (forall r, b_loc b = Some r -> located e t r) /\ Forall (located e t) (b_locations b) /\
  forall l, b_line b = Some l -> exists r, located e t r /\ l = line (rstart r).

(** ** Erasing keeps positions in order *)
Lemma thinned_nil : forall A (l : list A), thinned [] l.
Proof. induction l; [apply th_nil|now apply th_drop]. Qed.
Lemma thinned_refl : forall A (l : list A), thinned l l.
Proof. induction l; [apply th_nil|now apply th_keep]. Qed.
Lemma thinned_app : forall A (a b c d : list A), thinned a b -> thinned c d -> thinned (a ++ c) (b ++ d).
Proof. intros A a b c d H K. induction H; cbn [app]; [exact K|now apply th_keep|now apply th_drop]. Qed.
Lemma thinned_left : forall A (a b c : list A), thinned a c -> thinned a (b ++ c).
Proof. intros A a b c H. induction b; [exact H|now apply th_drop]. Qed.
Lemma thinned_right : forall A (a b c : list A), thinned a b -> thinned a (b ++ c).
Proof. intros A a b c H. rewrite <- (app_nil_r a). apply thinned_app; [exact H|apply thinned_nil]. Qed.
Lemma thinned_trans : forall A (b c : list A), thinned b c -> forall a, thinned a b -> thinned a c.
Proof.
  intros A b c H. induction H as [|x b c H IH|x b c H IH]; intros a K; [exact K| |now apply th_drop, IH].
  inversion K; subst; [now apply th_keep, IH|now apply th_drop, IH].
Qed.
Lemma thinned_in : forall A (a b : list A) x, thinned a b -> In x a -> In x b.
Proof. intros A a b x H. induction H; cbn; intros K; [exact K|destruct K as [K|K]; auto|auto]. Qed.

Lemma places_node : forall k sp cs, places (Node k sp cs) = (if real sp then [sp] else []) ++ flat_map places cs.
Proof.
  intros k sp cs. unfold places. cbn [all_spans filter].
  assert (E : filter real (flat_map all_spans cs) = flat_map (fun t => filter real (all_spans t)) cs).
  { induction cs as [|c cs IH]; [reflexivity|]. cbn [flat_map]. now rewrite filter_app, IH. }
  rewrite E. destruct (real sp); reflexivity.
Qed.
Lemma places_hole : places hole = [].
Proof. reflexivity. Qed.
(** Parts of a node *)
Lemma places_kids : forall k sp cs l, thinned l (flat_map places cs) -> thinned l (places (Node k sp cs)).
Proof. intros k sp cs l H. rewrite places_node. now apply thinned_left. Qed.
Lemma places_same : forall k sp cs ds, thinned (flat_map places cs) (flat_map places ds) -> thinned (places (Node k sp cs)) (places (Node k sp ds)).
Proof. intros k sp cs ds H. rewrite !places_node. apply thinned_app; [apply thinned_refl|exact H]. Qed.
Lemma places_one : forall k sp c, thinned (places c) (places (Node k sp [c])).
Proof. intros k sp c. apply places_kids. cbn [flat_map]. rewrite app_nil_r. apply thinned_refl. Qed.
Lemma places_filter : forall p cs, thinned (flat_map places (filter p cs)) (flat_map places cs).
Proof.
  intros p cs. induction cs as [|c cs IH]; [constructor|]. cbn [filter flat_map]. destruct (p c); [|now apply thinned_left].
  cbn [flat_map]. apply thinned_app; [apply thinned_refl|exact IH].
Qed.
Lemma block_places : forall c i bsp ssp ss, block_view c = Some (i, bsp, ssp, ss) -> thinned (flat_map places ss) (places c).
Proof.
  intros c i bsp ssp ss H. apply block_view_inv in H. subst. apply places_kids. cbn [flat_map]. rewrite app_nil_r.
  apply places_kids, thinned_refl.
Qed.

Lemma erase_stmt_places : forall sp c, thinned (places (erase_stmt sp c)) (places (Node KStmt sp [c])).
Proof.
  intros sp c. unfold erase_stmt. destruct (is_none c); [rewrite places_hole; apply thinned_nil|].
  destruct (block_view c) as [[[[i bsp] ssp] ss]|] eqn:Hb; [|apply thinned_refl]. destruct i; [|apply thinned_refl].
  destruct ss as [|x [|? ?]]; [rewrite places_hole; apply thinned_nil| |apply thinned_refl].
  eapply thinned_trans; [apply places_one|]. apply block_places in Hb. cbn [flat_map] in Hb. now rewrite app_nil_r in Hb.
Qed.
Lemma return_places : forall r x, return_view r = Some x -> thinned (places x) (places r).
Proof.
  intros r x H. unfold return_view, stmt_view in H. destruct r as [rk rsp rcs]. destruct rk; try discriminate.
  destruct rcs as [|d [|? ?]]; try discriminate. destruct d as [dk dsp dcs]. destruct dk; try discriminate.
  destruct dcs as [|y [|? ?]]; try discriminate. injection H as ->. eapply thinned_trans; [apply places_one|]. apply places_one.
Qed.
Lemma erase_arrow_places : forall b, thinned (places (erase_arrow_body b)) (places b).
Proof.
  intros b. unfold erase_arrow_body. destruct (block_view b) as [[[[i bsp] ssp] ss]|] eqn:Hb; [|apply thinned_refl].
  destruct i; [|apply thinned_refl]. destruct ss as [|r [|? ?]]; try apply thinned_refl.
  destruct (return_view r) as [x|] eqn:Hr; [|apply thinned_refl]. apply block_places in Hb. cbn [flat_map] in Hb. rewrite app_nil_r in Hb.
  eapply thinned_trans; [exact Hb|]. now apply return_places.
Qed.
Lemma unwrap_places : forall c x, unwrap_expr c = Some x -> thinned (places x) (places c).
Proof.
  intros [k sp cs] x H.
  assert (E : x = hole \/ In x cs).
  { destruct k; try discriminate H; cbn [unwrap_expr] in H;
    repeat match type of H with
    | Some _ = Some _ => injection H as H; subst
    | match ?l with nil => _ | cons _ _ => _ end = _ => destruct l
    end; try discriminate H; cbn; auto. }
  destruct E as [->|I]; [rewrite places_hole; apply thinned_nil|]. apply places_kids. apply in_split in I as (a & b & ->).
  rewrite flat_map_app. cbn [flat_map]. apply thinned_left, thinned_right, thinned_refl.
Qed.
Lemma erase_expr_places : forall sp c, thinned (places (erase_expr sp c)) (places (Node KExpr sp [c])).
Proof.
  intros sp c. unfold erase_expr. destruct (unwrap_expr c) as [x|] eqn:Hu; [|apply thinned_refl].
  destruct (is_block x); [apply thinned_refl|]. eapply thinned_trans; [apply places_one|]. now apply unwrap_places.
Qed.
Lemma erase_node_places : forall k sp cs, thinned (places (erase_node k sp cs)) (places (Node k sp cs)).
Proof.
  intros k sp cs. destruct k; cbn [erase_node]; try apply thinned_refl; try (rewrite places_hole; apply thinned_nil);
    try (apply places_same, places_filter).
  all: destruct cs as [|c cs]; try apply thinned_refl; destruct cs as [|c2 cs]; try apply thinned_refl.
  all: try apply erase_stmt_places; try apply erase_expr_places.
  - destruct (is_none c); [rewrite places_hole; apply thinned_nil|apply thinned_refl].
  - destruct cs as [|c3 [|? ?]]; try apply thinned_refl. apply places_same. cbn [flat_map].
    apply thinned_app; [apply thinned_refl|]. apply thinned_app; [apply erase_arrow_places|apply thinned_refl].
Qed.
Lemma erase_places : forall t, thinned (places (erase t)) (places t).
Proof.
  induction t as [k sp cs IH] using node_ind'. cbn [erase]. eapply thinned_trans; [|apply erase_node_places]. apply places_same.
  induction IH as [|c cs Hc _ IHc]; [constructor|]. cbn [map flat_map]. now apply thinned_app.
Qed.

(** ** One run related to itself *)
Section Self.
Context (e : env) (path : string) (ism : option source_map) (used : list span).
Let S1 (a b : span) : Prop := a = b /\ In a (dummy_span :: used).
Let G1 (a b : range) : Prop := a = b /\ exists sp, In sp (dummy_span :: used) /\ a = range_of e sp.
Lemma like_self : forall t, no_template t -> (forall sp, In sp (all_spans t) -> In sp used) -> like S1 G1 path path ism ism t t.
Proof.
  fix IH 1. intros [k sp cs] T U. unfold no_template in T. cbn [occurs] in T. apply orb_false_iff in T as [Tk Tc].
  constructor; [now constructor|split; [reflexivity|right; apply U; now left]|].
  cbn [all_spans] in U. assert (U' : forall sp, In sp (flat_map all_spans cs) -> In sp used) by (intros; apply U; now right). clear U.
  revert Tc U'. induction cs as [|c cs IHc]; intros Tc U; [constructor|]. cbn [existsb] in Tc. apply orb_false_iff in Tc as [T1 T2]. constructor.
  - apply IH; [exact T1|]. intros x Hx. apply U. cbn. apply in_or_app. now left.
  - apply IHc; [exact T2|]. intros x Hx. apply U. cbn. apply in_or_app. now right.
Qed.
Lemma like_used :
  (forall a b, like S1 G1 path path ism ism a b -> forall sp, In sp (all_spans a) -> In sp (dummy_span :: used)) /\
  (forall a b, likes S1 G1 path path ism ism a b -> forall sp, In sp (flat_map all_spans a) -> In sp (dummy_span :: used)).
Proof.
  apply like_all_ind.
  - intros k1 k2 sp1 sp2 c1 c2 K [-> I] _ IH sp [<-|Hs]; [exact I|now apply IH].
  - intros sp [].
  - intros a b l1 l2 _ IHa _ IHl sp Hs. cbn [flat_map] in Hs. apply in_app_or in Hs as [Hs|Hs]; [now apply IHa|now apply IHl].
Qed.
Lemma self_rel : forall n t t' c, no_template t -> (forall sp, In sp (all_spans t) -> In sp used) ->
  instrument e n path ism t = Ok (t', c) -> like S1 G1 path path ism ism t' t' /\ fc_rel G1 path path ism ism (sc_fc c) (sc_fc c).
Proof.
  intros n t t' c T U H.
  pose proof (instrument_rel S1 G1 path path ism ism ltac:(split; [reflexivity|now left]) e e ltac:(intros a b [-> _]; reflexivity)
    ltac:(intros a b [-> I]; split; [reflexivity|now exists b]) eq_refl eq_refl n t t (like_self t T U) eq_refl) as R.
  rewrite H in R. cbn in R. destruct R as [R1 [R2 _]]. now split.
Qed.
Lemma rows_self : forall A (R : A -> A -> Prop) (P : A -> Prop) (m : imap N A), (forall a b, R a b -> P a) ->
  forall m2, Forall2 (row_rel R) m m2 -> Forall (fun p => P (snd p)) m.
Proof. intros A R P m H m2 F. induction F as [|a b m m2 [_ Ra] _ IH]; constructor; [now apply (H _ (snd b))|exact IH]. Qed.
End Self.

Lemma clean_no_template : forall t, clean t = true -> no_template t.
Proof.
  induction t as [k sp cs IH] using node_ind'. intros H. pose proof (clean_kind _ H) as K. cbn [nkind] in K. unfold no_template. cbn [occurs].
  replace (is_template k) with false by (destruct k; try reflexivity; discriminate K). cbn [orb]. cbn [clean] in H. apply andb_true_iff in H as [_ H].
  clear K. induction IH as [|c cs Hc _ IHc]; [reflexivity|]. cbn [forallb] in H. apply andb_true_iff in H as [H1 H2]. cbn [existsb].
  unfold no_template in Hc. rewrite (Hc H1). cbn [orb]. now apply IHc.
Qed.
Lemma real_not_dummy : forall sp, real sp = true -> sp <> dummy_span.
Proof. intros sp H ->. discriminate H. Qed.
Lemma places_in : forall t sp, In sp (places t) <-> In sp (all_spans t) /\ real sp = true.
Proof. intros. apply filter_In. Qed.

(** ** The positions of the source survive *)
(** The positions of the program stand in the output, in the same order. *)
Theorem positions_kept : forall e n path ism t t' c, clean t = true -> instrument e n path ism t = Ok (t', c) ->
  thinned (places t) (places t').
Proof.
  intros e n path ism t t' c C H. apply (erase_instrument _ _ _ _ _ _ _ C) in H. rewrite <- H at 1. apply erase_places.
Qed.
(** The output has no other positions. *)
Theorem positions_same : forall e n path ism t t' c, clean t = true -> instrument e n path ism t = Ok (t', c) ->
  forall sp, In sp (places t') <-> In sp (places t).
Proof.
  intros e n path ism t t' c C H sp. split; intros I.
  - rewrite places_in in *. destruct I as [I Re]. split; [|exact Re].
    destruct (self_rel e path ism (all_spans t) n t t' c (clean_no_template _ C) (fun _ h => h) H) as [L _].
    destruct (proj1 (like_used e path ism (all_spans t)) _ _ L sp I) as [<-|K]; [discriminate Re|exact K].
  - eapply thinned_in; [|exact I]. eapply positions_kept; eassumption.
Qed.
(** Every location and line number of the record is one of the program. *)
Theorem record_located : forall e n path ism t t' c, clean t = true -> instrument e n path ism t = Ok (t', c) ->
  Forall (fun p => located e t (snd p)) (fc_statement_map (sc_fc c)) /\
  Forall (fun p => located_fn e t (snd p)) (fc_fn_map (sc_fc c)) /\
  Forall (fun p => located_branch e t (snd p)) (fc_branch_map (sc_fc c)).
Proof.
  intros e n path ism t t' c C H.
  destruct (self_rel e path ism (all_spans t) n t t' c (clean_no_template _ C) (fun _ h => h) H) as [_ [_ _ _ F1 F2 F3 _ _ _ _]].
  assert (HG : forall r, (exists sp, In sp (dummy_span :: all_spans t) /\ r = range_of e sp) -> located e t r).
  { intros r (sp & [<-|I] & E); [exists dummy_span|exists sp]; auto. }
  split; [|split].
  - eapply rows_self; [|exact F1]. intros a b [_ K]. now apply HG.
  - eapply rows_self; [|exact F2]. intros a b (_ & [_ K1] & [_ K2] & r1 & r2 & [_ K3] & E & _).
    split; [now apply HG|]. split; [now apply HG|]. exists r1. split; [now apply HG|exact E].
  - eapply rows_self; [|exact F3]. intros a b (O & _ & F & L). split; [|split].
    + intros r E. rewrite E in O. destruct (b_loc b); [|contradiction O]. destruct O as [_ K]. now apply HG.
    + induction F as [|x y l1 l2 [_ K] _ IH]; constructor; [now apply HG|exact IH].
    + intros l E. rewrite E in L. destruct (b_line b); [|contradiction L]. destruct L as (r1 & r2 & [_ K] & El & _). exists r1. split; [now apply HG|exact El].
Qed.

(** ** Injected nodes have no position, except the [return] of an arrow function *)
(** Arrow functions with an expression as body: they get a body with a [return] (instrumentation_visitor.rs 90-131) *)
Definition short (k : kind) (cs : list node) : bool :=
  match k, cs with KArrow, [_; b; _] => is_expr b | _, _ => false end.
Fixpoint shorts (t : node) : nat :=
  match t with Node k sp cs => (if short k cs then 1 else 0) + list_sum (map shorts cs) end%nat.
(** Positions, and two for every such function *)
Definition own_weight (sp : span) : nat := if real sp then 1 else 0.
Fixpoint weight (t : node) : nat :=
  match t with Node k sp cs => own_weight sp + (if short k cs then 2 else 0) + list_sum (map weight cs) end%nat.
Definition weights (ts : list node) : nat := list_sum (map weight ts).
Lemma weights_app : forall a b, weights (a ++ b) = (weights a + weights b)%nat.
Proof. intros. unfold weights. now rewrite map_app, list_sum_app. Qed.
Lemma weights_cons : forall a b, weights (a :: b) = (weight a + weights b)%nat.
Proof. reflexivity. Qed.
Lemma weight_node : forall k sp cs, weight (Node k sp cs) = (own_weight sp + (if short k cs then 2 else 0) + weights cs)%nat.
Proof. reflexivity. Qed.
Lemma own_weight_le : forall sp, (own_weight sp <= 1)%nat.
Proof. intros sp. unfold own_weight. destruct (real sp); lia. Qed.
Lemma weights_sonly : forall l, sonly l -> weights l = 0%nat.
Proof. intros l H. induction H as [|x l [i ->] _ IH]; [reflexivity|]. rewrite weights_cons, IH. reflexivity. Qed.
Lemma weight_counter : forall c, weight (counter_stmt c) = 0%nat.
Proof. reflexivity. Qed.
Lemma weight_paren : forall c x, weight (paren_seq c x) = weight x.
Proof. intros c x. unfold paren_seq, counter_expr, E, mk. cbn. lia. Qed.
Lemma weight_true : forall b i x, weight (E (mk KInjSeq [counter_expr (CB b i); increase_true_expr b i x])) = weight x.
Proof. intros b i x. unfold increase_true_expr, counter_expr, E, mk. cbn. lia. Qed.
(** The measure counts the positions and the arrow functions. *)
Lemma weight_counts : forall t, weight t = (length (places t) + 2 * shorts t)%nat.
Proof.
  induction t as [k sp cs IH] using node_ind'. rewrite weight_node, places_node, app_length. cbn [shorts].
  assert (E : weights cs = (length (flat_map places cs) + 2 * list_sum (map shorts cs))%nat).
  { induction IH as [|c cs Hc _ IHc]; [reflexivity|]. rewrite weights_cons, Hc, IHc. cbn [flat_map map]. rewrite app_length. change (list_sum (shorts c :: map shorts cs)) with (shorts c + list_sum (map shorts cs))%nat. lia. }
  rewrite E. unfold own_weight. destruct (real sp), (short k cs); cbn [length]; lia.
Qed.
(** Replacing children *)
Lemma short_kinds : forall k cs cs', Forall2 (fun c c' => nkind c' = nkind c /\ nspan c' = nspan c) cs cs' -> short k cs' = short k cs.
Proof.
  intros k cs cs' F. destruct k; try reflexivity. cbn [short].
  destruct F as [|a a' cs cs' _ F]; [reflexivity|]. destruct F as [|b b' cs cs' [K _] F]; [reflexivity|].
  destruct F as [|c c' cs cs' _ F]; [reflexivity|]. destruct F; [|reflexivity]. unfold is_expr. now rewrite K.
Qed.
Lemma weight_kids : forall k sp cs cs', Forall2 (fun c c' => nkind c' = nkind c /\ nspan c' = nspan c) cs cs' -> (weights cs' <= weights cs)%nat ->
  (weight (Node k sp cs') <= weight (Node k sp cs))%nat.
Proof. intros k sp cs cs' F H. rewrite !weight_node, (short_kinds k _ _ F). lia. Qed.
Lemma weight_other : forall k sp cs cs', nkind (Node k sp cs) <> KArrow -> (weights cs' <= weights cs)%nat ->
  (weight (Node k sp cs') <= weight (Node k sp cs))%nat.
Proof.
  intros k sp cs cs' F H. rewrite !weight_node. assert (E : forall ds, short k ds = false) by (intros; destruct k; try reflexivity; now destruct F).
  rewrite !E. lia.
Qed.

Section Weights.
Variable e : env.
Definition WV (v : vis) (t : node) (s : st) (t' : node) (s' : st) : Prop :=
  sonly (before s) -> (weight t' <= weight t)%nat /\ sonly (before s').
Definition WK (v : vis) (cs : list node) (s : st) (cs' : list node) (s' : st) : Prop :=
  sonly (before s) -> (weights cs' <= weights cs)%nat /\ sonly (before s').
Definition WI (ss : list node) (s : st) (ss' : list node) (s' : st) : Prop :=
  sonly (before s) -> (weights ss' <= weights ss)%nat /\ sonly (before s').

Lemma covered_weight : forall x s x' s', covered e x s x' s' -> weight x' = weight x /\ (sonly (before s) -> sonly (before s')).
Proof.
  intros x s x' s' H. split; [|intros; eapply covered_facts; eauto]. destruct H as (s1 & _ & [[-> _]|[_ H]]); [reflexivity|].
  unfold replace_expr_with_stmt_counter, new_statement in H. apply (f_equal fst) in H. cbn [fst] in H. subst x'. apply weight_paren.
Qed.
Lemma replace_weight : forall x b s x' s', replace_expr_with_branch_counter e x b s = Ok (x', s') -> weight x' = weight x /\ before s' = before s.
Proof.
  intros x b s x' s' H. split; [|eapply replace_branch_facts; eauto]. unfold replace_expr_with_branch_counter in H.
  destruct (is_expr x); [|discriminate]. cbn [negb] in H. apply bind_ok in H as [[c i] [_ H]]. injection H as H _. subst x'. apply weight_paren.
Qed.
Lemma arm_weight : forall b x s x' s', cond_arm e b x s x' s' -> weight x' = weight x /\ before s' = before s.
Proof. intros b x s x' s' [[-> ->]|H]; [auto|]. eapply replace_weight; eauto. Qed.
Lemma prepend_weight : forall c b b', prepend_to_block c b = Some b' -> weight b' = weight b.
Proof.
  intros c b b' H. unfold prepend_to_block in H. destruct (block_view b) as [[[[i bsp] ssp] ss]|] eqn:Hb; [|discriminate].
  apply block_view_inv in Hb. injection H as <-. subst b. reflexivity.
Qed.
Lemma create_fn_weight : forall id fn s fn' s', create_fn_instrumentation e id fn s = Ok (fn', s') -> weight fn' = weight fn /\ before s' = before s.
Proof.
  intros id fn s fn' s' H. split; [|eapply create_fn_facts; eauto]. destruct fn as [k sp cs]. unfold create_fn_instrumentation in H.
  destruct k; try discriminate. destruct cs as [|p [|d [|b [|ty [|? ?]]]]]; try discriminate.
  destruct (new_function _ _ _ _) as [c i]. destruct (is_none b); [discriminate|].
  destruct (prepend_to_block (CF i) b) as [b'|] eqn:Hp; [|discriminate]. injection H as <- _. rewrite !weight_node, !weights_cons.
  cbn [short]. now rewrite (prepend_weight _ _ _ Hp).
Qed.
Lemma accessor_weight : forall name sp s b b' s', accessor_body e name sp s b = Ok (b', s') -> weight b' = weight b /\ before s' = before s.
Proof.
  intros name sp s b b' s' H. split; [|eapply accessor_facts; eauto]. unfold accessor_body in H. destruct (is_none b); [now injection H as <- _|].
  destruct (new_function _ _ _ _) as [c i]. destruct (prepend_to_block (CF i) b) as [b''|] eqn:Hp; [|discriminate]. injection H as <- _.
  apply (prepend_weight _ _ _ Hp).
Qed.
Lemma block_last_weight : forall cs cs', block_last cs = Some cs' -> weights cs' = weights cs.
Proof.
  induction cs as [|c cs IH]; intros cs' H; [discriminate|]. destruct cs as [|c2 cs].
  - simpl in H. unfold to_block in H. destruct (stmt_view c) as [[sp x]|]; [|discriminate]. destruct (is_block x); injection H as <-; [reflexivity|].
    unfold mk. rewrite !weights_cons, !weight_node, !weights_cons, !weight_node, !weights_cons, !weight_node, !weights_cons. cbn. lia.
  - change (block_last (c :: c2 :: cs)) with (option_map (cons c) (block_last (c2 :: cs))) in H.
    destruct (block_last (c2 :: cs)) as [l|] eqn:Hl; [|discriminate]. injection H as <-. rewrite !(weights_cons c). now rewrite (IH l eq_refl).
Qed.
Lemma templates_weight : forall s tpl call s', get_coverage_templates s = (tpl, call, s') -> weight tpl = 0%nat /\ weight call = 0%nat /\ before s' = before s.
Proof. intros s tpl call s' H. unfold get_coverage_templates in H. injection H as <- <- <-. auto. Qed.

Ltac fwd :=
  repeat match goal with
  | H : sonly ?a -> _, H' : sonly ?a |- _ => specialize (H H')
  | H : _ /\ _ |- _ => destruct H
  | H : on_enter e _ _ _ = (_, _, _) |- _ =>
      let C := fresh "Hc" in let B := fresh "Hb" in apply on_enter_facts in H as (C & B & _ & _)
  | H : on_enter_with_span e _ _ = (_, _, _) |- _ =>
      let C := fresh "Hc" in let B := fresh "Hb" in apply on_enter_with_span_facts in H as (C & B & _ & _)
  | B : before ?s1 = before ?s, H : sonly (before ?s) |- _ =>
      let P := fresh "Hs" in assert (P : sonly (before s1)) by (rewrite B; exact H); clear B
  | M : sonly (before (mark_prepend_stmt_counter e ?sp ?s1)) -> _, H : sonly (before ?s1) |- _ =>
      specialize (M (mark_sonly e sp s1 H))
  | M : sonly [] -> _ |- _ => specialize (M sonly_nil)
  end.
Ltac norm := cbn [before on_exit pop push set_ign set_cov spawn clear_before] in *; fwd.
Ltac wsimp := unfold mk in *; repeat rewrite ?weights_app, ?weights_cons, ?weight_node, ?weight_counter in *; cbn [short] in *;
  change (weights []) with 0%nat in *; change (own_weight dummy_span) with 0%nat in *.
Ltac no_arrow := intros Hno; cbn [nkind] in Hno; subst; discriminate.

Theorem weights_all :
  (forall v t s t' s', Vis e v t s t' s' -> WV v t s t' s') /\
  (forall v cs s cs' s', Kids e v cs s cs' s' -> WK v cs s cs' s') /\
  (forall ss s ss' s', Ins e ss s ss' s' -> WI ss s ss' s') /\
  (forall v b x s x' s', Wrap e v b x s x' s' -> WV v x s x' s') /\
  (forall b r cur x s x' s', Arm e b r cur x s x' s' -> WV VStmt x s x' s') /\
  (forall xs s xs' s', Items e xs s xs' s' -> WI xs s xs' s') /\
  (forall xs s xs' s', SItems e xs s xs' s' -> WI xs s xs' s').
Proof.
  apply Vis_all_ind; unfold WV, WK, WI; intros; norm; try (split; [lia | assumption]).
  all: repeat match goal with
    | H : create_fn_instrumentation _ _ _ _ = _ |- _ => apply create_fn_weight in H as [? ?]
    | H : accessor_body _ _ _ _ _ = _ |- _ => apply accessor_weight in H as [? ?]
    | H : covered _ _ _ _ _ |- _ => apply covered_weight in H as [? ?]
    | H : cond_arm _ _ _ _ _ _ |- _ => apply arm_weight in H as [? ?]
    | H : replace_expr_with_branch_counter _ _ _ _ = _ |- _ => apply replace_weight in H as [? ?]
    | H : block_last _ = _ |- _ => apply block_last_weight in H
    | H : get_coverage_templates _ = _ |- _ => apply templates_weight in H as (? & ? & ?)
    | H : new_logical_branch _ _ _ = _ |- _ => unfold new_logical_branch in H; destruct (new_branch _ _ _ _); injection H as <- _
    | H : Kids _ _ _ _ _ _ |- _ => apply kids_head in H
    | H : ?s2 = ?s1 \/ (exists esp, ?s2 = mark_prepend_stmt_counter _ esp ?s1), K : sonly (before ?s1) |- _ =>
        assert (sonly (before s2)) by (destruct H as [->|[? ->]]; auto using mark_sonly); clear H
    end; norm.
  all: try (split; [|now auto using mark_sonly]).
  all: repeat match goal with H : sonly (before ?s) |- _ => apply weights_sonly in H end.
  all: try (apply weight_kids; [assumption|lia]).
  all: try (apply weight_other; [no_arrow|]; wsimp; lia).
  all: try (wsimp; lia).
  - (* V_arrow_block *) wsimp. unfold is_expr. cbn [nkind]. lia.
  - (* V_arrow_expr *) pose proof (own_weight_le esp). wsimp. unfold is_expr. cbn [nkind]. lia.
  - (* V_module_items *) apply weight_other; [no_arrow|]. subst out. destruct items'; wsimp; lia.
  - (* I_visit *) match goal with F : Forall2 _ cs cs', L : (weights cs' <= _)%nat |- _ => pose proof (weight_kids k sp cs cs' F L) end.
    rewrite !weights_app, !weights_cons. change (weights []) with 0%nat. lia.
  - (* W_report *) now rewrite weight_true.
  - (* W_leaf *) match goal with F : Forall2 _ cs cs', L : (weights cs' <= _)%nat |- _ => pose proof (weight_kids k sp cs cs' F L) end. lia.
  - (* M_visit *) match goal with F : Forall2 _ cs cs', L : (weights cs' <= _)%nat |- _ => pose proof (weight_kids k sp cs cs' F L) end.
    rewrite !weights_app, !weights_cons. change (weights []) with 0%nat. lia.
  - (* S_visit *) match goal with F : Forall2 _ cs cs', L : (weights cs' <= _)%nat |- _ => pose proof (weight_kids k sp cs cs' F L) end.
    rewrite !weights_app, !weights_cons. lia.
Qed.
End Weights.
Theorem visit_weight : forall e n path ism t t' c, instrument e n path ism t = Ok (t', c) -> (weight t' <= weight t)%nat.
Proof.
  intros e n path ism t t' c H. unfold instrument in H. apply bind_ok in H as [[t1 s1] [Hv H]]. injection H as <- _.
  unfold visit_program in Hv. destruct (should_ignore_file _ _ _); [injection Hv as <- _; lia|].
  apply bind_ok in Hv as [[t2 s2] [Hv H]]. injection H as <- _. apply visit_sound in Hv.
  apply (proj1 (weights_all e)) in Hv. destruct (Hv sonly_nil) as [L _]. exact L.
Qed.
Lemma thinned_length : forall A (a b : list A), thinned a b -> (length a <= length b)%nat.
Proof. intros A a b H. induction H; cbn; lia. Qed.
Lemma thinned_full : forall A (a b : list A), thinned a b -> (length b <= length a)%nat -> a = b.
Proof.
  intros A a b H. induction H as [|x a b H IH|x a b H IH]; cbn; intros L; [reflexivity|f_equal; apply IH; lia|].
  apply thinned_length in H. lia.
Qed.
(** At most two positions are added for an arrow function with an expression as body, and none otherwise. *)
Theorem positions_added : forall e n path ism t t' c, instrument e n path ism t = Ok (t', c) ->
  (length (places t') <= length (places t) + 2 * shorts t)%nat.
Proof. intros e n path ism t t' c H. apply visit_weight in H. rewrite !weight_counts in H. lia. Qed.
Theorem positions_equal : forall e n path ism t t' c, clean t = true -> shorts t = 0%nat -> instrument e n path ism t = Ok (t', c) ->
  places t' = places t.
Proof.
  intros e n path ism t t' c C S H. symmetry. apply thinned_full; [eapply positions_kept; eauto|].
  pose proof (positions_added _ _ _ _ _ _ _ H) as L. rewrite S in L. lia.
Qed.

(** ** Example *)
(** [x => x] gets a body with a [return] which has the position of the returned expression, the other injected nodes have
    none: the output of the arrow function has one position more than the program, and the same ones. *)
Example positions_ex :
  let pairs t := map (fun sp => (lo sp, hi sp)) (places t) in
  clean ex_arrow = true /\ shorts ex_arrow = 1%nat /\ shorts ex_function = 0%nat /\ clean ex_function = true /\
  pairs ex_arrow = [(1, 20); (1, 20); (1, 20); (7, 19); (7, 8); (11, 18); (11, 18); (17, 18); (17, 18)] /\
  match instrument plain_env 40 "f.js" None ex_arrow with
  | Ok (t', c) =>
      pairs t' = [(1, 20); (1, 20); (1, 20); (7, 19); (7, 8); (11, 18); (11, 18); (17, 18); (17, 18); (17, 18); (17, 18)] /\
      map (fun p => (column (rstart (snd p)), column (rend (snd p)))) (fc_statement_map (sc_fc c)) = [(11, 18); (17, 18)]
  | _ => False
  end /\
  match instrument plain_env 40 "f.js" None ex_function with
  | Ok (t', c) => t' <> ex_function /\ length (places t') = 23%nat
  | _ => False
  end.
Proof. split; [reflexivity|]. split; [reflexivity|]. split; [reflexivity|]. split; [reflexivity|]. vm_compute. split; [reflexivity|]. split; [split; reflexivity|]. split; [discriminate|]. reflexivity. Qed.
(** The positions of the output are not those of the program one for one. *)
Theorem positions_equal_refuted : exists t t' c, clean t = true /\ instrument plain_env 40 "f.js" None t = Ok (t', c) /\ places t' <> places t.
Proof.
  destruct (instrument plain_env 40 "f.js" None ex_arrow) as [[t' c]|r|] eqn:H; [|vm_compute in H; discriminate H|vm_compute in H; discriminate H].
  exists ex_arrow, t', c. split; [reflexivity|]. split; [exact H|]. intros K. apply (f_equal (@length span)) in K.
  vm_compute in H. injection H as <- _. vm_compute in K. discriminate K.
Qed.
