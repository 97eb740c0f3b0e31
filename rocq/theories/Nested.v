(** C68: the locations of a record are nested or apart, and the paths of a branch lie inside of it. *)
From Coq Require Import NArith String List Bool Lia PeanoNat.
Import ListNotations.
From Verif Require Import Base IndexMap Decimal Oxide SourceCov Hints Ast Visitor VisitorRel VisitorEx Counting Slots Erase Prologue Layout Positions FixtureRun Fixtures.
Open Scope string_scope. Open Scope list_scope. Open Scope N_scope.

(** ** Specification *)
(** Text order of line and column *)
Definition upto (a b : location) : Prop := line a < line b \/ (line a = line b /\ column a <= column b).
Definition inside (q r : range) : Prop := upto (rstart r) (rstart q) /\ upto (rend q) (rend r).
Definition apart (q r : range) : Prop := upto (rend q) (rstart r) \/ upto (rend r) (rstart q).
(** Spans of parsed programs: [BytePos] is a u32, a node lies between the ends of its parent, and two nodes are
    nested or apart. Nodes without position have a zero (lookup_range.rs 8-14). *)
Definition has_pos (sp : span) : Prop := lo sp <> 0 /\ hi sp <> 0.
Definition sub (p q : span) : Prop := lo q <= lo p /\ hi p <= hi q.
Definition posn (p : span) (t : node) : Prop := In p (all_spans t) /\ has_pos p.
Inductive laid : node -> Prop :=
| laid_intro : forall k sp cs, lo sp < u32_mod -> hi sp < u32_mod ->
    (has_pos sp -> forall c p, In c cs -> posn p c -> sub p sp) ->
    Forall laid cs -> laid (Node k sp cs).
(** Any two nodes are nested or apart. *)
Definition laminar (t : node) : Prop := forall p q, posn p t -> posn q t -> sub p q \/ sub q p \/ hi p <= lo q \/ hi q <= lo p.
(** The source map gives later positions later lines and columns (source text with less than 2^32 lines and columns). *)
Definition mapped (e : env) : Prop := forall a b, a <= b -> b < u32_mod ->
  (fst (e_lookup e a) < fst (e_lookup e b) \/ (fst (e_lookup e a) = fst (e_lookup e b) /\ snd (e_lookup e a) <= snd (e_lookup e b))) /\
  fst (e_lookup e b) < u32_mod /\ snd (e_lookup e b) < u32_mod.
(** All locations of a record *)
Definition fn_places (f : func) : list range := [f_decl f; f_loc f].
Definition branch_places (b : branch) : list range := match b_loc b with Some r => [r] | None => [] end ++ b_locations b.
Definition record_places (fc : file_coverage) : list range :=
  map snd (fc_statement_map fc) ++ flat_map (fun p => fn_places (snd p)) (fc_fn_map fc) ++
  flat_map (fun p => branch_places (snd p)) (fc_branch_map fc).
(** Two locations are nested or apart, unless one of them is that of nodes without position. *)
Definition parts_agree (r q : range) : Prop := r = range_default \/ q = range_default \/ inside q r \/ inside r q \/ apart r q.
(** A path lies inside of its branch, unless one of them has no position. *)
Definition within (r q : range) : Prop := r = range_default \/ q = range_default \/ inside q r.
Definition branch_holds (b : branch) : Prop := exists r, b_loc b = Some r /\ Forall (within r) (b_locations b).

(** ** Positions of parts *)
Definition posns (p : span) (ts : list node) : Prop := exists t, In t ts /\ posn p t.
Definition fits (sp : span) (ts : list node) : Prop := has_pos sp -> forall p, posns p ts -> sub p sp.
Definition used (sp : span) : Prop := lo sp < u32_mod /\ hi sp < u32_mod.
Lemma posns_nil : forall p, posns p [] <-> False.
Proof. intros p. split; [intros (t & [] & _)|contradiction]. Qed.
Lemma posns_cons : forall p t ts, posns p (t :: ts) <-> posn p t \/ posns p ts.
Proof.
  intros p t ts. split.
  - intros (x & [<-|I] & H); [now left|right; now exists x].
  - intros [H|(x & I & H)]; [exists t|exists x]; cbn; auto.
Qed.
Lemma posns_app : forall p a b, posns p (a ++ b) <-> posns p a \/ posns p b.
Proof. intros p a b. induction a as [|t a IH]; cbn [app]; rewrite ?posns_nil, ?posns_cons, ?IH; tauto. Qed.
Lemma posn_node : forall p k sp cs, posn p (Node k sp cs) <-> (p = sp /\ has_pos sp) \/ posns p cs.
Proof.
  intros p k sp cs. unfold posn. cbn [all_spans In]. rewrite in_flat_map. split.
  - intros [[<-|(x & I & J)] H]; [now left|right; exists x; split; [exact I|now split]].
  - intros [[-> H]|(x & I & J & H)]; [auto|]. split; [right; now exists x|exact H].
Qed.
Lemma no_pos_dummy : ~ has_pos dummy_span.
Proof. intros [H _]. now apply H. Qed.
Lemma posn_mk : forall p k cs, posn p (mk k cs) <-> posns p cs.
Proof. intros p k cs. unfold mk. rewrite posn_node. pose proof no_pos_dummy. tauto. Qed.
Lemma posn_counter : forall p c, posn p (counter_stmt c) <-> False.
Proof. intros p c. unfold counter_stmt, counter_expr, E. rewrite !posn_mk, !posns_cons, !posn_mk, !posns_cons, !posn_mk, !posns_cons, !posn_mk, !posns_nil. tauto. Qed.
Lemma posn_counter_expr : forall p c, posn p (counter_expr c) <-> False.
Proof. intros p c. unfold counter_expr, E. rewrite !posn_mk, !posns_cons, !posn_mk, !posns_nil. tauto. Qed.
Lemma posn_paren : forall p c x, posn p (paren_seq c x) <-> posn p x.
Proof. intros p c x. unfold paren_seq, E. repeat rewrite ?posn_mk, ?posns_cons, ?posn_counter_expr, ?posns_nil. tauto. Qed.
Lemma posn_true : forall p b i x, posn p (E (mk KInjSeq [counter_expr (CB b i); increase_true_expr b i x])) <-> posn p x.
Proof. intros p b i x. unfold increase_true_expr, validate_true_non_trivial, E. repeat rewrite ?posn_mk, ?posns_cons, ?posn_counter_expr, ?posns_nil. tauto. Qed.
Lemma posns_sonly : forall p l, sonly l -> (posns p l <-> False).
Proof. intros p l H. induction H as [|x l [i ->] _ IH]; [apply posns_nil|]. rewrite posns_cons, posn_counter. tauto. Qed.

Lemma laid_node : forall k sp cs, laid (Node k sp cs) <-> used sp /\ fits sp cs /\ Forall laid cs.
Proof.
  intros k sp cs. split.
  - intros H. inversion H as [k' sp' cs' A B C D]; subst. split; [now split|]. split; [|exact D]. intros P p (t & I & J). now apply (C P t).
  - intros ([A B] & C & D). constructor; auto. intros P c p I J. apply (C P). now exists c.
Qed.
Lemma used_dummy : used dummy_span.
Proof. split; reflexivity. Qed.
Lemma fits_dummy : forall cs, fits dummy_span cs.
Proof. intros cs H. now destruct (no_pos_dummy H). Qed.
Lemma laid_mk : forall k cs, laid (mk k cs) <-> Forall laid cs.
Proof. intros k cs. unfold mk. rewrite laid_node. pose proof used_dummy. pose proof (fits_dummy cs). tauto. Qed.
Lemma fits_le : forall sp cs cs', fits sp cs -> (forall p, posns p cs' -> posns p cs) -> fits sp cs'.
Proof. intros sp cs cs' H K P p I. apply (H P). now apply K. Qed.
Lemma fits_self : forall k sp cs, fits sp cs -> fits sp [Node k sp cs].
Proof.
  intros k sp cs H P p. rewrite posns_cons, posns_nil, posn_node. intros [[[-> _]|I]|[]]; [split; lia|now apply H].
Qed.
Lemma laid_cons : forall t ts, Forall laid (t :: ts) <-> laid t /\ Forall laid ts.
Proof. intros t ts. split; [intros H; inversion H; auto|intros [A B]; now constructor]. Qed.
Lemma laid_nil : Forall laid [] <-> True.
Proof. split; auto. Qed.
Lemma laid_counter_expr : forall c, laid (counter_expr c) <-> True.
Proof. intros c. unfold counter_expr, E. repeat rewrite ?laid_mk, ?laid_cons, ?laid_nil. tauto. Qed.
Lemma laid_counter : forall c, laid (counter_stmt c) <-> True.
Proof. intros c. unfold counter_stmt, counter_expr, E. repeat rewrite ?laid_mk, ?laid_cons, ?laid_nil. tauto. Qed.
Lemma laid_paren : forall c x, laid (paren_seq c x) <-> laid x.
Proof. intros c x. unfold paren_seq, E. repeat rewrite ?laid_mk, ?laid_cons, ?laid_counter_expr, ?laid_nil. tauto. Qed.
Lemma laid_true : forall b i x, laid (E (mk KInjSeq [counter_expr (CB b i); increase_true_expr b i x])) <-> laid x.
Proof. intros b i x. unfold increase_true_expr, validate_true_non_trivial, E. repeat rewrite ?laid_mk, ?laid_cons, ?laid_counter_expr, ?laid_nil. tauto. Qed.
Lemma laid_sonly : forall l, sonly l -> (Forall laid l <-> True).
Proof. intros l H. induction H as [|x l [i ->] _ IH]; [apply laid_nil|]. rewrite laid_cons, laid_counter. tauto. Qed.
Lemma laid_app : forall a b, Forall laid (a ++ b) <-> Forall laid a /\ Forall laid b.
Proof. intros a b. apply Forall_app. Qed.

(** ** Tables *)
Definition held (c : source_cov) : Prop := forall k b, In (k, b) (fc_branch_map (sc_fc c)) -> k < sc_b c /\ branch_holds b.
Definition at_place (c : source_cov) (b : N) (r : range) : Prop :=
  b < sc_b c /\ forall br, In (b, br) (fc_branch_map (sc_fc c)) -> b_loc br = Some r.
Definition later (c c' : source_cov) : Prop := forall b r, at_place c b r -> at_place c' b r.
(** What a registration does *)
Definition stays (c c' : source_cov) : Prop := held c -> held c' /\ later c c'.
Lemma stays_refl : forall c, stays c c.
Proof. intros c H. split; [exact H|intros b r K; exact K]. Qed.
Lemma stays_trans : forall a b c, stays a b -> stays b c -> stays a c.
Proof. intros a b c H K P. destruct (H P) as [P1 L1]. destruct (K P1) as [P2 L2]. split; [exact P2|]. intros i r Q. now apply L2, L1. Qed.
Lemma stays_same : forall c c', sc_b c' = sc_b c -> fc_branch_map (sc_fc c') = fc_branch_map (sc_fc c) -> stays c c'.
Proof. intros c c' E F H. unfold held, later, at_place in *. rewrite E, F. auto. Qed.
Lemma new_statement_stays : forall r c c' i, new_statement r c = (c', i) -> stays c c'.
Proof. intros r c c' i H. injection H as <- _. now apply stays_same. Qed.
Lemma new_function_stays : forall n d r c c' i, new_function n d r c = (c', i) -> stays c c'.
Proof. intros n d r c c' i H. injection H as <- _. now apply stays_same. Qed.
Lemma freeze_stays : forall c, stays c (freeze c).
Proof.
  intros c H. unfold held, later, at_place in *. cbn [freeze sc_fc sc_b fc_branch_map set_branches].
  assert (K : forall k b, In (k, b) (im_retain (fun _ b => has_paths b) (fc_branch_map (sc_fc c))) -> In (k, b) (fc_branch_map (sc_fc c))).
  { intros k b I. unfold im_retain in I. now apply filter_In in I as [I _]. }
  split; [intros k b I; eapply H, K, I|]. intros b r [A B]. split; [exact A|]. intros br I. apply B, K, I.
Qed.
Lemma in_insert : forall A (k k' : N) (v v' : A) m, In (k', v') (im_insert k v m) -> (k' = k /\ v' = v) \/ In (k', v') m.
Proof.
  intros A k k' v v' m. induction m as [|[k2 v2] m IH]; cbn [im_insert In].
  - intros [H|[]]. injection H as <- <-. auto.
  - change (eqb k k2) with (k =? k2). destruct (N.eqb_spec k k2) as [<-|]; cbn [In]; intros [H|H]; auto; [injection H as <- <-; auto|apply IH in H as [H|H]; auto].
Qed.
Lemma in_update : forall A (k k' : N) (f : A -> A) v' m, In (k', v') (im_update k f m) -> In (k', v') m \/ (k' = k /\ exists v, In (k, v) m /\ v' = f v).
Proof.
  intros A k k' f v' m. induction m as [|[k2 v2] m IH]; cbn [im_update In]; [contradiction|].
  change (eqb k k2) with (k =? k2). destruct (N.eqb_spec k k2) as [<-|]; cbn [In]; intros [H|H]; auto.
  - injection H as <- <-. right. split; [reflexivity|]. exists v2. auto.
  - apply IH in H as [H|(-> & v & I & E)]; auto. right. split; [reflexivity|]. exists v. auto.
Qed.
Lemma new_branch_stays : forall t r f c c' b, new_branch t r f c = (c', b) -> stays c c' /\ (held c -> at_place c' b r).
Proof.
  intros t r f c c' b H. injection H as <- <-. unfold stays, held, later, at_place. cbn [sc_fc sc_b fc_branch_map set_branches].
  split; [intros Hh; split|intros Hh; split; [lia|]].
  - intros k b I. apply in_insert in I as [[-> ->]|I].
    + split; [lia|]. exists r. split; [reflexivity|constructor].
    + destruct (Hh _ _ I). split; [lia|assumption].
  - intros b r' [A B]. split; [lia|]. intros br I. apply in_insert in I as [[-> _]|I]; [lia|now apply B].
  - intros br I. apply in_insert in I as [[_ ->]|I]; [reflexivity|]. destruct (Hh _ _ I). lia.
Qed.
Lemma add_path_stays : forall b q c c' i r, add_branch_path b q c = Ok (c', i) -> at_place c b r -> within r q -> stays c c'.
Proof.
  intros b q c c' i r H [_ L] W. unfold add_branch_path in H. apply bind_ok in H as [x [_ H]]. apply bind_ok in H as [y [_ H]].
  apply bind_ok in H as [z [_ H]]. injection H as <- _. unfold stays, held, later, at_place. cbn [sc_fc sc_b fc_branch_map set_branches].
  intros Hh. split.
  - intros k br I. apply in_update in I as [I|(-> & v & I & ->)]; [now apply Hh in I|]. destruct (Hh _ _ I) as [A (r' & B & C)].
    split; [exact A|]. rewrite (L _ I) in B. injection B as <-. exists r. cbn. split; [apply L, I|]. apply Forall_app. split; [exact C|]. now constructor.
  - intros k r' [A B]. split; [exact A|]. intros br I. apply in_update in I as [I|(-> & v & I & ->)]; [now apply B|]. cbn. now apply B.
Qed.

(** ** Visits *)
Section Visits.
Variable e : env.
Hypothesis Hm : mapped e.
Lemma upto_refl : forall a, upto a a.
Proof. intros a. right. split; [reflexivity|lia]. Qed.
Lemma inside_refl : forall r, inside r r.
Proof. intros r. split; apply upto_refl. Qed.
Lemma range_pos : forall sp, used sp -> has_pos sp ->
  range_of e sp = range_new (fst (e_lookup e (lo sp))) (snd (e_lookup e (lo sp))) (fst (e_lookup e (hi sp))) (snd (e_lookup e (hi sp))).
Proof.
  intros sp [A B] [C D]. unfold range_of, get_range_from_span. rewrite (proj2 (N.eqb_neq _ _) C), (proj2 (N.eqb_neq _ _) D). cbn [orb].
  destruct (Hm (lo sp) (lo sp) (N.le_refl _) A) as (_ & A1 & A2). destruct (Hm (hi sp) (hi sp) (N.le_refl _) B) as (_ & B1 & B2).
  unfold as_u32. now rewrite !N.mod_small.
Qed.
Lemma range_no_pos : forall sp, ~ has_pos sp -> range_of e sp = range_default.
Proof.
  intros sp H. unfold range_of, get_range_from_span. destruct (N.eqb_spec (hi sp) 0) as [|A]; [reflexivity|].
  destruct (N.eqb_spec (lo sp) 0) as [|B]; [reflexivity|]. now destruct H.
Qed.
Lemma has_pos_dec : forall sp, has_pos sp \/ ~ has_pos sp.
Proof. intros sp. unfold has_pos. destruct (N.eq_dec (lo sp) 0), (N.eq_dec (hi sp) 0); tauto. Qed.
Lemma sub_inside : forall p q, used p -> used q -> has_pos p -> has_pos q -> sub p q -> inside (range_of e p) (range_of e q).
Proof.
  intros p q U V P Q [A B]. rewrite (range_pos p U P), (range_pos q V Q). unfold inside, upto, range_new. cbn.
  split; [apply (Hm (lo q) (lo p) A); apply U|apply (Hm (hi p) (hi q) B); apply V].
Qed.
Lemma fits_within : forall sp0 sp ts, used sp0 -> used sp -> fits sp0 ts -> (has_pos sp -> posns sp ts) -> within (range_of e sp0) (range_of e sp).
Proof.
  intros sp0 sp ts U V F I. destruct (has_pos_dec sp0) as [P|P]; [|left; now apply range_no_pos].
  destruct (has_pos_dec sp) as [Q|Q]; [|right; left; now apply range_no_pos]. right. right. apply sub_inside; auto.
Qed.

Notation mark := (mark_prepend_stmt_counter e).
(** The branch a case or an operand belongs to *)
Definition host_of (b : N) (ts : list node) (c : source_cov) : Prop :=
  exists sp0, used sp0 /\ at_place c b (range_of e sp0) /\ fits sp0 ts.
Definition host (v : vis) (ts : list node) (c : source_cov) : Prop :=
  match v with VSwitch b | VLogical b => host_of b ts c | _ => True end.
Lemma host_le : forall v ts ts' c c', host v ts c -> later c c' -> (forall p, posns p ts' -> posns p ts) -> host v ts' c'.
Proof.
  intros v ts ts' c c' H L I. destruct v; cbn in *; auto; destruct H as (sp & U & A & F); exists sp; split; auto; split; auto; eapply fits_le; eauto.
Qed.
Lemma host_of_le : forall b ts ts' c c', host_of b ts c -> later c c' -> (forall p, posns p ts' -> posns p ts) -> host_of b ts' c'.
Proof. intros b ts ts' c c' H L I. exact (host_le (VSwitch b) ts ts' c c' H L I). Qed.

Definition out (ts : list node) (s : st) (ts' : list node) (s' : st) : Prop :=
  Forall laid ts' /\ (forall p, posns p ts' -> posns p ts) /\ sonly (before s') /\ held (cov s') /\ later (cov s) (cov s').
Definition PV (v : vis) (t : node) (s : st) (t' : node) (s' : st) : Prop :=
  host v [t] (cov s) -> laid t -> sonly (before s) -> held (cov s) -> out [t] s [t'] s'.
Definition PK (v : vis) (cs : list node) (s : st) (cs' : list node) (s' : st) : Prop :=
  host v cs (cov s) -> Forall laid cs -> sonly (before s) -> held (cov s) -> out cs s cs' s'.
Definition PI (ss : list node) (s : st) (ss' : list node) (s' : st) : Prop :=
  Forall laid ss -> sonly (before s) -> held (cov s) -> out ss s ss' s'.
Definition PW (v : vis) (b : N) (x : node) (s : st) (x' : node) (s' : st) : Prop :=
  host v [x] (cov s) -> host_of b [x] (cov s) -> laid x -> sonly (before s) -> held (cov s) -> out [x] s [x'] s'.
Definition PA (b : N) (r : range) (x : node) (s : st) (x' : node) (s' : st) : Prop :=
  at_place (cov s) b r -> laid x -> sonly (before s) -> held (cov s) -> out [x] s [x'] s'.

Lemma mark_stays : forall sp s, stays (cov s) (cov (mark sp s)).
Proof. intros sp s. unfold mark_prepend_stmt_counter. destruct (new_statement _ _) as [c i] eqn:H. eapply new_statement_stays, H. Qed.
Lemma covered_out : forall x s x' s', covered e x s x' s' ->
  (laid x -> laid x') /\ (forall p, posn p x' -> posn p x) /\ stays (cov s) (cov s') /\ (sonly (before s) -> sonly (before s')).
Proof.
  intros x s x' s' H. pose proof (proj2 (covered_facts e _ _ _ _ H)) as HF. destruct H as (s1 & A & B).
  assert (S1 : stays (cov s) (cov s1)) by (destruct A as [->| ->]; [apply stays_refl|apply mark_stays]).
  destruct B as [[-> B]|[_ B]].
  - split; [auto|]. split; [auto|]. split; [|apply HF]. eapply stays_trans; [exact S1|]. destruct B as [->| ->]; [apply stays_refl|apply mark_stays].
  - unfold replace_expr_with_stmt_counter in B. destruct (new_statement _ _) as [c i] eqn:E. injection B as <- <-.
    split; [intros K; now apply laid_paren|]. split; [intros p K; rewrite posn_paren in K; exact K|]. split; [|apply HF].
    eapply stays_trans; [exact S1|]. eapply new_statement_stays, E.
Qed.
Lemma replace_out : forall x b s x' s', replace_expr_with_branch_counter e x b s = Ok (x', s') -> laid x -> host_of b [x] (cov s) ->
  laid x' /\ (forall p, posn p x' -> posn p x) /\ stays (cov s) (cov s') /\ before s' = before s.
Proof.
  intros x b s x' s' H L (sp0 & U & A & F). unfold replace_expr_with_branch_counter in H. destruct (negb _); [discriminate|].
  apply bind_ok in H as [[c i] [Hp H]]. injection H as <- <-. split; [now apply laid_paren|]. split; [intros p K; rewrite posn_paren in K; exact K|].
  split; [|reflexivity]. cbn [cov set_cov]. eapply add_path_stays; [exact Hp|exact A|]. destruct x as [k sp cs]. cbn [nspan].
  apply laid_node in L as (V & _). eapply fits_within; eauto. intros P. apply posns_cons. left. apply posn_node. auto.
Qed.
Lemma cond_arm_out : forall x b s x' s', cond_arm e b x s x' s' -> laid x -> host_of b [x] (cov s) ->
  laid x' /\ (forall p, posn p x' -> posn p x) /\ stays (cov s) (cov s') /\ before s' = before s.
Proof. intros x b s x' s' [[-> ->]|H] L F; [|eapply replace_out; eauto]. split; [exact L|]. split; [auto|]. split; [apply stays_refl|reflexivity]. Qed.
Ltac psimp := repeat rewrite ?posns_cons, ?posns_app, ?posn_node, ?posn_mk, ?posn_counter, ?posns_nil in *.
Ltac lsimp := repeat rewrite ?laid_cons, ?laid_app, ?laid_node, ?laid_mk, ?laid_counter, ?laid_nil in *.
Lemma prepend_out : forall c b b', prepend_to_block c b = Some b' -> (laid b -> laid b') /\ forall p, posn p b' -> posn p b.
Proof.
  intros c b b' H. unfold prepend_to_block in H. destruct (block_view b) as [[[[i bsp] ssp] ss]|] eqn:Hb; [|discriminate].
  apply block_view_inv in Hb. injection H as <-. subst b.
  assert (I : forall p, posns p (counter_stmt c :: ss) -> posns p ss) by (intros p; psimp; tauto).
  assert (J : forall p, posns p [Node KStmts ssp (counter_stmt c :: ss)] -> posns p [Node KStmts ssp ss]) by (intros p; psimp; tauto).
  split.
  - lsimp. intros (A & B & (C & D & G) & _). split; [exact A|]. split; [eapply fits_le; eauto|]. split; [|exact Logic.I]. split; [exact C|].
    split; [eapply fits_le; eauto|]. now split.
  - intros p. psimp. tauto.
Qed.
Lemma create_fn_out : forall id fn s fn' s', create_fn_instrumentation e id fn s = Ok (fn', s') ->
  (laid fn -> laid fn') /\ (forall p, posn p fn' -> posn p fn) /\ stays (cov s) (cov s') /\ before s' = before s.
Proof.
  intros id fn s fn' s' H. assert (Hb : before s' = before s) by (eapply create_fn_facts; eauto). destruct fn as [k sp cs]. unfold create_fn_instrumentation in H.
  destruct k; try discriminate. destruct cs as [|p [|d [|b [|ty [|? ?]]]]]; try discriminate.
  destruct (new_function _ _ _ _) as [c i] eqn:Hf. destruct (is_none b); [discriminate|].
  destruct (prepend_to_block (CF i) b) as [b'|] eqn:Hp; [|discriminate]. apply prepend_out in Hp as [P1 P2].
  injection H as <- <-. apply new_function_stays in Hf.
  assert (I : forall q, posns q [p; d; b'; ty] -> posns q [p; d; b; ty]) by (intros q; psimp; specialize (P2 q); tauto).
  split; [|split; [intros q; psimp; specialize (P2 q); tauto|split; [exact Hf|exact Hb]]].
  lsimp. intros (A & B & C & D & G & K & _). split; [exact A|]. split; [eapply fits_le; eauto|]. tauto.
Qed.
Lemma accessor_out : forall name sp s b b' s', accessor_body e name sp s b = Ok (b', s') ->
  (laid b -> laid b') /\ (forall p, posn p b' -> posn p b) /\ stays (cov s) (cov s') /\ before s' = before s.
Proof.
  intros name sp s b b' s' H. assert (Hb : before s' = before s) by (eapply accessor_facts; eauto). unfold accessor_body in H.
  destruct (is_none b). { injection H as <- <-. split; [auto|]. split; [auto|]. split; [apply stays_refl|exact Hb]. }
  destruct (new_function _ _ _ _) as [c i] eqn:Hf. destruct (prepend_to_block (CF i) b) as [b''|] eqn:Hp; [|discriminate].
  apply prepend_out in Hp as [P1 P2]. injection H as <- <-. apply new_function_stays in Hf. auto.
Qed.
Lemma block_last_out : forall cs cs', block_last cs = Some cs' -> (Forall laid cs -> Forall laid cs') /\ forall p, posns p cs' -> posns p cs.
Proof.
  induction cs as [|c cs IH]; intros cs' H; [discriminate|]. destruct cs as [|c2 cs].
  - simpl in H. unfold to_block in H. destruct (stmt_view c) as [[sp x]|]; [|discriminate].
    destruct (is_block x); injection H as <-; [auto|]. split; [lsimp; tauto|intros p; psimp; tauto].
  - change (block_last (c :: c2 :: cs)) with (option_map (cons c) (block_last (c2 :: cs))) in H.
    destruct (block_last (c2 :: cs)) as [l|] eqn:Hl; [|discriminate]. injection H as <-. destruct (IH l eq_refl) as [A B].
    split; [rewrite !(laid_cons c); tauto|]. intros p. rewrite !(posns_cons p c). specialize (B p). tauto.
Qed.
Lemma templates_out : forall s tpl call s', get_coverage_templates s = (tpl, call, s') ->
  laid tpl /\ laid call /\ (forall p, ~ posn p tpl) /\ (forall p, ~ posn p call) /\ stays (cov s) (cov s') /\ before s' = before s.
Proof.
  intros s tpl call s' H. unfold get_coverage_templates in H. injection H as <- <- <-.
  split; [lsimp; tauto|]. split; [lsimp; tauto|]. split; [intros p; psimp; tauto|]. split; [intros p; psimp; tauto|]. split; [apply freeze_stays|reflexivity].
Qed.

Lemma later_refl : forall c, later c c.
Proof. intros c b r H. exact H. Qed.
Lemma later_trans : forall a b c, later a b -> later b c -> later a c.
Proof. intros a b c H K i r L. now apply K, H. Qed.
Lemma on_enter_out : forall n sp s s1 old cur, on_enter e n sp s = (s1, old, cur) ->
  stays (cov s) (cov s1) /\ (sonly (before s) -> sonly (before s1)).
Proof. intros n sp s s1 old cur H. apply on_enter_facts in H as (C & B & _ & _). rewrite C, B. split; [apply stays_refl|auto]. Qed.
Lemma on_enter_with_span_out : forall sp s s1 old cur, on_enter_with_span e sp s = (s1, old, cur) ->
  stays (cov s) (cov s1) /\ (sonly (before s) -> sonly (before s1)).
Proof. intros sp s s1 old cur H. apply on_enter_with_span_facts in H as (C & B & _ & _). rewrite C, B. split; [apply stays_refl|auto]. Qed.
Lemma mark_out : forall sp s, held (cov s) -> sonly (before s) ->
  held (cov (mark sp s)) /\ later (cov s) (cov (mark sp s)) /\ sonly (before (mark sp s)).
Proof. intros sp s H K. destruct (mark_stays sp s H). auto using mark_sonly. Qed.
Lemma add_path_host : forall b sp ts c c' i, add_branch_path b (range_of e sp) c = Ok (c', i) -> host_of b ts c -> used sp -> (has_pos sp -> posns sp ts) -> stays c c'.
Proof. intros b sp ts c c' i H (sp0 & U & A & F) V I. eapply add_path_stays; [exact H|exact A|]. eapply fits_within; eauto. Qed.
Lemma add_path_same : forall b r c c' i, add_branch_path b r c = Ok (c', i) -> at_place c b r -> stays c c'.
Proof. intros b r c c' i H A. eapply add_path_stays; [exact H|exact A|]. right. right. apply inside_refl. Qed.
Ltac cn := cbn [cov before on_exit pop push set_ign set_cov spawn clear_before] in *.
Ltac fwd :=
  repeat match goal with
  | H : _ /\ _ |- _ => destruct H
  | H : on_enter e _ _ _ = (_, _, _) |- _ => apply on_enter_out in H
  | H : on_enter_with_span e _ _ = (_, _, _) |- _ => apply on_enter_with_span_out in H
  | H : covered e _ _ _ _ |- _ => apply covered_out in H
  | H : create_fn_instrumentation e _ _ _ = _ |- _ => apply create_fn_out in H
  | H : accessor_body e _ _ _ _ = _ |- _ => apply accessor_out in H
  | H : new_function _ _ _ _ = _ |- _ => apply new_function_stays in H
  | H : block_last _ = _ |- _ => apply block_last_out in H
  | H : get_coverage_templates _ = _ |- _ => apply templates_out in H
  | H : new_branch _ _ _ _ = _ |- _ => apply new_branch_stays in H
  | H : stays ?a ?b, K : held ?a |- _ => destruct (H K); clear H
  | H : held ?a -> at_place _ _ _, K : held ?a |- _ => specialize (H K)
  | H : sonly ?a -> sonly ?b, K : sonly ?a |- _ => specialize (H K)
  | H : laid ?a -> laid ?b, K : laid ?a |- _ => specialize (H K)
  | H : Forall laid ?a -> Forall laid ?b, K : Forall laid ?a |- _ => specialize (H K)
  | H : before ?a = before ?b, K : sonly (before ?b) |- _ => rewrite <- H in K; clear H
  end.
Ltac lat := first [assumption | apply later_refl | (unfold later in *; solve [eauto 9])].
Ltac pos := let p := fresh "p" in intros p; psimp;
  repeat match goal with H : forall q, posn q _ -> _ |- _ => specialize (H p) | H : forall q, posns q _ -> _ |- _ => specialize (H p) | H : forall q, ~ posn q _ |- _ => specialize (H p)
    | H : forall q, posns q _ <-> False |- _ => specialize (H p) end;
  psimp; try tauto.
Ltac child := first [assumption | solve [repeat apply fits_self; assumption] | eapply fits_le; [eassumption|solve [pos]]].
Ltac laids := lsimp; fwd; repeat match goal with |- _ /\ _ => split end; try exact Logic.I; auto; try child.
Ltac hosts := cbn [host] in *; try exact Logic.I; first
  [ match goal with H : host ?v _ _ |- host ?v _ _ => solve [eapply host_le; [exact H|lat|pos]] end
  | match goal with H : host_of ?v _ _ |- host_of ?v _ _ => solve [eapply host_of_le; [exact H|lat|pos]] end
  | match goal with H : at_place ?c ?b (range_of e ?sp), F : fits ?sp ?cs |- host_of ?b _ _ => exists sp; solve [split; [assumption|split; [unfold later in *; eauto 9|child]]] end ].
Ltac marks := repeat match goal with
  | _ : context [mark ?sp ?s], H : held (cov ?s), K : sonly (before ?s) |- _ =>
      lazymatch goal with L : held (cov (mark sp s)) |- _ => fail | _ => destruct (mark_out sp s H K) as (? & ? & ?) end
  | |- context [mark ?sp ?s] => match goal with H : held (cov s), K : sonly (before s) |- _ =>
      lazymatch goal with L : held (cov (mark sp s)) |- _ => fail | _ => destruct (mark_out sp s H K) as (? & ? & ?) end end
  end.
Ltac call H := let O := fresh "O" in lazymatch type of H with
  | PV ?v ?t ?s ?t' ?s' => assert (O : out [t] s [t'] s') by (apply H; cn; [hosts|laids|first [assumption|apply sonly_nil]|assumption])
  | PK ?v ?t ?s ?t' ?s' => assert (O : out t s t' s') by (apply H; cn; [hosts|laids|first [assumption|apply sonly_nil]|assumption])
  | PI ?t ?s ?t' ?s' => assert (O : out t s t' s') by (apply H; cn; [laids|first [assumption|apply sonly_nil]|assumption])
  | PW ?v ?b ?t ?s ?t' ?s' => assert (O : out [t] s [t'] s') by (apply H; cn; [hosts|hosts|laids|first [assumption|apply sonly_nil]|assumption])
  | PA ?b ?r ?t ?s ?t' ?s' => assert (O : out [t] s [t'] s') by (apply H; cn; [unfold later in *; eauto 9|laids|first [assumption|apply sonly_nil]|assumption])
  end; clear H; unfold out in O; cn; destruct O as (? & ? & ? & ? & ?).
Ltac calls := repeat (marks; match goal with
  | H : PV _ _ _ _ _ |- _ => call H | H : PK _ _ _ _ _ |- _ => call H | H : PI _ _ _ _ |- _ => call H
  | H : PW _ _ _ _ _ _ |- _ => call H | H : PA _ _ _ _ _ _ |- _ => call H end; cn; fwd).
Ltac sparse := repeat match goal with
  | H : sonly ?l |- _ => lazymatch goal with _ : forall p, posns p l <-> False |- _ => fail | _ =>
      pose proof (fun p => posns_sonly p l H); pose proof (proj2 (laid_sonly l H) Logic.I) end end.
Ltac fin := unfold out; cn; lsimp; fwd; split; [laids|split; [pos|split; [auto|split; [auto|lat]]]].

Theorem nested_all :
  (forall v t s t' s', Vis e v t s t' s' -> PV v t s t' s') /\
  (forall v cs s cs' s', Kids e v cs s cs' s' -> PK v cs s cs' s') /\
  (forall ss s ss' s', Ins e ss s ss' s' -> PI ss s ss' s') /\
  (forall v b x s x' s', Wrap e v b x s x' s' -> PW v b x s x' s') /\
  (forall b r cur x s x' s', Arm e b r cur x s x' s' -> PA b r x s x' s') /\
  (forall xs s xs' s', Items e xs s xs' s' -> PI xs s xs' s') /\
  (forall xs s xs' s', SItems e xs s xs' s' -> PI xs s xs' s').
Proof.
  apply Vis_all_ind; intros.
  all: match goal with |- PV _ _ _ _ _ => intros HH HL HS HI | |- PK _ _ _ _ _ => intros HH HL HS HI | |- PI _ _ _ _ => intros HL HS HI
    | |- PW _ _ _ _ _ _ => intros HH HB HL HS HI | |- PA _ _ _ _ _ _ => intros HP HL HS HI end.
  all: lsimp; cn; fwd; marks; fwd.
  all: try (calls; solve [fin]).
  all: try (calls; sparse; solve [fin]).
  - (* V_cond *)
    match goal with A : cond_arm e _ con _ _ _, B : cond_arm e _ alt _ _ _ |- _ =>
      apply cond_arm_out in A; cn; [|assumption|hosts]; fwd; apply cond_arm_out in B; [|assumption|hosts] end.
    fwd. calls. fin.
  - (* V_case *)
    match goal with A : add_branch_path _ _ _ = _ |- _ => eapply add_path_host in A; [|hosts|assumption|intros P; apply posns_cons; left; apply posn_node; auto] end.
    fwd. calls. fin.
  - (* V_logical_new *)
    match goal with A : new_logical_branch _ _ _ = _ |- _ => unfold new_logical_branch in A; cn; destruct (new_branch _ _ _ _) as [c0 b0] eqn:HB; injection A as <- <- end.
    fwd. calls. fin.
  - (* V_module_items *)
    match goal with A : cov s0 = cov s, B : cov s3 = cov s2, C : held (cov s) |- _ =>
      assert (held (cov s0)) by (rewrite A; exact C); assert (later (cov s) (cov s0)) by (rewrite A; apply later_refl);
      assert (later (cov s2) (cov s3)) by (rewrite B; apply later_refl); assert (held (cov s2) -> held (cov s3)) by (rewrite B; auto); clear A B end.
    calls. subst out0. destruct items'; sparse; fin.
  - (* W_report *) destruct x as [k sp cs]. lsimp. fwd.
    match goal with A : add_branch_path _ _ _ = _ |- _ => eapply add_path_host in A; [|hosts|assumption|intros P; apply posns_cons; left; apply posn_node; auto] end.
    fwd. unfold out. cn. split; [apply laid_cons; split; [apply laid_true; apply laid_node; auto|constructor]|].
    split; [intros p; rewrite !posns_cons, posn_true; auto|]. auto.
  - (* W_leaf *) calls.
    match goal with A : replace_expr_with_branch_counter _ _ _ _ = _ |- _ => apply replace_out in A; [|laids|hosts] end. fwd. fin.
  - (* A_block *)
    match goal with A : add_branch_path _ _ _ = _ |- _ => eapply add_path_same in A; [|eassumption] end. fwd. calls. sparse. fin.
  - (* A_none *)
    match goal with A : add_branch_path _ _ _ = _ |- _ => eapply add_path_same in A; [|eassumption] end. fwd. calls. sparse. fin.
  - (* A_stmt *)
    match goal with A : add_branch_path _ _ _ = _ |- _ => eapply add_path_same in A; [|eassumption] end. fwd. calls. sparse. fin.
  - (* M_visit *)
    match goal with A : s2 = s1 \/ _ |- _ => assert (held (cov s2) /\ later (cov s1) (cov s2) /\ sonly (before s2)) by
      (destruct A as [->|[esp ->]]; [split; [assumption|split; [apply later_refl|assumption]]|now apply mark_out]) end.
    fwd. calls. sparse. fin.
Qed.
End Visits.

(** ** The tables of a record *)
Lemma init_held : forall e path ism, held (cov (init_state e path ism)).
Proof. intros e path ism k b []. Qed.
(** Every path of a branch lies inside the branch. *)
Theorem paths_inside : forall e n path ism t t' c, mapped e -> laid t -> instrument e n path ism t = Ok (t', c) ->
  Forall (fun p => branch_holds (snd p)) (fc_branch_map (sc_fc c)).
Proof.
  intros e n path ism t t' c M L H. unfold instrument in H. apply bind_ok in H as [[t1 s1] [Hv H]]. injection H as _ <-.
  assert (G : held (cov s1)).
  { unfold visit_program in Hv. destruct (should_ignore_file _ _ _); [injection Hv as _ <-; apply init_held|].
    apply bind_ok in Hv as [[t2 s2] [Hv H]]. injection H as _ <-. apply visit_sound in Hv.
    apply (proj1 (nested_all e M)) in Hv. unfold PV, out in Hv.
    destruct Hv as (_ & _ & _ & G & _); [exact Logic.I|exact L|apply sonly_nil|apply init_held|exact G]. }
  apply Forall_forall. intros [k b] I. now apply (G k).
Qed.
(** Spans that are nested or apart give such locations. *)
Lemma laid_used : forall t p, laid t -> In p (all_spans t) -> used p.
Proof.
  induction t as [k sp cs IH] using node_ind'. intros p L I. apply laid_node in L as (U & _ & L). cbn [all_spans In] in I.
  destruct I as [<-|I]; [exact U|]. apply in_flat_map in I as (c & I & J). rewrite Forall_forall in IH, L. exact (IH c I p (L c I) J).
Qed.
Lemma located_agree : forall e t r q, mapped e -> laid t -> laminar t -> located e t r -> located e t q -> parts_agree r q.
Proof.
  intros e t r q M L A (p1 & I1 & ->) (p2 & I2 & ->). unfold parts_agree.
  destruct (has_pos_dec p1) as [P1|P1]; [|left; now apply range_no_pos].
  destruct (has_pos_dec p2) as [P2|P2]; [|right; left; now apply range_no_pos]. right. right.
  destruct I1 as [I1| ->]; [|now apply no_pos_dummy in P1]. destruct I2 as [I2| ->]; [|now apply no_pos_dummy in P2].
  pose proof (laid_used _ _ L I1) as U1. pose proof (laid_used _ _ L I2) as U2.
  destruct (A p1 p2 (conj I1 P1) (conj I2 P2)) as [S|[S|[S|S]]].
  - right. left. now apply sub_inside.
  - left. now apply sub_inside.
  - right. right. left. rewrite !range_pos by assumption. cbn. unfold upto. cbn. apply (M _ _ S). apply U2.
  - right. right. right. rewrite !range_pos by assumption. cbn. unfold upto. cbn. apply (M _ _ S). apply U1.
Qed.
Lemma record_places_located : forall e n path ism t t' c r, clean t = true -> instrument e n path ism t = Ok (t', c) ->
  In r (record_places (sc_fc c)) -> located e t r.
Proof.
  intros e n path ism t t' c r C H I. destruct (record_located _ _ _ _ _ _ _ C H) as (F1 & F2 & F3). rewrite Forall_forall in F1, F2, F3.
  unfold record_places in I. rewrite !in_app_iff in I. destruct I as [I|[I|I]].
  - apply in_map_iff in I as (x & <- & I). now apply F1.
  - apply in_flat_map in I as (x & I & J). apply F2 in I as (A & B & _). cbn in J. destruct J as [<-|[<-|[]]]; assumption.
  - apply in_flat_map in I as (x & I & J). apply F3 in I as (A & B & _). unfold branch_places in J. apply in_app_iff in J as [J|J].
    + destruct (b_loc (snd x)) as [y|]; [|contradiction J]. destruct J as [<-|[]]. now apply A.
    + rewrite Forall_forall in B. now apply B.
Qed.
(** Any two locations of a record are nested or do not overlap. *)
Theorem record_nested : forall e n path ism t t' c, mapped e -> clean t = true -> laid t -> laminar t -> instrument e n path ism t = Ok (t', c) ->
  forall r q, In r (record_places (sc_fc c)) -> In q (record_places (sc_fc c)) -> parts_agree r q.
Proof. intros. eapply located_agree; eauto using record_places_located. Qed.

(** ** Deciding the premises *)
Definition has_pos_b (sp : span) : bool := negb (lo sp =? 0) && negb (hi sp =? 0).
Definition sub_b (p q : span) : bool := (lo q <=? lo p) && (hi p <=? hi q).
Fixpoint laid_b (t : node) : bool :=
  match t with Node _ sp cs =>
    (lo sp <? u32_mod) && (hi sp <? u32_mod) &&
    (negb (has_pos_b sp) || forallb (fun p => negb (has_pos_b p) || sub_b p sp) (flat_map all_spans cs)) && forallb laid_b cs
  end.
Definition laminar_b (t : node) : bool :=
  let l := filter has_pos_b (all_spans t) in
  forallb (fun p => forallb (fun q => sub_b p q || sub_b q p || (hi p <=? lo q) || (hi q <=? lo p)) l) l.
Lemma has_pos_bool : forall sp, has_pos_b sp = true <-> has_pos sp.
Proof. intros sp. unfold has_pos_b, has_pos. rewrite andb_true_iff, !negb_true_iff, !N.eqb_neq. tauto. Qed.
Lemma sub_bool : forall p q, sub_b p q = true <-> sub p q.
Proof. intros p q. unfold sub_b, sub. rewrite andb_true_iff, !N.leb_le. tauto. Qed.
Lemma laid_bool : forall t, laid_b t = true -> laid t.
Proof.
  induction t as [k sp cs IH] using node_ind'. intros H. cbn [laid_b] in H. rewrite !andb_true_iff in H. destruct H as [[[A B] C] D].
  apply laid_node. split; [split; now apply N.ltb_lt|]. split.
  - intros P p (c & I & J & Q). rewrite (proj2 (has_pos_bool sp) P) in C. cbn [negb orb] in C. rewrite forallb_forall in C.
    assert (K : In p (flat_map all_spans cs)) by (apply in_flat_map; now exists c). specialize (C p K).
    rewrite (proj2 (has_pos_bool p) Q) in C. cbn [negb orb] in C. now apply sub_bool.
  - rewrite Forall_forall in *. rewrite forallb_forall in D. intros c I. apply IH; auto.
Qed.
Lemma laminar_bool : forall t, laminar_b t = true -> laminar t.
Proof.
  intros t H p q [I P] [J Q]. unfold laminar_b in H. rewrite forallb_forall in H.
  assert (K : forall x, In x (all_spans t) -> has_pos x -> In x (filter has_pos_b (all_spans t))) by (intros; apply filter_In; split; auto; now apply has_pos_bool).
  specialize (H p (K p I P)). rewrite forallb_forall in H. specialize (H q (K q J Q)).
  rewrite !orb_true_iff, !sub_bool, !N.leb_le in H. tauto.
Qed.

(** ** Examples *)
(** A table of line starts, as the fixtures have it, gives later positions later lines and columns. *)
Lemma find_line_ge : forall starts l s p, l <= fst (find_line starts l s p) <= l + N.of_nat (length starts) /\ snd (find_line starts l s p) <= p.
Proof.
  induction starts as [|s' rest IH]; intros l s p; cbn [find_line].
  - cbn [fst snd length]. lia.
  - destruct (s' <=? p); [|cbn [fst snd]; lia]. specialize (IH (l + 1) s' p). cbn [length]. lia.
Qed.
Lemma find_line_le : forall starts l s a b, a <= b ->
  fst (find_line starts l s a) < fst (find_line starts l s b) \/
  (fst (find_line starts l s a) = fst (find_line starts l s b) /\ snd (find_line starts l s a) <= snd (find_line starts l s b)).
Proof.
  induction starts as [|s' rest IH]; intros l s a b H; cbn [find_line].
  - right. cbn [fst snd]. lia.
  - destruct (N.leb_spec s' a) as [A|A]; destruct (N.leb_spec s' b) as [B|B]; [now apply IH|lia| |right; cbn [fst snd]; lia].
    left. pose proof (find_line_ge rest (l + 1) s' b). cbn [fst]. lia.
Qed.
Lemma mapped_lines : forall x, N.of_nat (length (fx_lines x)) < u32_mod -> mapped (env_of x).
Proof.
  intros x L a b H B. cbn [env_of e_lookup]. unfold lookup_in. split; [now apply find_line_le|].
  pose proof (find_line_ge (fx_lines x) 0 0 b). lia.
Qed.
(** The programs of the repository's fixtures have such spans. *)
Theorem fixtures_laid : forall x o ts, In (x, o, ts) suites -> mapped (env_of x) /\ clean (fx_tree x) = true /\ laid (fx_tree x) /\ laminar (fx_tree x).
Proof.
  assert (H : forallb (fun p => let x := fst (fst p) in (N.of_nat (length (fx_lines x)) <? u32_mod) && clean (fx_tree x) && laid_b (fx_tree x) && laminar_b (fx_tree x)) suites = true)
    by (vm_compute; reflexivity).
  intros x o ts I. rewrite forallb_forall in H. specialize (H _ I). cbn [fst] in H. rewrite !andb_true_iff in H. destruct H as [[[A B] C] D].
  split; [apply mapped_lines; now apply N.ltb_lt|]. split; [exact B|]. split; [now apply laid_bool|now apply laminar_bool].
Qed.
(** [x ? y : z] and the conditional statement: the paths of the first lie inside of it, those of the second are the statement. *)
Example nested_ex :
  let at2 r := (column (rstart r), column (rend r)) in
  let x := T 1 11 KExprStmt [X 1 10 KCond [X 1 2 (KIdent "x") []; X 5 6 (KIdent "y") []; X 9 10 (KIdent "z") []]] in
  let t := at_ 1 40 KModule [mk KModuleItems [x; T 12 40 KIf [X 16 17 (KIdent "x") []; T 19 40 (KBlock false) [mk KStmts []]; none]]] in
  mapped plain_env /\ clean t = true /\ laid t /\ laminar t /\
  match instrument plain_env 40 "f.js" None t with
  | Ok (_, c) => map (fun p => (option_map at2 (b_loc (snd p)), map at2 (b_locations (snd p)))) (fc_branch_map (sc_fc c)) =
      [(Some (1, 10), [(5, 6); (9, 10)]); (Some (12, 40), [(12, 40); (12, 40)])]
  | _ => False
  end.
Proof.
  split; [intros a b H K; cbn [plain_env e_lookup fst snd]; split; [right; lia|split; [reflexivity|exact K]]|]. split; [reflexivity|]. split; [apply laid_bool; reflexivity|]. split; [apply laminar_bool; reflexivity|]. vm_compute. reflexivity.
Qed.
