(** Invariants of runs: a property of states that survives what every single node of a program does survives the run. *)
From Coq Require Import ZArith NArith String List Bool Lia PeanoNat.
Import ListNotations.
From Verif Require Import Base Oxide Hints Ast Sem Account Sites Consistent.
Open Scope list_scope. Open Scope N_scope.

(** The functions a node makes when it is entered *)
Definition hoisted (k : kind) (cs : list node) : list node :=
  match k, cs with
  | (KStmts | KModuleItems), _ => map snd (fns_of cs)
  | KSwitch, [_; c] => map snd (fns_of (flat_map case_stmts (case_list c)))
  | _, _ => []
  end.

Section Keeps.
Variable h : host.
Notation state := (state h).
Notation den := (den h).
Notation res := (completion (hV h) (hR h) * state)%type.
(** The invariant, the functions that can be made and the events that can happen under it *)
Variable J : state -> Prop.
Variable C : node -> Prop.
Variable L : event -> Prop.
Hypothesis J_hs : forall v s, J s -> J (set_hs h v s).
Hypothesis J_tmp : forall v s, J s -> J (set_tmp h v s).
Hypothesis J_tick : forall c s, J s -> J (tick h c s).
Hypothesis J_fun : forall t s, C t -> J s -> J (add_fun h t s).
Hypothesis J_log : forall sp e s, (nowhere sp = false -> L e) -> J s -> J (log h sp e s).

Definition R (r : res) : Prop := J (snd r).
Definition K (d : den) : Prop := forall cx s, J s -> R (d cx s).

Lemma R_bindr : forall (r : res) f, R r -> (forall v s, J s -> R (f v s)) -> R (bindr h r f).
Proof. intros [c s] f H G. unfold bindr. destruct c; cbn [fst snd] in *; try exact H. now apply G. Qed.
Lemma R_bindv : forall (r : res) f, R r -> (forall v s, J s -> R (f v s)) -> R (bindv h r f).
Proof. intros r f H G. unfold bindv. apply R_bindr; [exact H|]. intros [v|r'] s Hs; [auto|exact Hs]. Qed.

Section Fuel.
Variable call : nat -> hX h -> hV h -> state -> res.
Hypothesis Hcall : forall f x v s, J s -> R (call f x v s).
Variable fuel : nat.

Lemma strat_keeps : forall n k self cs ds a s, (self_closable k = true -> C self) ->
  (forall i c, closable k i = true -> nth_error cs i = Some c -> C c) -> Forall K ds -> J s -> R (strat h call n k self cs ds a s).
Proof.
  induction n as [|n IH]; intros k self cs ds a s Hself Hcs Hds Hs.
  { cbn [strat]. destruct a; exact Hs. }
  assert (Hans : forall kk an s1, J s1 ->
    R (let (a', v) := h_resume h kk an (hs h s1) in strat h call n k self cs ds a' (set_hs h v s1))).
  { intros kk an s1 H1. destruct (h_resume h kk an (hs h s1)) as [a' v]. apply IH; auto. }
  cbn [strat]. destruct a as [c|i m x v kk|i kk|f x v kk].
  - exact Hs.
  - destruct (nth_error ds i) as [d|] eqn:Hd; [|exact Hs].
    apply nth_error_In in Hd. rewrite Forall_forall in Hds. pose proof (Hds d Hd (mkCtx h x m [] v) s Hs) as H1.
    destruct (d (mkCtx h x m [] v) s) as [c s1]. destruct (final h c); [exact H1|]. now apply Hans.
  - assert (Hgo : forall code, C code -> R
       (let (a', v) := h_resume h kk (AnsF (length (funs h s))) (hs h (add_fun h code s)) in
        strat h call n k self cs ds a' (set_hs h v (add_fun h code s)))).
    { intros code Hc. apply Hans. now apply J_fun. }
    destruct i as [i|].
    + destruct (closable k i) eqn:Hj; [|exact Hs]. destruct (nth_error cs i) as [c|] eqn:Hc; [|exact Hs]. eauto.
    + destruct (self_closable k) eqn:Hk; [|exact Hs]. auto.
  - pose proof (Hcall f x v s Hs) as H1. destruct (call f x v s) as [c s1]. destruct (final h c); [exact H1|]. now apply Hans.
Qed.
Lemma simple_keeps : forall a s, J s -> R (simple h call fuel a s).
Proof. intros a s Hs. apply strat_keeps; auto; try discriminate. intros i c _ Hc. destruct i; discriminate. Qed.
Lemma getv_keeps : forall r s, J s -> R (getv h call fuel r s).
Proof.
  intros [v|r] s Hs; [exact Hs|]. cbn [getv]. destruct (h_get h r (hs h s)) as [a v].
  apply R_bindr; [now apply simple_keeps, J_hs|]. intros [u|r'] s1 H1; exact H1.
Qed.
Lemma valued_keeps : forall d, K d -> K (valued h call fuel d).
Proof. intros d Hd cx s Hs. unfold valued. apply R_bindr; [now apply Hd|]. intros. now apply getv_keeps. Qed.
Lemma opaque_keeps : forall k sp cs ds, (self_closable k = true -> C (Node k sp cs)) ->
  (forall i c, closable k i = true -> nth_error cs i = Some c -> C c) -> Forall K ds -> K (opaque h call fuel k sp cs ds).
Proof. intros k sp cs ds H1 H2 H3 cx s Hs. unfold opaque. destruct (h_start h k _ _ _ _ _ _) as [a v]. apply strat_keeps; auto. Qed.
Lemma run_list_keeps : forall ds, Forall K ds -> K (run_list h ds).
Proof.
  induction ds as [|d ds IH]; intros Hds cx s Hs; [exact Hs|]. inversion Hds; subst.
  cbn [run_list]. apply R_bindr; [auto|]. intros. now apply IH.
Qed.
Lemma seq_vals_keeps : forall ds, Forall K ds -> K (seq_vals h call fuel ds).
Proof.
  induction ds as [|d ds IH]; intros Hds cx s Hs; [exact Hs|]. inversion Hds; subst.
  cbn [seq_vals]. destruct ds as [|d2 ds]; [now apply valued_keeps|].
  apply R_bindr; [now apply valued_keeps|]. intros. now apply IH.
Qed.
Lemma hoist_keeps : forall fs x s, Forall C (map snd fs) -> J s -> J (hoist h fs x s).
Proof.
  induction fs as [|[n c] fs IH]; intros x s Hf Hs; [exact Hs|]. inversion Hf; subst.
  cbn [hoist]. apply IH; [assumption|]. now apply J_hs, J_fun.
Qed.
Lemma enter_block_keeps : forall ds fs x s, Forall C (map snd fs) -> J s -> J (snd (enter_block h ds fs x s)).
Proof.
  intros ds fs x s Hf Hs. unfold enter_block. destruct ds as [|p ds]; [now apply hoist_keeps|].
  destruct (h_scope h [] (p :: ds) x (hs h s)) as [x1 v]. apply hoist_keeps; auto.
Qed.
Lemma enter_fn_keeps : forall a b x s, J s -> J (snd (enter_fn h a b x s)).
Proof. intros. unfold enter_fn. destruct (h_scope _ _ _ _ _) as [x1 v]. now apply J_hs. Qed.
Lemma finish_keeps : forall r, R r -> R (finish_fn h r).
Proof. intros [c s] H. destruct c; exact H. Qed.

Lemma sem_fn_keeps : forall sp p b db, match p with Some dp => K dp | None => True end ->
  (forall s, J s -> forall cx,
     let s1 := log h sp (EFn sp) s in
     if is_expr b then R (valued h call fuel db cx (log h (nspan b) (EStmt (nspan b)) s1)) else R (db cx s1)) ->
  K (sem_fn h call fuel sp p b db).
Proof.
  intros sp p b db Hp Hb cx s Hs. unfold sem_fn.
  pose proof (enter_fn_keeps (directives b) (var_names b) (cx_sc h cx) s Hs) as H1.
  destruct (enter_fn h _ _ _ s) as [x s1]. cbn [snd] in H1. apply R_bindr.
  { destruct p; [now apply Hp|exact H1]. }
  intros v s2 H2. specialize (Hb s2 H2). cbv zeta in Hb. destruct (is_expr b); apply finish_keeps; [|apply Hb].
  apply R_bindv; [apply Hb|]. intros u s3 H5. exact H5.
Qed.
Lemma loop_keeps : forall n test update body ls per,
  (forall d, test = Some d -> K d) -> (forall d, update = Some d -> K d) -> K body ->
  (forall x s, J s -> J (snd (per x s))) ->
  forall cx s, J s -> R (loop h call fuel n test update body ls cx per s).
Proof.
  induction n as [|n IH]; intros test update body ls per Ht Hu Hb Hp cx s Hs; [exact Hs|].
  cbn [loop]. apply R_bindv.
  { destruct test as [d|]; [apply valued_keeps; auto|exact Hs]. }
  intros v s1 H1. destruct (match test with Some _ => h_truthy h v | None => true end); [|exact H1].
  pose proof (Hb (rd h cx) s1 H1) as H2. destruct (body (rd h cx) s1) as [c s2].
  destruct (goes_on h ls c); [|exact H2].
  pose proof (Hp (cx_sc h cx) s2 H2) as H3. destruct (per (cx_sc h cx) s2) as [x s3].
  apply R_bindr; [destruct update as [d|]; [apply valued_keeps; auto|exact H3]|]. intros. now apply IH.
Qed.
Lemma do_loop_keeps : forall n test body ls, K test -> K body -> forall cx s, J s -> R (do_loop h call fuel n test body ls cx s).
Proof.
  induction n as [|n IH]; intros test body ls Ht Hb cx s Hs; [exact Hs|].
  cbn [do_loop]. pose proof (Hb (rd h cx) s Hs) as H2. destruct (body (rd h cx) s) as [c s2].
  destruct (goes_on h ls c); [|exact H2].
  apply R_bindv; [now apply valued_keeps|]. intros v s3 H3. destruct (h_truthy h v); [|exact H3]. now apply IH.
Qed.
Lemma opt_keeps : forall t d d', K d -> opt h t d = Some d' -> K d'.
Proof. intros t d d' H G. unfold opt in G. destruct (is_none t); [discriminate|]. now inversion G; subst. Qed.
Lemma copy_keeps : forall x s, J s -> J (snd (copy_scope h x s)).
Proof. intros x s H. unfold copy_scope. destruct (h_copy _ _ _). now apply J_hs. Qed.
Lemma sem_for_keeps : forall i t u di dt du db, K di -> K dt -> K du -> K db -> K (sem_for h call fuel i t u di dt du db).
Proof.
  intros i t u di dt du db Hi Ht Hu Hb cx s Hs. unfold sem_for.
  pose proof (enter_block_keeps (lex_decl i) [] (cx_sc h cx) s ltac:(constructor) Hs) as H1.
  destruct (enter_block h (lex_decl i) [] (cx_sc h cx) s) as [x s1]. cbn [snd] in H1.
  apply R_bindr; [destruct (is_expr i); [now apply valued_keeps|now apply Hi]|].
  intros v s2 H2.
  set (per := match lex_decl i with [] => fun x s => (x, s) | _ => copy_scope h end).
  assert (Hper : forall x s, J s -> J (snd (per x s))).
  { intros x0 s0 H0. unfold per. destruct (lex_decl i); [exact H0|now apply copy_keeps]. }
  pose proof (Hper x s2 H2) as H3. destruct (per x s2) as [x2 s3].
  apply loop_keeps; auto; intros d Hd; [exact (opt_keeps _ _ _ Ht Hd)|exact (opt_keeps _ _ _ Hu Hd)].
Qed.
Lemma find_case_keeps : forall ds cx i s, Forall K ds -> J s -> J (snd (find_case h ds cx i s)).
Proof.
  induction ds as [|d ds IH]; intros cx i s Hds Hs; [exact Hs|]. inversion Hds as [|? ? H1 H2]; subst.
  cbn [find_case]. pose proof (H1 (in_mode h MMatch (cx_in h cx) cx) s Hs) as G.
  destruct (d _ s) as [[] s1]; try exact G. now apply IH.
Qed.
Lemma sem_cases_keeps : forall cs ds, Forall K ds -> K (sem_cases h cs ds).
Proof.
  intros cs ds Hds cx s Hs. unfold sem_cases. pose proof (find_case_keeps ds cx 0 s Hds Hs) as H1.
  destruct (find_case h ds cx 0 s) as [[c|hit] s1]; [exact H1|]. cbn [snd] in H1.
  destruct (match hit with Some i => Some i | None => default_index cs 0 end) as [i|]; [|exact H1].
  apply run_list_keeps; [|exact H1]. now apply Forall_skipn.
Qed.
Lemma sem_switch_keeps : forall cases dd dc, Forall C (map snd (fns_of (flat_map case_stmts (case_list cases)))) ->
  K dd -> K dc -> K (sem_switch h call fuel cases dd dc).
Proof.
  intros cases dd dc Hf Hd Hc cx s Hs. unfold sem_switch. apply R_bindv; [now apply valued_keeps|].
  intros v s1 H1. pose proof (enter_block_keeps (lex_names (flat_map case_stmts (case_list cases))) _ (cx_sc h cx) s1 Hf H1) as H2.
  destruct (enter_block h _ _ _ s1) as [x s2]. pose proof (Hc (mkCtx h x MSwitch [] v) s2 H2) as H3.
  destruct (dc _ s2) as [c s3]. exact H3.
Qed.
Lemma sem_case_keeps : forall sp t dt db, K dt -> (forall cx s, J s -> R (db cx (log h sp (ECase sp) s))) ->
  K (sem_case h call fuel sp t dt db).
Proof.
  intros sp t dt db Ht Hb cx s Hs. unfold sem_case. destruct (cx_mode h cx); try exact Hs.
  - destruct (is_none t); [exact Hs|]. apply R_bindv; [now apply valued_keeps|].
    intros v s1 H1. destruct (h_same h _ v); exact H1.
  - now apply Hb.
Qed.
Lemma sem_try_keeps : forall hd fin db dh df, K db -> K dh -> K df -> K (sem_try h hd fin db dh df).
Proof.
  intros hd fin db dh df Hb Hh Hf cx s Hs. unfold sem_try.
  set (r := match db (rd h cx) s with
            | (CThrow v, s1) => if is_none hd then (CThrow v, s1) else dh (in_mode h (MBind VLet) v cx) s1
            | r => r end).
  assert (Hr : R r).
  { unfold r. pose proof (Hb (rd h cx) s Hs) as H1. destruct (db (rd h cx) s) as [[] s1]; try exact H1.
    destruct (is_none hd); [exact H1|]. now apply Hh. }
  destruct (is_none fin || final h (fst r)); [exact Hr|].
  apply R_bindr; [apply Hf; exact Hr|]. intros v s1 H1. exact H1.
Qed.
Lemma sem_declarator_keeps : forall sp i dn di, K dn -> (is_none i = false -> forall cx s, J s -> R (valued h call fuel di cx (log h sp (EInit sp) s))) ->
  K (sem_declarator h call fuel sp i dn di).
Proof.
  intros sp i dn di Hn Hd cx s Hs. unfold sem_declarator. destruct (is_none i).
  - destruct (cx_mode h cx) as [| |[]| | | | |]; try exact Hs; now apply Hn.
  - apply R_bindv; [now apply Hd|]. intros v s1 H1. now apply Hn.
Qed.
Lemma sem_logical_keeps : forall op sp dl dr, (forall cx s, J s -> R (valued h call fuel dl cx (log h sp (EOper sp false) s))) ->
  (forall cx s, J s -> R (valued h call fuel dr cx (log h sp (EOper sp true) s))) -> K (sem_logical h call fuel op sp dl dr).
Proof.
  intros op sp dl dr Hl Hr cx s Hs. unfold sem_logical. apply R_bindv; [now apply Hl|].
  intros v s1 H1. destruct (stop_left h op v); [exact H1|]. now apply Hr.
Qed.
Lemma sem_cond_keeps : forall sp dt dc da, K dt -> (forall cx s, J s -> R (valued h call fuel dc cx (log h sp (ECond sp false) s))) ->
  (forall cx s, J s -> R (valued h call fuel da cx (log h sp (ECond sp true) s))) -> K (sem_cond h call fuel sp dt dc da).
Proof.
  intros sp dt dc da Ht Hc Ha cx s Hs. unfold sem_cond. apply R_bindv; [now apply valued_keeps|].
  intros v s1 H1. destruct (h_truthy h v); [now apply Hc|now apply Ha].
Qed.
Lemma sem_if_keeps : forall sp x dt dc da, K dt -> (forall cx s, J s -> R (dc cx (log h sp (EArm sp false) s))) ->
  (forall s, J s -> J (log h sp (EArm sp true) s)) -> (forall cx s, J s -> R (da cx (log h sp (EArm sp true) s))) ->
  K (sem_if h call fuel sp x dt dc da).
Proof.
  intros sp x dt dc da Ht Hc Hx Ha cx s Hs. unfold sem_if. apply R_bindv; [now apply valued_keeps|].
  intros v s1 H1. destruct (h_truthy h v); [now apply Hc|]. destruct (is_none x); [now apply Hx|now apply Ha].
Qed.
Lemma sem_assign_keeps : forall sp dl dr, K dl -> (forall cx s, J s -> R (valued h call fuel dr cx (log h sp (EDefault sp) s))) ->
  K (sem_assign_pat h call fuel sp dl dr).
Proof.
  intros sp dl dr Hl Hr cx s Hs. unfold sem_assign_pat. destruct (h_is_undef h (cx_in h cx)); [|now apply Hl].
  apply R_bindv; [now apply Hr|]. intros v s1 H1. now apply Hl.
Qed.
Lemma sem_labeled_keeps : forall l db, K db -> K (sem_labeled h l db).
Proof.
  intros l db Hd cx s Hs. unfold sem_labeled. destruct (label_of l) as [x|]; [|exact Hs].
  pose proof (Hd (mkCtx h (cx_sc h cx) MRead (x :: cx_labs h cx) (h_undef h)) s Hs) as H.
  destruct (db _ s) as [c s1]. destruct c as [| |[y|]| | | | |]; exact H.
Qed.
Lemma sem_with_keeps : forall dobj db, K dobj -> K db -> K (sem_with h call fuel dobj db).
Proof.
  intros dobj db Ho Hb cx s Hs. unfold sem_with. apply R_bindv; [now apply valued_keeps|].
  intros v s1 H1. destruct (h_with h v (cx_sc h cx) (hs h s1)) as [[ex|x] u]; [now apply J_hs|]. apply Hb. now apply J_hs.
Qed.

Notation evl := (ev h call fuel).
Lemma stmts_keeps : forall cs ds, Forall C (map snd (fns_of cs)) -> K (run_list h ds) -> K (sem_stmts h cs ds).
Proof.
  intros cs ds Hf H cx s Hs. unfold sem_stmts.
  pose proof (enter_block_keeps (lex_names cs) (fns_of cs) (cx_sc h cx) s Hf Hs) as H1.
  destruct (enter_block h (lex_names cs) (fns_of cs) (cx_sc h cx) s) as [x s1].
  destruct (cx_mode h cx); now apply H.
Qed.

(** What a node does once its first event has happened *)
Lemma rest_keeps : forall k sp cs ds e, length ds = length cs -> arity k (length cs) = true -> first_event k sp cs = Some e ->
  Forall K ds -> Forall C cs -> Forall C (hoisted k cs) -> (forall e' s, In e' (later_events k sp) -> J s -> J (log h sp e' s)) ->
  forall cx s, J (log h sp e s) -> R (sem h call fuel k sp cs ds cx s).
Proof.
  intros k sp cs ds e Hlen Ha Hf Hds Hcs Hh Hl cx s H1.
  assert (Op : self_closable k = false -> forall ds', Forall K ds' -> K (opaque h call fuel k sp cs ds')).
  { intros Hs ds' H'. apply opaque_keeps; [congruence| |exact H']. intros i c _ Hc. rewrite Forall_forall in Hcs. apply Hcs. eapply nth_error_In; eauto. }
  destruct k; try discriminate Hf; cbn [arity] in Ha; try (apply andb_true_iff in Ha as [Hop Ha]);
    (let H := fresh in pose proof Ha as H; apply Nat.eqb_eq in H; rename H into Hn); cbn [first_event] in Hf;
    destruct cs as [|c1 [|c2 [|c3 [|c4 [|c5 cs]]]]]; try discriminate Hn;
    destruct ds as [|d1 [|d2 [|d3 [|d4 [|d5 ds]]]]]; try discriminate Hlen; clear Hlen Hn Ha;
    repeat match goal with H : Forall K (_ :: _) |- _ => let a := fresh "D" in pose proof (Forall_inv H) as a; apply Forall_inv_tail in H end;
    try (injection Hf as <-); cbn [sem]; try (apply Op; [reflexivity|constructor; [exact D|constructor; [exact D0|constructor; [|constructor]]]|exact H1]; intros cx0 s0 H0; now apply D1);
    try (now apply D).
  all: try (first
    [apply R_bindr; [now apply valued_keeps|]; intros v s2 H2; exact H2
    |apply R_bindv; [now apply valued_keeps|]; intros v s2 H2; exact H2
    |exact H1
    |now apply sem_labeled_keeps|now apply do_loop_keeps|now apply sem_for_keeps|now apply sem_switch_keeps|now apply sem_try_keeps
    |now apply sem_with_keeps]; fail).
  - destruct (is_none c1); [exact H1|]. apply R_bindv; [now apply valued_keeps|]. intros v s2 H2. exact H2.
  - apply loop_keeps; auto; [|discriminate]. intros d Hd. inversion Hd; subst. exact D.
  - apply sem_if_keeps; auto; intros; try apply D0; try apply D1; apply Hl; cbn; auto.
  - destruct (is_none c2) eqn:E; [discriminate|]. injection Hf as <-. unfold sem_declarator. rewrite E.
    apply R_bindv; [now apply valued_keeps|]. intros v s1 H2. now apply D.
  - cbn [later_events] in Hl. rewrite Hop in *. injection Hf as <-. unfold sem_logical.
    apply R_bindv; [now apply valued_keeps|]. intros v s1 H2. destruct (stop_left h op v); [exact H2|].
    apply valued_keeps; [exact D0|]. apply Hl; [left; reflexivity|exact H2].
Qed.

(** The body of the function at [sp], once it is entered *)
Definition body_keeps (sp : span) (b : node) : Prop := forall s, J s -> forall cx,
  let s1 := log h sp (EFn sp) s in
  if is_expr b then R (valued h call fuel (evl b) cx (log h (nspan b) (EStmt (nspan b)) s1)) else R (evl b cx s1).
Lemma function_keeps : forall sp p ds b ty, K (evl p) -> body_keeps sp b -> K (evl (Node KFunction sp [p; ds; b; ty])).
Proof.
  intros sp p ds b ty Hp Hb cx s Hs. cbn [ev sem map]. destruct (cx_mode h cx); try exact Hs. now apply sem_fn_keeps.
Qed.
Lemma arrow_keeps : forall sp p b ty, C p -> C ty -> C (Node KArrow sp [p; b; ty]) -> K (evl p) -> body_keeps sp b ->
  K (evl (Node KArrow sp [p; b; ty])).
Proof.
  intros sp p b ty Cp Ct Cs Hp Hb cx s Hs. cbn [ev sem map].
  assert (Op : R (opaque h call fuel KArrow sp [p; b; ty] [] cx s)).
  { apply opaque_keeps; auto. intros [|[|[|i]]] c Hc Hi; try discriminate; inversion Hi; subst; auto. destruct i; discriminate. }
  destruct (cx_mode h cx); try exact Op. now apply sem_fn_keeps.
Qed.
Lemma getter_keeps : forall sp k0 ty b, C k0 -> C ty -> C (Node KGetter sp [k0; ty; b]) -> K (evl k0) -> K (evl ty) -> body_keeps sp b ->
  K (evl (Node KGetter sp [k0; ty; b])).
Proof.
  intros sp k0 ty b Ck Ct Cs Hk Ht Hb cx s Hs. cbn [ev sem map].
  assert (Op : R (opaque h call fuel KGetter sp [k0; ty; b] [evl k0; evl ty] cx s)).
  { apply opaque_keeps; auto. intros [|[|[|i]]] c Hc Hi; try discriminate; inversion Hi; subst; auto. destruct i; discriminate. }
  destruct (cx_mode h cx); try exact Op. now apply sem_fn_keeps.
Qed.
Lemma setter_keeps : forall sp k0 ty p b, C k0 -> C ty -> C p -> C (Node KSetter sp [k0; ty; p; b]) -> K (evl k0) -> K (evl ty) -> K (evl p) ->
  body_keeps sp b -> K (evl (Node KSetter sp [k0; ty; p; b])).
Proof.
  intros sp k0 ty p b Ck Ct Cp Cs Hk Ht Hp Hb cx s Hs. cbn [ev sem map].
  assert (Op : R (opaque h call fuel KSetter sp [k0; ty; p; b] [evl k0; evl ty] cx s)).
  { apply opaque_keeps; auto. intros [|[|[|[|i]]]] c Hc Hi; try discriminate; inversion Hi; subst; auto. destruct i; discriminate. }
  destruct (cx_mode h cx); try exact Op. now apply sem_fn_keeps.
Qed.
Lemma field_keeps : forall k sp c i rest, k = KClassProp \/ k = KPrivateProp -> C c -> Forall C rest -> K (evl c) -> Forall K (map evl rest) ->
  (forall cx s, J s -> R (valued h call fuel (evl i) cx (log h sp (EInit sp) s))) -> K (evl (Node k sp (c :: i :: rest))).
Proof.
  intros k sp c i rest Hk Cc Cr Hc Hr Hi.
  assert (Op : K (opaque h call fuel k sp (c :: i :: rest) (field_dens h call fuel sp (map evl (c :: i :: rest))))).
  { apply opaque_keeps.
    - destruct Hk; subst k; discriminate.
    - intros [|[|j]] c' Hj Hc'; [inversion Hc'; subst; exact Cc|destruct Hk; subst k; discriminate|].
      cbn [nth_error] in Hc'. rewrite Forall_forall in Cr. apply Cr. eapply nth_error_In; eauto.
    - cbn [map field_dens]. constructor; [exact Hc|]. constructor; [|exact Hr]. intros cx s Hs. now apply Hi. }
  destruct Hk; subst k; exact Op.
Qed.

(** A node that makes only such events and functions *)
Lemma node_keeps : forall k sp cs, Forall K (map evl cs) -> (forall e, In e (own_events k sp cs) -> L e) -> (has_block k cs = false -> forall e, L e) ->
  Forall C cs -> Forall C (hoisted k cs) -> (self_closable k = true -> C (Node k sp cs)) -> K (evl (Node k sp cs)).
Proof.
  intros k sp cs Hds Ho Hb Hcs Hh Hsc. cbn [ev].
  assert (W : forall e s, In e (map fst (own_sites k sp cs)) -> J s -> J (log h sp e s)).
  { intros e s He Hs. apply J_log; [|exact Hs]. intros Hn. apply Ho. apply in_app_iff. left. now apply posed_in. }
  assert (Cl : forall i c, closable k i = true -> nth_error cs i = Some c -> C c).
  { intros i c _ Hc. rewrite Forall_forall in Hcs. apply Hcs. eapply nth_error_In; eauto. }
  assert (Op : forall ds', Forall K ds' -> K (opaque h call fuel k sp cs ds')) by (intros; now apply opaque_keeps).
  assert (F : forall e, arity k (length cs) = true -> first_event k sp cs = Some e -> K (sem h call fuel k sp cs (map evl cs))).
  { intros e Ha Hf cx s Hs. apply (rest_keeps k sp cs (map evl cs) e); auto; [now rewrite map_length| |].
    - intros e' s' He Hs'. apply J_log; [|exact Hs']. intros Hn. apply Ho. now apply (later_own (fun _ => Z0)).
    - apply J_log; [|exact Hs]. intros Hn. apply Ho. now apply first_own. }
  destruct k;
    try (lazymatch goal with |- K (sem h call fuel ?k sp cs _) => exact (Op _ Hds) end);
    try (intros cx s Hs; exact Hs);
    try (destruct cs as [|c1 [|c2 [|c3 [|c4 [|c5 cs]]]]]; cbn [map] in *;
      first [apply (F (EStmt sp)); reflexivity|intros cx s Hs; exact Hs|idtac]; fail);
    try (cbn [sem]; intros cx s Hs; apply stmts_keeps; [exact Hh|now apply run_list_keeps|exact Hs]; fail);
    try (intros cx s Hs; cbn [sem]; now apply seq_vals_keeps; fail).
  all: try (destruct cs as [|c1 [|? ?]]; [intros cx s Hs; exact Hs| |intros cx s Hs; exact Hs]; apply Forall_inv in Hds;
    intros cx s Hs; cbn [sem map]; now apply Hds).
  all: try (intros cx s Hs; apply Op; [|apply W; [left; reflexivity|exact Hs]]; fail).
  - destruct cs as [|c1 [|? ?]]; [intros cx s Hs; exact Hs| |intros cx s Hs; exact Hs]. apply Forall_inv in Hds.
    intros cx s Hs. cbn [sem map]. pose proof (enter_fn_keeps [] (var_names c1) (cx_sc h cx) s Hs) as H1.
    destruct (enter_fn h _ _ _ s) as [x s1]. now apply Hds.
  - destruct cs as [|c1 [|? ?]]; [intros cx s Hs; exact Hs| |intros cx s Hs; exact Hs]. apply Forall_inv in Hds.
    intros cx s Hs. cbn [sem map]. pose proof (enter_fn_keeps (prologue (nkids c1)) (var_names c1) (cx_sc h cx) s Hs) as H1.
    destruct (enter_fn h _ _ _ s) as [x s1]. now apply Hds.
  - destruct cs as [|c1 [|? ?]]; [intros cx s Hs; exact Hs| |intros cx s Hs; exact Hs]. apply Forall_inv in Hds.
    intros cx s Hs. cbn [sem map]. apply R_bindr; [now apply Hds|auto].
  - intros cx s Hs. cbn [sem]. pose proof (Op _ Hds cx s Hs) as O.
    destruct (cx_mode h cx); try exact O; [now apply run_list_keeps|now apply run_list_keeps|now apply sem_cases_keeps].
  - intros cx s Hs. cbn [sem]. apply Op; [|apply W; [left; reflexivity|exact Hs]].
    destruct cs as [|c1 [|c2 [|c3 [|? ?]]]]; try (apply Forall_nil). cbn [map iter_dens] in *.
    inversion Hds as [|? ? A1 K3]; subst. inversion K3 as [|? ? A2 K4]; subst. inversion K4 as [|? ? A3 _]; subst.
    do 3 (constructor; [try assumption|]); [|constructor]. intros cx0 s0 H0. now apply A3.
  - intros cx s Hs. cbn [sem]. apply Op; [|apply W; [left; reflexivity|exact Hs]].
    destruct cs as [|c1 [|c2 [|c3 [|? ?]]]]; try (apply Forall_nil). cbn [map iter_dens] in *.
    inversion Hds as [|? ? A1 K3]; subst. inversion K3 as [|? ? A2 K4]; subst. inversion K4 as [|? ? A3 _]; subst.
    do 3 (constructor; [try assumption|]); [|constructor]. intros cx0 s0 H0. now apply A3.
  - destruct cs as [|c1 [|c2 [|? ?]]]; try (intros cx s Hs; exact Hs). inversion Hds as [|? ? A1 K3]; subst. inversion K3 as [|? ? A2 _]; subst.
    cbn [sem map]. apply sem_case_keeps; [exact A1|]. intros cx s Hs. apply A2, W; [left; reflexivity|exact Hs].
  - destruct cs as [|c1 [|? ?]]; [intros cx s Hs; exact Hs| |intros cx s Hs; exact Hs]. apply Forall_inv in Hds.
    intros cx s Hs. cbn [sem map]. destruct (cx_mode h cx); now apply Hds.
  - destruct cs as [|c1 [|c2 [|? ?]]]; try (intros cx s Hs; exact Hs). inversion Hds as [|? ? A1 K3]; subst. inversion K3 as [|? ? A2 _]; subst.
    cbn [sem map]. apply sem_declarator_keeps; [exact A1|]. intros E cx s Hs. apply valued_keeps; [exact A2|]. apply W; [|exact Hs].
    cbn [own_sites]. rewrite E. left. reflexivity.
  - destruct cs as [|c1 [|c2 [|c3 [|c4 [|? ?]]]]]; try (intros cx s Hs; exact Hs).
    inversion Hds as [|? ? A1 K3]; subst. inversion K3 as [|? ? A2 K4]; subst. inversion K4 as [|? ? A3 _]; subst.
    refine (function_keeps sp c1 c2 c3 c4 A1 _). intros s Hs cx. cbv zeta. destruct (is_expr c3) eqn:E.
    { apply valued_keeps; [exact A3|]. apply J_log; [intros _; apply Hb; cbn [has_block]; rewrite E; reflexivity|].
      apply W; [left; reflexivity|exact Hs]. }
    apply A3, W; [left; reflexivity|exact Hs].
  - destruct cs as [|c1 [|c2 [|c3 [|? ?]]]]; try (intros cx s Hs; exact Hs).
    inversion Hds as [|? ? A1 K3]; subst. inversion K3 as [|? ? A2 K4]; subst.
    inversion Hcs as [|? ? C1 C3]; subst. inversion C3 as [|? ? C2 C4]; subst. inversion C4; subst.
    refine (arrow_keeps sp c1 c2 c3 _ _ _ _ _); auto. intros s Hs cx. cbv zeta. pose proof (W (EFn sp) s (or_introl eq_refl) Hs) as HW.
    destruct (is_expr c2) eqn:E; [|now apply A2]. apply valued_keeps; [exact A2|]. apply J_log; [|exact HW].
    intros Hn. apply Ho. apply in_app_iff. right. rewrite E. apply posed_in; [exact Hn|]. left. reflexivity.
  - destruct cs as [|c1 [|c2 cs]]; try exact (Op _ Hds). inversion Hds as [|? ? A1 K3]; subst. inversion K3 as [|? ? A2 K4]; subst.
    inversion Hcs as [|? ? C1 C3]; subst. inversion C3 as [|? ? C2 C4]; subst.
    refine (field_keeps KClassProp sp c1 c2 cs _ _ _ _ _ _); auto. intros cx s Hs. apply valued_keeps; [exact A2|]. apply W; [left; reflexivity|exact Hs].
  - destruct cs as [|c1 [|c2 cs]]; try exact (Op _ Hds). inversion Hds as [|? ? A1 K3]; subst. inversion K3 as [|? ? A2 K4]; subst.
    inversion Hcs as [|? ? C1 C3]; subst. inversion C3 as [|? ? C2 C4]; subst.
    refine (field_keeps KPrivateProp sp c1 c2 cs _ _ _ _ _ _); auto. intros cx s Hs. apply valued_keeps; [exact A2|]. apply W; [left; reflexivity|exact Hs].
  - destruct cs as [|c1 [|c2 [|c3 [|? ?]]]]; try (intros cx s Hs; exact Hs).
    inversion Hds as [|? ? A1 K3]; subst. inversion K3 as [|? ? A2 K4]; subst. inversion K4 as [|? ? A3 _]; subst.
    inversion Hcs as [|? ? C1 C3]; subst. inversion C3 as [|? ? C2 C4]; subst.
    refine (getter_keeps sp c1 c2 c3 _ _ _ _ _ _); auto. intros s Hs cx. cbv zeta. destruct (is_expr c3) eqn:E.
    { apply valued_keeps; [exact A3|]. apply J_log; [intros _; apply Hb; cbn [has_block]; rewrite E; reflexivity|].
      apply W; [left; reflexivity|exact Hs]. }
    apply A3, W; [left; reflexivity|exact Hs].
  - destruct cs as [|c1 [|c2 [|c3 [|c4 [|? ?]]]]]; try (intros cx s Hs; exact Hs).
    inversion Hds as [|? ? A1 K3]; subst. inversion K3 as [|? ? A2 K4]; subst. inversion K4 as [|? ? A3 K5]; subst. inversion K5 as [|? ? A4 _]; subst.
    inversion Hcs as [|? ? C1 C3]; subst. inversion C3 as [|? ? C2 C4]; subst. inversion C4; subst.
    refine (setter_keeps sp c1 c2 c3 c4 _ _ _ _ _ _ _ _); auto. intros s Hs cx. cbv zeta. destruct (is_expr c4) eqn:E.
    { apply valued_keeps; [exact A4|]. apply J_log; [intros _; apply Hb; cbn [has_block]; rewrite E; reflexivity|].
      apply W; [left; reflexivity|exact Hs]. }
    apply A4, W; [left; reflexivity|exact Hs].
  - destruct cs as [|c1 [|c2 [|c3 [|? ?]]]]; try (intros cx s Hs; exact Hs).
    inversion Hds as [|? ? A1 K3]; subst. inversion K3 as [|? ? A2 K4]; subst. inversion K4 as [|? ? A3 _]; subst.
    cbn [sem map]. apply sem_cond_keeps; [exact A1| |]; intros cx s Hs; (apply valued_keeps; [assumption|]); apply W; cbn; auto.
  - intros cx s Hs. cbn [sem]. destruct (is_logical_op op) eqn:E; [|now apply Op].
    destruct cs as [|c1 [|c2 [|? ?]]]; try exact Hs. inversion Hds as [|? ? A1 K3]; subst. inversion K3 as [|? ? A2 _]; subst.
    cbn [map]. apply sem_logical_keeps; [| |exact Hs]; intros cx0 s0 Hs0; (apply valued_keeps; [assumption|]); (apply W; [|exact Hs0]);
      cbn [own_sites]; rewrite E; cbn; auto.
  - destruct cs as [|c1 [|c2 [|? ?]]]; try (intros cx s Hs; exact Hs). inversion Hds as [|? ? A1 K3]; subst. inversion K3 as [|? ? A2 _]; subst.
    cbn [sem map]. apply sem_assign_keeps; [exact A1|]. intros cx s Hs. apply valued_keeps; [exact A2|]. apply W; cbn; auto.
  - intros cx s Hs. cbn [sem]. now apply seq_vals_keeps.
  - intros cx s Hs. cbn [sem]. now apply seq_vals_keeps.
  - intros cx s Hs. cbn [sem]. now apply seq_vals_keeps.
  - intros cx s Hs. cbn [sem]. now apply J_tick.
  - destruct cs as [|c1 [|? ?]]; [intros cx s Hs; exact Hs| |intros cx s Hs; exact Hs]. apply Forall_inv in Hds.
    intros cx s Hs. cbn [sem map]. apply R_bindv; [now apply valued_keeps|]. intros v s1 H1. now apply J_tmp.
  - intros cx s Hs. cbn [sem]. destruct (h_test _ _ _ _ _) as [x v]. now apply simple_keeps, J_hs.
Qed.
End Fuel.
End Keeps.
