(** Counting along the control flow.  Events are given weights; [bound] reads off the text of a program a number the sum
    of the weights never falls below, whatever the host does ([run_bounded]). *)
From Coq Require Import ZArith NArith String List Bool Lia PeanoNat.
Import ListNotations.
From Verif Require Import Base Oxide Hints Ast Sem Account Sites.
Open Scope list_scope. Open Scope Z_scope.

(** ** Specification *)
Section Weights.
Variable w : event -> Z.

Definition weigh (sp : span) (e : event) : Z := if nowhere sp then 0 else w e.
Definition total (l : list event) : Z := fold_right (fun e n => w e + n) 0 l.

(** Least changes, [None] if there may be no least one *)
Definition ge0 (o : option Z) : bool := match o with Some n => 0 <=? n | None => false end.
Definition steady (os : list (option Z)) : bool := forallb ge0 os.
Definition at_least (b : bool) (n : Z) : option Z := if b then Some n else None.
Fixpoint in_turn (os : list (option Z)) : option Z :=
  match os with
  | [] => Some 0
  | o :: os' => match o, in_turn os' with Some a, Some b => Some (Z.min a (a + b)) | _, _ => None end
  end.
(** A function: its parameters, then the event, then its body *)
Definition fn_bound (sp : span) (b : node) (rest : bool) (o : option Z) : option Z :=
  match o with
  | Some n =>
      at_least (rest && (0 <=? weigh sp (EFn sp) + (if is_expr b then weigh (nspan b) (EStmt (nspan b)) else 0) + n)) 0
  | None => None
  end.

(** The least change by a node, from those by its children [os]; [ls] are those of lists of declarations *)
Definition bound_of (k : kind) (sp : span) (cs : list node) (os ls : list (option Z)) : option Z :=
  let st := weigh sp (EStmt sp) in
  let other := at_least (steady os) 0 in
  match k with
  | KExpr | KParen | KInjParen | KModuleDecl | KStmt | KBlock _ | KModule | KScript =>
      match os with [o] => o | _ => other end
  | KStmts | KModuleItems => in_turn os
  | KExprStmt | KReturn | KThrow =>
      match os with [Some n] => Some (Z.min st (st + n)) | _ => other end
  | KBreak | KContinue => match os with [_] => at_least (steady os) st | _ => other end
  | KLabeled => match os with [o; Some n] => at_least (ge0 o) (Z.min st (st + n)) | _ => other end
  | KIf =>
      match os with
      | [Some t; Some c; Some a] =>
          Some (Z.min (st + t) (Z.min (st + t + weigh sp (EArm sp false) + c) (st + t + weigh sp (EArm sp true) + a)))
      | _ => other
      end
  | KWhile | KDoWhile => match os with [_; _] => at_least (steady os) st | _ => other end
  | KFor => match os with [Some i; t; u; b] => at_least (steady [t; u; b]) (st + i) | _ => other end
  | KForIn | KForOf => at_least (steady os) st
  | KSwitch => match os with [Some d; o] => at_least (ge0 o) (st + d) | _ => other end
  | KSwitchCase =>
      match os with [o; Some n] => at_least (ge0 o && (0 <=? weigh sp (ECase sp) + n)) 0 | _ => other end
  | KTry =>
      match os with
      | [Some b; Some c; Some f] => let r := Z.min (st + b) (st + b + c) in Some (Z.min r (r + f))
      | _ => other
      end
  | KWith => match os with [Some o; Some b] => Some (Z.min (st + o) (st + o + b)) | _ => other end
  | KExportDecl => match os with [o] => option_map (Z.add st) o | _ => other end
  | KVarDecl _ => match ls with [l] => l | _ => other end
  | KVarDeclarator =>
      match cs, os with
      | [_; i], [Some n; Some m] =>
          let wi := weigh sp (EInit sp) in
          Some (if is_none i then Z.min 0 n else Z.min (wi + m) (wi + m + n))
      | _, _ => other
      end
  | KAssignPat => match os with [_; _] => at_least (steady os) (Z.min 0 (weigh sp (EDefault sp))) | _ => other end
  | KFunction => match cs, os with [_; _; b; _], [p; _; o; _] => fn_bound sp b (ge0 p) o | _, _ => other end
  | KArrow => match cs, os with [_; b; _], [p; o; ty] => fn_bound sp b (ge0 p && ge0 ty) o | _, _ => other end
  | KGetter => match cs, os with [_; _; b], [k0; ty; o] => fn_bound sp b (ge0 k0 && ge0 ty) o | _, _ => other end
  | KSetter => match cs, os with [_; _; _; b], [k0; ty; p; o] => fn_bound sp b (ge0 k0 && ge0 ty && ge0 p) o | _, _ => other end
  | KClassProp | KPrivateProp =>
      match cs with _ :: _ :: _ => at_least (steady os && (0 <=? weigh sp (EInit sp))) 0 | _ => other end
  | KCond =>
      match os with
      | [Some t; Some c; Some a] =>
          Some (Z.min t (Z.min (t + weigh sp (ECond sp false) + c) (t + weigh sp (ECond sp true) + a)))
      | _ => other
      end
  | KBin op =>
      if is_logical_op op then
        match os with
        | [Some l; Some r] =>
            let a := weigh sp (EOper sp false) + l in Some (Z.min a (a + weigh sp (EOper sp true) + r))
        | _ => other
        end
      else other
  | _ => other
  end.
Definition list_bound_of (k : kind) (sp : span) (cs : list node) (os ls : list (option Z)) : option Z :=
  match k with KList => in_turn os | _ => bound_of k sp cs os ls end.
Fixpoint bounds (t : node) : option Z * option Z :=
  match t with
  | Node k sp cs =>
      let os := map (fun c => fst (bounds c)) cs in
      let ls := map (fun c => snd (bounds c)) cs in
      (bound_of k sp cs os ls, list_bound_of k sp cs os ls)
  end.
Definition bound (t : node) : option Z := fst (bounds t).

(** ** Running *)
Section Run.
Variable h : host.
Notation state := (state h).
Notation den := (den h).
Notation ctx := (ctx h).
Notation res := (completion (hV h) (hR h) * state)%type.

Definition code_fine (t : node) : Prop := exists n, bound t = Some n /\ 0 <= n.
Definition codes_fine (ts : list node) : Prop := Forall code_fine ts.
Definition Least (s : state) (j : Z) : Prop := j <= total (evs h s) /\ codes_fine (funs h s).
Definition R (j : Z) (r : res) : Prop := Least (snd r) j.
(** Meanings that change the total by [n] at least *)
Definition Ch (n : Z) (d : den) : Prop := forall j cx s, Least s j -> R (j + n) (d cx s).

Lemma Least_le : forall s j j', Least s j -> j' <= j -> Least s j'.
Proof. intros s j j' [H K] L. split; [lia|exact K]. Qed.
Lemma R_le : forall r j j', R j r -> j' <= j -> R j' r.
Proof. intros. eapply Least_le; eauto. Qed.
Lemma Ch_le : forall d n n', Ch n d -> n' <= n -> Ch n' d.
Proof. intros d n n' H L j cx s Hs. eapply R_le; [apply H; eassumption|lia]. Qed.
Lemma Least_hs : forall v s j, Least s j -> Least (set_hs h v s) j.
Proof. intros v s j [H K]. split; assumption. Qed.
Lemma Least_tmp : forall v s j, Least s j -> Least (set_tmp h v s) j.
Proof. intros v s j [H K]. split; assumption. Qed.
Lemma Least_tick : forall c s j, Least s j -> Least (tick h c s) j.
Proof. intros c s j [H K]. split; assumption. Qed.
Lemma Least_fun : forall t s j, code_fine t -> Least s j -> Least (add_fun h t s) j.
Proof. intros t s j Ht [H K]. split; [exact H|]. apply Forall_app. auto. Qed.
Lemma Least_log : forall sp e s j, Least s j -> Least (log h sp e s) (j + weigh sp e).
Proof.
  intros sp e s j [H K]. unfold log, weigh, nowhere. destruct ((lo sp =? 0)%N && (hi sp =? 0)%N).
  - split; [lia|exact K].
  - split; [|exact K]. cbn [evs total fold_right]. change (fold_right _ 0 (evs h s)) with (total (evs h s)). lia.
Qed.
Lemma R_bindr : forall (r : res) f j j', R j r -> j' <= j -> (forall v s, Least s j -> R j' (f v s)) -> R j' (bindr h r f).
Proof.
  intros [c s] f j j' H L K. unfold bindr. destruct c; cbn [fst snd] in *; try (eapply R_le; [exact H|exact L]). now apply K.
Qed.
Lemma R_bindv : forall (r : res) f j j', R j r -> j' <= j -> (forall v s, Least s j -> R j' (f v s)) -> R j' (bindv h r f).
Proof.
  intros r f j j' H L K. unfold bindv. eapply R_bindr; eauto. intros [v|r'] s Hs; [auto|]. eapply R_le; [exact Hs|exact L].
Qed.
Lemma codes_nth : forall cs j c, codes_fine cs -> nth_error cs j = Some c -> code_fine c.
Proof. intros cs j c H K. unfold codes_fine in H. rewrite Forall_forall in H. apply H. eapply nth_error_In; eauto. Qed.

Section Fuel.
Variable call : nat -> hX h -> hV h -> state -> res.
Hypothesis Hcall : forall f x v s j, Least s j -> R j (call f x v s).
Variable fuel : nat.

Notation Ch0 := (Ch 0).
Lemma at0 : forall d j cx s, Ch0 d -> Least s j -> R j (d cx s).
Proof. intros d j cx s H Hs. eapply R_le; [apply H; eassumption|lia]. Qed.

Lemma strat_least : forall n k self cs ds a s j,
  (self_closable k = true -> code_fine self) ->
  (forall i c, closable k i = true -> nth_error cs i = Some c -> code_fine c) ->
  Forall Ch0 ds -> Least s j -> R j (strat h call n k self cs ds a s).
Proof.
  induction n as [|n IH]; intros k self cs ds a s j Hself Hcs Hds Hs.
  { cbn [strat]. destruct a; exact Hs. }
  assert (Hans : forall kk an s1, Least s1 j ->
    R j (let (a', v) := h_resume h kk an (hs h s1) in strat h call n k self cs ds a' (set_hs h v s1))).
  { intros kk an s1 H1. destruct (h_resume h kk an (hs h s1)) as [a' v]. apply IH; auto; now apply Least_hs. }
  cbn [strat]. destruct a as [c|i m x v kk|i kk|f x v kk].
  - exact Hs.
  - destruct (nth_error ds i) as [d|] eqn:Hd; [|exact Hs].
    apply nth_error_In in Hd. rewrite Forall_forall in Hds. pose proof (at0 d j (mkCtx h x m [] v) s (Hds d Hd) Hs) as H1.
    destruct (d (mkCtx h x m [] v) s) as [c s1]. destruct (final h c); [exact H1|]. now apply Hans.
  - assert (Hgo : forall code, code_fine code -> R j
       (let (a', v) := h_resume h kk (AnsF (length (funs h s))) (hs h (add_fun h code s)) in
        strat h call n k self cs ds a' (set_hs h v (add_fun h code s)))).
    { intros code Hc. apply Hans. now apply Least_fun. }
    destruct i as [i|].
    + destruct (closable k i) eqn:Hj; [|exact Hs]. destruct (nth_error cs i) as [c|] eqn:Hc; [|exact Hs]. eauto.
    + destruct (self_closable k) eqn:Hk; [|exact Hs]. auto.
  - pose proof (Hcall f x v s j Hs) as H1. destruct (call f x v s) as [c s1]. destruct (final h c); [exact H1|]. now apply Hans.
Qed.
Lemma simple_least : forall a s j, Least s j -> R j (simple h call fuel a s).
Proof. intros a s j Hs. apply strat_least; auto; try discriminate. intros i c _ Hc. destruct i; discriminate. Qed.
Lemma getv_least : forall r s j, Least s j -> R j (getv h call fuel r s).
Proof.
  intros [v|r] s j Hs; [exact Hs|]. cbn [getv]. destruct (h_get h r (hs h s)) as [a v].
  apply (R_bindr _ _ j); [apply simple_least; now apply Least_hs|lia|]. intros [u|r'] s1 H1; exact H1.
Qed.
Lemma valued_least : forall n d, Ch n d -> Ch n (valued h call fuel d).
Proof.
  intros n d Hd j cx s Hs. unfold valued. apply (R_bindr _ _ (j + n)); [apply Hd; assumption|lia|]. intros. now apply getv_least.
Qed.
Lemma opaque_least : forall k sp cs ds cx s j,
  (self_closable k = true -> code_fine (Node k sp cs)) ->
  (forall i c, closable k i = true -> nth_error cs i = Some c -> code_fine c) ->
  Forall Ch0 ds -> Least s j -> R j (opaque h call fuel k sp cs ds cx s).
Proof.
  intros. unfold opaque. destruct (h_start h k _ _ _ _ _ _) as [a v]. apply strat_least; auto; now apply Least_hs.
Qed.
Lemma run_list_least : forall ds os n, Forall2 (fun d o => forall m, o = Some m -> Ch m d) ds os -> in_turn os = Some n ->
  Ch n (run_list h ds).
Proof.
  intros ds os n H. revert n. induction H as [|d o ds os Hd _ IH]; intros n E j cx s Hs.
  - inversion E. eapply Least_le; [exact Hs|lia].
  - cbn [in_turn] in E. destruct o as [a|]; [|discriminate]. destruct (in_turn os) as [b|]; [|discriminate]. inversion E; subst.
    cbn [run_list]. apply (R_bindr _ _ (j + a)); [now apply Hd|lia|]. intros v s1 H1.
    eapply R_le; [apply (IH b eq_refl); exact H1|lia].
Qed.
Lemma run_list_least0 : forall ds, Forall Ch0 ds -> Ch0 (run_list h ds).
Proof.
  induction ds as [|d ds IH]; intros Hds j cx s Hs; [eapply Least_le; [exact Hs|lia]|]. inversion Hds; subst.
  cbn [run_list]. apply (R_bindr _ _ j); [now apply at0|lia|]. intros. now apply IH.
Qed.
Lemma seq_vals_least : forall ds, Forall Ch0 ds -> Ch0 (seq_vals h call fuel ds).
Proof.
  induction ds as [|d ds IH]; intros Hds j cx s Hs; [eapply Least_le; [exact Hs|lia]|]. inversion Hds; subst.
  cbn [seq_vals]. destruct ds as [|d2 ds]; [now apply valued_least|].
  apply (R_bindr _ _ j); [apply at0; [now apply valued_least|assumption]|lia|]. intros. now apply IH.
Qed.
Lemma hoist_least : forall fs x s j, codes_fine (map snd fs) -> Least s j -> Least (hoist h fs x s) j.
Proof.
  induction fs as [|[n c] fs IH]; intros x s j Hf Hs; [exact Hs|]. inversion Hf; subst.
  cbn [hoist]. apply IH; [assumption|]. apply Least_hs. now apply Least_fun.
Qed.
Lemma enter_block_least : forall ds fs x s j, codes_fine (map snd fs) -> Least s j -> Least (snd (enter_block h ds fs x s)) j.
Proof.
  intros ds fs x s j Hf Hs. unfold enter_block. destruct ds as [|p ds]; [now apply hoist_least|].
  destruct (h_scope h [] (p :: ds) x (hs h s)) as [x1 v]. apply hoist_least; auto; now apply Least_hs.
Qed.
Lemma enter_fn_least : forall a b x s j, Least s j -> Least (snd (enter_fn h a b x s)) j.
Proof. intros. unfold enter_fn. destruct (h_scope _ _ _ _ _) as [x1 v]. now apply Least_hs. Qed.
Lemma finish_least : forall r j, R j r -> R j (finish_fn h r).
Proof. intros [c s] j H. destruct c; exact H. Qed.
Lemma sem_fn_least : forall sp p b db n,
  match p with Some dp => Ch0 dp | None => True end -> Ch n db ->
  0 <= weigh sp (EFn sp) + (if is_expr b then weigh (nspan b) (EStmt (nspan b)) else 0) + n ->
  Ch0 (sem_fn h call fuel sp p b db).
Proof.
  intros sp p b db n Hp Hb Hn j cx s Hs. unfold sem_fn.
  pose proof (enter_fn_least (directives b) (var_names b) (cx_sc h cx) s j Hs) as H1.
  destruct (enter_fn h _ _ _ s) as [x s1]. cbn [snd] in H1.
  apply (R_bindr _ _ j).
  { destruct p; [now apply at0|exact H1]. }
  { lia. }
  intros v s2 H2. pose proof (Least_log sp (EFn sp) s2 j H2) as H3. destruct (is_expr b); apply finish_least.
  - pose proof (Least_log (nspan b) (EStmt (nspan b)) _ _ H3) as H4.
    eapply R_bindv; [apply (valued_least n); eassumption|lia|]. intros u s3 H5. eapply Least_le; [exact H5|lia].
  - eapply R_le; [apply Hb; exact H3|lia].
Qed.

Lemma loop_least : forall n test update body ls per,
  (forall d, test = Some d -> Ch0 d) -> (forall d, update = Some d -> Ch0 d) -> Ch0 body ->
  (forall x s j, Least s j -> Least (snd (per x s)) j) ->
  forall cx s j, Least s j -> R j (loop h call fuel n test update body ls cx per s).
Proof.
  induction n as [|n IH]; intros test update body ls per Ht Hu Hb Hp cx s j Hs; [exact Hs|].
  cbn [loop]. apply (R_bindv _ _ j).
  { destruct test as [d|]; [apply at0; [apply valued_least; auto|exact Hs]|exact Hs]. }
  { lia. }
  intros v s1 H1. destruct (match test with Some _ => h_truthy h v | None => true end); [|exact H1].
  pose proof (at0 body j (rd h cx) s1 Hb H1) as H2. destruct (body (rd h cx) s1) as [c s2].
  destruct (goes_on h ls c); [|exact H2].
  pose proof (Hp (cx_sc h cx) s2 j H2) as H3. destruct (per (cx_sc h cx) s2) as [x s3].
  apply (R_bindr _ _ j); [destruct update as [d|]; [apply at0; [apply valued_least; auto|exact H3]|exact H3]|lia|].
  intros. now apply IH.
Qed.
Lemma do_loop_least : forall n test body ls, Ch0 test -> Ch0 body ->
  forall cx s j, Least s j -> R j (do_loop h call fuel n test body ls cx s).
Proof.
  induction n as [|n IH]; intros test body ls Ht Hb cx s j Hs; [exact Hs|].
  cbn [do_loop]. pose proof (at0 body j (rd h cx) s Hb Hs) as H2. destruct (body (rd h cx) s) as [c s2].
  destruct (goes_on h ls c); [|exact H2].
  apply (R_bindv _ _ j); [apply at0; [now apply valued_least|exact H2]|lia|]. intros v s3 H3. destruct (h_truthy h v); [|exact H3]. now apply IH.
Qed.
Lemma opt_least : forall t d d', Ch0 d -> opt h t d = Some d' -> Ch0 d'.
Proof. intros t d d' H K. unfold opt in K. destruct (is_none t); [discriminate|]. now inversion K; subst. Qed.
Lemma copy_least : forall x s j, Least s j -> Least (snd (copy_scope h x s)) j.
Proof. intros x s j H. unfold copy_scope. destruct (h_copy _ _ _). now apply Least_hs. Qed.
Lemma sem_for_least : forall n i t u di dt du db, Ch n di -> Ch0 dt -> Ch0 du -> Ch0 db ->
  Ch n (sem_for h call fuel i t u di dt du db).
Proof.
  intros n i t u di dt du db Hi Ht Hu Hb j cx s Hs. unfold sem_for.
  pose proof (enter_block_least (lex_decl i) [] (cx_sc h cx) s j ltac:(constructor) Hs) as H1.
  destruct (enter_block h (lex_decl i) [] (cx_sc h cx) s) as [x s1]. cbn [snd] in H1.
  apply (R_bindr _ _ (j + n)); [destruct (is_expr i); [now apply valued_least|now apply Hi]|lia|].
  intros v s2 H2.
  set (per := match lex_decl i with [] => fun x s => (x, s) | _ => copy_scope h end).
  assert (Hper : forall x s j, Least s j -> Least (snd (per x s)) j).
  { intros x0 s0 j0 H0. unfold per. destruct (lex_decl i); [exact H0|now apply copy_least]. }
  pose proof (Hper x s2 _ H2) as H3. destruct (per x s2) as [x2 s3].
  apply loop_least; auto; intros d Hd; [exact (opt_least _ _ _ Ht Hd)|exact (opt_least _ _ _ Hu Hd)].
Qed.
Lemma find_case_least : forall ds cx i s j, Forall Ch0 ds -> Least s j -> Least (snd (find_case h ds cx i s)) j.
Proof.
  induction ds as [|d ds IH]; intros cx i s j Hds Hs; [exact Hs|]. inversion Hds; subst.
  cbn [find_case]. pose proof (at0 d j (in_mode h MMatch (cx_in h cx) cx) s H1 Hs) as K.
  destruct (d _ s) as [[] s1]; try exact K. now apply IH.
Qed.
Lemma sem_cases_least : forall cs ds, Forall Ch0 ds -> Ch0 (sem_cases h cs ds).
Proof.
  intros cs ds Hds j cx s Hs. unfold sem_cases. pose proof (find_case_least ds cx 0 s j Hds Hs) as H1.
  destruct (find_case h ds cx 0 s) as [[c|hit] s1]; [eapply R_le; [exact H1|lia]|]. cbn [snd] in H1.
  destruct (match hit with Some i => Some i | None => default_index cs 0 end) as [i|]; [|eapply R_le; [exact H1|lia]].
  apply run_list_least0; [|exact H1]. now apply Forall_skipn.
Qed.
Lemma sem_switch_least : forall n cases dd dc, codes_fine (map snd (fns_of (flat_map case_stmts (case_list cases)))) ->
  Ch n dd -> Ch0 dc -> Ch n (sem_switch h call fuel cases dd dc).
Proof.
  intros n cases dd dc Hf Hd Hc j cx s Hs. unfold sem_switch. apply (R_bindv _ _ (j + n)); [now apply valued_least|lia|].
  intros v s1 H1. pose proof (enter_block_least (lex_names (flat_map case_stmts (case_list cases))) _ (cx_sc h cx) s1 _ Hf H1) as H2.
  destruct (enter_block h _ _ _ s1) as [x s2]. pose proof (at0 dc _ (mkCtx h x MSwitch [] v) s2 Hc H2) as H3.
  destruct (dc _ s2) as [c s3]. exact H3.
Qed.
Lemma sem_case_least : forall sp t dt db n, Ch0 dt -> Ch n db -> 0 <= weigh sp (ECase sp) + n ->
  Ch0 (sem_case h call fuel sp t dt db).
Proof.
  intros sp t dt db n Ht Hb Hn j cx s Hs. assert (Z0 : R (j + 0) (stuck h s)) by (eapply R_le; [exact Hs|lia]).
  unfold sem_case. destruct (cx_mode h cx); try exact Z0.
  - destruct (is_none t); [exact Z0|]. apply (R_bindv _ _ (j + 0)); [now apply valued_least|lia|].
    intros v s1 H1. destruct (h_same h _ v); exact H1.
  - eapply R_le; [apply Hb, (Least_log sp (ECase sp) s j Hs)|lia].
Qed.
Lemma sem_try_least : forall hd fin db dh df b c f, Ch b db -> Ch c dh -> Ch f df ->
  Ch (Z.min (Z.min b (b + c)) (Z.min b (b + c) + f)) (sem_try h hd fin db dh df).
Proof.
  intros hd fin db dh df b c f Hb Hh Hf j cx s Hs. unfold sem_try.
  set (r := match db (rd h cx) s with
            | (CThrow v, s1) => if is_none hd then (CThrow v, s1) else dh (in_mode h (MBind VLet) v cx) s1
            | r => r end).
  assert (Hr : R (j + Z.min b (b + c)) r).
  { unfold r. pose proof (Hb j (rd h cx) s Hs) as H1.
    assert (G : R (j + Z.min b (b + c)) (db (rd h cx) s)) by (eapply R_le; [exact H1|lia]).
    destruct (db (rd h cx) s) as [[] s1]; try exact G.
    destruct (is_none hd); [exact G|]. eapply R_le; [apply Hh; exact H1|lia]. }
  destruct (is_none fin || final h (fst r)); [eapply R_le; [exact Hr|lia]|].
  apply (R_bindr _ _ (j + Z.min b (b + c) + f)); [apply Hf; exact Hr|lia|]. intros v s1 H1. eapply Least_le; [exact H1|lia].
Qed.
Lemma sem_declarator_least : forall sp i dn di n m, Ch n dn -> Ch m di ->
  Ch (if is_none i then Z.min 0 n else Z.min (weigh sp (EInit sp) + m) (weigh sp (EInit sp) + m + n))
    (sem_declarator h call fuel sp i dn di).
Proof.
  intros sp i dn di n m Hn Hd j cx s Hs. unfold sem_declarator. destruct (is_none i).
  - assert (Z0 : forall c, R (j + Z.min 0 n) (c, s)) by (intros c; eapply Least_le; [exact Hs|lia]).
    assert (Z1 : forall cx, R (j + Z.min 0 n) (dn cx s)) by (intros c; eapply R_le; [apply Hn; exact Hs|lia]).
    destruct (cx_mode h cx) as [| |[]| | | | |]; try apply Z0; apply Z1.
  - eapply R_bindv; [apply (valued_least m); [assumption|apply Least_log; exact Hs]|lia|].
    intros v s1 H1. eapply R_le; [apply Hn; exact H1|lia].
Qed.
Lemma sem_logical_least : forall op sp dl dr l r, Ch l dl -> Ch r dr ->
  Ch (Z.min (weigh sp (EOper sp false) + l) (weigh sp (EOper sp false) + l + weigh sp (EOper sp true) + r))
    (sem_logical h call fuel op sp dl dr).
Proof.
  intros op sp dl dr l r Hl Hr j cx s Hs. unfold sem_logical.
  eapply R_bindv; [apply (valued_least l); [assumption|apply Least_log; exact Hs]|lia|].
  intros v s1 H1. destruct (stop_left h op v); [eapply Least_le; [exact H1|lia]|].
  eapply R_le; [apply (valued_least r); [assumption|apply Least_log; exact H1]|lia].
Qed.
Lemma sem_cond_least : forall sp dt dc da t c a, Ch t dt -> Ch c dc -> Ch a da ->
  Ch (Z.min t (Z.min (t + weigh sp (ECond sp false) + c) (t + weigh sp (ECond sp true) + a)))
    (sem_cond h call fuel sp dt dc da).
Proof.
  intros sp dt dc da t c a Ht Hc Ha j cx s Hs. unfold sem_cond.
  eapply R_bindv; [apply (valued_least t); [assumption|exact Hs]|lia|].
  intros v s1 H1. destruct (h_truthy h v).
  - eapply R_le; [apply (valued_least c); [assumption|apply Least_log; exact H1]|lia].
  - eapply R_le; [apply (valued_least a); [assumption|apply Least_log; exact H1]|lia].
Qed.
Lemma sem_if_least : forall sp x dt dc da t c a, Ch t dt -> Ch c dc -> (is_none x = false -> Ch a da) -> (is_none x = true -> a <= 0) ->
  Ch (Z.min t (Z.min (t + weigh sp (EArm sp false) + c) (t + weigh sp (EArm sp true) + a)))
    (sem_if h call fuel sp x dt dc da).
Proof.
  intros sp x dt dc da t c a Ht Hc Ha Hn j cx s Hs. unfold sem_if.
  eapply R_bindv; [apply (valued_least t); [assumption|exact Hs]|lia|].
  intros v s1 H1. destruct (h_truthy h v).
  - eapply R_le; [apply Hc, Least_log; exact H1|lia].
  - destruct (is_none x).
    + eapply Least_le; [apply Least_log; exact H1|]. specialize (Hn eq_refl). lia.
    + eapply R_le; [apply (Ha eq_refl), Least_log; exact H1|lia].
Qed.
Lemma sem_assign_least : forall sp dl dr, Ch0 dl -> Ch0 dr ->
  Ch (Z.min 0 (weigh sp (EDefault sp))) (sem_assign_pat h call fuel sp dl dr).
Proof.
  intros sp dl dr Hl Hr j cx s Hs. unfold sem_assign_pat. destruct (h_is_undef h (cx_in h cx)).
  - eapply R_bindv; [apply (valued_least 0); [assumption|apply Least_log; exact Hs]|lia|].
    intros v s1 H1. eapply R_le; [apply Hl; exact H1|lia].
  - eapply R_le; [apply Hl; exact Hs|lia].
Qed.
Lemma sem_labeled_least : forall l db n, Ch n db -> Ch (Z.min 0 n) (sem_labeled h l db).
Proof.
  intros l db n Hd j cx s Hs. unfold sem_labeled. destruct (label_of l) as [x|]; [|eapply Least_le; [exact Hs|lia]].
  pose proof (Hd j (mkCtx h (cx_sc h cx) MRead (x :: cx_labs h cx) (h_undef h)) s Hs) as H.
  destruct (db _ s) as [c s1]. assert (G : Least s1 (j + Z.min 0 n)) by (eapply Least_le; [exact H|lia]).
  destruct c as [| |[y|]| | | | |]; exact G.
Qed.
Lemma sem_with_least : forall dobj db o b, Ch o dobj -> Ch b db -> Ch (Z.min o (o + b)) (sem_with h call fuel dobj db).
Proof.
  intros dobj db o b Ho Hb j cx s Hs. unfold sem_with.
  eapply R_bindv; [apply (valued_least o); [assumption|exact Hs]|lia|].
  intros v s1 H1. destruct (h_with h v (cx_sc h cx) (hs h s1)) as [[ex|x] u].
  - eapply Least_le; [apply Least_hs; exact H1|lia].
  - eapply R_le; [apply Hb, Least_hs; exact H1|lia].
Qed.

Notation evl := (ev h call fuel).
Definition Both (t : node) : Prop :=
  (forall n, bound t = Some n -> Ch n (evl t)) /\
  (forall n, snd (bounds t) = Some n -> forall j cx s, decl_mode h cx -> Least s j -> R (j + n) (evl t cx s)).

Lemma kids_of : forall cs, Forall Both cs ->
  Forall2 (fun d o => forall m, o = Some m -> Ch m d) (map evl cs) (map (fun c => fst (bounds c)) cs).
Proof. intros cs H. induction H as [|c cs [Hc _] _ IH]; constructor; [exact Hc|exact IH]. Qed.
Lemma steady_kids : forall cs, Forall Both cs -> steady (map (fun c => fst (bounds c)) cs) = true ->
  Forall Ch0 (map evl cs) /\ codes_fine cs.
Proof.
  intros cs H. induction H as [|c cs [Hc _] _ IH]; intros E; [split; constructor|].
  cbn [map steady forallb] in E. apply andb_true_iff in E as [E1 E2]. destruct (IH E2) as [I1 I2].
  unfold ge0 in E1. destruct (fst (bounds c)) as [n|] eqn:En; [|discriminate]. apply Z.leb_le in E1.
  split; constructor; auto.
  - apply (Ch_le _ n); [now apply Hc|assumption].
  - exists n. split; assumption.
Qed.
Lemma none_bound : forall t n, is_none t = true -> bound t = Some n -> n = 0.
Proof.
  intros [k sp cs] n H E. unfold is_none in H. cbn [nkind] in H. destruct k; try discriminate.
  unfold bound in E. cbn [bounds fst bound_of] in E. unfold at_least in E. destruct (steady _); [now inversion E|discriminate].
Qed.
Lemma turn_some : forall cs n, in_turn (map (fun c => fst (bounds c)) cs) = Some n -> Forall (fun c => exists m, bound c = Some m) cs.
Proof.
  induction cs as [|c cs IH]; intros n E; [constructor|]. cbn [map in_turn] in E.
  destruct (fst (bounds c)) as [a|] eqn:Ea; [|discriminate]. destruct (in_turn _) as [b|]; [|discriminate].
  constructor; [exists a; exact Ea|]. now apply (IH b).
Qed.
Lemma steady_fine : forall cs, steady (map (fun c => fst (bounds c)) cs) = true -> codes_fine cs.
Proof.
  induction cs as [|c cs IH]; intros E; [constructor|]. cbn [map steady forallb] in E. apply andb_true_iff in E as [E1 E2].
  constructor; [|now apply IH]. unfold ge0 in E1. destruct (fst (bounds c)) as [n|] eqn:En; [|discriminate].
  apply Z.leb_le in E1. exists n. split; assumption.
Qed.
Lemma decl_fine : forall sp id fn n, bound (Node KFnDecl sp [id; fn]) = Some n -> code_fine fn.
Proof.
  intros sp id fn n E. unfold bound in E. cbn [bounds fst bound_of] in E. unfold at_least in E.
  destruct (steady _) eqn:S; [|discriminate]. apply (steady_fine [id; fn]) in S. inversion S as [|? ? _ S2]; subst. now inversion S2.
Qed.
Lemma fn_fine : forall t n, bound t = Some n -> codes_fine (map snd (fn_of t)).
Proof.
  intros [k sp cs] n E. unfold fn_of.
  assert (G : forall d m, bound d = Some m ->
    codes_fine (map snd match d with
                   | Node KFnDecl _ [id; fn] => match nkind id with KIdent x => [(x, fn)] | _ => [] end
                   | _ => [] end)).
  { intros [k2 sp2 cs2] m E2. destruct k2; try (apply Forall_nil).
    destruct cs2 as [|id [|fn [|]]]; try (apply Forall_nil).
    destruct (nkind id); try (apply Forall_nil). constructor; [|constructor]. eapply decl_fine; eauto. }
  destruct k; try (apply Forall_nil); destruct cs as [|d [|]]; try (apply Forall_nil); cbn [decl_view].
  - destruct d as [k2 sp2 cs2]. destruct k2; try (apply Forall_nil). destruct cs2 as [|d2 [|]]; try (apply Forall_nil).
    unfold bound in E. cbn [bounds fst bound_of map] in E. destruct (fst (bounds d2)) as [m|] eqn:E2; [|discriminate].
    apply (G d2 m E2).
  - destruct d as [k2 sp2 cs2]. destruct k2; try (apply Forall_nil). destruct cs2 as [|d2 [|]]; apply Forall_nil.
  - apply (G d n). exact E.
Qed.
Lemma fns_fine : forall cs n, in_turn (map (fun c => fst (bounds c)) cs) = Some n -> codes_fine (map snd (fns_of cs)).
Proof.
  intros cs n E. apply turn_some in E. induction E as [|c cs (m & Hc) _ IH]; [constructor|].
  rewrite fns_of_cons. apply Forall_app. split; [now apply (fn_fine c m)|exact IH].
Qed.
Lemma case_fine : forall t, code_fine t -> codes_fine (map snd (fns_of (case_stmts t))).
Proof.
  intros [k sp cs] (n & E & _). destruct k; try (apply Forall_nil).
  destruct cs as [|c1 [|[k2 sp2 ss] [|]]]; try (apply Forall_nil); destruct k2; try (apply Forall_nil).
  unfold bound in E. cbn [bounds fst bound_of map] in E.
  destruct (in_turn (map (fun c => fst (bounds c)) ss)) as [m|] eqn:Em.
  - exact (fns_fine ss m Em).
  - exfalso. cbn in E. rewrite andb_false_r in E. discriminate.
Qed.
Lemma cases_fine : forall t, code_fine t -> codes_fine (map snd (fns_of (flat_map case_stmts (case_list t)))).
Proof.
  intros [k sp cs] (n & E & _). destruct k; try (apply Forall_nil). cbn [case_list].
  assert (C : codes_fine cs).
  { unfold bound in E. cbn [bounds fst bound_of] in E. unfold at_least in E. destruct (steady _) eqn:S; [|discriminate].
    now apply steady_fine. }
  clear E. induction C as [|c cs Hc _ IH]; [constructor|]. cbn [flat_map]. rewrite fns_app. apply Forall_app.
  split; [now apply case_fine|exact IH].
Qed.
Lemma stuck_at0 : forall n (d : den) b, at_least b 0 = Some n -> (forall cx s, snd (d cx s) = s) -> Ch n d.
Proof.
  intros n d b E H j cx s Hs. unfold at_least in E. destruct b; [|discriminate]. inversion E; subst.
  unfold R. rewrite H. eapply Least_le; [exact Hs|lia].
Qed.
Lemma opaque_node : forall k sp cs n, Forall Both cs -> self_closable k = false ->
  at_least (steady (map (fun c => fst (bounds c)) cs)) 0 = Some n -> Ch n (opaque h call fuel k sp cs (map evl cs)).
Proof.
  intros k sp cs n H Hk E j cx s Hs. unfold at_least in E. destruct (steady _) eqn:S; [|discriminate]. inversion E; subst.
  destruct (steady_kids cs H S) as [K1 K2]. eapply R_le; [apply (opaque_least k sp cs (map evl cs) cx s j)|lia]; auto.
  - congruence.
  - intros i c _ Hc. eapply codes_nth; eauto.
Qed.
Ltac kids := repeat match goal with
  | H : Forall Both (_ :: _) |- _ => let a := fresh "B" in pose proof (Forall_inv H) as [a _]; apply Forall_inv_tail in H; unfold bound in a
  end.
Ltac stk E := cbn [map] in E; repeat match type of E with match fst (bounds ?c) with _ => _ end = _ => destruct (fst (bounds c)) end; lazymatch goal with |- Ch ?n (sem h call fuel ?k ?sp ?cs _) =>
  exact (stuck_at0 n (sem h call fuel k sp cs (map evl cs)) _ E (fun cx s => eq_refl)) end.
(** The case of a child without a bound *)
Ltac none E := exfalso; cbn in E; rewrite ?andb_false_r in E; discriminate E.
Ltac cut_at E := unfold at_least in E; match type of E with (if ?b then _ else _) = _ => destruct b eqn:?; [|discriminate E] end; inversion E; subst; clear E.

Lemma some_at0 : forall c, (forall n, fst (bounds c) = Some n -> Ch n (evl c)) -> ge0 (fst (bounds c)) = true -> Ch0 (evl c).
Proof.
  intros c H G. unfold ge0 in G. destruct (fst (bounds c)) as [n|]; [|discriminate]. apply Z.leb_le in G.
  apply (Ch_le _ n); [now apply H|assumption].
Qed.
Lemma some_fine : forall c, ge0 (fst (bounds c)) = true -> code_fine c.
Proof.
  intros c G. unfold ge0 in G. destruct (fst (bounds c)) as [n|] eqn:En; [|discriminate]. apply Z.leb_le in G.
  exists n. split; assumption.
Qed.

Lemma stmts_least : forall cs n, Forall Both cs -> in_turn (map (fun c => fst (bounds c)) cs) = Some n ->
  Ch n (sem_stmts h cs (map evl cs)).
Proof.
  intros cs n H E j cx s Hs. unfold sem_stmts.
  pose proof (enter_block_least (lex_names cs) (fns_of cs) (cx_sc h cx) s j (fns_fine cs n E) Hs) as H1.
  destruct (enter_block h (lex_names cs) (fns_of cs) (cx_sc h cx) s) as [x s1].
  destruct (cx_mode h cx); (apply (run_list_least (map evl cs) _ n (kids_of cs H) E); first [exact H1|exact Hs]).
Qed.
Lemma iter_least : forall k sp cs n, k = KForIn \/ k = KForOf -> Forall Both cs ->
  at_least (steady (map (fun c => fst (bounds c)) cs)) (weigh sp (EStmt sp)) = Some n ->
  Ch n (sem h call fuel k sp cs (map evl cs)).
Proof.
  intros k sp cs n Hk H E. cut_at E. destruct (steady_kids _ H Heqb) as [K1 K2]. intros j cx s Hs.
  assert (G : R (j + weigh sp (EStmt sp)) (opaque h call fuel k sp cs (iter_dens h (map evl cs)) cx (log h sp (EStmt sp) s))).
  { apply opaque_least.
    - destruct Hk; subst k; discriminate.
    - intros i c _ Hc. eapply codes_nth; eauto.
    - destruct cs as [|c1 [|c2 [|c3 [|? ?]]]]; try constructor.
      + now inversion K1.
      + inversion K1 as [|? ? A1 K3]; subst. inversion K3 as [|? ? A2 K4]; subst. inversion K4 as [|? ? A3 _]; subst.
        constructor; [exact A2|]. constructor; [|constructor]. intros j0 cx0 s0 H0. now apply A3.
    - now apply Least_log. }
  destruct Hk; subst k; exact G.
Qed.
Lemma field_least : forall k sp cs n, k = KClassProp \/ k = KPrivateProp -> Forall Both cs ->
  bound_of k sp cs (map (fun c => fst (bounds c)) cs) (map (fun c => snd (bounds c)) cs) = Some n ->
  Ch n (sem h call fuel k sp cs (map evl cs)).
Proof.
  intros k sp cs n Hk H E.
  assert (E' : exists b, at_least (steady (map (fun c => fst (bounds c)) cs) && b) 0 = Some n /\
    (b = true -> Forall Ch0 (map evl cs) -> Forall Ch0 (field_dens h call fuel sp (map evl cs)))).
  { destruct cs as [|c1 [|c2 cs]].
    - exists true. split; [destruct Hk; subst k; exact E|]. auto.
    - exists true. rewrite andb_true_r. split; [destruct Hk; subst k; exact E|]. auto.
    - exists (0 <=? weigh sp (EInit sp)). split; [destruct Hk; subst k; exact E|].
      intros L F. apply Z.leb_le in L. cbn [map field_dens] in *. inversion F as [|? ? A1 F2]; subst. inversion F2 as [|? ? A2 F3]; subst.
      constructor; [assumption|]. constructor; [|assumption]. intros j cx s Hs. unfold field_init.
      eapply R_le; [apply (valued_least 0); [assumption|apply Least_log; exact Hs]|lia]. }
  destruct E' as (b & E' & F). cut_at E'. apply andb_true_iff in Heqb0 as [S Sb]. destruct (steady_kids _ H S) as [K1 K2].
  intros j cx s Hs.
  assert (G : R (j + 0) (opaque h call fuel k sp cs (field_dens h call fuel sp (map evl cs)) cx s)).
  { eapply R_le; [apply (opaque_least k sp cs _ cx s j)|lia]; auto.
    - destruct Hk; subst k; discriminate.
    - intros i c _ Hc. eapply codes_nth; eauto. }
  destruct Hk; subst k; exact G.
Qed.

Lemma node_least : forall k sp cs, Forall Both cs ->
  forall n, bound (Node k sp cs) = Some n -> Ch n (evl (Node k sp cs)).
Proof.
  intros k sp cs H n E. unfold bound in E. cbn [bounds fst] in E. cbn [ev].
  set (ls := map (fun c => snd (bounds c)) cs) in *.
  assert (ST : forall m d, Ch m d -> Ch (weigh sp (EStmt sp) + m) (fun cx s => d cx (log h sp (EStmt sp) s))).
  { intros m d Hd j cx s Hs. eapply R_le; [apply Hd, Least_log; exact Hs|lia]. }
  destruct k; cbn [bound_of] in E;
    try (lazymatch goal with |- Ch n (sem h call fuel ?k sp cs _) => exact (opaque_node k sp cs n H eq_refl E) end);
    try (lazymatch goal with |- Ch n (sem h call fuel ?k sp cs _) =>
           exact (stuck_at0 n (sem h call fuel k sp cs (map evl cs)) _ E (fun cx s => eq_refl)) end).
  - destruct cs as [|c1 [|? ?]]; [stk E| |stk E]. kids. intros j cx s Hs. cbn [sem map].
    pose proof (enter_fn_least [] (var_names c1) (cx_sc h cx) s j Hs) as H1. destruct (enter_fn h _ _ _ s) as [x s1].
    now apply B.
  - destruct cs as [|c1 [|? ?]]; [stk E| |stk E]. kids. intros j cx s Hs. cbn [sem map].
    pose proof (enter_fn_least (prologue (nkids c1)) (var_names c1) (cx_sc h cx) s j Hs) as H1. destruct (enter_fn h _ _ _ s) as [x s1].
    now apply B.
  - intros j cx s Hs. cbn [sem]. now apply stmts_least.
  - destruct cs as [|c1 [|? ?]]; [stk E| |stk E]. kids. intros j cx s Hs. cbn [sem map]. now apply B.
  - destruct cs as [|c1 [|? ?]]; [stk E| |stk E]. kids. cbn [map] in E.
    destruct (fst (bounds c1)) as [m|] eqn:Em; [|none E]. inversion E; subst. apply ST. now apply B.
  - destruct cs as [|c1 [|? ?]]; [stk E| |stk E]. kids. intros j cx s Hs. cbn [sem map].
    apply (R_bindr _ _ (j + n)); [now apply B|lia|auto].
  - intros j cx s Hs. cbn [sem]. now apply stmts_least.
  - destruct cs as [|c1 [|? ?]]; [stk E| |stk E]. kids. intros j cx s Hs. cbn [sem map]. now apply B.
  - cut_at E. destruct (steady_kids cs H Heqb) as [K1 K2]. intros j cx s Hs. cbn [sem].
    assert (Op : R (j + 0) (opaque h call fuel KList sp cs (map evl cs) cx s)) by (apply (opaque_node KList sp cs 0 H eq_refl); [now rewrite Heqb|exact Hs]).
    destruct (cx_mode h cx); try exact Op.
    + now apply run_list_least0.
    + now apply run_list_least0.
    + now apply sem_cases_least.
  - destruct cs as [|c1 [|? ?]]; [stk E| |stk E]. kids. intros j cx s Hs. cbn [sem map]. now apply B.
  - destruct cs as [|c1 [|? ?]]; [stk E| |stk E]. kids. cbn [map] in E.
    destruct (fst (bounds c1)) as [m|] eqn:Em; [|none E]. inversion E; subst. intros j cx s Hs. cbn [sem map].
    eapply R_bindr; [apply (valued_least m); [now apply B|apply Least_log; exact Hs]|lia|].
    intros v s1 H1. eapply Least_le; [exact H1|lia].
  - destruct cs as [|c1 [|? ?]]; [stk E| |stk E]. cbn [map] in E. cut_at E. intros j cx s Hs. now apply Least_log.
  - destruct cs as [|c1 [|? ?]]; [stk E| |stk E]. cbn [map] in E. cut_at E. intros j cx s Hs. now apply Least_log.
  - destruct cs as [|c1 [|? ?]]; [stk E| |stk E]. kids. cbn [map] in E.
    destruct (fst (bounds c1)) as [m|] eqn:Em; [|none E]. inversion E; subst. intros j cx s Hs. cbn [sem map].
    destruct (is_none c1); [eapply Least_le; [apply Least_log; exact Hs|lia]|].
    eapply R_bindv; [apply (valued_least m); [now apply B|apply Least_log; exact Hs]|lia|].
    intros v s1 H1. eapply Least_le; [exact H1|lia].
  - destruct cs as [|c1 [|? ?]]; [stk E| |stk E]. kids. cbn [map] in E.
    destruct (fst (bounds c1)) as [m|] eqn:Em; [|none E]. inversion E; subst. intros j cx s Hs. cbn [sem map].
    eapply R_bindv; [apply (valued_least m); [now apply B|apply Least_log; exact Hs]|lia|].
    intros v s1 H1. eapply Least_le; [exact H1|lia].
  - destruct cs as [|c1 [|c2 [|c3 [|? ?]]]]; [stk E|stk E|stk E| |stk E]. kids. cbn [map] in E.
    destruct (fst (bounds c1)) as [b|] eqn:E1; [|none E]. destruct (fst (bounds c2)) as [c|] eqn:E2; [|none E].
    destruct (fst (bounds c3)) as [f|] eqn:E3; [|none E]. inversion E; subst. intros j cx s Hs. cbn [sem map].
    eapply R_le; [apply (sem_try_least c2 c3 (evl c1) (evl c2) (evl c3) b c f); [now apply B|now apply B0|now apply B1|apply Least_log; exact Hs]|lia].
  - destruct cs as [|c1 [|c2 [|? ?]]]; [stk E|stk E| |stk E]. kids. cbn [map] in E.
    destruct (fst (bounds c2)) as [m|] eqn:E2; [|none E]. cut_at E. intros j cx s Hs. cbn [sem map].
    eapply R_le; [apply (sem_labeled_least c1 (evl c2) m); [now apply B0|apply Least_log; exact Hs]|lia].
  - destruct cs as [|c1 [|c2 [|c3 [|c4 [|? ?]]]]]; [stk E|stk E|stk E|stk E| |stk E]. kids. cbn [map] in E.
    destruct (fst (bounds c1)) as [i|] eqn:E1; [|none E]. cut_at E. cbn [steady forallb] in Heqb.
    rewrite !andb_true_iff in Heqb. destruct Heqb as (G2 & G3 & G4 & _).
    intros j cx s Hs. cbn [sem map].
    eapply R_le; [apply (sem_for_least i c1 c2 c3 (evl c1) (evl c2) (evl c3) (evl c4));
      [now apply B|now apply some_at0|now apply some_at0|now apply some_at0|apply Least_log; exact Hs]|lia].
  - apply (iter_least KForIn sp cs n); auto.
  - apply (iter_least KForOf sp cs n); auto.
  - destruct cs as [|c1 [|c2 [|? ?]]]; [stk E|stk E| |stk E]. kids. cbn [map] in E. cut_at E. cbn [steady forallb] in Heqb.
    rewrite !andb_true_iff in Heqb. destruct Heqb as (G1 & G2 & _). intros j cx s Hs. cbn [sem map].
    apply loop_least; [|discriminate|now apply some_at0|auto|now apply Least_log].
    intros d Hd. inversion Hd; subst. now apply some_at0.
  - destruct cs as [|c1 [|c2 [|? ?]]]; [stk E|stk E| |stk E]. kids. cbn [map] in E. cut_at E. cbn [steady forallb] in Heqb.
    rewrite !andb_true_iff in Heqb. destruct Heqb as (G1 & G2 & _). intros j cx s Hs. cbn [sem map].
    apply do_loop_least; [now apply some_at0|now apply some_at0|now apply Least_log].
  - destruct cs as [|c1 [|c2 [|c3 [|? ?]]]]; [stk E|stk E|stk E| |stk E]. kids. cbn [map] in E.
    destruct (fst (bounds c1)) as [t|] eqn:E1; [|none E]. destruct (fst (bounds c2)) as [c|] eqn:E2; [|none E].
    destruct (fst (bounds c3)) as [a|] eqn:E3; [|none E]. inversion E; subst. intros j cx s Hs. cbn [sem map].
    eapply R_le; [apply (sem_if_least sp c3 (evl c1) (evl c2) (evl c3) t c a);
      [now apply B|now apply B0|intros _; now apply B1|intros Hn; now rewrite (none_bound c3 a Hn E3)|apply Least_log; exact Hs]|lia].
  - destruct cs as [|c1 [|c2 [|? ?]]]; [stk E|stk E| |stk E]. kids. cbn [map] in E.
    destruct (fst (bounds c1)) as [d|] eqn:E1; [|none E]. cut_at E. intros j cx s Hs. cbn [sem map].
    eapply R_le; [apply (sem_switch_least d c2 (evl c1) (evl c2));
      [apply cases_fine; now apply some_fine|now apply B|now apply some_at0|apply Least_log; exact Hs]|lia].
  - destruct cs as [|c1 [|c2 [|? ?]]]; [stk E|stk E| |stk E]. kids. cbn [map] in E.
    destruct (fst (bounds c2)) as [m|] eqn:E2; [|none E]. cut_at E. apply andb_true_iff in Heqb as [G1 G2]. apply Z.leb_le in G2.
    apply (sem_case_least sp c1 (evl c1) (evl c2) m); [now apply some_at0|now apply B0|lia].
  - destruct cs as [|c1 [|c2 [|? ?]]]; [stk E|stk E| |stk E]. kids. cbn [map] in E.
    destruct (fst (bounds c1)) as [o|] eqn:E1; [|none E]. destruct (fst (bounds c2)) as [b|] eqn:E2; [|none E]. inversion E; subst.
    intros j cx s Hs. cbn [sem map].
    eapply R_le; [apply (sem_with_least (evl c1) (evl c2) o b); [now apply B|now apply B0|apply Least_log; exact Hs]|lia].
  - destruct cs as [|c1 [|? ?]]; [stk E| |stk E]. pose proof (Forall_inv H) as [_ L]. unfold ls in E. cbn [map] in E.
    intros j cx s Hs. cbn [sem map].
    destruct (cx_mode h cx); (apply (L n E); [exact I|exact Hs]).
  - destruct cs as [|c1 [|c2 [|? ?]]]; [stk E|stk E| |stk E]. kids. cbn [map] in E.
    destruct (fst (bounds c1)) as [a|] eqn:E1; [|none E]. destruct (fst (bounds c2)) as [b|] eqn:E2; [|none E]. inversion E; subst.
    apply (sem_declarator_least sp c2 (evl c1) (evl c2) a b); [now apply B|now apply B0].
  - destruct cs as [|c1 [|c2 [|c3 [|c4 [|? ?]]]]]; [stk E|stk E|stk E|stk E| |stk E]. kids. cbn [map] in E. unfold fn_bound in E.
    destruct (fst (bounds c3)) as [m|] eqn:E3; [|none E]. cut_at E. apply andb_true_iff in Heqb as [G1 G2]. apply Z.leb_le in G2.
    intros j cx s Hs. cbn [sem map]. destruct (cx_mode h cx); try (eapply Least_le; [exact Hs|lia]).
    apply (sem_fn_least sp (Some (evl c1)) c3 (evl c3) m); [now apply some_at0|now apply B1|assumption|assumption].
  - destruct cs as [|c1 [|c2 [|c3 [|? ?]]]]; [stk E|stk E|stk E| |stk E]. kids. pose proof E as E0. cbn [map] in E. unfold fn_bound in E.
    destruct (fst (bounds c2)) as [m|] eqn:E3; [|none E]. cut_at E. apply andb_true_iff in Heqb as [G1 G2]. apply Z.leb_le in G2.
    apply andb_true_iff in G1 as [G0 G1].
    intros j cx s Hs. cbn [sem map].
    assert (Op : R (j + 0) (opaque h call fuel KArrow sp [c1; c2; c3] [] cx s)).
    { eapply R_le; [apply (opaque_least KArrow sp [c1; c2; c3] [] cx s j); [| |constructor|exact Hs]|lia].
      - intros _. exists 0. split; [exact E0|lia].
      - intros [|[|[|i]]] c Hc Hi; try discriminate; inversion Hi; subst; try (now apply some_fine). destruct i; discriminate. }
    destruct (cx_mode h cx); try exact Op.
    apply (sem_fn_least sp (Some (evl c1)) c2 (evl c2) m); [now apply some_at0|now apply B0|assumption|assumption].
  - apply (field_least KClassProp sp cs n); auto.
  - apply (field_least KPrivateProp sp cs n); auto.
  - destruct cs as [|c1 [|c2 [|c3 [|? ?]]]]; [stk E|stk E|stk E| |stk E]. kids. pose proof E as E0. cbn [map] in E. unfold fn_bound in E.
    destruct (fst (bounds c3)) as [m|] eqn:E3; [|none E]. cut_at E. apply andb_true_iff in Heqb as [G1 G2]. apply Z.leb_le in G2.
    apply andb_true_iff in G1 as [G0 G1].
    intros j cx s Hs. cbn [sem map].
    assert (Op : R (j + 0) (opaque h call fuel KGetter sp [c1; c2; c3] [evl c1; evl c2] cx s)).
    { eapply R_le; [apply (opaque_least KGetter sp [c1; c2; c3] [evl c1; evl c2] cx s j); [| | |exact Hs]|lia].
      - intros _. exists 0. split; [exact E0|lia].
      - intros [|[|[|i]]] c Hc Hi; try discriminate; inversion Hi; subst; try (now apply some_fine). destruct i; discriminate.
      - constructor; [now apply some_at0|]. constructor; [now apply some_at0|constructor]. }
    destruct (cx_mode h cx); try exact Op.
    apply (sem_fn_least sp None c3 (evl c3) m); [exact I|now apply B1|assumption|assumption].
  - destruct cs as [|c1 [|c2 [|c3 [|c4 [|? ?]]]]]; [stk E|stk E|stk E|stk E| |stk E]. kids. pose proof E as E0. cbn [map] in E. unfold fn_bound in E.
    destruct (fst (bounds c4)) as [m|] eqn:E3; [|none E]. cut_at E. apply andb_true_iff in Heqb as [G1 G2]. apply Z.leb_le in G2.
    apply andb_true_iff in G1 as [G0 Gp]. apply andb_true_iff in G0 as [G0 G1].
    intros j cx s Hs. cbn [sem map].
    assert (Op : R (j + 0) (opaque h call fuel KSetter sp [c1; c2; c3; c4] [evl c1; evl c2] cx s)).
    { eapply R_le; [apply (opaque_least KSetter sp [c1; c2; c3; c4] [evl c1; evl c2] cx s j); [| | |exact Hs]|lia].
      - intros _. exists 0. split; [exact E0|lia].
      - intros [|[|[|[|i]]]] c Hc Hi; try discriminate; inversion Hi; subst; try (now apply some_fine). destruct i; discriminate.
      - constructor; [now apply some_at0|]. constructor; [now apply some_at0|constructor]. }
    destruct (cx_mode h cx); try exact Op.
    apply (sem_fn_least sp (Some (evl c3)) c4 (evl c4) m); [now apply some_at0|now apply B2|assumption|assumption].
  - destruct cs as [|c1 [|c2 [|c3 [|? ?]]]]; [stk E|stk E|stk E| |stk E]. kids. cbn [map] in E.
    destruct (fst (bounds c1)) as [t|] eqn:E1; [|none E]. destruct (fst (bounds c2)) as [c|] eqn:E2; [|none E].
    destruct (fst (bounds c3)) as [a|] eqn:E3; [|none E]. inversion E; subst.
    apply (sem_cond_least sp (evl c1) (evl c2) (evl c3) t c a); [now apply B|now apply B0|now apply B1].
  - destruct (is_logical_op op) eqn:Ho.
    + destruct cs as [|c1 [|c2 [|? ?]]].
      * cbn [map] in E. cut_at E. intros j cx s Hs. cbn [sem map]. rewrite Ho. eapply Least_le; [exact Hs|lia].
      * destruct (fst (bounds c1)) as [l|] eqn:E1; cbn [map] in E; rewrite E1 in E; cut_at E; intros j cx s Hs; cbn [sem map]; rewrite Ho; (eapply Least_le; [exact Hs|lia]).
      * kids. cbn [map] in E. destruct (fst (bounds c1)) as [l|] eqn:E1; [|none E].
        destruct (fst (bounds c2)) as [r|] eqn:E2; [|none E]. inversion E; subst. intros j cx s Hs. cbn [sem map]. rewrite Ho.
        eapply R_le; [apply (sem_logical_least op sp (evl c1) (evl c2) l r); [now apply B|now apply B0|exact Hs]|lia].
      * assert (E' : at_least (steady (map (fun c => fst (bounds c)) (c1 :: c2 :: n0 :: l))) 0 = Some n).
        { cbn [map] in E |- *. destruct (fst (bounds c1)), (fst (bounds c2)); exact E. }
        clear E. rename E' into E. cut_at E. intros j cx s Hs. cbn [sem map]. rewrite Ho. eapply Least_le; [exact Hs|lia].
    + intros j cx s Hs. cbn [sem]. rewrite Ho. now apply (opaque_node (KBin op) sp cs n H eq_refl E).
  - destruct cs as [|c1 [|c2 [|? ?]]]; [stk E|stk E| |stk E]. kids. cbn [map] in E. cut_at E. cbn [steady forallb] in Heqb.
    rewrite !andb_true_iff in Heqb. destruct Heqb as (G1 & G2 & _).
    apply (sem_assign_least sp (evl c1) (evl c2)); now apply some_at0.
  - destruct cs as [|c1 [|? ?]]; [stk E| |stk E]. kids. intros j cx s Hs. cbn [sem map]. now apply B.
  - cut_at E. destruct (steady_kids cs H Heqb) as [K1 K2]. now apply seq_vals_least.
  - destruct cs as [|c1 [|? ?]]; [stk E| |stk E]. kids. intros j cx s Hs. cbn [sem map]. now apply B.
  - cut_at E. destruct (steady_kids cs H Heqb) as [K1 K2]. now apply seq_vals_least.
  - cut_at E. destruct (steady_kids cs H Heqb) as [K1 K2]. now apply seq_vals_least.
  - cut_at E. intros j cx s Hs. cbn [sem]. apply Least_tick. eapply Least_le; [exact Hs|lia].
  - destruct cs as [|c1 [|? ?]]; [stk E| |stk E]. cut_at E. destruct (steady_kids [c1] H Heqb) as [K1 K2]. apply Forall_inv in K1.
    intros j cx s Hs. cbn [sem map]. apply (R_bindv _ _ (j + 0)); [now apply valued_least|lia|].
    intros v s1 H1. apply Least_tmp. exact H1.
  - cut_at E. intros j cx s Hs. cbn [sem]. destruct (h_test _ _ _ _ _) as [a v].
    eapply R_le; [apply simple_least, Least_hs; exact Hs|lia].
Qed.

Lemma both : forall t, Both t.
Proof.
  induction t as [k sp cs IH] using node_ind'. pose proof (node_least k sp cs IH) as B. split; [exact B|].
  assert (G : forall n, bound (Node k sp cs) = Some n ->
    forall j cx s, decl_mode h cx -> Least s j -> R (j + n) (evl (Node k sp cs) cx s)) by (intros; now apply B).
  destruct k; try exact G. intros n E j cx s Hm Hs. cbn [bounds snd list_bound_of] in E. cbn [ev sem].
  unfold decl_mode in Hm. destruct (cx_mode h cx); try contradiction;
    now apply (run_list_least (map evl cs) _ n (kids_of cs IH) E).
Qed.
End Fuel.

Lemma run_least : forall n t, code_fine t -> forall cx s j, Least s j -> R j (run h n t cx s).
Proof.
  induction n as [|n IH]; intros t (m & Et & Hm) cx s j Hs; cbn [run].
  - eapply R_le; [apply (proj1 (both (fun _ _ _ s => (CFuel, s)) (fun _ _ _ s j H => H) 0%nat t) m Et); exact Hs|lia].
  - eapply R_le.
    + refine (proj1 (both _ _ (S n) t) m Et j cx s Hs). intros f x v s0 j0 H0.
      destruct (nth_error (funs h s0) f) as [code|] eqn:Hf; [|exact H0].
      apply IH; [|exact H0]. exact (codes_nth _ _ _ (proj2 H0) Hf).
    + lia.
Qed.

(** However the host behaves, the weights of everything that happened in a run do not sum up to less than zero. *)
Theorem run_bounded : forall n t x v, code_fine t -> 0 <= total (evs h (snd (run_program h n t x v))).
Proof. intros n t x v H. apply (run_least n t H). split; [cbn; lia|constructor]. Qed.
End Run.
End Weights.
