(** C60: the report of a project.

    Every process of a test run leaves its coverage records in one global variable (create_coverage_fn_decl.rs:92-120); the
    reporter reads each of them as a coverage map and merges the maps (coverage_map.rs:24-41).  Proved here: whatever files the
    processes load and however their executions interleave, the merged map has exactly the files that ran in at least one
    process, and the record of each file holds what it did in all processes together. *)
From Coq Require Import NArith String List Bool Lia PeanoNat Permutation.
Import ListNotations.
From Verif Require Import Base IndexMap Decimal Oxide OxideSpec OxideMergeProofs OxideMerge OxideViews SourceCov SourceCovProofs
  Hints Ast Visitor VisitorRel VisitorEx Erase Counting CountingRoot Json CovJson DataObject Template Runtime Produced Report
  Sem SemShape SemErase SemVisit SemProps Account Slots Sites AccountVisit Accurate EndToEnd Runs.
Open Scope string_scope. Open Scope list_scope. Open Scope N_scope.

(** ** Reading the coverage variable *)
Fixpoint all_some {A} (l : list (option A)) : option (list A) :=
  match l with
  | [] => Some []
  | o :: l' => let? x := o in let? r := all_some l' in Some (x :: r)
  end.
Definition read_at (h : heap) (v : value) : option file_coverage :=
  match v with VRef a => let? j := data_at h a in read_fc j | _ => None end.
(** The members of the coverage variable, in their order; without the variable there is no coverage.  [None]: something else
    than coverage records. *)
Definition read_variable (h : heap) (gcv : string) : option (list (string * file_coverage)) :=
  match coverage_object h gcv with
  | None => Some []
  | Some c =>
      let? m := map_at h c in
      all_some (map (fun kv => let? r := read_at h (snd kv) in Some (fst kv, r)) m)
  end.

(** ** What a history does for a path *)
Definition key_eqb (a b : string * string) : bool := String.eqb (fst a) (fst b) && String.eqb (snd a) (snd b).
Definition is_file (k : string * string) (evs : list Runtime.event) (i : nat) : bool :=
  match nth_error (loaded evs) i with Some f => key_eqb (file_key f) k | None => false end.
(** The file was run *)
Definition used (gcv path : string) (evs : list Runtime.event) : bool :=
  existsb (fun ev => match ev with ECall i | EInc i _ => is_file (gcv, path) evs i | ELoad _ => false end) evs.
(** The increments it executed *)
Definition done (gcv path : string) (evs : list Runtime.event) : list counter :=
  flat_map (fun ev => match ev with EInc i c => if is_file (gcv, path) evs i then [c] else [] | _ => [] end) evs.

Lemma key_eqb_spec : forall a b, key_eqb a b = true <-> a = b.
Proof.
  intros [a1 a2] [b1 b2]. unfold key_eqb. cbn [fst snd]. rewrite andb_true_iff, !String.eqb_eq. split; [intros [-> ->]|intros H; injection H as -> ->]; auto.
Qed.
Lemma is_file_nth : forall evs i f j, NoDup (map file_key (loaded evs)) -> nth_error (loaded evs) i = Some f ->
  is_file (file_key f) evs j = Nat.eqb j i.
Proof.
  intros evs i f j W E. unfold is_file. destruct (Nat.eqb_spec j i) as [->|N].
  - rewrite E. now apply key_eqb_spec.
  - destruct (nth_error (loaded evs) j) as [g|] eqn:Ej; [|reflexivity].
    destruct (key_eqb (file_key g) (file_key f)) eqn:K; [|reflexivity]. apply key_eqb_spec in K. exfalso. apply N.
    apply (proj1 (NoDup_nth_error _) W j i).
    + rewrite map_length. apply nth_error_Some. congruence.
    + now rewrite (map_nth_error _ _ _ Ej), (map_nth_error _ _ _ E), K.
Qed.
Lemma used_nth : forall evs i f, NoDup (map file_key (loaded evs)) -> nth_error (loaded evs) i = Some f ->
  used (em_gcv f) (em_path f) evs = touched i evs.
Proof.
  intros evs i f W E. pose proof (fun j => is_file_nth evs i f j W E) as G. unfold used, touched, file_key in *. revert G.
  generalize (is_file (em_gcv f, em_path f) evs). clear. intros g G. induction evs as [|ev l IH]; [reflexivity|].
  cbn [existsb]. rewrite IH. f_equal. destruct ev; now rewrite ?G.
Qed.
Lemma done_nth : forall evs i f, NoDup (map file_key (loaded evs)) -> nth_error (loaded evs) i = Some f ->
  done (em_gcv f) (em_path f) evs = incs i evs.
Proof.
  intros evs i f W E. pose proof (fun j => is_file_nth evs i f j W E) as G. unfold done, incs, file_key in *. revert G.
  generalize (is_file (em_gcv f, em_path f) evs). clear. intros g G. induction evs as [|ev l IH]; [reflexivity|].
  cbn [flat_map]. rewrite IH. f_equal. destruct ev; now rewrite ?G.
Qed.
Lemma not_used_done : forall gcv p evs, used gcv p evs = false -> done gcv p evs = [].
Proof.
  intros gcv p evs. unfold used, done. generalize (is_file (gcv, p) evs). intros is. induction evs as [|ev l IH]; [reflexivity|].
  cbn [existsb flat_map]. rewrite orb_false_iff. intros [A B]. rewrite IH by exact B. destruct ev as [g|j|j c]; try reflexivity. now rewrite A.
Qed.
Lemma used_file : forall gcv p evs, used gcv p evs = true ->
  exists i f, nth_error (loaded evs) i = Some f /\ file_key f = (gcv, p) /\ touched i evs = true.
Proof.
  intros gcv p evs H. unfold used in H. apply existsb_exists in H as (ev & I & H).
  assert (K : forall i, is_file (gcv, p) evs i = true -> exists f, nth_error (loaded evs) i = Some f /\ file_key f = (gcv, p)).
  { intros i Hi. unfold is_file in Hi. destruct (nth_error (loaded evs) i) as [f|]; [|discriminate]. exists f. split; [reflexivity|]. now apply key_eqb_spec. }
  destruct ev as [g|i|i c]; [discriminate| |]; destruct (K i H) as (f & E1 & E2); exists i, f; (split; [exact E1|split; [exact E2|]]);
    unfold touched; apply existsb_exists; [exists (ECall i)|exists (EInc i c)]; (split; [exact I|apply Nat.eqb_refl]).
Qed.

(** ** Member names occur once *)
Definition maps_wf (h : heap) : Prop := forall a m, map_at h a = Some m -> NoDup (im_keys m).
Lemma maps_wf_app : forall h x, maps_wf h -> (forall m, x = CMap m -> NoDup (im_keys m)) -> maps_wf (h ++ [x]).
Proof.
  intros h x W Hx a m E. unfold map_at in E. destruct (Nat.ltb_spec a (length h)) as [L|L].
  - rewrite nth_error_app1 in E by exact L. now apply (W a).
  - rewrite nth_error_app2 in E by exact L. destruct (a - length h)%nat as [|k]; cbn in E.
    + destruct x; [|discriminate]. injection E as <-. now apply Hx.
    + destruct k; discriminate.
Qed.
Lemma maps_wf_set : forall h a x, maps_wf h -> (forall m, x = CMap m -> NoDup (im_keys m)) -> maps_wf (set_nth a x h).
Proof.
  intros h a x W Hx b m E. unfold map_at in E. rewrite nth_set_nth in E. destruct (Nat.eqb_spec b a) as [->|N].
  - destruct (nth_error h a); [|discriminate]. destruct x; [|discriminate]. injection E as <-. now apply Hx.
  - now apply (W b).
Qed.
Lemma set_prop_wf : forall h v k x h', maps_wf h -> set_prop h v k x = Some h' -> maps_wf h'.
Proof.
  intros h v k x h' W E. destruct v; try discriminate. cbn in E. destruct (nth_error h a) as [[m|j]|] eqn:En; try discriminate.
  injection E as <-. apply maps_wf_set; [exact W|]. intros m' Em. injection Em as <-. apply im_wf_insert. apply (W a).
  unfold map_at. now rewrite En.
Qed.
Lemma teval_wf : forall x vars h v h', maps_wf h -> teval x vars h = Some (v, h') -> maps_wf h'.
Proof.
  induction x; intros vars h w h' W E; cbn [teval] in E.
  - now injection E as <- <-.
  - destruct (eval l); [|discriminate]. injection E as <- <-. apply maps_wf_app; [exact W|]. discriminate.
  - now injection E as <- <-.
  - destruct (im_get x vars); [|discriminate]. now injection E as <- <-.
  - destruct (teval x1 vars h) as [[v1 h1]|] eqn:E1; [|discriminate]. cbn [obind] in E.
    destruct (teval x2 vars h1) as [[v2 h2]|] eqn:E2; [|discriminate]. cbn [obind] in E.
    destruct (as_key v2); [|discriminate]. cbn [obind] in E. destruct (get_prop h2 v1 s); [|discriminate]. injection E as <- <-. eauto.
  - destruct (teval x vars h) as [[v1 h1]|] eqn:E1; [|discriminate]. cbn [obind] in E.
    destruct (get_prop h1 v1 name); [|discriminate]. injection E as <- <-. eauto.
  - destruct (teval x1 vars h) as [[v1 h1]|] eqn:E1; [|discriminate]. cbn [obind] in E. destruct (truthy v1); [injection E as <- <-; eauto|eauto].
  - destruct (teval x vars h) as [[v1 h1]|] eqn:E1; [|discriminate]. injection E as <- <-. eauto.
  - destruct (teval x1 vars h) as [[v1 h1]|] eqn:E1; [|discriminate]. cbn [obind] in E.
    destruct (teval x2 vars h1) as [[v2 h2]|] eqn:E2; [|discriminate]. injection E as <- <-. eauto.
  - destruct (teval x1 vars h) as [[v1 h1]|] eqn:E1; [|discriminate]. cbn [obind] in E.
    destruct (teval x2 vars h1) as [[v2 h2]|] eqn:E2; [|discriminate]. cbn [obind] in E.
    destruct (teval x3 vars h2) as [[v3 h3]|] eqn:E3; [|discriminate]. cbn [obind] in E.
    destruct (as_key v2); [|discriminate]. cbn [obind] in E. destruct (set_prop h3 v1 s v3) as [h4|] eqn:E4; [|discriminate]. injection E as <- <-.
    eapply set_prop_wf; [|exact E4]. eauto.
  - injection E as <- <-. apply maps_wf_app; [exact W|]. intros m Em. injection Em as <-. constructor.
Qed.
Lemma trun_wf : forall ss vars repl h v r h', maps_wf h -> trun ss vars repl h = Some (v, r, h') -> maps_wf h'.
Proof.
  induction ss as [|s ss IH]; intros vars repl h v r h' W E; [now injection E as <- <- <-|].
  destruct s as [x e|c t|x|x]; cbn [trun] in E.
  - destruct (teval e vars h) as [[w h1]|] eqn:E1; [|discriminate]. eapply IH; [|exact E]. eapply teval_wf; eauto.
  - destruct (teval c vars h) as [[w h1]|] eqn:E1; [|discriminate]. cbn [obind] in E. destruct (truthy w).
    + destruct (teval t vars h1) as [[w2 h2]|] eqn:E2; [|discriminate]. eapply IH; [|exact E]. eapply teval_wf; [|exact E2]. eapply teval_wf; eauto.
    + eapply IH; [|exact E]. eapply teval_wf; eauto.
  - destruct (im_get x vars); [|discriminate]. eapply IH; [|exact E]. exact W.
  - destruct (im_get x vars); [|discriminate]. now injection E as <- <- <-.
Qed.
Lemma call_wf : forall i st v st', maps_wf (rheap st) -> call i st = Some (v, st') -> maps_wf (rheap st').
Proof.
  intros i st v st' W E. unfold call in E. destruct (nth_error (rinsts st) i) as [[f [w|]]|]; cbn [obind] in E; [| |discriminate].
  - now injection E as <- <-.
  - destruct (trun (template f) [] None (rheap st)) as [[[w r] h]|] eqn:E1; [|discriminate]. injection E as <- <-. eapply trun_wf; eauto.
Qed.
Lemma run_wf : forall evs st st', maps_wf (rheap st) -> Runtime.run evs st = Some st' -> maps_wf (rheap st').
Proof.
  induction evs as [|ev evs IH]; intros st st' W E; [now injection E as <-|]. cbn [Runtime.run] in E.
  destruct (step st ev) as [st1|] eqn:Es; [|discriminate]. apply (IH st1 st'); [|exact E]. destruct ev as [f|i|i c]; cbn [step] in Es.
  - injection Es as <-. exact W.
  - destruct (call i st) as [[v s]|] eqn:Ec; [|discriminate]. injection Es as <-. eapply call_wf; eauto.
  - destruct (call i st) as [[v s]|] eqn:Ec; [|discriminate]. cbn [obind] in Es.
    destruct (bump_at v c (rheap s)) as [h|] eqn:Eb; [|discriminate]. injection Es as <-. cbn [rheap].
    unfold bump_at in Eb. destruct v; try discriminate. destruct (nth_error (rheap s) a) as [[|j]|]; try discriminate. injection Eb as <-.
    apply maps_wf_set; [eapply call_wf; eauto|discriminate].
Qed.

(** ** The variable of one process *)
Lemma all_some_map : forall A B (g : A -> option B) l, (forall x, In x l -> exists y, g x = Some y) ->
  exists ys, all_some (map g l) = Some ys /\ Forall2 (fun x y => g x = Some y) l ys.
Proof.
  intros A B g l. induction l as [|x l IH]; intros H; [now exists []|].
  destruct (H x (or_introl eq_refl)) as (y & Ey). destruct IH as (ys & E & F). { intros z I. apply H. now right. }
  exists (y :: ys). cbn. rewrite Ey. cbn. rewrite E. split; [reflexivity|now constructor].
Qed.
(** After any interleaving of files with different paths the variable holds the record of every file that has run, with its
    increments, and nothing else. *)
Theorem variable_read : forall evs gcv, valid evs -> NoDup (map file_key (loaded evs)) ->
  Forall (fun f => exists fc, output_of f fc) (loaded evs) ->
  exists st rs, Runtime.run evs rt0 = Some st /\ read_variable (rheap st) gcv = Some rs /\ NoDup (map fst rs) /\
    (forall p, In p (map fst rs) <-> used gcv p evs = true) /\
    (forall p r, In (p, r) rs -> exists i f, nth_error (loaded evs) i = Some f /\ file_key f = (gcv, p) /\
       forall fc, output_of f fc -> same_data r (after (done gcv p evs) fc)).
Proof.
  intros evs gcv V K O.
  assert (Tl : Forall total_lit (loaded evs)).
  { eapply Forall_impl; [|exact O]. intros f (fc & Of). eapply output_total; eauto. }
  destruct (run_inv evs V K Tl) as (st & E & Iv). destruct (published_record evs V K O) as (st' & E' & Pub).
  assert (st' = st) by congruence. subst st'. clear E'.
  assert (Wf : maps_wf (rheap st)).
  { eapply run_wf; [|exact E]. intros a m Em. destruct a as [|[|a]]; try discriminate. injection Em as <-. constructor. }
  assert (Back : forall p a, published (rheap st) gcv p = Some a -> exists i f, nth_error (loaded evs) i = Some f /\
      file_key f = (gcv, p) /\ touched i evs = true).
  { intros p a Pa. destruct (i_key _ _ Iv _ _ _ Pa) as (i & f & v & Ei & Ek). exists i, f.
    split; [rewrite <- (i_files _ _ Iv); exact (map_nth_error fst i _ Ei)|]. split; [exact Ek|]. eapply i_used; eauto. }
  assert (Rec : forall p a, published (rheap st) gcv p = Some a -> exists r, read_at (rheap st) (VRef a) = Some r /\
      exists i f, nth_error (loaded evs) i = Some f /\ file_key f = (gcv, p) /\ forall fc, output_of f fc -> same_data r (after (done gcv p evs) fc)).
  { intros p a Pa. destruct (Back p a Pa) as (i & f & Ei & Ek & Ti).
    pose proof (proj1 (Forall_forall _ _) O f (nth_error_In _ _ Ei)) as (fc & Of).
    destruct (Pub i f fc Ei Of Ti) as (a' & j & r & P1 & P2 & P3 & P4).
    pose proof (done_nth evs i f K Ei) as Dn. unfold file_key in Ek. injection Ek as Eg Ep. rewrite Eg, Ep in *.
    assert (a' = a) by congruence. subst a'. exists r. cbn [read_at]. rewrite P2. cbn [obind]. split; [exact P3|].
    exists i, f. split; [exact Ei|]. split; [unfold file_key; congruence|]. intros fc' Of'. rewrite Dn.
    destruct (Pub i f fc' Ei Of' Ti) as (b & j' & r' & Q1 & Q2 & Q3 & Q4). rewrite Eg, Ep in Q1. assert (b = a) by congruence. subst b.
    assert (j' = j) by congruence. subst j'. assert (r' = r) by congruence. now subst r'. }
  assert (Fw : forall p, used gcv p evs = true -> exists a, published (rheap st) gcv p = Some a).
  { intros p U. destruct (used_file gcv p evs U) as (i & f & Ei & Ek & Ti).
    pose proof (proj1 (Forall_forall _ _) O f (nth_error_In _ _ Ei)) as (fc & Of).
    destruct (Pub i f fc Ei Of Ti) as (a' & j & r & P1 & _). unfold file_key in Ek. injection Ek as Eg Ep. rewrite Eg, Ep in *. eauto. }
  assert (Bw : forall p a, published (rheap st) gcv p = Some a -> used gcv p evs = true).
  { intros p a Pa. destruct (Back p a Pa) as (i & f & Ei & Ek & Ti). unfold file_key in Ek. injection Ek as <- <-. now rewrite (used_nth evs i f). }
  exists st. unfold read_variable. unfold published in Rec, Fw, Bw. destruct (coverage_object (rheap st) gcv) as [c|] eqn:Ec.
  - cbn [obind] in Rec, Fw, Bw.
    assert (M : exists m, map_at (rheap st) c = Some m /\ forall p w, im_get p m = Some w -> exists a, w = VRef a).
    { destruct (i_wf _ _ Iv) as (g & Hg & W1 & _). unfold coverage_object in Ec. rewrite Hg in Ec. cbn [obind] in Ec.
      destruct (im_get gcv g) as [v|] eqn:Eg; [|discriminate]. destruct (W1 gcv v Eg) as (c' & m & -> & Hm & _ & Hw).
      injection Ec as ->. exists m. split; [exact Hm|]. intros p w Ew. destruct (Hw p w Ew) as (a & j & -> & _). now exists a. }
    destruct M as (m & Em & Hm). rewrite Em in *. cbn [obind] in *. pose proof (Wf c m Em) as Wm.
    assert (G : forall p v, In (p, v) m -> exists a, v = VRef a /\ (match im_get p m with Some (VRef a) => Some a | _ => None end) = Some a).
    { intros p v I. apply (im_in_get _ Wm) in I. destruct (Hm p v I) as (a & ->). exists a. now rewrite I. }
    destruct (all_some_map _ _ (fun kv => let? r := read_at (rheap st) (snd kv) in Some (fst kv, r)) m) as (rs & Er & F).
    { intros [p v] I. destruct (G p v I) as (a & -> & Pa). destruct (Rec p a Pa) as (r & Er & _). cbn [fst snd]. rewrite Er. now exists (p, r). }
    exists rs. split; [exact E|]. split; [exact Er|].
    assert (Fst : map fst rs = im_keys m).
    { clear - F. unfold im_keys. induction F as [|x y l l' Hx _ IH]; [reflexivity|]. cbn. rewrite IH. f_equal.
      destruct (read_at (rheap st) (snd x)); [|discriminate]. now injection Hx as <-. }
    split; [now rewrite Fst|]. split.
    + intros p. rewrite Fst. split.
      * intros I. apply in_map_iff in I as ([q v] & Eq & I). cbn in Eq. subst q. destruct (G p v I) as (a & -> & Pa). eauto.
      * intros U. destruct (Fw p U) as (a & Pa). destruct (im_get p m) eqn:Eg; [|discriminate]. apply im_get_in in Eg. now apply (in_map fst) in Eg.
    + intros p r I. assert (Q : exists v, In (p, v) m /\ read_at (rheap st) v = Some r).
      { clear - F I. induction F as [|x y l l' Hx _ IH]; [contradiction|]. destruct I as [->|I].
        - destruct x as [q v]. cbn [fst snd] in Hx. destruct (read_at (rheap st) v) eqn:Ev; [|discriminate]. cbn in Hx. injection Hx as -> ->. exists v. split; [now left|exact Ev].
        - destruct (IH I) as (v & Iv & Ev). exists v. split; [now right|exact Ev]. }
      destruct Q as (v & Iv0 & Ev). destruct (G p v Iv0) as (a & -> & Pa). destruct (Rec p a Pa) as (r' & Er' & Q). assert (r' = r) by congruence. now subst r'.
  - exists []. split; [exact E|]. split; [reflexivity|]. split; [constructor|]. split; [|intros p r []].
    intros p. split; [intros []|]. intros U. destruct (Fw p U) as (a & Pa). discriminate.
Qed.

(** ** Merging the processes *)
(** The maps of the processes, merged from the left *)
Definition merge_maps (m : ovf_mode) (l : list (list file_coverage)) : res coverage_map :=
  fold_res (fun acc rs => let* cm := cm_from_iter m rs in cm_merge m acc cm) [] l.

Notation entry := (string * list counter)%type (only parsing).
Definition logs_of (p : string) (H : list entry) : list counter :=
  flat_map (fun x => if String.eqb (fst x) p then snd x else []) H.
Definition has (p : string) (H : list entry) : bool := existsb (fun x => String.eqb (fst x) p) H.
Lemma logs_app : forall p a b, logs_of p (a ++ b) = logs_of p a ++ logs_of p b.
Proof. intros. unfold logs_of. apply flat_map_app. Qed.
Lemma has_app : forall p a b, has p (a ++ b) = has p a || has p b.
Proof. intros. unfold has. apply existsb_app. Qed.
Lemma has_not : forall p H, has p H = false -> logs_of p H = [].
Proof.
  intros p H. unfold has, logs_of. induction H as [|x H IH]; [reflexivity|]. cbn [existsb flat_map]. rewrite orb_false_iff. intros [A B].
  now rewrite A, IH.
Qed.
Lemma from_iter_new : forall m rs acc, NoDup (im_keys acc ++ map fc_path rs) ->
  fold_res (add_coverage_for_file m) acc rs = Ok (acc ++ map (fun r => (fc_path r, r)) rs).
Proof.
  intros m rs. induction rs as [|r rs IH]; intros acc W; [now rewrite app_nil_r|]. cbn [fold_res map] in *.
  assert (Nn : im_get (fc_path r) acc = None).
  { apply im_get_None. intros I. apply NoDup_remove_2 in W. apply W. apply in_or_app. now left. }
  unfold add_coverage_for_file at 1. rewrite Nn. cbn [bind]. rewrite im_insert_fresh by now apply im_get_None.
  rewrite IH, <- app_assoc; [reflexivity|]. unfold im_keys in *. rewrite map_app, <- app_assoc. exact W.
Qed.
Lemma merge_maps_adds : forall m l, Forall (fun rs => NoDup (map fc_path rs)) l ->
  merge_maps m l = fold_res (add_coverage_for_file m) [] (concat l).
Proof.
  intros m l F. unfold merge_maps. generalize (@nil (string * file_coverage)). induction F as [|rs l W _ IH]; intros acc; [reflexivity|].
  cbn [fold_res concat]. rewrite fold_res_app. unfold cm_from_iter, cm_merge. rewrite (from_iter_new m rs []) by exact W. cbn [app bind].
  unfold im_values. rewrite map_map. cbn [snd]. rewrite map_id.
  destruct (fold_res (add_coverage_for_file m) acc rs); [|reflexivity|reflexivity]. cbn [bind]. apply IH.
Qed.

Section Merge.
Variable proj : imap string file_coverage.
Hypothesis Hproj : forall p fc, im_get p proj = Some fc ->
  fc_path fc = p /\ OxideMerge.plain fc /\ unique_keys fc /\ zeroed fc.
Definition state (M : coverage_map) (H : list entry) : Prop :=
  cm_ok M /\ forall p, if has p H then exists fc R, im_get p proj = Some fc /\ im_get p M = Some R /\ Inv fc R (logs_of p H)
                       else im_get p M = None.
Lemma add_state : forall m M H p l fc r, state M H -> im_get p proj = Some fc -> same_data r (after l fc) ->
  fits (after (logs_of p (H ++ [(p, l)])) fc) ->
  exists M', add_coverage_for_file m M r = Ok M' /\ state M' (H ++ [(p, l)]).
Proof.
  intros m M H p l fc r (Ok0 & S0) Ep D Ft. destruct (Hproj p fc Ep) as (Pth & (A & B & C & Dn) & U & Z).
  assert (Pr : fc_path r = p). { destruct D as (_ & D & _). cbn in D. congruence. }
  assert (Lg : logs_of p (H ++ [(p, l)]) = logs_of p H ++ l).
  { rewrite logs_app. f_equal. unfold logs_of. cbn. now rewrite String.eqb_refl, app_nil_r. }
  rewrite Lg in Ft.
  assert (X : exists M' R, add_coverage_for_file m M r = Ok M' /\ im_get p M' = Some R /\ Inv fc R (logs_of p H ++ l)).
  { unfold add_coverage_for_file. rewrite Pr. specialize (S0 p). destruct (has p H) eqn:Eh.
    - destruct S0 as (fc' & R & E1 & E2 & I). assert (fc' = fc) by congruence. subst fc'. rewrite E2.
      destruct (inv_merge fc A Dn U B C Z m R _ r l I D Ft) as (R' & E & I'). rewrite E. cbn [bind].
      exists (im_update p (fun _ => R') M), R'. split; [reflexivity|]. split; [|exact I']. rewrite im_get_update, eqb_refl, E2. reflexivity.
    - rewrite S0. exists (im_insert p r M), r. split; [reflexivity|]. split; [rewrite im_get_insert, eqb_refl; reflexivity|].
      rewrite (has_not p H Eh). cbn [app]. now apply (inv_start fc A Dn U B C). }
  destruct X as (M' & R & Ea & Eg & I). exists M'. split; [exact Ea|].
  destruct (add_coverage_effect m M r M' Ok0 Ea) as (Ok1 & Oth & _). split; [exact Ok1|]. intros q.
  rewrite has_app. unfold has at 2. cbn [existsb fst]. rewrite orb_false_r. destruct (String.eqb_spec p q) as [<-|N].
  - rewrite orb_true_r. exists fc, R. rewrite Lg. auto.
  - rewrite orb_false_r. unfold cm_get_coverage_for_file in Oth. rewrite Oth by congruence. specialize (S0 q).
    rewrite logs_app. unfold logs_of at 2. cbn [flat_map fst snd]. destruct (String.eqb_spec p q); [contradiction|]. cbn [app]. now rewrite app_nil_r.
Qed.
Definition whole (x : entry) (r : file_coverage) : Prop :=
  exists fc, im_get (fst x) proj = Some fc /\ same_data r (after (snd x) fc).
Lemma adds_state : forall m K rs, Forall2 whole K rs -> forall M H, state M H ->
  (forall p fc, im_get p proj = Some fc -> fits (after (logs_of p (H ++ K)) fc)) ->
  exists M', fold_res (add_coverage_for_file m) M rs = Ok M' /\ state M' (H ++ K).
Proof.
  intros m K rs F. induction F as [|[p l] r K rs (fc & Ep & D) _ IH]; intros M H S0 Ft.
  - exists M. split; [reflexivity|]. now rewrite app_nil_r.
  - cbn [fst snd] in *. destruct (Hproj p fc Ep) as (Pth & (A & B & C & Dn) & U & Z).
    assert (E0 : H ++ (p, l) :: K = (H ++ [(p, l)]) ++ K) by (rewrite <- app_assoc; reflexivity). rewrite E0 in *.
    destruct (add_state m M H p l fc r S0 Ep D) as (M1 & E1 & S1).
    { specialize (Ft p fc Ep). rewrite logs_app in Ft. eapply fits_prefix; eauto. }
    destruct (IH M1 _ S1 Ft) as (M' & E & S'). exists M'. cbn [fold_res]. rewrite E1. auto.
Qed.

(** A process of the project: its files are those of the project (other files may store their records in another variable), and
    [rs] is what its coverage variable holds at the end. *)
Definition process (gcv : string) (evs : list Runtime.event) (rs : list file_coverage) : Prop :=
  valid evs /\ NoDup (map file_key (loaded evs)) /\
  Forall (fun f => exists fc, output_of f fc /\ (em_gcv f = gcv -> im_get (em_path f) proj = Some fc)) (loaded evs) /\
  exists st named, Runtime.run evs rt0 = Some st /\ read_variable (rheap st) gcv = Some named /\ rs = map snd named.
Definition total (gcv p : string) (hs : list (list Runtime.event)) : list counter := flat_map (done gcv p) hs.
Definition ran_once (gcv p : string) (hs : list (list Runtime.event)) : bool := existsb (used gcv p) hs.

Lemma process_paths : (forall p fc, im_get p proj = Some fc -> fc_path fc = p) ->
  forall gcv evs rs, process gcv evs rs -> exists K, Forall2 whole K rs /\ NoDup (map fc_path rs) /\
  forall p, has p K = used gcv p evs /\ logs_of p K = done gcv p evs.
Proof.
  intros Hpath gcv evs rs (V & W & O & st & named & E & Er & ->).
  assert (O' : Forall (fun f => exists fc, output_of f fc) (loaded evs)).
  { eapply Forall_impl; [|exact O]. intros f (fc & Of & _). eauto. }
  destruct (variable_read evs gcv V W O') as (st' & rs' & E' & Er' & Nd & Us & Sd).
  assert (st' = st) by congruence. subst st'. assert (rs' = named) by congruence. subst rs'. clear E' Er'.
  assert (Fc : forall p r, In (p, r) named -> exists fc, im_get p proj = Some fc /\ same_data r (after (done gcv p evs) fc)).
  { intros p r I. destruct (Sd p r I) as (i & f & Ei & Ek & D).
    pose proof (proj1 (Forall_forall _ _) O f (nth_error_In _ _ Ei)) as (fc' & Of' & Pf). unfold file_key in Ek. injection Ek as Eg Ep.
    specialize (Pf Eg). rewrite Ep in Pf. eauto. }
  exists (map (fun x => (fst x, done gcv (fst x) evs)) named). split; [|split].
  - clear - Fc. induction named as [|[p r] named IH]; [constructor|]. constructor.
    + cbn [fst snd]. destruct (Fc p r (or_introl eq_refl)) as (fc & A & B). now exists fc.
    + apply IH. intros q r' I. apply Fc. now right.
  - assert (Pp : map fc_path (map snd named) = map fst named).
    { rewrite map_map. apply map_ext_in. intros [p r] I. cbn [fst snd]. destruct (Fc p r I) as (fc & A & B).
      pose proof (Hpath p fc A) as Pth. destruct B as (_ & B & _). cbn in B. congruence. }
    now rewrite Pp.
  - intros p.
    assert (Hh : has p (map (fun x => (fst x, done gcv (fst x) evs)) named) = used gcv p evs).
    { apply eq_true_iff_eq. rewrite <- Us. unfold has. rewrite existsb_exists. split.
      - intros (x & I & Ex). apply in_map_iff in I as (y & <- & I). apply String.eqb_eq in Ex. cbn in Ex. subst p. now apply in_map.
      - intros I. apply in_map_iff in I as (y & <- & I). exists (fst y, done gcv (fst y) evs). split; [now apply (in_map (fun x => (fst x, done gcv (fst x) evs)))|].
        apply String.eqb_refl. }
    split; [exact Hh|]. destruct (used gcv p evs) eqn:Eu.
    + clear - Nd Hh. unfold has, logs_of in *. induction named as [|[q r] named IH]; [discriminate|]. cbn [map existsb flat_map fst snd] in *.
      apply NoDup_cons_iff in Nd as [N1 N2]. destruct (String.eqb_spec q p) as [->|Nq].
      * assert (Z : forall l, ~ In p (map fst l) ->
          flat_map (fun x : entry => if (fst x =? p)%string then snd x else []) (map (fun x : string * file_coverage => (fst x, done gcv (fst x) evs)) l) = []).
        { clear. induction l as [|x l IH]; intros N; [reflexivity|]. cbn [map flat_map fst snd] in *. destruct (String.eqb_spec (fst x) p) as [Ex|_]; [exfalso; apply N; left; exact Ex|].
          apply IH. intros I. apply N. now right. }
        rewrite Z by exact N1. apply app_nil_r.
      * now apply IH.
    + rewrite (has_not p _ Hh). symmetry. now apply not_used_done.
Qed.
Lemma process_whole : forall gcv evs rs, process gcv evs rs -> exists K, Forall2 whole K rs /\ NoDup (map fc_path rs) /\
  forall p, has p K = used gcv p evs /\ logs_of p K = done gcv p evs.
Proof. apply process_paths. intros p fc E. now apply Hproj. Qed.
End Merge.

(** The merged map has exactly the files that ran in some process.  The record of such a file has the rows of its embedded
    record after the increments of all processes. *)
Theorem project_map : forall m proj gcv,
  (forall p fc, im_get p proj = Some fc -> fc_path fc = p /\ OxideMerge.plain fc /\ unique_keys fc /\ zeroed fc) ->
  forall hs rss, Forall2 (process proj gcv) hs rss ->
  (forall p fc c v, im_get p proj = Some fc -> recorded (after (total gcv p hs) fc) c = Some v -> v < u32_mod) ->
  exists M, merge_maps m rss = Ok M /\ cm_ok M /\
    (forall p, In p (cm_get_files M) <-> ran_once gcv p hs = true) /\
    forall p R, cm_get_coverage_for_file M p = Some R -> exists fc, im_get p proj = Some fc /\
      same_rows R (after (total gcv p hs) fc) /\ OxideMerge.plain R /\ unique_keys R.
Proof.
  intros m proj gcv Hp hs rss F Hr.
  assert (X : exists K, Forall2 (whole proj) K (concat rss) /\ Forall (fun rs => NoDup (map fc_path rs)) rss /\
    forall p, has p K = ran_once gcv p hs /\ logs_of p K = total gcv p hs).
  { clear Hr. induction F as [|evs rs hs rss P _ (K & A & B & C)].
    - exists []. split; [constructor|]. split; [constructor|]. now intros p.
    - destruct (process_whole proj Hp gcv evs rs P) as (K1 & A1 & B1 & C1). exists (K1 ++ K). cbn [concat].
      split; [now apply Forall2_app|]. split; [now constructor|]. intros p. unfold ran_once, total. cbn [existsb flat_map].
      destruct (C p) as [C2 C3], (C1 p) as [C4 C5]. rewrite has_app, logs_app, C2, C3, C4, C5. now split. }
  destruct X as (K & A & B & C). rewrite (merge_maps_adds m rss B).
  destruct (adds_state proj Hp m K (concat rss) A [] []) as (M & E & Ok1 & S1).
  { split; [split; [constructor|discriminate]|]. now intros p. }
  { intros p fc Ep. cbn [app]. destruct (C p) as [_ ->]. destruct (Hp p fc Ep) as (_ & (P1 & P2 & P3 & P4) & P5 & P6).
    apply (fits_recorded fc P5 P3). intros c v. apply (Hr p fc c v Ep). }
  exists M. split; [exact E|]. split; [exact Ok1|]. cbn [app] in S1. split.
  - intros p. specialize (S1 p). destruct (C p) as [<- _]. unfold cm_get_files. destruct (has p K).
    + destruct S1 as (fc & R & _ & E2 & _). split; [reflexivity|]. intros _. apply im_get_in in E2. now apply (in_map fst) in E2.
    + split; [|discriminate]. intros I. now apply im_get_None in S1.
  - intros p R Eg. specialize (S1 p). destruct (C p) as [Ch Cl]. unfold cm_get_coverage_for_file in Eg. destruct (has p K); [|congruence].
    destruct S1 as (fc & R' & E1 & E2 & I). exists fc. assert (R' = R) by congruence. subst R'. rewrite Cl in I. auto.
Qed.

(** ** Projects of programs *)
(** A source file of the project, and what instrumenting it gave *)
Record program := mkProgram { p_env : env; p_fuel : nat; p_path : string; p_ism : option source_map;
  p_tree : node; p_items : list node; p_out : node; p_cov : source_cov }.
Definition p_record (P : program) : file_coverage := sc_fc (p_cov P).
(** The premises of [counters_tell_original_partial], identifiers that need no escaping, different locations of different counters *)
Definition modelled (P : program) : Prop :=
  program_items (p_tree P) = Some (p_items P) /\ clean (p_tree P) = true /\ forallb (good true) (p_items P) = true /\
  forallb item (p_items P) = true /\ forallb exact (p_items P) = true /\ NoDup (map fst (flat_map sites (p_items P))) /\
  covered_program (e_report_logic (p_env P)) (p_tree P) = true /\ Forall DataObject.plain (idents (p_tree P)) /\
  instrument (p_env P) (p_fuel P) (p_path P) (p_ism P) (p_tree P) = Ok (p_out P, p_cov P) /\
  e_report_logic (p_env P) = false /\ locs_unique (p_record P).
Definition project (l : list program) : imap string file_coverage := map (fun P => (p_path P, p_record P)) l.
(** In the process [hist] the file did what [log] says: if it ran, it executed the increments of a run of the instrumented
    program whose original has the events [log]. *)
Definition acted (gcv : string) (P : program) (hist : list Runtime.event) (log : list event) : Prop :=
  if used gcv (p_path P) hist
  then exists h fuel x w, log = evs h (snd (run_program h fuel (p_tree P) x w)) /\
         Permutation (done gcv (p_path P) hist) (cnt h (snd (run_program h fuel (p_out P) x w)))
  else log = [].
Definition paths_of (P : program) : list N := concat (im_values (fc_b (p_record P))).
Definition sum_over (g : program -> nat) (l : list program) : N := sumN (map (fun P => N.of_nat (g P)) l).
Definition small (l : list program) : Prop :=
  sum_over (fun P => length (fc_statement_map (p_record P))) l < u32_mod /\
  sum_over (fun P => length (fc_fn_map (p_record P))) l < u32_mod /\
  sum_over (fun P => length (paths_of P)) l < u32_mod.

Lemma project_get : forall l P, NoDup (map p_path l) -> In P l -> im_get (p_path P) (project l) = Some (p_record P).
Proof.
  intros l P W I. apply im_in_get; [|now apply (in_map (fun P => (p_path P, p_record P)))].
  unfold im_wf, im_keys, project. rewrite map_map. exact W.
Qed.
Lemma project_in : forall l p fc, im_get p (project l) = Some fc -> exists P, In P l /\ p_path P = p /\ p_record P = fc.
Proof. intros l p fc E. apply im_get_in in E. apply in_map_iff in E as (P & Eq & I). injection Eq as <- <-. now exists P. Qed.
Lemma modelled_record : forall P, modelled P ->
  fc_path (p_record P) = p_path P /\ OxideMerge.plain (p_record P) /\ unique_keys (p_record P) /\ zeroed (p_record P).
Proof.
  intros P (Hi & _ & _ & _ & _ & _ & _ & _ & H & Hr & Hl). unfold p_record in *.
  pose proof (produced_record _ _ _ _ _ _ _ _ Hi H) as PR. cbv zeta in PR. destruct PR as (A & B & _).
  destruct (produced_zeroed _ _ _ _ _ _ _ _ Hi H) as (Z & Tk & _ & Bt). split; [exact B|].
  split; [repeat (split; [assumption|]); auto|]. split; [|exact Z]. eapply produced_unique_keys; eauto.
Qed.
Lemma acted_told : forall gcv P hs logs, Forall2 (acted gcv P) hs logs ->
  told (p_tree P) (p_out P) (total gcv (p_path P) hs) (concat logs).
Proof.
  intros gcv P hs logs F c ev Hc. unfold total. induction F as [|hist log hs logs A _ IH]; [reflexivity|].
  cbn [flat_map concat]. rewrite hitn_app, count_occ_app, Nnat.Nat2N.inj_add, IH. f_equal. unfold acted in A.
  destruct (used gcv (p_path P) hist) eqn:U.
  - assert (L : Forall2 (like (p_tree P) (p_out P)) [done gcv (p_path P) hist] [log]) by (constructor; [exact A|constructor]).
    pose proof (like_counts (p_tree P) (p_out P) c ev Hc _ _ L) as Q. cbn [concat] in Q. now rewrite !app_nil_r in Q.
  - rewrite A, (not_used_done _ _ _ U). reflexivity.
Qed.

(** Every counter of the merged map tells how often its part of its source file was executed in all processes together. *)
Theorem project_tells_partial : forall m l gcv hs rss logs, NoDup (map p_path l) -> Forall modelled l ->
  Forall2 (process (project l) gcv) hs rss -> (forall P, In P l -> Forall2 (acted gcv P) hs (logs P)) ->
  (forall P ev, In P l -> N.of_nat (count_occ event_dec (concat (logs P)) ev) < u32_mod) ->
  exists M, merge_maps m rss = Ok M /\ cm_ok M /\
    (forall p, In p (cm_get_files M) <-> exists P, In P l /\ p_path P = p /\ ran_once gcv p hs = true) /\
    forall P R, In P l -> cm_get_coverage_for_file M (p_path P) = Some R ->
      OxideMerge.plain R /\ unique_keys R /\
      length (fc_s R) = length (fc_statement_map (p_record P)) /\ length (fc_f R) = length (fc_fn_map (p_record P)) /\
      length (concat (im_values (fc_b R))) = length (paths_of P) /\
      forall c, seen c = true -> slot_exists R c = true -> exists ev, tells (p_env P) (p_items P) (concat (logs P)) R c ev.
Proof.
  intros m l gcv hs rss logs W Hm F Ha Hb. rewrite Forall_forall in Hm.
  assert (Pr : forall p fc, im_get p (project l) = Some fc -> fc_path fc = p /\ OxideMerge.plain fc /\ unique_keys fc /\ zeroed fc).
  { intros p fc E. destruct (project_in l p fc E) as (P & I & <- & <-). apply modelled_record, Hm, I. }
  assert (Tl : forall P, In P l -> ((forall c v, recorded (after (total gcv (p_path P) hs) (p_record P)) c = Some v -> v < u32_mod) /\
    forall R, same_rows R (after (total gcv (p_path P) hs) (p_record P)) -> OxideMerge.plain R -> unique_keys R ->
    length (fc_s R) = length (fc_statement_map (p_record P)) /\ length (fc_f R) = length (fc_fn_map (p_record P)) /\
    length (concat (im_values (fc_b R))) = length (paths_of P) /\
    forall c, seen c = true -> slot_exists R c = true -> exists ev, tells (p_env P) (p_items P) (concat (logs P)) R c ev)).
  { intros P I. pose proof (Hm P I) as (H1 & H2 & H3 & H4 & H5 & H6 & H7 & _ & H9 & H10 & _).
    destruct (rows_tell (p_env P) (p_fuel P) (p_path P) (p_ism P) (p_tree P) (p_items P) (p_out P) (p_cov P) H1 H2 H3 H4 H5 H6 H7 H9 H10
      (total gcv (p_path P) hs) (concat (logs P)) (acted_told gcv P hs (logs P) (Ha P I))) as [A B].
    split; [|exact B]. apply A. intros ev. now apply Hb. }
  destruct (project_map m (project l) gcv Pr hs rss F) as (M & E & Ok1 & Fs & Rs).
  { intros p fc c v Ep. destruct (project_in l p fc Ep) as (P & I & <- & <-). now apply Tl. }
  exists M. split; [exact E|]. split; [exact Ok1|]. split.
  - intros p. rewrite Fs. split; [|now intros (P & _ & _ & H)]. intros H.
    assert (I : In p (cm_get_files M)) by now apply Fs. unfold cm_get_files, im_keys in I. apply in_map_iff in I as ([q R] & Eq & I). cbn in Eq. subst q.
    apply (im_in_get _ (proj1 Ok1)) in I. destruct (Rs p R I) as (fc & Ep & _). destruct (project_in l p fc Ep) as (P & IP & EP & _). now exists P.
  - intros P R I Eg. destruct (Rs _ _ Eg) as (fc & Ep & A & B & C). rewrite (project_get l P W I) in Ep. injection Ep as <-.
    split; [exact B|]. split; [exact C|]. now apply Tl.
Qed.

(** What a file contributes to the report: its statements, functions and branch paths, as events of its source *)
Record part := mkPart { r_prog : program; r_stmts : list event; r_fns : list event; r_paths : list event }.
Definition part_of (logs : program -> list (list event)) (M : coverage_map) (x : part) : Prop :=
  let P := r_prog x in let log := concat (logs P) in
  length (r_stmts x) = length (fc_statement_map (p_record P)) /\ length (r_fns x) = length (fc_fn_map (p_record P)) /\
  length (r_paths x) = length (paths_of P) /\
  exists R ls, cm_get_coverage_for_file M (p_path P) = Some R /\ get_uncovered_lines R = Ok ls /\
    Forall2 (fun p ev => tells (p_env P) (p_items P) log R (fst p) ev) (stmts_of R) (r_stmts x) /\
    Forall2 (fun p ev => tells (p_env P) (p_items P) log R (fst p) ev) (fns_of R) (r_fns x) /\
    Forall2 (fun p ev => tells (p_env P) (p_items P) log R (fst p) ev) (paths (fc_b R)) (r_paths x) /\
    (forall n, In n ls <->
       (exists k rg, im_get k (fc_statement_map R) = Some rg /\ im_get k (fc_s R) <> None /\ line (rstart rg) = n) /\
       (forall k rg ev, im_get k (fc_statement_map R) = Some rg -> line (rstart rg) = n ->
          tells (p_env P) (p_items P) log R (CS k) ev -> happened log ev = false)).
Definition adds_up (logs : program -> list (list event)) (part_events : part -> list event) (l : list part) (t : totals) : Prop :=
  t_total t = sumN (map (fun x => N.of_nat (length (part_events x))) l) /\
  t_covered t = sumN (map (fun x => reached (concat (logs (r_prog x))) (part_events x)) l) /\
  t_skipped t = 0 /\ (l <> [] -> t_pct t = PValue (percent (t_covered t) (t_total t))).

Lemma sum_le : forall A (f g : A -> N) l, (forall x, In x l -> f x <= g x) -> sumN (map f l) <= sumN (map g l).
Proof.
  intros A f g l H. unfold sumN. induction l as [|x l IH]; [reflexivity|]. cbn [map fold_right].
  apply N.add_le_mono; [apply H; now left|apply IH; intros y I; apply H; now right].
Qed.
Lemma sum_perm : forall A (f : A -> N) l l', Permutation l l' -> sumN (map f l) = sumN (map f l').
Proof. intros A f l l' P. unfold sumN. induction P; cbn [map fold_right]; lia. Qed.
Lemma sum_filter : forall A (f : A -> N) p l, sumN (map f (filter p l)) <= sumN (map f l).
Proof.
  intros A f p l. unfold sumN. induction l as [|x l IH]; [reflexivity|]. cbn [filter map fold_right]. destruct (p x); cbn [map fold_right]; lia.
Qed.
Lemma sum_ext : forall A (f g : A -> N) l, (forall x, In x l -> f x = g x) -> sumN (map f l) = sumN (map g l).
Proof. intros A f g l H. f_equal. now apply map_ext_in. Qed.
Lemma sum_zero : forall A (l : list A), sumN (map (fun _ => 0) l) = 0.
Proof. intros A l. unfold sumN. induction l as [|x l IH]; [reflexivity|]. cbn [map fold_right]. now rewrite IH. Qed.
Lemma reached_le : forall log l, reached log l <= N.of_nat (length l).
Proof. intros log l. unfold reached. pose proof (filter_length_le _ (happened log) l). lia. Qed.

Lemma first_occ_len : forall K (E : EqB K) (l : list K), (length (first_occ l) <= length l)%nat.
Proof.
  intros K E l. induction l as [|x l IH]; [apply le_n|]. cbn [first_occ length].
  pose proof (filter_length_le _ (fun y => negb (eqb y x)) (first_occ l)). lia.
Qed.
Lemma summary_lines : forall m fc s, table_ok stmt_loc (fc_s fc) (fc_statement_map fc) -> fc_b_t fc = None ->
  N.of_nat (length (concat (im_values (fc_b fc)))) < u32_mod -> to_summary m fc = Ok s ->
  t_total (cs_lines s) <= N.of_nat (length (fc_s fc)) /\ t_covered (cs_lines s) <= t_total (cs_lines s) /\
  t_skipped (cs_lines s) = 0 /\ cs_branches_true s = None.
Proof.
  intros m fc s Tk Bt Bb E. rewrite (to_summary_spec m fc Tk Bb) in E by congruence. cbv zeta in E.
  apply (f_equal (fun r => match r with Ok x => x | _ => s end)) in E. rewrite <- E. rewrite Bt. cbn [cs_lines cs_branches_true option_map spec_totals t_total t_covered t_skipped].
  split; [|split; [|split; reflexivity]].
  - pose proof (first_occ_len _ _ (map fst (line_rows fc))) as L. rewrite map_length in L. unfold line_rows at 2 in L. rewrite map_length in L.
    assert (Lr : length (stmt_rows fc) = length (fc_s fc)).
    { unfold stmt_rows, rows. revert Tk. generalize (fc_s fc). intros h Tk. induction h as [|[k v] h IH]; [reflexivity|]. cbn [flat_map fst].
      destruct (Tk k (or_introl eq_refl)) as (y & z & E1 & E2). rewrite E1, E2, app_length, IH; [reflexivity|]. intros k' I. apply Tk. now right. }
    lia.
  - pose proof (filter_length_le _ (fun l => negb (maxN (vals_of l (line_rows fc)) =? 0)) (first_occ (map fst (line_rows fc)))). lia.
Qed.
Definition counted_in (log l : list event) (t : totals) : Prop := t = spec_totals (N.of_nat (length l)) (reached log l).

(** The record of a file that can be reported: its tables agree, it has the entries of the file, and its counters tell what
    happened in the source. *)
Definition readable (logs : program -> list (list event)) (P : program) (R : file_coverage) : Prop :=
  table_ok stmt_loc (fc_s R) (fc_statement_map R) /\ fc_b_t R = None /\ unique_keys R /\
  length (fc_s R) = length (fc_statement_map (p_record P)) /\ length (fc_f R) = length (fc_fn_map (p_record P)) /\
  length (concat (im_values (fc_b R))) = length (paths_of P) /\
  forall c, seen c = true -> slot_exists R c = true -> exists ev, tells (p_env P) (p_items P) (concat (logs P)) R c ev.
(** The summaries of the files of a map, and what they add up to *)
Lemma summaries_of : forall m l sel logs M, NoDup (map p_path l) -> small l -> cm_ok M ->
  (forall p, In p (cm_get_files M) <-> exists P, In P l /\ p_path P = p /\ sel p = true) ->
  (forall P R, In P l -> cm_get_coverage_for_file M (p_path P) = Some R -> readable logs P R) ->
  exists s parts, cm_get_coverage_summary m M = Ok s /\
    map (fun x => p_path (r_prog x)) parts = cm_get_files M /\
    Permutation (map r_prog parts) (filter (fun P => sel (p_path P)) l) /\
    Forall (part_of logs M) parts /\
    adds_up logs r_stmts parts (cs_statements s) /\ adds_up logs r_fns parts (cs_functions s) /\
    adds_up logs r_paths parts (cs_branches s) /\
    exists ss, map_res (to_summary m) (im_values M) = Ok ss /\ OxideViews.all_fit ss.
Proof.
  intros m l sel logs M W (B1 & B2 & B3) (Nd & Pth) Fs Tl.
  assert (Bp : forall P, In P l -> N.of_nat (length (paths_of P)) < u32_mod).
  { intros P I. eapply N.le_lt_trans; [|exact B3]. unfold sum_over, sumN. clear - I. induction l as [|Q l IH]; [contradiction|].
    cbn [map fold_right]. destruct I as [->|I]; [lia|]. specialize (IH I). lia. }
  assert (X : forall sub, incl sub M -> exists parts ss, map_res (to_summary m) (im_values sub) = Ok ss /\
    map (fun x => p_path (r_prog x)) parts = map fst sub /\ Forall (fun x => In (r_prog x) l) parts /\ Forall (part_of logs M) parts /\
    Forall2 (fun x s => let log := concat (logs (r_prog x)) in counted_in log (r_stmts x) (cs_statements s) /\
       counted_in log (r_fns x) (cs_functions s) /\ counted_in log (r_paths x) (cs_branches s) /\
       t_total (cs_lines s) <= N.of_nat (length (r_stmts x)) /\ t_covered (cs_lines s) <= t_total (cs_lines s) /\
       t_skipped (cs_lines s) = 0 /\ cs_branches_true s = None) parts ss).
  { induction sub as [|[p R] sub IH]; intros Inc.
    - exists [], []. repeat (split; [constructor|]). constructor.
    - destruct IH as (parts & ss & A1 & A2 & A3 & A4 & A5). { intros y I. apply Inc. now right. }
      assert (I : In (p, R) M) by (apply Inc; now left).
      assert (Ip : In p (cm_get_files M)) by now apply (in_map fst) in I.
      destruct (proj1 (Fs p) Ip) as (P & IP & <- & _). apply (im_in_get _ Nd) in I.
      destruct (Tl P R IP I) as (P2 & P4 & U & L1 & L2 & L3 & T).
      destruct (summary_of_tells (p_env P) (p_items P) (concat (logs P)) R m U P2) as (s & ls & evS & evF & evB & S1 & S2 & S3 & S4 & S5 & S6 & S7 & S8 & S9).
      { rewrite L3. now apply Bp. } { congruence. } { exact T. }
      assert (FL : forall (Q : counter * N -> event -> Prop) a b, Forall2 Q a b -> length b = length a).
      { intros Q a b Fq. induction Fq; cbn; congruence. }
      assert (Ls : length evS = length (fc_s R)) by (rewrite (FL _ _ _ S3); unfold stmts_of; apply map_length).
      destruct (summary_lines m R s P2 P4) as (Q1 & Q2 & Q3 & Q4). { rewrite L3. now apply Bp. } { exact S1. }
      exists (mkPart P evS evF evB :: parts), (s :: ss). split; [|split; [|split; [|split]]].
      + cbn [im_values map map_res snd]. rewrite S1. cbn [bind]. unfold im_values in A1. rewrite A1. reflexivity.
      + cbn [map r_prog fst]. now rewrite A2.
      + constructor; assumption.
      + constructor; [|exact A4]. unfold part_of. cbn [r_prog r_stmts r_fns r_paths]. split; [congruence|].
        split; [rewrite (FL _ _ _ S4); unfold fns_of; now rewrite map_length|].
        split; [rewrite (FL _ _ _ S5), <- L3, <- paths_values; now rewrite map_length|].
        exists R, ls. now repeat (split; [assumption|]).
      + constructor; [|exact A5]. cbv zeta. cbn [r_prog r_stmts r_fns r_paths]. rewrite Ls. unfold counted_in. rewrite Ls.
        rewrite Ls in S6. now repeat (split; [assumption|]). }
  destruct (X M (incl_refl M)) as (parts & ss & A1 & A2 & A3 & A4 & A5). clear X.
  assert (Pm : Permutation (map r_prog parts) (filter (fun P => sel (p_path P)) l)).
  { apply NoDup_Permutation.
    - apply (NoDup_map_inv p_path). rewrite map_map, A2. exact Nd.
    - apply NoDup_filter. now apply (NoDup_map_inv p_path).
    - intros P. rewrite filter_In. split.
      + intros I. apply in_map_iff in I as (x & <- & I). rewrite Forall_forall in A3. split; [now apply A3|].
        assert (J : In (p_path (r_prog x)) (cm_get_files M)).
        { unfold cm_get_files, im_keys. rewrite <- A2. now apply (in_map (fun x => p_path (r_prog x))). }
        now apply Fs in J as (Q & _ & _ & J).
      + intros [I J]. assert (K : In (p_path P) (cm_get_files M)) by (apply Fs; exists P; auto).
        unfold cm_get_files, im_keys in K. rewrite <- A2 in K. apply in_map_iff in K as (x & Ex & Ix).
        assert (r_prog x = P).
        { rewrite Forall_forall in A3. specialize (A3 x Ix). clear - W A3 I Ex. induction l as [|Q l IH]; [contradiction|].
          cbn [map] in W. apply NoDup_cons_iff in W as [W1 W2]. destruct A3 as [E1|A3], I as [E2|I]; [congruence| | |now apply IH].
          - exfalso. apply W1. rewrite E1, Ex. now apply in_map.
          - exfalso. apply W1. rewrite E2, <- Ex. now apply in_map. }
        subst P. now apply in_map. }
  assert (Sz : forall (g : program -> nat) (pe : part -> list event), (forall x, In x parts -> length (pe x) = g (r_prog x)) ->
    sum_over g l < u32_mod -> sumN (map (fun x => N.of_nat (length (pe x))) parts) < u32_mod).
  { intros g pe Hg Hl. eapply N.le_lt_trans; [|exact Hl]. rewrite (sum_ext _ _ (fun x => N.of_nat (g (r_prog x)))).
    - change (map (fun x => N.of_nat (g (r_prog x))) parts) with (map (fun x => (fun P => N.of_nat (g P)) (r_prog x)) parts).
      rewrite <- (map_map r_prog (fun P => N.of_nat (g P))). rewrite (sum_perm _ _ _ _ Pm). apply sum_filter.
    - intros x I. now rewrite Hg. }
  assert (Pt : forall x, In x parts -> part_of logs M x) by now apply Forall_forall.
  pose proof (Sz _ r_stmts (fun x I => proj1 (Pt x I)) B1) as Z1.
  pose proof (Sz _ r_fns (fun x I => proj1 (proj2 (Pt x I))) B2) as Z2.
  pose proof (Sz _ r_paths (fun x I => proj1 (proj2 (proj2 (Pt x I)))) B3) as Z3.
  assert (Sums : forall (f : coverage_summary -> totals) (pe : part -> list event),
    Forall2 (fun x s => counted_in (concat (logs (r_prog x))) (pe x) (f s)) parts ss ->
    sum_nums f t_total ss = sumN (map (fun x => N.of_nat (length (pe x))) parts) /\
    sum_nums f t_covered ss = sumN (map (fun x => reached (concat (logs (r_prog x))) (pe x)) parts) /\ sum_nums f t_skipped ss = 0).
  { intros f pe Fq. clear - Fq. unfold sum_nums, sumN. induction Fq as [|x s xs0 ss0 C _ (I1 & I2 & I3)]; [repeat split|]. unfold counted_in in C.
    cbn [map fold_right]. rewrite I1, I2, I3, C. repeat split. }
  assert (Imp : forall (Q Q' : part -> coverage_summary -> Prop), (forall x s, Q x s -> Q' x s) -> Forall2 Q parts ss -> Forall2 Q' parts ss).
  { intros Q Q' H Fq. clear - H Fq. induction Fq; constructor; auto. }
  destruct (Sums cs_statements r_stmts) as (S1 & S2 & S3). { eapply Imp; [|exact A5]. intros x s H. apply H. }
  destruct (Sums cs_functions r_fns) as (S4 & S5 & S6). { eapply Imp; [|exact A5]. intros x s H. apply H. }
  destruct (Sums cs_branches r_paths) as (S7 & S8 & S9). { eapply Imp; [|exact A5]. intros x s H. apply H. }
  assert (Lb : sum_nums cs_lines t_total ss <= sumN (map (fun x => N.of_nat (length (r_stmts x))) parts) /\
    sum_nums cs_lines t_covered ss <= sumN (map (fun x => N.of_nat (length (r_stmts x))) parts) /\ sum_nums cs_lines t_skipped ss = 0 /\
    (forall g, In g [t_total; t_covered; t_skipped] -> sum_nums bt_of g ss = 0)).
  { clear - A5. unfold sum_nums, sumN. induction A5 as [|x s xs0 ss0 (_ & _ & _ & H1 & H2 & H3 & H4) _ (I1 & I2 & I3 & I4)].
    - repeat split; try reflexivity; cbn; lia.
    - cbn [map fold_right]. split; [lia|]. split; [lia|]. split; [lia|]. intros g Ig. cbn [map fold_right]. rewrite (I4 g Ig).
      unfold bt_of. rewrite H4. destruct Ig as [<-|[<-|[<-|[]]]]; reflexivity. }
  destruct Lb as (L1 & L2 & L3 & L4).
  assert (Rl : forall pe : part -> list event, sumN (map (fun x => reached (concat (logs (r_prog x))) (pe x)) parts) <= sumN (map (fun x => N.of_nat (length (pe x))) parts)).
  { intros pe. apply (sum_le part (fun x => reached (concat (logs (r_prog x))) (pe x)) (fun x => N.of_nat (length (pe x)))). intros x _. apply reached_le. }
  assert (P00 : 0 < u32_mod) by reflexivity.
  assert (Fit : OxideViews.all_fit ss).
  { intros f g If Ig. destruct If as [<-|[<-|[<-|[<-|[<-|[]]]]]].
    - destruct Ig as [<-|[<-|[<-|[]]]]; [eapply N.le_lt_trans; eassumption|eapply N.le_lt_trans; eassumption|now rewrite L3].
    - destruct Ig as [<-|[<-|[<-|[]]]]; [now rewrite S1|rewrite S2; eapply N.le_lt_trans; [apply Rl|exact Z1]|now rewrite S3].
    - destruct Ig as [<-|[<-|[<-|[]]]]; [now rewrite S4|rewrite S5; eapply N.le_lt_trans; [apply Rl|exact Z2]|now rewrite S6].
    - destruct Ig as [<-|[<-|[<-|[]]]]; [now rewrite S7|rewrite S8; eapply N.le_lt_trans; [apply Rl|exact Z3]|now rewrite S9].
    - now rewrite (L4 g Ig). }
  destruct (map_summary_is_sum m M ss A1 Fit) as (s & Es & Nums & Pct & _).
  exists s, parts. split; [exact Es|]. split; [exact A2|]. split; [exact Pm|]. split; [exact A4|].
  assert (Ne : parts <> [] -> ss <> []). { clear - A5. intros H. destruct A5; [congruence|discriminate]. }
  assert (Ad : forall (f : coverage_summary -> totals) pe, In f [cs_lines; cs_statements; cs_functions; cs_branches] ->
    sum_nums f t_total ss = sumN (map (fun x => N.of_nat (length (pe x))) parts) ->
    sum_nums f t_covered ss = sumN (map (fun x => reached (concat (logs (r_prog x))) (pe x)) parts) -> sum_nums f t_skipped ss = 0 ->
    adds_up logs pe parts (f s)).
  { intros f pe If H1 H2 H3. assert (If' : In f [cs_lines; cs_statements; cs_functions; cs_branches; bt_of]).
    { cbn in If |- *. tauto. }
    split; [rewrite <- H1; apply Nums; [exact If'|cbn; tauto]|]. split; [rewrite <- H2; apply Nums; [exact If'|cbn; tauto]|].
    split; [rewrite <- H3; apply Nums; [exact If'|cbn; tauto]|]. intros Hn. rewrite (Pct f If). specialize (Ne Hn). destruct ss; [congruence|reflexivity]. }
  split; [|split; [|split; [|exists ss; split; [exact A1|exact Fit]]]]; apply Ad; auto; cbn; tauto.
Qed.
(** The report of the project: the files are those that ran in some process, and the totals count as covered exactly the
    statements, functions and branch paths that were reached in at least one process. *)
Theorem project_report_partial : forall m l gcv hs rss logs, NoDup (map p_path l) -> Forall modelled l -> small l ->
  Forall2 (process (project l) gcv) hs rss -> (forall P, In P l -> Forall2 (acted gcv P) hs (logs P)) ->
  (forall P ev, In P l -> N.of_nat (count_occ event_dec (concat (logs P)) ev) < u32_mod) ->
  exists M s parts, merge_maps m rss = Ok M /\ cm_get_coverage_summary m M = Ok s /\
    map (fun x => p_path (r_prog x)) parts = cm_get_files M /\
    Permutation (map r_prog parts) (filter (fun P => ran_once gcv (p_path P) hs) l) /\
    Forall (part_of logs M) parts /\
    adds_up logs r_stmts parts (cs_statements s) /\ adds_up logs r_fns parts (cs_functions s) /\
    adds_up logs r_paths parts (cs_branches s).
Proof.
  intros m l gcv hs rss logs W Hm Sm F Ha Hb.
  destruct (project_tells_partial m l gcv hs rss logs W Hm F Ha Hb) as (M & E & Ok1 & Fs & Tl).
  destruct (summaries_of m l (fun p => ran_once gcv p hs) logs M W Sm Ok1 Fs) as (s & parts & H2 & H3 & H4 & H5 & H6 & H7 & H8 & _).
  { intros P R I G. destruct (Tl P R I G) as ((P1 & P2 & P3 & P4) & T). exact (conj (proj1 P2) (conj P4 T)). }
  exists M, s, parts. now repeat (split; [assumption|]).
Qed.

(** ** Example *)
(** A process that loads two files and runs both *)
Definition both (f g : emitted) (lf lg : list counter) : list Runtime.event :=
  ELoad f :: ELoad g :: ECall 0 :: ECall 1 :: map (EInc 0) lf ++ map (EInc 1) lg.
Lemma both_ok : forall f g lf lg, file_key f <> file_key g ->
  valid (both f g lf lg) /\ loaded (both f g lf lg) = [f; g] /\
  (forall k p, used k p (both f g lf lg) = key_eqb (file_key f) (k, p) || key_eqb (file_key g) (k, p)) /\
  done (em_gcv f) (em_path f) (both f g lf lg) = lf /\ done (em_gcv g) (em_path g) (both f g lf lg) = lg.
Proof.
  intros f g lf lg Nk.
  assert (Ld : loaded (both f g lf lg) = [f; g]).
  { unfold both, loaded. cbn [flat_map app]. do 2 f_equal. rewrite flat_map_app.
    assert (Z : forall i l, flat_map (fun ev => match ev with ELoad f => [f] | _ => [] end) (map (EInc i) l) = []).
    { intros i l. induction l as [|c l IH]; [reflexivity|exact IH]. }
    now rewrite !Z. }
  assert (Fl : forall k i, is_file k (both f g lf lg) i = match i with 0%nat => key_eqb (file_key f) k | 1%nat => key_eqb (file_key g) k | _ => false end).
  { intros k i. unfold is_file. rewrite Ld. destruct i as [|[|[|i]]]; reflexivity. }
  assert (Kf : key_eqb (file_key f) (file_key f) = true) by now apply key_eqb_spec.
  assert (Kg : key_eqb (file_key g) (file_key g) = true) by now apply key_eqb_spec.
  assert (Kfg : key_eqb (file_key f) (file_key g) = false).
  { destruct (key_eqb (file_key f) (file_key g)) eqn:E; [|reflexivity]. apply key_eqb_spec in E. contradiction. }
  assert (Kgf : key_eqb (file_key g) (file_key f) = false).
  { destruct (key_eqb (file_key g) (file_key f)) eqn:E; [|reflexivity]. apply key_eqb_spec in E. congruence. }
  split; [|split; [exact Ld|split; [|split]]].
  - apply validb_valid. unfold both. cbn [validb Nat.ltb Nat.leb andb]. clear. generalize lg. induction lf as [|c l IH]; intros r; [|exact (IH r)].
    cbn [map app]. induction r as [|c r IH]; [reflexivity|exact IH].
  - intros k p. unfold used. pose proof (Fl (k, p)) as Fq. revert Fq. generalize (is_file (k, p) (both f g lf lg)). intros q Fq.
    unfold both. cbn [existsb]. rewrite !Fq. cbn [orb].
    assert (Z : forall i l, (i < 2)%nat -> existsb (fun ev => match ev with ECall i | EInc i _ => q i | ELoad _ => false end) (map (EInc i) l) = true ->
      key_eqb (file_key f) (k, p) || key_eqb (file_key g) (k, p) = true).
    { intros i l Hi H. apply existsb_exists in H as (ev & I & H). apply in_map_iff in I as (c & <- & _). rewrite Fq in H.
      destruct i as [|[|i]]; [now rewrite H|now rewrite H, orb_true_r|lia]. }
    rewrite existsb_app.
    destruct (existsb _ (map (EInc 0) lf)) eqn:E0; [rewrite orb_assoc, (Z 0%nat _ ltac:(lia) E0); reflexivity|].
    destruct (existsb _ (map (EInc 1) lg)) eqn:E1; [rewrite orb_assoc, (Z 1%nat _ ltac:(lia) E1); reflexivity|].
    cbn [orb]. now rewrite orb_false_r.
  - unfold done. change (em_gcv f, em_path f) with (file_key f). pose proof (Fl (file_key f)) as Fq. revert Fq.
    generalize (is_file (file_key f) (both f g lf lg)). intros q Fq. unfold both. cbn [flat_map app]. rewrite flat_map_app.
    assert (Z0 : forall l, flat_map (fun ev => match ev with EInc i c => if q i then [c] else [] | _ => [] end) (map (EInc 0) l) = l).
    { induction l as [|c l IH]; [reflexivity|]. cbn [map flat_map]. rewrite IH, Fq, Kf. reflexivity. }
    assert (Z1 : forall l, flat_map (fun ev => match ev with EInc i c => if q i then [c] else [] | _ => [] end) (map (EInc 1) l) = []).
    { induction l as [|c l IH]; [reflexivity|]. cbn [map flat_map]. rewrite IH, Fq, Kgf. reflexivity. }
    rewrite Z0, Z1. apply app_nil_r.
  - unfold done. change (em_gcv g, em_path g) with (file_key g). pose proof (Fl (file_key g)) as Fq. revert Fq.
    generalize (is_file (file_key g) (both f g lf lg)). intros q Fq. unfold both. cbn [flat_map app]. rewrite flat_map_app.
    assert (Z0 : forall l, flat_map (fun ev => match ev with EInc i c => if q i then [c] else [] | _ => [] end) (map (EInc 0) l) = []).
    { induction l as [|c l IH]; [reflexivity|]. cbn [map flat_map]. rewrite IH, Fq, Kfg. reflexivity. }
    assert (Z1 : forall l, flat_map (fun ev => match ev with EInc i c => if q i then [c] else [] | _ => [] end) (map (EInc 1) l) = l).
    { induction l as [|c l IH]; [reflexivity|]. cbn [map flat_map]. rewrite IH, Fq, Kg. reflexivity. }
    now rewrite Z0, Z1.
Qed.
Lemma one_ok : forall f l, loaded (one_file f l) = [f] /\
  (forall k p, used k p (one_file f l) = key_eqb (file_key f) (k, p)) /\ done (em_gcv f) (em_path f) (one_file f l) = l.
Proof.
  intros f l. destruct (one_file_ok f l) as (V & L & I0 & T). assert (W : NoDup (map file_key (loaded (one_file f l)))).
  { rewrite L. repeat constructor. intros []. }
  split; [exact L|]. split.
  - intros k p. destruct (key_eqb (file_key f) (k, p)) eqn:E.
    + apply key_eqb_spec in E. unfold file_key in E. injection E as <- <-. rewrite (used_nth _ 0 f W); [exact T|now rewrite L].
    + destruct (used k p (one_file f l)) eqn:U; [|reflexivity]. destruct (used_file _ _ _ U) as (i & g & Ei & Ek & _).
      rewrite L in Ei. destruct i as [|[|i]]; try discriminate. injection Ei as <-. apply key_eqb_spec in Ek. congruence.
  - rewrite (done_nth _ 0 f W); [exact I0|now rewrite L].
Qed.

Definition count_program (p : string) (t' : node) (sc : source_cov) : program :=
  mkProgram line_env 60 p None ex_count (match program_items ex_count with Some l => l | None => [] end) t' sc.
Lemma count_modelled : forall p t' sc, instrument line_env 60 p None ex_count = Ok (t', sc) ->
  modelled (count_program p t' sc) /\ length (fc_statement_map (sc_fc sc)) = 10%nat /\ length (fc_fn_map (sc_fc sc)) = 2%nat /\
  length (concat (im_values (fc_b (sc_fc sc)))) = 6%nat.
Proof.
  intros p t' sc H. split.
  - unfold modelled, count_program. cbn [p_env p_fuel p_path p_ism p_tree p_items p_out p_cov]. do 5 (split; [reflexivity|]).
    split; [events_nodup|]. split; [reflexivity|]. split; [vm_compute; repeat constructor|]. split; [exact H|]. split; [reflexivity|].
    unfold p_record. cbn [p_cov]. vm_compute in H. injection H as _ <-. repeat split; apply nodupb_ok; vm_compute; reflexivity.
  - vm_compute in H. injection H as _ <-. repeat split.
Qed.
(** Three copies of the program of [report_ex].  The first process runs two of them, the second one runs the first again, and
    nobody runs the third: the theorem applies, and the report is about the first two. *)
Definition count_incs (n : nat) (P : program) : list counter := cnt pure_toy (snd (run_program pure_toy n (p_out P) tt w0)).
Definition count_emitted (P : program) : emitted := emitted_for "__coverage__" (p_path P) (p_record P).
Definition count_logs (P : program) : list (list event) :=
  if String.eqb (p_path P) "f.js" then [count_log 9; count_log 1] else
  if String.eqb (p_path P) "g.js" then [count_log 1; []] else [[]; []].
Lemma process_intro : forall l gcv evs, valid evs -> NoDup (map file_key (loaded evs)) ->
  NoDup (map p_path l) -> Forall modelled l ->
  Forall (fun f => exists P, In P l /\ f = emitted_for gcv (p_path P) (p_record P)) (loaded evs) ->
  exists rs, process (project l) gcv evs rs.
Proof.
  intros l gcv evs V W Wl Hm Hf.
  assert (O : Forall (fun f => exists fc, output_of f fc /\ (em_gcv f = gcv -> im_get (em_path f) (project l) = Some fc)) (loaded evs)).
  { eapply Forall_impl; [|exact Hf]. intros f (P & I & ->). exists (p_record P). rewrite Forall_forall in Hm.
    destruct (Hm P I) as (H1 & _ & _ & _ & _ & _ & _ & H8 & H9 & _). split.
    - destruct (produced_literal _ _ _ _ _ _ _ _ H1 H9 H8) as [O _]. apply O.
    - intros _. cbn [em_path emitted_for]. now apply project_get. }
  destruct (variable_read evs gcv V W) as (st & rs & E & Er & _).
  { eapply Forall_impl; [|exact O]. intros f (fc & Of & _). eauto. }
  exists (map snd rs). split; [exact V|]. split; [exact W|]. split; [exact O|]. exists st, rs. auto.
Qed.
Lemma count_logs_fit : forall P ev, N.of_nat (count_occ event_dec (concat (count_logs P)) ev) < u32_mod.
Proof.
  intros P ev. refine (N.le_lt_trans _ _ _ (occurrences_le ev _) _). unfold count_logs.
  destruct (String.eqb (p_path P) "f.js"); [vm_compute; reflexivity|]. destruct (String.eqb (p_path P) "g.js"); vm_compute; reflexivity.
Qed.
Example project_ex : forall tf cf tg cg th ch, instrument line_env 60 "f.js" None ex_count = Ok (tf, cf) ->
  instrument line_env 60 "g.js" None ex_count = Ok (tg, cg) -> instrument line_env 60 "h.js" None ex_count = Ok (th, ch) ->
  let F := count_program "f.js" tf cf in let G := count_program "g.js" tg cg in let l := [F; G; count_program "h.js" th ch] in
  let hs := [both (count_emitted F) (count_emitted G) (count_incs 9 F) (count_incs 1 G); one_file (count_emitted F) (count_incs 1 F)] in
  exists rss M s, Forall2 (process (project l) "__coverage__") hs rss /\ merge_maps Debug rss = Ok M /\
    cm_get_coverage_summary Debug M = Ok s /\ Permutation (cm_get_files M) ["f.js"; "g.js"] /\
    t_total (cs_statements s) = 20 /\ t_total (cs_functions s) = 4 /\ t_total (cs_branches s) = 12 /\
    (forall P R, In P l -> cm_get_coverage_for_file M (p_path P) = Some R ->
       forall c, seen c = true -> slot_exists R c = true -> exists ev, tells line_env (p_items P) (concat (count_logs P)) R c ev).
Proof.
  intros tf cf tg cg th ch Hf Hg Hh F G l hs.
  destruct (count_modelled _ _ _ Hf) as (Mf & F1 & F2 & F3), (count_modelled _ _ _ Hg) as (Mg & G1 & G2 & G3), (count_modelled _ _ _ Hh) as (Mh & K1 & K2 & K3).
  assert (Wl : NoDup (map p_path l)). { repeat constructor; cbn; intuition discriminate. }
  assert (Hm : Forall modelled l). { constructor; [exact Mf|]. constructor; [exact Mg|]. constructor; [exact Mh|constructor]. }
  assert (Nk : file_key (count_emitted F) <> file_key (count_emitted G)) by discriminate.
  destruct (both_ok (count_emitted F) (count_emitted G) (count_incs 9 F) (count_incs 1 G) Nk) as (V1 & L1 & U1 & D1 & D1').
  destruct (one_file_ok (count_emitted F) (count_incs 1 F)) as (V2 & _). destruct (one_ok (count_emitted F) (count_incs 1 F)) as (L2 & U2 & D2).
  destruct (process_intro l "__coverage__" _ V1) as (r1 & P1).
  { rewrite L1. repeat constructor; cbn; intuition discriminate. } { exact Wl. } { exact Hm. }
  { rewrite L1. constructor; [exists F; split; [now left|reflexivity]|]. constructor; [exists G; split; [right; now left|reflexivity]|constructor]. }
  destruct (process_intro l "__coverage__" _ V2) as (r2 & P2).
  { rewrite L2. repeat constructor; intros []. } { exact Wl. } { exact Hm. }
  { rewrite L2. constructor; [exists F; split; [now left|reflexivity]|constructor]. }
  assert (Pr : Forall2 (process (project l) "__coverage__") hs [r1; r2]).
  { constructor; [exact P1|]. constructor; [exact P2|constructor]. }
  assert (Ac : forall P, In P l -> Forall2 (acted "__coverage__" P) hs (count_logs P)).
  { cbn [em_gcv em_path count_emitted emitted_for] in D1, D1', D2.
    intros P [<-|[<-|[<-|[]]]].
    - change (count_logs F) with [count_log 9; count_log 1]. constructor; [|constructor; [|constructor]]; unfold acted.
      + rewrite U1. cbn [file_key em_gcv em_path count_emitted emitted_for p_path F count_program key_eqb fst snd String.eqb Ascii.eqb Bool.eqb andb orb].
        exists pure_toy, 9%nat, tt, w0. split; [reflexivity|]. change (p_path F) with "f.js" in D1 |- *. rewrite D1. apply Permutation_refl.
      + rewrite U2. exists pure_toy, 1%nat, tt, w0. split; [reflexivity|]. rewrite D2. apply Permutation_refl.
    - change (count_logs G) with [count_log 1; []]. constructor; [|constructor; [|constructor]]; unfold acted.
      + rewrite U1. exists pure_toy, 1%nat, tt, w0. split; [reflexivity|]. rewrite D1'. apply Permutation_refl.
      + rewrite U2. reflexivity.
    - constructor; [|constructor; [|constructor]]; unfold acted; [rewrite U1|rewrite U2]; reflexivity. }
  assert (Sm : small l).
  { unfold small, sum_over, l, F, G, paths_of, p_record, count_program. cbn [map p_cov sumN fold_right]. rewrite F1, G1, K1, F2, G2, K2, F3, G3, K3.
    repeat split. }
  destruct (project_report_partial Debug l "__coverage__" hs [r1; r2] count_logs Wl Hm Sm Pr Ac) as (M & s & parts & E1 & E2 & E3 & E4 & E5 & (A1 & _) & (A2 & _) & (A3 & _)).
  { intros P ev _. apply count_logs_fit. }
  destruct (project_tells_partial Debug l "__coverage__" hs [r1; r2] count_logs Wl Hm Pr Ac) as (M' & E1' & _ & _ & T).
  { intros P ev _. apply count_logs_fit. }
  assert (M' = M) by congruence. subst M'.
  exists [r1; r2], M, s. split; [exact Pr|]. split; [exact E1|]. split; [exact E2|].
  assert (Fl : filter (fun P => ran_once "__coverage__" (p_path P) hs) l = [F; G]).
  { unfold l, hs, ran_once. cbn [filter existsb]. rewrite !U1, !U2. reflexivity. }
  rewrite Fl in E4. split.
  { rewrite <- E3. rewrite <- (map_map r_prog p_path). change ["f.js"; "g.js"] with (map p_path [F; G]). now apply Permutation_map. }
  assert (Sum : forall (g : program -> nat) (pe : part -> list event) v, (forall x, In x parts -> length (pe x) = g (r_prog x)) -> g F = v -> g G = v ->
    sumN (map (fun x => N.of_nat (length (pe x))) parts) = N.of_nat v + N.of_nat v).
  { intros g pe v Hp Ef Eg. rewrite (sum_ext _ _ (fun x => N.of_nat (g (r_prog x)))) by (intros x I; now rewrite Hp).
    rewrite <- (map_map r_prog (fun P => N.of_nat (g P))). rewrite (sum_perm _ _ _ _ E4). cbn [map sumN fold_right]. rewrite Ef, Eg. lia. }
  rewrite Forall_forall in E5.
  split; [rewrite A1; now rewrite (Sum (fun P => length (fc_statement_map (p_record P))) r_stmts 10%nat (fun x I => proj1 (E5 x I)))|].
  split; [rewrite A2; now rewrite (Sum (fun P => length (fc_fn_map (p_record P))) r_fns 2%nat (fun x I => proj1 (proj2 (E5 x I))))|].
  split; [rewrite A3; now rewrite (Sum (fun P => length (paths_of P)) r_paths 6%nat (fun x I => proj1 (proj2 (proj2 (E5 x I)))))|].
  intros P R I Eg. destruct (T P R I Eg) as (_ & _ & _ & _ & _ & Tt).
  destruct I as [<-|[<-|[<-|[]]]]; exact Tt.
Qed.
(** The numbers of this report *)
Example project_numbers_ex :
  match instrument line_env 60 "f.js" None ex_count, instrument line_env 60 "g.js" None ex_count with
  | Ok (tf, cf), Ok (tg, cg) =>
      match merge_maps Debug [[count_after 9 tf cf; count_after 1 tg cg]; [count_after 1 tf cf]] with
      | Ok M => match cm_get_coverage_summary Debug M with
          | Ok s => (cm_get_files M, short (cs_statements s), short (cs_functions s), short (cs_branches s)) =
              (["f.js"; "g.js"], (20, 10), (4, 1), (12, 4))
          | _ => False
          end
      | _ => False
      end
  | _, _ => False
  end.
Proof. vm_compute. reflexivity. Qed.
