(** The counter function injected into every instrumented file
    (create_coverage_fn_decl.rs:48-192, create_global_stmt_template.rs) and its execution.

    The body is kept as a small program; an interpreter gives it a meaning over a heap whose
    cells are either plain objects (the global object, the coverage variable) or coverage
    records.  Only own properties are modelled (a coverage variable named like a property of
    [Object.prototype] is out of scope). *)
From Coq Require Import NArith String Ascii List Bool Lia PeanoNat.
Import ListNotations.
From Verif Require Import Base IndexMap Decimal Oxide Json CovJson DataObject.
Open Scope string_scope.

(** ** The template *)
Inductive texpr :=
| XStr (v : string)                         (* a string literal *)
| XData (l : lit)                           (* the coverage data literal *)
| XGlobal                                   (* new ((function(){}).constructor)("return this")() *)
| XVar (x : string)
| XIndex (o k : texpr)                      (* o[k] *)
| XProp (o : texpr) (name : string)         (* o.name *)
| XOr (a b : texpr)
| XNot (a : texpr)
| XNeq (a b : texpr)                        (* a !== b *)
| XSet (o k v : texpr)                      (* o[k] = v *)
| XEmpty                                    (* {} *).
Inductive tstmt :=
| SVar (x : string) (v : texpr)
| SIf (c : texpr) (then_ : texpr)
| SReplace (x : string)                     (* { cov_fn = function () { return x } } *)
| SReturn (x : string).

(** The file-dependent parts *)
Record emitted := mkEmitted { em_path : string; em_hash : string; em_gcv : string; em_data : lit }.
(** create_coverage_fn_decl.rs:57-66: path, then the data object and its hash *)
Definition emitted_for (gcv path : string) (fc : file_coverage) : emitted :=
  mkEmitted path (fst (coverage_data_object fc)) gcv (snd (coverage_data_object fc)).
(** create_coverage_fn_decl.rs:57-176.  [$hash] after the dot is not a placeholder of [quote!]. *)
Definition template (f : emitted) : list tstmt :=
  [ SVar "path" (XStr (em_path f));
    SVar "hash" (XStr (em_hash f));
    SVar "global" XGlobal;
    SVar "gcv" (XStr (em_gcv f));
    SVar "coverageData" (XData (em_data f));
    SVar "coverage" (XOr (XIndex (XVar "global") (XVar "gcv"))
                         (XSet (XVar "global") (XVar "gcv") XEmpty));
    SIf (XOr (XNot (XIndex (XVar "coverage") (XVar "path")))
             (XNeq (XProp (XIndex (XVar "coverage") (XVar "path")) "$hash") (XVar "hash")))
        (XSet (XVar "coverage") (XVar "path") (XVar "coverageData"));
    SVar "actualCoverage" (XIndex (XVar "coverage") (XVar "path"));
    SReplace "actualCoverage";
    SReturn "actualCoverage" ].

(** Path, hash, name of the global and the data, as they appear in the emitted function *)
Theorem emitted_spec : forall gcv path fc,
  emitted_for gcv path fc = mkEmitted path (fc_hash fc) gcv (snd (coverage_data_object fc)).
Proof. reflexivity. Qed.

(** ** Execution *)
Inductive value := VUndef | VScalar (j : json) | VBool (b : bool) | VRef (a : nat).
Inductive cell := CMap (m : imap string value) | CData (j : json).
Definition heap := list cell.
Definition global_addr : nat := 0.
Definition falsy_scalar (j : json) : bool :=
  match j with
  | JNull => true | JBool b => negb b | JNum n => N.eqb n 0 | JStr s => String.eqb s "" | _ => false
  end.
Definition truthy (v : value) : bool :=
  match v with VUndef => false | VScalar j => negb (falsy_scalar j) | VBool b => b | VRef _ => true end.
Definition scalar_eqb (a b : json) : bool :=
  match a, b with
  | JNull, JNull => true
  | JBool x, JBool y => Bool.eqb x y
  | JNum x, JNum y => N.eqb x y
  | JStr x, JStr y => String.eqb x y
  | _, _ => false
  end.
Definition strict_eqb (a b : value) : bool :=
  match a, b with
  | VUndef, VUndef => true
  | VScalar x, VScalar y => scalar_eqb x y
  | VBool x, VBool y => Bool.eqb x y
  | VRef x, VRef y => Nat.eqb x y
  | _, _ => false
  end.
Definition get_prop (h : heap) (v : value) (k : string) : option value :=
  match v with
  | VRef a =>
      match nth_error h a with
      | Some (CMap m) => Some (match im_get k m with Some v => v | None => VUndef end)
      | Some (CData j) => Some (match member j k with Some x => VScalar x | None => VUndef end)
      | None => None
      end
  | _ => None
  end.
Fixpoint set_nth {A} (n : nat) (x : A) (l : list A) : list A :=
  match n, l with
  | _, [] => []
  | O, _ :: l' => x :: l'
  | S n', y :: l' => y :: set_nth n' x l'
  end.
Definition set_prop (h : heap) (v : value) (k : string) (x : value) : option heap :=
  match v with
  | VRef a =>
      match nth_error h a with
      | Some (CMap m) => Some (set_nth a (CMap (im_insert k x m)) h)
      | _ => None
      end
  | _ => None
  end.
Definition as_key (v : value) : option string := match v with VScalar (JStr s) => Some s | _ => None end.
Fixpoint teval (x : texpr) (vars : imap string value) (h : heap) : option (value * heap) :=
  match x with
  | XStr s => Some (VScalar (JStr s), h)
  | XData l => let? j := eval l in Some (VRef (length h), h ++ [CData j])%list
  | XGlobal => Some (VRef global_addr, h)
  | XVar x => let? v := im_get x vars in Some (v, h)
  | XIndex o k =>
      let? (vo, h1) := teval o vars h in let? (vk, h2) := teval k vars h1 in
      let? key := as_key vk in let? v := get_prop h2 vo key in Some (v, h2)
  | XProp o name =>
      let? (vo, h1) := teval o vars h in let? v := get_prop h1 vo name in Some (v, h1)
  | XOr a b =>
      let? (va, h1) := teval a vars h in if truthy va then Some (va, h1) else teval b vars h1
  | XNot a => let? (va, h1) := teval a vars h in Some (VBool (negb (truthy va)), h1)
  | XNeq a b =>
      let? (va, h1) := teval a vars h in let? (vb, h2) := teval b vars h1 in
      Some (VBool (negb (strict_eqb va vb)), h2)
  | XSet o k v =>
      let? (vo, h1) := teval o vars h in let? (vk, h2) := teval k vars h1 in
      let? (vv, h3) := teval v vars h2 in let? key := as_key vk in
      let? h4 := set_prop h3 vo key vv in Some (vv, h4)
  | XEmpty => Some (VRef (length h), h ++ [CMap []])%list
  end.
(** Result: the returned value, what the replaced function will return, and the heap.
    [None]: the code would throw. *)
Fixpoint trun (ss : list tstmt) (vars : imap string value) (repl : option value) (h : heap)
  : option (value * option value * heap) :=
  match ss with
  | [] => Some (VUndef, repl, h)
  | SVar x v :: ss' => let? (w, h1) := teval v vars h in trun ss' (im_insert x w vars) repl h1
  | SIf c t :: ss' =>
      let? (vc, h1) := teval c vars h in
      if truthy vc then let? (_, h2) := teval t vars h1 in trun ss' vars repl h2 else trun ss' vars repl h1
  | SReplace x :: ss' => let? w := im_get x vars in trun ss' vars (Some w) h
  | SReturn x :: _ => let? w := im_get x vars in Some (w, repl, h)
  end.

(** ** What one execution does *)
Definition map_at (h : heap) (a : nat) : option (imap string value) :=
  match nth_error h a with Some (CMap m) => Some m | _ => None end.
Definition data_at (h : heap) (a : nat) : option json :=
  match nth_error h a with Some (CData j) => Some j | _ => None end.
(** The object stored in the global coverage variable *)
Definition coverage_object (h : heap) (gcv : string) : option nat :=
  let? g := map_at h global_addr in
  match im_get gcv g with Some (VRef a) => Some a | _ => None end.
(** The record published for a path *)
Definition published (h : heap) (gcv path : string) : option nat :=
  let? c := coverage_object h gcv in let? m := map_at h c in
  match im_get path m with Some (VRef a) => Some a | _ => None end.

(** Heaps as the emitted code leaves them: the global object holds (at most) objects in its
    coverage variables, those hold records. *)

Lemma nth_app_old : forall A (l : list A) x a y, nth_error l a = Some y -> nth_error (l ++ [x])%list a = Some y.
Proof. intros A l x a y H. rewrite nth_error_app1; [exact H|]. apply nth_error_Some. congruence. Qed.
Lemma nth_app_new : forall A (l : list A) x, nth_error (l ++ [x])%list (length l) = Some x.
Proof. intros A l x. rewrite nth_error_app2, Nat.sub_diag by reflexivity. reflexivity. Qed.
Lemma nth_set_nth : forall A n (x : A) l m, nth_error (set_nth n x l) m =
  if Nat.eqb m n then (match nth_error l n with Some _ => Some x | None => None end) else nth_error l m.
Proof.
  induction n as [|n IH]; intros x [|y l] [|m]; try reflexivity; cbn; try (destruct (Nat.eqb m n); reflexivity).
  apply IH.
Qed.
Lemma set_nth_length : forall A n (x : A) l, length (set_nth n x l) = length l.
Proof. induction n as [|n IH]; intros x [|y l]; try reflexivity. cbn. now rewrite IH. Qed.

Lemma map_set_nth : forall h a m b, (a < length h)%nat ->
  map_at (set_nth a (CMap m) h) b = if Nat.eqb b a then Some m else map_at h b.
Proof.
  intros h a m b H. unfold map_at. rewrite nth_set_nth. destruct (Nat.eqb b a); [|reflexivity].
  destruct (nth_error h a) eqn:E; [reflexivity|]. apply nth_error_None in E. lia.
Qed.
Lemma data_set_nth : forall h a m0 m b, map_at h a = Some m0 ->
  data_at (set_nth a (CMap m) h) b = data_at h b.
Proof.
  intros h a m0 m b H. unfold data_at, map_at in *. rewrite nth_set_nth. destruct (Nat.eqb_spec b a) as [->|]; [|reflexivity].
  destruct (nth_error h a) as [[|]|]; try discriminate. reflexivity.
Qed.
Lemma map_at_lt : forall h a m, map_at h a = Some m -> (a < length h)%nat.
Proof. intros h a m H. apply nth_error_Some. unfold map_at in H. destruct (nth_error h a); discriminate. Qed.
Lemma data_at_lt : forall h a m, data_at h a = Some m -> (a < length h)%nat.
Proof. intros h a m H. apply nth_error_Some. unfold data_at in H. destruct (nth_error h a); discriminate. Qed.
Lemma map_at_app : forall h x a m, map_at h a = Some m -> map_at (h ++ [x])%list a = Some m.
Proof.
  intros h x a m H. unfold map_at in *. destruct (nth_error h a) eqn:E; [|discriminate]. now rewrite (nth_app_old _ _ _ _ _ E).
Qed.
Lemma data_at_app : forall h x a m, data_at h a = Some m -> data_at (h ++ [x])%list a = Some m.
Proof.
  intros h x a m H. unfold data_at in *. destruct (nth_error h a) eqn:E; [|discriminate]. now rewrite (nth_app_old _ _ _ _ _ E).
Qed.

(** The stored record is kept only if it has a property [$hash] equal to the file's hash. *)
Definition keeps_record (hash : string) (j : json) : bool :=
  match member j "$hash" with Some x => scalar_eqb x (JStr hash) | None => false end.

Lemma get_map : forall h a m k, map_at h a = Some m ->
  get_prop h (VRef a) k = Some (match im_get k m with Some v => v | None => VUndef end).
Proof. intros h a m k H. unfold map_at in H. cbn. destruct (nth_error h a) as [[|]|]; try discriminate. now injection H as ->. Qed.
Lemma get_data : forall h a j k, data_at h a = Some j ->
  get_prop h (VRef a) k = Some (match member j k with Some x => VScalar x | None => VUndef end).
Proof. intros h a m k H. unfold data_at in H. cbn. destruct (nth_error h a) as [[|]|]; try discriminate. now injection H as ->. Qed.
Lemma set_map : forall h a m k x, map_at h a = Some m ->
  set_prop h (VRef a) k x = Some (set_nth a (CMap (im_insert k x m)) h).
Proof. intros h a m k x H. unfold map_at in H. cbn. destruct (nth_error h a) as [[|]|]; try discriminate. now injection H as ->. Qed.

(** Variables after the first six statements *)
Definition vars6 (f : emitted) (n c : nat) : imap string value :=
  [("path", VScalar (JStr (em_path f))); ("hash", VScalar (JStr (em_hash f))); ("global", VRef global_addr);
   ("gcv", VScalar (JStr (em_gcv f))); ("coverageData", VRef n); ("coverage", VRef c)].
Lemma template_tail : forall f n c m h,
  map_at h c = Some m -> (n < length h)%nat ->
  (forall w, im_get (em_path f) m = Some w -> exists a j, w = VRef a /\ data_at h a = Some j) ->
  trun (skipn 6 (template f)) (vars6 f n c) None h =
  let fresh := Some (VRef n, Some (VRef n), set_nth c (CMap (im_insert (em_path f) (VRef n) m)) h) in
  match im_get (em_path f) m with
  | Some (VRef a) =>
      match data_at h a with
      | Some j => if keeps_record (em_hash f) j then Some (VRef a, Some (VRef a), h) else fresh
      | None => fresh
      end
  | _ => fresh
  end.
Proof.
  intros f n c m h Hm Hn Hd. cbv zeta.
  assert (Hc := map_at_lt _ _ _ Hm).
  assert (Hm' : map_at (set_nth c (CMap (im_insert (em_path f) (VRef n) m)) h) c = Some (im_insert (em_path f) (VRef n) m)).
  { rewrite map_set_nth by exact Hc. now rewrite Nat.eqb_refl. }
  pose proof (get_map _ _ _ (em_path f) Hm) as G.
  pose proof (get_map _ _ _ (em_path f) Hm') as G'.
  rewrite im_get_insert, eqb_refl in G'.
  pose proof (set_map _ _ _ (em_path f) (VRef n) Hm) as S.
  assert (V1 : im_get "coverage" (vars6 f n c) = Some (VRef c)) by reflexivity.
  assert (V2 : im_get "path" (vars6 f n c) = Some (VScalar (JStr (em_path f)))) by reflexivity.
  assert (V3 : im_get "hash" (vars6 f n c) = Some (VScalar (JStr (em_hash f)))) by reflexivity.
  assert (V4 : im_get "coverageData" (vars6 f n c) = Some (VRef n)) by reflexivity.
  assert (V5 : forall v, im_get "actualCoverage" (im_insert "actualCoverage" v (vars6 f n c)) = Some v) by reflexivity.
  cbn [skipn template trun]. generalize dependent (vars6 f n c). intros vars V1 V2 V3 V4 V5.
  destruct (im_get (em_path f) m) as [w|] eqn:Ew.
  - destruct (Hd w eq_refl) as (a & j & -> & Hj). rewrite Hj.
    pose proof (get_data _ _ _ "$hash" Hj) as GD.
    cbn [teval]. rewrite V1, V2, V3, V4. cbn [obind as_key]. rewrite G. cbn [obind truthy negb].
    rewrite G. cbn [obind]. rewrite GD. cbn [obind].
    unfold keeps_record. destruct (member j "$hash") as [x|] eqn:Ex.
    + cbn [strict_eqb]. destruct (scalar_eqb x (JStr (em_hash f))) eqn:Eq; cbn [negb truthy].
      * rewrite G. cbn [obind]. rewrite V5. reflexivity.
      * rewrite S. cbn [obind]. rewrite G'. cbn [obind]. rewrite V5. reflexivity.
    + cbn [strict_eqb negb truthy]. rewrite S. cbn [obind]. rewrite G'. cbn [obind]. rewrite V5. reflexivity.
  - cbn [teval]. rewrite V1, V2, V4. cbn [obind as_key].
    rewrite G. cbn [obind truthy negb]. rewrite S. cbn [obind]. rewrite G'. cbn [obind]. rewrite V5. reflexivity.
Qed.

Definition wf_heap (h : heap) : Prop := exists g, map_at h global_addr = Some g /\
  (forall k v, im_get k g = Some v -> exists c m, v = VRef c /\ map_at h c = Some m /\ c <> global_addr /\
     forall p w, im_get p m = Some w -> exists a j, w = VRef a /\ data_at h a = Some j) /\
  (forall k k' c, im_get k g = Some (VRef c) -> im_get k' g = Some (VRef c) -> k = k').

Lemma trun_head : forall f h g d, map_at h global_addr = Some g -> eval (em_data f) = Some d ->
  (forall v, im_get (em_gcv f) g = Some v -> exists c, v = VRef c) ->
  trun (template f) [] None h =
  let h1 := (h ++ [CData d])%list in
  match im_get (em_gcv f) g with
  | Some (VRef c) => trun (skipn 6 (template f)) (vars6 f (length h) c) None h1
  | _ =>
      let c := length h1 in
      trun (skipn 6 (template f)) (vars6 f (length h) c) None
        (set_nth global_addr (CMap (im_insert (em_gcv f) (VRef c) g)) (h1 ++ [CMap []])%list)
  end.
Proof.
  intros f h g d Hg Hd Hv. cbv zeta. unfold template at 1.
  pose proof (map_at_app _ (CData d) _ _ Hg) as Hg1.
  pose proof (get_map _ _ _ (em_gcv f) Hg1) as G.
  pose proof (map_at_app _ (CMap []) _ _ Hg1) as Hg2.
  pose proof (set_map _ _ _ (em_gcv f) (VRef (length (h ++ [CData d]))) Hg2) as S.
  do 5 (cbn [trun teval obind im_insert eqb EqB_string String.eqb Ascii.eqb Bool.eqb]; rewrite ?Hd).
  change (trun (SVar "coverage" ?x :: ?t) ?vars ?r ?hh) with
    (obind (teval x vars hh) (fun '(w, h1) => trun t (im_insert "coverage" w vars) r h1)).
  cbn [teval im_get eqb EqB_string String.eqb Ascii.eqb Bool.eqb obind as_key].
  rewrite G. cbn [obind].
  destruct (im_get (em_gcv f) g) as [v|].
  - destruct (Hv v eq_refl) as [c ->]. cbn [truthy obind]. reflexivity.
  - cbn [truthy]. rewrite S. cbn [obind]. reflexivity.
Qed.

Lemma published_spec : forall h gcv path g c m, map_at h global_addr = Some g -> im_get gcv g = Some (VRef c) ->
  map_at h c = Some m ->
  published h gcv path = match im_get path m with Some (VRef a) => Some a | _ => None end.
Proof. intros h gcv path g c m H1 H2 H3. unfold published, coverage_object. rewrite H1. cbn [obind]. rewrite H2. cbn [obind]. now rewrite H3. Qed.
Lemma published_none : forall h gcv path g, map_at h global_addr = Some g -> im_get gcv g = None ->
  published h gcv path = None.
Proof. intros h gcv path g H1 H2. unfold published, coverage_object. rewrite H1. cbn [obind]. now rewrite H2. Qed.

(** One more record for [path] in the object [c] of the coverage variable [gcv] *)
Lemma publish : forall h g gcv c m path n d,
  wf_heap h -> map_at h global_addr = Some g -> im_get gcv g = Some (VRef c) -> map_at h c = Some m ->
  data_at h n = Some d ->
  let h' := set_nth c (CMap (im_insert path (VRef n) m)) h in
  wf_heap h' /\ published h' gcv path = Some n /\ (forall x, data_at h' x = data_at h x) /\
  (forall g' p', (g', p') <> (gcv, path) -> published h' g' p' = published h g' p').
Proof.
  intros h g gcv c m path n d (g0 & Hg0 & W1 & W2) Hg Hc Hm Hd h'.
  rewrite Hg in Hg0. injection Hg0 as <-.
  destruct (W1 gcv _ Hc) as (c' & m' & E & Hm' & Hnz & Hr). injection E as <-. rewrite Hm in Hm'. injection Hm' as <-.
  pose proof (map_at_lt _ _ _ Hm) as Hlt.
  assert (Hg' : map_at h' global_addr = Some g).
  { unfold h'. rewrite map_set_nth by exact Hlt. destruct (Nat.eqb_spec global_addr c); [congruence|exact Hg]. }
  assert (Hm' : map_at h' c = Some (im_insert path (VRef n) m)).
  { unfold h'. rewrite map_set_nth by exact Hlt. now rewrite Nat.eqb_refl. }
  assert (Hdat : forall x, data_at h' x = data_at h x) by (intros x; unfold h'; eapply data_set_nth; eauto).
  assert (Hoth : forall c2, c2 <> c -> map_at h' c2 = map_at h c2).
  { intros c2 N. unfold h'. rewrite map_set_nth by exact Hlt. now destruct (Nat.eqb_spec c2 c). }
  split; [|split; [|split; [exact Hdat|]]].
  - exists g. split; [exact Hg'|]. split; [|exact W2]. intros k v Hk.
    destruct (W1 k v Hk) as (c2 & m2 & -> & Hm2 & Hnz2 & Hr2).
    destruct (Nat.eq_dec c2 c) as [->|N].
    + exists c, (im_insert path (VRef n) m). rewrite Hm in Hm2. injection Hm2 as <-.
      repeat split; [exact Hm'|exact Hnz|]. intros p w Hw. rewrite im_get_insert in Hw. destruct (eqb p path).
      * injection Hw as <-. exists n, d. split; [reflexivity|]. now rewrite Hdat.
      * destruct (Hr p w Hw) as (a & j & -> & Hj). exists a, j. split; [reflexivity|]. now rewrite Hdat.
    + exists c2, m2. rewrite (Hoth c2 N). repeat split; auto. intros p w Hw.
      destruct (Hr2 p w Hw) as (a & j & -> & Hj). exists a, j. split; [reflexivity|]. now rewrite Hdat.
  - rewrite (published_spec _ _ _ _ _ _ Hg' Hc Hm'), im_get_insert, eqb_refl. reflexivity.
  - intros g2 p2 N. destruct (im_get g2 g) as [v|] eqn:E2.
    + destruct (W1 g2 v E2) as (c2 & m2 & -> & Hm2 & _ & _).
      rewrite (published_spec _ _ _ _ _ _ Hg E2 Hm2).
      destruct (Nat.eq_dec c2 c) as [->|Nc].
      * assert (g2 = gcv) by (apply (W2 _ _ c); assumption). subst g2.
        rewrite Hm in Hm2. injection Hm2 as <-.
        rewrite (published_spec _ _ _ _ _ _ Hg' Hc Hm'), im_get_insert.
        assert (K : eqb p2 path = false) by (apply eqb_neq; congruence). now rewrite K.
      * rewrite (published_spec h' _ _ _ _ m2 Hg' E2); [reflexivity|]. now rewrite Hoth.
    + now rewrite (published_none _ _ _ _ Hg E2), (published_none _ _ _ _ Hg' E2).
Qed.
(** A new cell changes nothing. *)
Lemma wf_app : forall h x, wf_heap h -> wf_heap (h ++ [x])%list /\
  (forall g p, published (h ++ [x])%list g p = published h g p) /\
  (forall a j, data_at h a = Some j -> data_at (h ++ [x])%list a = Some j).
Proof.
  intros h x (g & Hg & W1 & W2). split; [|split].
  - exists g. split; [now apply map_at_app|]. split; [|exact W2]. intros k v Hk.
    destruct (W1 k v Hk) as (c & m & -> & Hm & Hnz & Hr). exists c, m. repeat split; auto using map_at_app.
    intros p w Hw. destruct (Hr p w Hw) as (a & j & -> & Hj). exists a, j. split; [reflexivity|]. now apply data_at_app.
  - intros g2 p. pose proof (map_at_app _ x _ _ Hg) as Hg'. destruct (im_get g2 g) as [v|] eqn:E.
    + destruct (W1 g2 v E) as (c & m & -> & Hm & _). 
      rewrite (published_spec _ _ _ _ _ _ Hg E Hm).
      now rewrite (published_spec _ _ _ _ _ _ Hg' E (map_at_app _ x _ _ Hm)).
    + now rewrite (published_none _ _ _ _ Hg E), (published_none _ _ _ _ Hg' E).
  - intros a j H. now apply data_at_app.
Qed.
(** A new, empty object for a coverage variable that was not set *)
Lemma add_variable : forall h g gcv, wf_heap h -> map_at h global_addr = Some g -> im_get gcv g = None ->
  let c := length h in
  let h' := set_nth global_addr (CMap (im_insert gcv (VRef c) g)) (h ++ [CMap []])%list in
  wf_heap h' /\ map_at h' global_addr = Some (im_insert gcv (VRef c) g) /\ map_at h' c = Some [] /\
  (forall g' p', published h' g' p' = published h g' p') /\
  (forall a j, data_at h a = Some j -> data_at h' a = Some j).
Proof.
  intros h g gcv W Hg Hn c h'. pose proof (map_at_lt _ _ _ Hg) as Hlt.
  destruct (wf_app h (CMap []) W) as (_ & _ & Hda).
  destruct W as (g0 & Hg0 & W1 & W2). rewrite Hg in Hg0. injection Hg0 as <-.
  pose proof (map_at_app _ (CMap []) _ _ Hg) as Hga.
  pose proof (map_at_lt _ _ _ Hga) as Hlta.
  assert (Hcn : c <> global_addr) by (unfold c; lia).
  assert (Hg' : map_at h' global_addr = Some (im_insert gcv (VRef c) g)).
  { unfold h'. rewrite map_set_nth by exact Hlta. now rewrite Nat.eqb_refl. }
  assert (Hoth : forall x, x <> global_addr -> map_at h' x = map_at (h ++ [CMap []])%list x).
  { intros x N. unfold h'. rewrite map_set_nth by exact Hlta. now destruct (Nat.eqb_spec x global_addr). }
  assert (Hc : map_at h' c = Some []).
  { rewrite Hoth by exact Hcn. unfold map_at, c. now rewrite nth_app_new. }
  assert (Hdat : forall a, data_at h' a = data_at (h ++ [CMap []])%list a) by (intros a; unfold h'; eapply data_set_nth; eauto).
  assert (Hfresh : forall k x, im_get k g = Some (VRef x) -> x <> c).
  { intros k x Hk. destruct (W1 k _ Hk) as (c2 & m2 & E & Hm2 & _). injection E as <-.
    apply map_at_lt in Hm2. unfold c. lia. }
  split; [|split; [exact Hg'|split; [exact Hc|split]]].
  - exists (im_insert gcv (VRef c) g). split; [exact Hg'|]. split.
    + intros k v Hk. rewrite im_get_insert in Hk. destruct (eqb k gcv).
      * injection Hk as <-. exists c, []. repeat split; auto. intros p w Hw. discriminate.
      * destruct (W1 k v Hk) as (c2 & m2 & -> & Hm2 & Hnz & Hr). exists c2, m2.
        repeat split; [rewrite Hoth by exact Hnz; now apply map_at_app|exact Hnz|].
        intros p w Hw. destruct (Hr p w Hw) as (a & j & -> & Hj). exists a, j. split; [reflexivity|].
        rewrite Hdat. now apply data_at_app.
    + intros k k' x Hk Hk'. rewrite im_get_insert in Hk, Hk'.
      destruct (eqb k gcv) eqn:E1, (eqb k' gcv) eqn:E2.
      * apply eqb_spec in E1, E2. congruence.
      * injection Hk as <-. now apply Hfresh in Hk'.
      * injection Hk' as <-. now apply Hfresh in Hk.
      * now apply (W2 k k' x).
  - intros g2 p. destruct (eqb g2 gcv) eqn:E.
    + apply eqb_spec in E. subst g2. rewrite (published_none _ _ _ _ Hg Hn).
      rewrite (published_spec h' gcv p _ c [] Hg'); [reflexivity| |exact Hc]. now rewrite im_get_insert, eqb_refl.
    + destruct (im_get g2 g) as [v|] eqn:E2.
      * destruct (W1 g2 v E2) as (c2 & m2 & -> & Hm2 & Hnz & _).
        rewrite (published_spec _ _ _ _ _ _ Hg E2 Hm2).
        rewrite (published_spec h' g2 p _ c2 m2 Hg'); [reflexivity| |].
        -- now rewrite im_get_insert, E.
        -- rewrite Hoth by exact Hnz. now apply map_at_app.
      * rewrite (published_none _ _ _ _ Hg E2), (published_none h' g2 p _ Hg'); [reflexivity|].
        now rewrite im_get_insert, E.
  - intros a j H. rewrite Hdat. now apply data_at_app.
Qed.

(** What a first call does: [a] is the record it publishes and returns from now on. *)
Theorem first_call : forall f h d, wf_heap h -> eval (em_data f) = Some d ->
  exists a h', trun (template f) [] None h = Some (VRef a, Some (VRef a), h') /\ wf_heap h' /\
    published h' (em_gcv f) (em_path f) = Some a /\
    (forall x j, data_at h x = Some j -> data_at h' x = Some j) /\
    (forall g p, (g, p) <> (em_gcv f, em_path f) -> published h' g p = published h g p) /\
    match published h (em_gcv f) (em_path f) with
    | Some a0 => exists j, data_at h a0 = Some j /\
        if keeps_record (em_hash f) j then a = a0 else a = length h /\ data_at h' a = Some d
    | None => a = length h /\ data_at h' a = Some d
    end.
Proof.
  intros f h d W Hd. destruct W as (g & Hg & W1 & W2) eqn:EW. clear EW.
  assert (Wf : wf_heap h) by (exists g; auto).
  rewrite (trun_head f h g d Hg Hd) by (intros v Hv; destruct (W1 _ _ Hv) as (c & m & -> & _); now exists c).
  cbv zeta. set (h1 := (h ++ [CData d])%list).
  destruct (wf_app h (CData d) Wf) as (Wf1 & Pub1 & Dat1). fold h1 in Wf1, Pub1, Dat1.
  assert (Hn : data_at h1 (length h) = Some d) by (unfold h1, data_at; now rewrite nth_app_new).
  assert (Hg1 : map_at h1 global_addr = Some g) by now apply map_at_app.
  assert (Hl1 : (length h < length h1)%nat) by (unfold h1; rewrite app_length; cbn; lia).
  destruct (im_get (em_gcv f) g) as [v|] eqn:Eg.
  - destruct (W1 _ _ Eg) as (c & m & -> & Hm & Hnz & Hr).
    assert (Hm1 : map_at h1 c = Some m) by now apply map_at_app.
    rewrite (template_tail f (length h) c m h1 Hm1 Hl1); [|intros w Hw; destruct (Hr _ _ Hw) as (a & j & -> & Hj); exists a, j; auto].
    cbv zeta. destruct (publish h1 g (em_gcv f) c m (em_path f) (length h) d Wf1 Hg1 Eg Hm1 Hn) as (P1 & P2 & P3 & P4).
    rewrite (published_spec _ _ _ _ _ _ Hg Eg Hm).
    assert (Fresh : exists a h', Some (VRef (length h), Some (VRef (length h)),
         set_nth c (CMap (im_insert (em_path f) (VRef (length h)) m)) h1) = Some (VRef a, Some (VRef a), h') /\ wf_heap h' /\
      published h' (em_gcv f) (em_path f) = Some a /\
      (forall x j, data_at h x = Some j -> data_at h' x = Some j) /\
      (forall g p, (g, p) <> (em_gcv f, em_path f) -> published h' g p = published h g p) /\
      a = length h /\ data_at h' a = Some d).
    { do 2 eexists. split; [reflexivity|]. repeat split; auto.
      - intros x j Hx. rewrite P3. now apply Dat1.
      - intros g0 p N. rewrite P4 by exact N. apply Pub1.
      - now rewrite P3. }
    destruct (im_get (em_path f) m) as [w|] eqn:Ew.
    + destruct (Hr _ _ Ew) as (a0 & j & -> & Hj). rewrite (Dat1 _ _ Hj).
      destruct (keeps_record (em_hash f) j) eqn:Ek.
      * exists a0, h1. split; [reflexivity|]. split; [exact Wf1|]. split.
        { rewrite Pub1, (published_spec _ _ _ _ _ _ Hg Eg Hm), Ew. reflexivity. }
        split; [exact Dat1|]. split; [intros; apply Pub1|]. exists j. now rewrite Ek.
      * destruct Fresh as (a & h' & F1 & F2 & F3 & F4 & F5 & F6 & F7). exists a, h'. repeat split; auto.
        exists j. rewrite Ek. auto.
    + destruct Fresh as (a & h' & F1 & F2 & F3 & F4 & F5 & F6 & F7). exists a, h'. repeat split; auto.
  - destruct (add_variable h1 g (em_gcv f) Wf1 Hg1 Eg) as (A1 & A2 & A3 & A4 & A5). cbv zeta in *.
    set (h2 := set_nth global_addr _ _) in *.
    assert (Hl2 : (length h < length h2)%nat) by (unfold h2; rewrite set_nth_length, app_length; lia).
    rewrite (template_tail f (length h) (length h1) [] h2 A3 Hl2); [|intros w Hw; discriminate].
    cbv zeta. cbn [im_get].
    assert (Eg2 : im_get (em_gcv f) (im_insert (em_gcv f) (VRef (length h1)) g) = Some (VRef (length h1)))
      by now rewrite im_get_insert, eqb_refl.
    destruct (publish h2 _ (em_gcv f) (length h1) [] (em_path f) (length h) d A1 A2 Eg2 A3 (A5 _ _ Hn)) as (P1 & P2 & P3 & P4).
    rewrite (published_none _ _ _ _ Hg Eg).
    do 2 eexists. split; [reflexivity|]. repeat split; auto.
    + intros x j Hx. rewrite P3. now apply A5, Dat1.
    + intros g0 p N. rewrite P4 by exact N. rewrite A4. apply Pub1.
    + rewrite P3. now apply A5.
Qed.
