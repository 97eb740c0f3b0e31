(** Running instrumented files: loading files, calling their counter function and incrementing
    counters, in any order (C22, C23). *)
From Coq Require Import NArith String Ascii List Bool Lia PeanoNat.
Import ListNotations.
From Verif Require Import Base IndexMap Decimal Oxide Json CovJson DataObject Template SourceCov Hints Ast.
Open Scope string_scope.

(** ** Counters inside a record *)
(** [cov().s[i]++], [cov().f[i]++], [cov().b[b][i]++], [cov().bT[b][i]++]:
    create_increase_counter_expr.rs:7-63, create_increase_true_expr.rs *)
Definition slot (c : counter) : string * string * option nat :=
  match c with
  | CS i => ("s", dec i, None)
  | CF i => ("f", dec i, None)
  | CB b i => ("b", dec b, Some (N.to_nat i))
  | CT b i => ("bT", dec b, Some (N.to_nat i))
  end.
Lemma slot_inj : forall a b, slot a = slot b -> a = b.
Proof.
  intros [i|i|b i|b i] [j|j|b' j|b' j] H; cbn in H; try discriminate; injection H as H; try (apply dec_inj in H; now subst).
  - apply dec_inj in H. apply N2Nat.inj in H0. now subst.
  - apply dec_inj in H. apply N2Nat.inj in H0. now subst.
Qed.
Definition elem (j : json) (n : nat) : option json := match j with JArr l => nth_error l n | _ => None end.
(** The number in a counter's slot *)
Definition count (c : counter) (j : json) : option N :=
  let '(t, k, p) := slot c in
  let? m := member j t in let? x := member m k in
  let? x := match p with None => Some x | Some n => elem x n end in read_num x.
Fixpoint upd (k : string) (f : json -> json) (o : list (string * json)) : list (string * json) :=
  match o with [] => [] | (k', x) :: o' => if String.eqb k k' then (k', f x) :: o' else (k', x) :: upd k f o' end.
Definition at_member (k : string) (f : json -> json) (j : json) : json :=
  match j with JObj o => JObj (upd k f o) | _ => j end.
Fixpoint upd_nth (n : nat) (f : json -> json) (l : list json) : list json :=
  match n, l with
  | _, [] => []
  | O, x :: l' => f x :: l'
  | S n', x :: l' => x :: upd_nth n' f l'
  end.
Definition at_elem (n : nat) (f : json -> json) (j : json) : json :=
  match j with JArr l => JArr (upd_nth n f l) | _ => j end.
Definition plus1 (j : json) : json := match j with JNum n => JNum (n + 1) | _ => j end.
(** [x++] on the slot of a counter.  Every counter in the output has a slot in the embedded record
    (C29, C30); without a slot the model leaves the record alone. *)
Definition bump (c : counter) (j : json) : json :=
  let '(t, k, p) := slot c in
  at_member t (at_member k (match p with None => plus1 | Some n => at_elem n plus1 end)) j.

Lemma prop_upd : forall k f k' o, prop k' (upd k f o) = if String.eqb k' k then option_map f (prop k o) else prop k' o.
Proof.
  intros k f k' o. induction o as [|[k2 x] o IH]; [now destruct (String.eqb k' k)|]. cbn.
  destruct (String.eqb_spec k k2) as [->|N].
  - cbn. destruct (String.eqb_spec k' k2) as [->|]; reflexivity.
  - cbn. destruct (String.eqb_spec k' k2) as [->|N2].
    + destruct (String.eqb_spec k2 k); [congruence|reflexivity].
    + exact IH.
Qed.
Lemma member_at : forall k f k' j, member (at_member k f j) k' = if String.eqb k' k then option_map f (member j k) else member j k'.
Proof. intros k f k' []; cbn; try (now destruct (String.eqb k' k)). apply prop_upd. Qed.
Lemma nth_upd : forall n f m l, nth_error (upd_nth n f l) m = if Nat.eqb m n then option_map f (nth_error l n) else nth_error l m.
Proof.
  induction n as [|n IH]; intros f [|m] [|x l]; try reflexivity; cbn; try (now destruct (Nat.eqb m n)). apply IH.
Qed.
Lemma elem_at : forall n f m j, elem (at_elem n f j) m = if Nat.eqb m n then option_map f (elem j n) else elem j m.
Proof. intros n f m []; cbn; try (now destruct (Nat.eqb m n)). apply nth_upd. Qed.
Lemma read_plus1 : forall j, read_num (plus1 j) = option_map (N.add 1) (read_num j).
Proof. intros [|b|n|t|l|o]; try reflexivity. cbn [plus1 read_num option_map]. now rewrite N.add_comm. Qed.
Definition counter_dec (a b : counter) : {a = b} + {a <> b}.
Proof. decide equality; apply N.eq_dec. Defined.
Theorem count_bump : forall c c' j,
  count c' (bump c j) = if counter_dec c' c then option_map (N.add 1) (count c j) else count c' j.
Proof.
  intros c c' j. destruct (counter_dec c' c) as [->|N].
  - unfold count, bump. destruct (slot c) as [[t k] [p|]]; rewrite member_at, String.eqb_refl.
    + destruct (member j t) as [m|]; [|reflexivity]. cbn [option_map obind].
      rewrite member_at, String.eqb_refl. destruct (member m k) as [x|]; [|reflexivity]. cbn [option_map obind].
      rewrite elem_at, Nat.eqb_refl. destruct (elem x p) as [y|]; [|reflexivity]. cbn [option_map obind]. apply read_plus1.
    + destruct (member j t) as [m|]; [|reflexivity]. cbn [option_map obind].
      rewrite member_at, String.eqb_refl. destruct (member m k) as [x|]; [|reflexivity]. cbn [option_map obind]. apply read_plus1.
  - assert (S : slot c' <> slot c) by (intros E; now apply slot_inj in E).
    assert (Same : fst (fst (slot c')) = fst (fst (slot c)) -> snd (fst (slot c')) = snd (fst (slot c)) ->
       exists p p', snd (slot c) = Some p /\ snd (slot c') = Some p' /\ p' <> p).
    { intros E1 E2. destruct c, c'; cbn in *; try discriminate; try congruence.
      - eexists _, _. repeat split. congruence.
      - eexists _, _. repeat split. congruence. }
    unfold count, bump. destruct (slot c) as [[t k] p], (slot c') as [[t' k'] p']. cbn [fst snd] in *.
    rewrite member_at. destruct (String.eqb_spec t' t) as [->|]; [|reflexivity].
    destruct (member j t) as [m|]; [|reflexivity]. cbn [option_map obind].
    rewrite member_at. destruct (String.eqb_spec k' k) as [->|]; [|reflexivity].
    destruct (Same eq_refl eq_refl) as (q & q' & -> & -> & Nq).
    destruct (member m k) as [x|]; [|reflexivity]. cbn [option_map obind].
    rewrite elem_at. destruct (Nat.eqb_spec q' q); [contradiction|]. reflexivity.
Qed.
Lemma bump_hash : forall c j k, ~ In k ["s"; "f"; "b"; "bT"] -> member (bump c j) k = member j k.
Proof.
  intros c j k H. unfold bump.
  assert (T : In (fst (fst (slot c))) ["s"; "f"; "b"; "bT"]) by (destruct c; cbn; auto).
  destruct (slot c) as [[t x] q]. cbn [fst] in T. rewrite member_at.
  destruct (String.eqb_spec k t) as [->|]; [contradiction|reflexivity].
Qed.

(** ** Loaded files *)
(** An instance of a file: its counter function is either still the injected one or has replaced
    itself by a function returning a fixed value. *)
Record rt := mkRt { rheap : heap; rinsts : list (emitted * option value) }.
Inductive event := ELoad (f : emitted) | ECall (i : nat) | EInc (i : nat) (c : counter).
Definition call (i : nat) (st : rt) : option (value * rt) :=
  let? (f, fn) := nth_error (rinsts st) i in
  match fn with
  | Some v => Some (v, st)
  | None =>
      let? (v, repl, h) := trun (template f) [] None (rheap st) in
      Some (v, mkRt h (set_nth i (f, repl) (rinsts st)))
  end.
Definition bump_at (v : value) (c : counter) (h : heap) : option heap :=
  match v with
  | VRef a => match nth_error h a with Some (CData j) => Some (set_nth a (CData (bump c j)) h) | _ => None end
  | _ => None
  end.
Definition step (st : rt) (ev : event) : option rt :=
  match ev with
  | ELoad f => Some (mkRt (rheap st) (rinsts st ++ [(f, None)])%list)
  | ECall i => let? (_, st1) := call i st in Some st1
  | EInc i c =>
      let? (v, st1) := call i st in let? h := bump_at v c (rheap st1) in Some (mkRt h (rinsts st1))
  end.
Fixpoint run (evs : list event) (st : rt) : option rt :=
  match evs with [] => Some st | ev :: evs' => let? st1 := step st ev in run evs' st1 end.
(** A realm before any instrumented file was loaded *)
Definition rt0 : rt := mkRt [CMap []] [].

(** Reading a history *)
Definition loaded (evs : list event) : list emitted :=
  flat_map (fun ev => match ev with ELoad f => [f] | _ => [] end) evs.
(** Executions of the increment [c] by the instance [i] *)
Definition hits (i : nat) (c : counter) (evs : list event) : N :=
  N.of_nat (length (filter (fun ev => match ev with
    | EInc i' c' => Nat.eqb i' i && (if counter_dec c c' then true else false) | _ => false end) evs)).
(** The increments the instance [i] executes, in order, and their effect on a record *)
Definition incs (i : nat) (evs : list event) : list counter :=
  flat_map (fun ev => match ev with EInc i' c => if Nat.eqb i' i then [c] else [] | _ => [] end) evs.
Definition increased (l : list counter) (j : json) : json := fold_left (fun j c => bump c j) l j.
Definition touched (i : nat) (evs : list event) : bool :=
  existsb (fun ev => match ev with ECall i' | EInc i' _ => Nat.eqb i' i | _ => false end) evs.
Definition file_key (f : emitted) : string * string := (em_gcv f, em_path f).
Definition total_lit (f : emitted) : Prop := exists d, eval (em_data f) = Some d.

Lemma run_snoc : forall evs ev st, run (evs ++ [ev]) st = let? st1 := run evs st in step st1 ev.
Proof.
  induction evs as [|e evs IH]; intros ev st; cbn [run app].
  - cbn [obind]. destruct (step st ev); reflexivity.
  - destruct (step st e); [apply IH|reflexivity].
Qed.
Lemma loaded_snoc : forall evs ev, loaded (evs ++ [ev]) = (loaded evs ++ match ev with ELoad f => [f] | _ => [] end)%list.
Proof. intros. unfold loaded. rewrite flat_map_app. cbn. now rewrite app_nil_r. Qed.
Lemma hits_snoc : forall i c evs ev, hits i c (evs ++ [ev]) =
  (hits i c evs + match ev with EInc i' c' => if Nat.eqb i' i && (if counter_dec c c' then true else false) then 1 else 0 | _ => 0 end)%N.
Proof.
  intros. unfold hits. rewrite filter_app, app_length. cbn. destruct ev as [f|j|j c']; cbn; try lia.
  destruct (Nat.eqb j i && _); cbn; lia.
Qed.
Lemma incs_snoc : forall i evs ev, incs i (evs ++ [ev]) =
  (incs i evs ++ match ev with EInc i' c => if Nat.eqb i' i then [c] else [] | _ => [] end)%list.
Proof. intros. unfold incs. rewrite flat_map_app. cbn. now rewrite app_nil_r. Qed.
Lemma increased_snoc : forall l c j, increased (l ++ [c]) j = bump c (increased l j).
Proof. intros. unfold increased. now rewrite fold_left_app. Qed.
Lemma count_incs : forall c i evs j,
  count c (increased (incs i evs) j) = option_map (fun x => (x + hits i c evs)%N) (count c j).
Proof.
  intros c i evs j. induction evs as [|ev evs IH] using rev_ind.
  - cbn. destruct (count c j); [cbn; now rewrite N.add_0_r|reflexivity].
  - rewrite incs_snoc, hits_snoc. destruct ev as [f|k|k c']; rewrite ?app_nil_r, ?N.add_0_r; try exact IH.
    destruct (Nat.eqb k i); cbn [andb]; [|rewrite app_nil_r, N.add_0_r; exact IH].
    rewrite increased_snoc, count_bump. destruct (counter_dec c c') as [<-|N]; [|rewrite N.add_0_r; exact IH].
    rewrite IH. destruct (count c j); [|reflexivity]. cbn [option_map]. f_equal. lia.
Qed.
Lemma touched_snoc : forall i evs ev, touched i (evs ++ [ev]) =
  touched i evs || match ev with ECall i' | EInc i' _ => Nat.eqb i' i | _ => false end.
Proof. intros. unfold touched. rewrite existsb_app. cbn. now rewrite orb_false_r. Qed.
Lemma untouched_no_incs : forall i evs, touched i evs = false -> incs i evs = [].
Proof.
  intros i evs H. unfold incs, touched in *. induction evs as [|ev evs IH]; [reflexivity|].
  cbn in *. apply orb_false_iff in H as [H1 H2]. destruct ev as [f|j|j c']; cbn; auto. now rewrite H1; auto.
Qed.
Lemma untouched_no_hits : forall i c evs, touched i evs = false -> hits i c evs = 0%N.
Proof.
  intros i c evs H. unfold hits, touched in *. induction evs as [|ev evs IH]; [reflexivity|].
  cbn in *. apply orb_false_iff in H as [H1 H2]. destruct ev as [f|j|j c']; cbn; auto. now rewrite H1; auto.
Qed.

(** Updating one record *)
Lemma data_bump : forall h a j j' b, data_at h a = Some j ->
  data_at (set_nth a (CData j') h) b = if Nat.eqb b a then Some j' else data_at h b.
Proof.
  intros h a j j' b H. unfold data_at in *. rewrite nth_set_nth. destruct (Nat.eqb b a); [|reflexivity].
  destruct (nth_error h a); [reflexivity|discriminate].
Qed.
Lemma map_bump : forall h a j j' b, data_at h a = Some j -> map_at (set_nth a (CData j') h) b = map_at h b.
Proof.
  intros h a j j' b H. unfold data_at, map_at in *. rewrite nth_set_nth. destruct (Nat.eqb_spec b a) as [->|]; [|reflexivity].
  destruct (nth_error h a) as [[|]|]; try discriminate. reflexivity.
Qed.
Lemma wf_bump : forall h a j j', wf_heap h -> data_at h a = Some j ->
  wf_heap (set_nth a (CData j') h) /\ (forall g p, published (set_nth a (CData j') h) g p = published h g p).
Proof.
  intros h a j j' (g & Hg & W1 & W2) Hd. split.
  - exists g. split; [now rewrite (map_bump _ _ _ _ _ Hd)|]. split; [|exact W2]. intros k v Hk.
    destruct (W1 k v Hk) as (c & m & -> & Hm & Hnz & Hr). exists c, m.
    split; [reflexivity|]. split; [now rewrite (map_bump _ _ _ _ _ Hd)|]. split; [exact Hnz|].
    intros p w Hw. destruct (Hr p w Hw) as (b & jb & -> & Hb).
    destruct (Nat.eq_dec b a) as [->|N].
    + exists a, j'. split; [reflexivity|]. rewrite (data_bump _ _ _ _ _ Hd). now rewrite Nat.eqb_refl.
    + exists b, jb. split; [reflexivity|]. rewrite (data_bump _ _ _ _ _ Hd). now destruct (Nat.eqb_spec b a).
  - intros g2 p. unfold published, coverage_object. rewrite !(map_bump _ _ _ _ _ Hd).
    destruct (map_at h global_addr) as [m|]; [|reflexivity]. cbn [obind].
    destruct (im_get g2 m) as [[| | |c]|]; try reflexivity. cbn [obind]. now rewrite (map_bump _ _ _ _ _ Hd).
Qed.

(** ** The invariant for files with different paths *)
Definition bound (h : heap) (f : emitted) (v : value) (l : list counter) : Prop :=
  exists a j d, v = VRef a /\ published h (em_gcv f) (em_path f) = Some a /\ data_at h a = Some j /\
    eval (em_data f) = Some d /\ j = increased l d.
Definition key_inst (st : rt) (k : string * string) : Prop :=
  exists i f v, nth_error (rinsts st) i = Some (f, Some v) /\ file_key f = k.
Record inv (evs : list event) (st : rt) : Prop := mkInv {
  i_wf : wf_heap (rheap st);
  i_files : map fst (rinsts st) = loaded evs;
  i_bound : forall i f v, nth_error (rinsts st) i = Some (f, Some v) -> bound (rheap st) f v (incs i evs);
  i_free : forall i f, nth_error (rinsts st) i = Some (f, None) -> touched i evs = false;
  i_inj : forall g p g' p' a, published (rheap st) g p = Some a -> published (rheap st) g' p' = Some a -> (g, p) = (g', p');
  i_key : forall g p a, published (rheap st) g p = Some a -> key_inst st (g, p);
  i_new : forall i, (length (rinsts st) <= i)%nat -> touched i evs = false;
  i_used : forall i f v, nth_error (rinsts st) i = Some (f, Some v) -> touched i evs = true
}.
Lemma option_map_add0 : forall o : option N, option_map (fun x => (x + 0)%N) o = o.
Proof. intros [n|]; cbn; [f_equal; lia|reflexivity]. Qed.
Lemma nth_key : forall (insts : list (emitted * option value)) i j f v f' v',
  NoDup (map (fun f => file_key f) (map fst insts)) ->
  nth_error insts i = Some (f, v) -> nth_error insts j = Some (f', v') -> file_key f = file_key f' -> i = j.
Proof.
  intros insts i j f v f' v' H Hi Hj E. rewrite map_map in H.
  assert (L : (i < length (map (fun x => file_key (fst x)) insts))%nat)
    by (rewrite map_length; apply nth_error_Some; congruence).
  apply (proj1 (NoDup_nth_error _) H i j L).
  rewrite (map_nth_error _ _ _ Hi), (map_nth_error _ _ _ Hj). cbn. now rewrite E.
Qed.
Lemma nth_set_other : forall A n (x : A) l m, m <> n -> nth_error (set_nth n x l) m = nth_error l m.
Proof. intros. rewrite nth_set_nth. now destruct (Nat.eqb_spec m n). Qed.
Lemma nth_set_same : forall A n (x y : A) l, nth_error l n = Some y -> nth_error (set_nth n x l) n = Some x.
Proof. intros A n x y l H. rewrite nth_set_nth, Nat.eqb_refl, H. reflexivity. Qed.
Lemma map_fst_set : forall i f (v v' : option value) (insts : list (emitted * option value)), nth_error insts i = Some (f, v) ->
  map fst (set_nth i (f, v') insts) = map fst insts.
Proof.
  induction i as [|i IH]; intros f v v' [|[f2 v2] insts] H; try discriminate.
  - cbn in H. injection H as -> ->. reflexivity.
  - cbn. f_equal. now apply IH with (v := v).
Qed.

(** Calling a function keeps the invariant and binds the instance. *)
Lemma call_inv : forall evs st i, inv evs st -> NoDup (map file_key (loaded evs)) ->
  Forall total_lit (loaded evs) -> (i < length (rinsts st))%nat ->
  exists a st1 f, call i st = Some (VRef a, st1) /\ nth_error (rinsts st1) i = Some (f, Some (VRef a)) /\
    wf_heap (rheap st1) /\ map fst (rinsts st1) = loaded evs /\
    (forall j f v, nth_error (rinsts st1) j = Some (f, Some v) -> bound (rheap st1) f v (incs j evs)) /\
    (forall j f, nth_error (rinsts st1) j = Some (f, None) -> touched j evs = false /\ j <> i) /\
    (forall g p g' p' a, published (rheap st1) g p = Some a -> published (rheap st1) g' p' = Some a -> (g, p) = (g', p')) /\
    (forall g p a, published (rheap st1) g p = Some a -> key_inst st1 (g, p)) /\
    length (rinsts st1) = length (rinsts st) /\
    (forall j f v, nth_error (rinsts st1) j = Some (f, Some v) -> touched j evs = true \/ j = i).
Proof.
  intros evs st i I Hk Ht Hi. destruct I as [W Hf Hb Hfr Hin Hky Hnew Hus].
  destruct (nth_error (rinsts st) i) as [[f [v|]]|] eqn:Ei; [| |apply nth_error_None in Ei; lia].
  - (* already replaced *)
    destruct (Hb i f v Ei) as (a & j & d & -> & B).
    exists a, st, f. unfold call. rewrite Ei. cbn [obind].
    split; [reflexivity|]. split; [reflexivity|]. split; [exact W|]. split; [exact Hf|]. split; [exact Hb|].
    split; [|split; [exact Hin|split; [exact Hky|split; [reflexivity|]]]].
    2:{ intros j0 f0 v0 E0. left. eapply Hus; eauto. }
    intros j0 f0 E0. split; [eapply Hfr; eauto|]. intros ->. congruence.
  - (* first call *)
    assert (Htf : total_lit f).
    { rewrite Forall_forall in Ht. apply Ht. rewrite <- Hf.
      apply nth_error_In in Ei. apply (in_map fst) in Ei. exact Ei. }
    destruct Htf as [d Hd].
    destruct (first_call f (rheap st) d W Hd) as (a & h' & E & W' & P & D & O & C).
    assert (Pn : published (rheap st) (em_gcv f) (em_path f) = None).
    { destruct (published (rheap st) (em_gcv f) (em_path f)) as [a0|] eqn:E0; [|reflexivity].
      exfalso. destruct (Hky _ _ _ E0) as (j & f' & v' & Ej & Ek).
      assert (i = j) by (eapply nth_key; [rewrite Hf; exact Hk|exact Ei|exact Ej|now rewrite Ek]). subst j. congruence. }
    rewrite Pn in C. destruct C as [-> Hda].
    exists (length (rheap st)), (mkRt h' (set_nth i (f, Some (VRef (length (rheap st)))) (rinsts st))), f.
    unfold call. rewrite Ei. cbn [obind]. rewrite E. cbn [obind].
    split; [reflexivity|]. cbn [rheap rinsts].
    split; [eapply nth_set_same; eauto|]. split; [exact W'|].
    split; [rewrite <- Hf; eapply map_fst_set; eauto|].
    assert (Old : forall g p x, (g, p) <> (em_gcv f, em_path f) -> published h' g p = Some x ->
        published (rheap st) g p = Some x /\ (x < length (rheap st))%nat).
    { intros g p x N Px. rewrite O in Px by exact N. split; [exact Px|].
      destruct (Hky _ _ _ Px) as (j & fj & vj & Ej & Ek). destruct (Hb j fj vj Ej) as (aj & jj & dj & -> & Pj & Dj & _).
      unfold file_key in Ek. injection Ek as <- <-. rewrite Px in Pj. injection Pj as <-. eapply data_at_lt; eauto. }
    split; [|split; [|split; [|split; [|split]]]].
    + intros j f2 v2 Ej. destruct (Nat.eq_dec j i) as [->|Nj].
      * rewrite (nth_set_same _ _ _ _ _ Ei) in Ej. injection Ej as <- <-.
        exists (length (rheap st)), d, d. repeat split; auto.
        now rewrite (untouched_no_incs i evs) by (eapply Hfr; eauto).
      * rewrite nth_set_other in Ej by exact Nj.
        destruct (Hb j f2 v2 Ej) as (aj & jj & dj & -> & Pj & Dj & Rest). exists aj, jj, dj.
        split; [reflexivity|]. split; [|split; [now apply D|exact Rest]].
        rewrite O; [exact Pj|]. intros Ek.
        assert (j = i) by (eapply nth_key; [rewrite Hf; exact Hk|exact Ej|exact Ei|exact Ek]). contradiction.
    + intros j f2 Ej. destruct (Nat.eq_dec j i) as [->|Nj].
      * rewrite (nth_set_same _ _ _ _ _ Ei) in Ej. discriminate.
      * rewrite nth_set_other in Ej by exact Nj. split; [eapply Hfr; eauto|exact Nj].
    + intros g p g' p' x Px Px'.
      assert (Dk : forall q : string * string, {q = (em_gcv f, em_path f)} + {q <> (em_gcv f, em_path f)})
        by (intros q; decide equality; apply string_dec).
      destruct (Dk (g, p)) as [E1|E1], (Dk (g', p')) as [E2|E2].
      * congruence.
      * injection E1 as -> ->. rewrite P in Px. injection Px as <-. destruct (Old _ _ _ E2 Px') as [_ L]. lia.
      * injection E2 as -> ->. rewrite P in Px'. injection Px' as <-. destruct (Old _ _ _ E1 Px) as [_ L]. lia.
      * destruct (Old _ _ _ E1 Px) as [A _], (Old _ _ _ E2 Px') as [B _]. now apply (Hin g p g' p' x).
    + intros g p x Px.
      assert (Dk : {(g, p) = (em_gcv f, em_path f)} + {(g, p) <> (em_gcv f, em_path f)})
        by (decide equality; apply string_dec).
      destruct Dk as [E1|E1].
      * exists i, f, (VRef (length (rheap st))). cbn [rinsts]. split; [eapply nth_set_same; eauto|now rewrite E1].
      * destruct (Old _ _ _ E1 Px) as [A _]. destruct (Hky _ _ _ A) as (j & fj & vj & Ej & Ek).
        exists j, fj, vj. cbn [rinsts]. split; [|exact Ek]. rewrite nth_set_other; [exact Ej|].
        intros ->. congruence.
    + rewrite <- (map_length fst), <- (map_length fst (rinsts st)). f_equal. eapply map_fst_set; eauto.
    + intros j f2 v2 Ej. destruct (Nat.eq_dec j i) as [->|Nj]; [now right|]. left.
      rewrite nth_set_other in Ej by exact Nj. eapply Hus; eauto.
Qed.

Lemma inv_start : inv [] rt0.
Proof.
  constructor.
  - exists []. repeat split; try discriminate.
  - reflexivity.
  - intros [|i] f v H; discriminate.
  - intros [|i] f H; discriminate.
  - intros g p g' p' a H. unfold published in H. discriminate.
  - intros g p a H. discriminate.
  - reflexivity.
  - intros [|i] f v H; discriminate.
Qed.
Lemma NoDup_app_left : forall A (a b : list A), NoDup (a ++ b) -> NoDup a.
Proof.
  induction a as [|x a IH]; intros b H; [constructor|]. inversion H; subst. constructor.
  - intros K. apply H2. apply in_or_app. now left.
  - eauto.
Qed.
Lemma step_inv : forall evs ev st, inv evs st -> NoDup (map file_key (loaded (evs ++ [ev]))) ->
  Forall total_lit (loaded (evs ++ [ev])) ->
  match ev with ELoad _ => True | ECall i | EInc i _ => (i < length (rinsts st))%nat end ->
  exists st', step st ev = Some st' /\ inv (evs ++ [ev]) st'.
Proof.
  intros evs ev st I Hk Ht Hv. rewrite loaded_snoc, map_app in Hk. rewrite loaded_snoc in Ht.
  assert (Hk0 := NoDup_app_left _ _ _ Hk). assert (Ht0 := proj1 (proj1 (Forall_app _ _ _) Ht)).
  destruct ev as [f|i|i c].
  - cbn [step]. eexists. split; [reflexivity|]. destruct I as [W Hf Hb Hfr Hin Hky Hnew Hus].
    constructor; cbn [rheap rinsts].
    + exact W.
    + now rewrite map_app, loaded_snoc, Hf.
    + intros j f2 v Ej. destruct (Nat.lt_ge_cases j (length (rinsts st))) as [L|L].
      * rewrite nth_error_app1 in Ej by exact L. destruct (Hb j f2 v Ej) as (a & jj & d & A & B & C & D & E).
        exists a, jj, d. repeat split; auto. now rewrite incs_snoc, app_nil_r.
      * rewrite nth_error_app2 in Ej by exact L. destruct (j - length (rinsts st))%nat as [|[|]]; discriminate.
    + intros j f2 Ej. rewrite touched_snoc, orb_false_r.
      destruct (Nat.lt_ge_cases j (length (rinsts st))) as [L|L].
      * rewrite nth_error_app1 in Ej by exact L. eapply Hfr; eauto.
      * now apply Hnew.
    + exact Hin.
    + intros g p a P. destruct (Hky g p a P) as (j & f2 & v & Ej & Ek). exists j, f2, v. cbn [rinsts].
      split; [|exact Ek]. rewrite nth_error_app1; [exact Ej|]. apply nth_error_Some. congruence.
    + intros j L. rewrite touched_snoc, orb_false_r. apply Hnew. rewrite app_length in L. lia.
    + intros j f2 v Ej. rewrite touched_snoc, orb_false_r. destruct (Nat.lt_ge_cases j (length (rinsts st))) as [L|L].
      * rewrite nth_error_app1 in Ej by exact L. eapply Hus; eauto.
      * rewrite nth_error_app2 in Ej by exact L. destruct (j - length (rinsts st))%nat as [|[|]]; discriminate.
  - destruct (call_inv evs st i I Hk0 Ht0 Hv) as (a & st1 & f & E & Ei & W & Hf & Hb & Hfr & Hin & Hky & Hl & Hus).
    exists st1. cbn [step]. rewrite E. split; [reflexivity|]. constructor; auto.
    + now rewrite loaded_snoc, app_nil_r.
    + intros j f2 v Ej. destruct (Hb j f2 v Ej) as (a2 & jj & d & A & B & C & D & F).
      exists a2, jj, d. repeat split; auto. now rewrite incs_snoc, app_nil_r.
    + intros j f2 Ej. destruct (Hfr j f2 Ej) as [T N]. rewrite touched_snoc, T. cbn.
      now destruct (Nat.eqb_spec i j); [congruence|].
    + intros j L. rewrite Hl in L. rewrite touched_snoc, (i_new _ _ I j L). cbn.
      destruct (Nat.eqb_spec i j); [lia|reflexivity].
    + intros j f2 v Ej. rewrite touched_snoc. destruct (Hus j f2 v Ej) as [->| ->]; [reflexivity|].
      rewrite Nat.eqb_refl. apply orb_true_r.
  - destruct (call_inv evs st i I Hk0 Ht0 Hv) as (a & st1 & f & E & Ei & W & Hf & Hb & Hfr & Hin & Hky & Hl & Hus).
    destruct (Hb i f (VRef a) Ei) as (a0 & jj & d & Ea & Pa & Da & Dd & Ca). injection Ea as <-.
    destruct (wf_bump (rheap st1) a jj (bump c jj) W Da) as [W2 Pub].
    exists (mkRt (set_nth a (CData (bump c jj)) (rheap st1)) (rinsts st1)). cbn [step]. rewrite E. cbn [obind].
    assert (Na : nth_error (rheap st1) a = Some (CData jj)).
    { unfold data_at in Da. destruct (nth_error (rheap st1) a) as [[|]|]; congruence. }
    unfold bump_at. rewrite Na. split; [reflexivity|].
    assert (Hk1 : NoDup (map (fun f => file_key f) (map fst (rinsts st1)))) by now rewrite Hf.
    constructor; cbn [rheap rinsts].
    + exact W2.
    + now rewrite loaded_snoc, app_nil_r.
    + intros j f2 v Ej. destruct (Hb j f2 v Ej) as (a2 & j2 & d2 & A & B & C & D & F).
      destruct (Nat.eq_dec j i) as [->|Nj].
      * rewrite Ei in Ej. injection Ej as <- <-. exists a, (bump c jj), d.
        split; [reflexivity|]. split; [now rewrite Pub|]. split; [|split; [exact Dd|]].
        -- now rewrite (data_bump _ _ _ _ _ Da), Nat.eqb_refl.
        -- now rewrite incs_snoc, Nat.eqb_refl, increased_snoc, <- Ca.
      * exists a2, j2, d2. split; [exact A|]. split; [now rewrite Pub|]. split; [|split; [exact D|]].
        -- rewrite (data_bump _ _ _ _ _ Da). destruct (Nat.eqb_spec a2 a) as [->|]; [|exact C].
           exfalso. apply Nj. eapply nth_key; [exact Hk1|exact Ej|exact Ei|]. unfold file_key.
           exact (Hin _ _ _ _ _ B Pa).
        -- rewrite incs_snoc. destruct (Nat.eqb_spec i j); [congruence|]. now rewrite app_nil_r.
    + intros j f2 Ej. destruct (Hfr j f2 Ej) as [T N]. rewrite touched_snoc, T. cbn.
      now destruct (Nat.eqb_spec i j); [congruence|].
    + intros g p g' p' x. rewrite !Pub. apply Hin.
    + intros g p x. rewrite Pub. intros P. destruct (Hky g p x P) as (j & f2 & v & Ej & Ek). now exists j, f2, v.
    + intros j L. rewrite Hl in L. rewrite touched_snoc, (i_new _ _ I j L). cbn.
      destruct (Nat.eqb_spec i j); [lia|reflexivity].
    + intros j f2 v Ej. rewrite touched_snoc. destruct (Hus j f2 v Ej) as [->| ->]; [reflexivity|].
      rewrite Nat.eqb_refl. apply orb_true_r.
Qed.

(** A history in which instances are only used after they were loaded *)
Definition valid (evs : list event) : Prop :=
  forall pre ev post, evs = (pre ++ ev :: post)%list ->
    match ev with ELoad _ => True | ECall i | EInc i _ => (i < length (loaded pre))%nat end.
Lemma run_inv : forall evs, valid evs -> NoDup (map file_key (loaded evs)) -> Forall total_lit (loaded evs) ->
  exists st, run evs rt0 = Some st /\ inv evs st.
Proof.
  induction evs as [|ev evs IH] using rev_ind; intros Hv Hk Ht.
  - exists rt0. split; [reflexivity|exact inv_start].
  - destruct IH as (st & E & I).
    + intros pre e post Ee. apply (Hv pre e (post ++ [ev])%list). rewrite Ee, <- app_assoc. reflexivity.
    + rewrite loaded_snoc, map_app in Hk. eapply NoDup_app_left; eauto.
    + rewrite loaded_snoc in Ht. now apply Forall_app in Ht.
    + assert (Hl : length (rinsts st) = length (loaded evs)) by (rewrite <- (i_files _ _ I); now rewrite map_length).
      destruct (step_inv evs ev st I Hk Ht) as (st' & E' & I').
      * specialize (Hv evs ev [] eq_refl). rewrite Hl. exact Hv.
      * exists st'. split; [|exact I']. rewrite run_snoc, E. exact E'.
Qed.
(** One live record per file: whatever the interleaving, the record published for a file carries the
    emitted data plus exactly the increments its code executed, and nothing else. *)
Theorem one_live_record : forall evs, valid evs -> NoDup (map file_key (loaded evs)) -> Forall total_lit (loaded evs) ->
  exists st, run evs rt0 = Some st /\
    forall i f, nth_error (loaded evs) i = Some f ->
      if touched i evs
      then exists a j d, nth_error (rinsts st) i = Some (f, Some (VRef a)) /\
             published (rheap st) (em_gcv f) (em_path f) = Some a /\ data_at (rheap st) a = Some j /\
             eval (em_data f) = Some d /\ j = increased (incs i evs) d /\
             forall c, count c j = option_map (fun n => (n + hits i c evs)%N) (count c d)
      else published (rheap st) (em_gcv f) (em_path f) = None.
Proof.
  intros evs Hv Hk Ht. destruct (run_inv evs Hv Hk Ht) as (st & E & I). exists st. split; [exact E|].
  intros i f Hi. rewrite <- (i_files _ _ I) in Hi.
  destruct (nth_error (rinsts st) i) as [[f0 fn]|] eqn:Ei.
  2:{ apply nth_error_None in Ei. assert (L : (i < length (map fst (rinsts st)))%nat) by (apply nth_error_Some; congruence).
      rewrite map_length in L. lia. }
  rewrite (map_nth_error fst i _ Ei) in Hi. cbn in Hi. injection Hi as ->. destruct fn as [v|].
  - rewrite (i_used _ _ I i f v Ei). destruct (i_bound _ _ I i f v Ei) as (a & j & d & -> & B1 & B2 & B3 & B4).
    exists a, j, d. repeat (split; [assumption || reflexivity|]). intros c. rewrite B4. apply count_incs.
  - rewrite (i_free _ _ I i f Ei). destruct (published (rheap st) (em_gcv f) (em_path f)) as [a|] eqn:P; [|reflexivity].
    destruct (i_key _ _ I _ _ _ P) as (j & f2 & v & Ej & Ek). exfalso.
    assert (i = j).
    { eapply nth_key; [|exact Ei|exact Ej|now rewrite Ek]. rewrite (i_files _ _ I). exact Hk. }
    subst j. congruence.
Qed.

(** ** Files loaded several times *)
Definition uses (i : nat) (ev : event) : bool := match ev with ECall i' | EInc i' _ => Nat.eqb i' i | _ => false end.
(** Position of the first call made by an instance *)
Fixpoint first_use (i : nat) (evs : list event) : option nat :=
  match evs with
  | [] => None
  | ev :: evs' => if uses i ev then Some O else option_map S (first_use i evs')
  end.
Lemma first_use_snoc : forall i evs ev, first_use i (evs ++ [ev]) =
  match first_use i evs with Some n => Some n | None => if uses i ev then Some (length evs) else None end.
Proof.
  intros i evs ev. induction evs as [|e evs IH]; cbn; [now destruct (uses i ev)|].
  destruct (uses i e); [reflexivity|]. rewrite IH. destruct (first_use i evs); [reflexivity|]. now destruct (uses i ev).
Qed.
Lemma first_use_touched : forall i evs, touched i evs = match first_use i evs with Some _ => true | None => false end.
Proof.
  intros i evs. unfold touched. induction evs as [|e evs IH]; [reflexivity|]. cbn.
  unfold uses at 1. rewrite IH. destruct e as [f|k|k c]; cbn; try destruct (Nat.eqb k i); try reflexivity; now destruct (first_use i evs).
Qed.
Lemma first_use_lt : forall i evs n, first_use i evs = Some n -> (n < length evs)%nat.
Proof.
  intros i evs. induction evs as [|e evs IH]; cbn; [discriminate|]. intros n H. destruct (uses i e).
  - injection H as <-. lia.
  - destruct (first_use i evs) as [m|]; [|discriminate]. injection H as <-. specialize (IH m eq_refl). lia.
Qed.
(** The instance with the latest first call among those of the same file *)
Definition latest (evs : list event) (i : nat) (f : emitted) : Prop :=
  exists n, first_use i evs = Some n /\
    forall i' f' n', nth_error (loaded evs) i' = Some f' -> file_key f' = file_key f -> first_use i' evs = Some n' -> (n' <= n)%nat.
Definition no_dollar (f : emitted) : Prop := exists d, eval (em_data f) = Some d /\ member d "$hash" = None.
Definition own_record (h : heap) (f : emitted) (v : value) (n : counter -> N) : Prop :=
  exists a j d, v = VRef a /\ data_at h a = Some j /\ member j "$hash" = None /\
    eval (em_data f) = Some d /\ forall c, count c j = option_map (fun x => (x + n c)%N) (count c d).
Record ginv (evs : list event) (st : rt) : Prop := mkGinv {
  g_wf : wf_heap (rheap st);
  g_files : map fst (rinsts st) = loaded evs;
  g_bound : forall i f v, nth_error (rinsts st) i = Some (f, Some v) -> own_record (rheap st) f v (fun c => hits i c evs);
  g_free : forall i f, nth_error (rinsts st) i = Some (f, None) -> first_use i evs = None;
  g_new : forall i, (length (rinsts st) <= i)%nat -> first_use i evs = None;
  g_used : forall i f v, nth_error (rinsts st) i = Some (f, Some v) -> first_use i evs <> None;
  g_dist : forall i i' f f' v, nth_error (rinsts st) i = Some (f, Some v) -> nth_error (rinsts st) i' = Some (f', Some v) -> i = i';
  g_pub : forall i f a, nth_error (rinsts st) i = Some (f, Some (VRef a)) ->
    (published (rheap st) (em_gcv f) (em_path f) = Some a <-> latest evs i f);
  g_key : forall g p a, published (rheap st) g p = Some a ->
    exists i f, nth_error (rinsts st) i = Some (f, Some (VRef a)) /\ file_key f = (g, p)
}.
(** The call, as seen by an instance *)
Lemma call_ginv : forall evs st i, ginv evs st -> Forall no_dollar (loaded evs) -> (i < length (rinsts st))%nat ->
  exists a st1 f, call i st = Some (VRef a, st1) /\ nth_error (rinsts st1) i = Some (f, Some (VRef a)) /\
    ginv (evs ++ [ECall i]) st1.
Proof.
  intros evs st i I Ht Hi. assert (I0 := I). destruct I as [W Hf Hb Hfr Hn Hu Hd Hp Hk].
  assert (Hh : forall j c, hits j c (evs ++ [ECall i]) = hits j c evs) by (intros; rewrite hits_snoc; apply N.add_0_r).
  assert (Hld : loaded (evs ++ [ECall i]) = loaded evs) by (rewrite loaded_snoc; apply app_nil_r).
  destruct (nth_error (rinsts st) i) as [[f [v|]]|] eqn:Ei; [| |apply nth_error_None in Ei; lia].
  - destruct (Hb i f v Ei) as (a & j & d & -> & B).
    exists a, st, f. unfold call. rewrite Ei. cbn [obind]. split; [reflexivity|]. split; [reflexivity|].
    assert (Fu : forall j, first_use j (evs ++ [ECall i]) = first_use j evs).
    { intros j0. rewrite first_use_snoc. destruct (first_use j0 evs) eqn:E0; [reflexivity|]. cbn.
      destruct (Nat.eqb_spec i j0) as [<-|]; [|reflexivity]. exfalso. exact (Hu i f _ Ei E0). }
    constructor; auto.
    + now rewrite Hld.
    + intros j0 f0 v0 E0. destruct (Hb j0 f0 v0 E0) as (a0 & jj & dd & A). exists a0, jj, dd.
      destruct A as (A & C & D & E & F). repeat split; auto. intros c. rewrite Hh. apply F.
    + intros j0 f0 E0. rewrite Fu. eapply Hfr; eauto.
    + intros j0 L. rewrite Fu. auto.
    + intros j0 f0 v0 E0. rewrite Fu. eapply Hu; eauto.
    + intros j0 f0 a0 E0. rewrite (Hp j0 f0 a0 E0). unfold latest. rewrite Fu, Hld. split; intros (n & A & C); exists n; split; auto;
        intros i' f' n'; [rewrite Fu|rewrite <- Fu]; apply C.
  - assert (Htf : no_dollar f).
    { rewrite Forall_forall in Ht. apply Ht. rewrite <- Hf. apply nth_error_In in Ei. apply (in_map fst) in Ei. exact Ei. }
    destruct Htf as (d & Hd0 & Hcl).
    destruct (first_call f (rheap st) d W Hd0) as (a & h' & E & W' & P & D & O & C).
    assert (Ca : a = length (rheap st) /\ data_at h' a = Some d).
    { destruct (published (rheap st) (em_gcv f) (em_path f)) as [a0|] eqn:E0; [|exact C].
      destruct C as (j & Dj & K). destruct (Hk _ _ _ E0) as (i' & f' & Ei' & _).
      destruct (Hb _ _ _ Ei') as (a' & j' & d' & Ea & Da & Mh & _). injection Ea as <-. rewrite Da in Dj. injection Dj as <-.
      unfold keeps_record in K. rewrite Mh in K. exact K. }
    destruct Ca as [-> Da].
    exists (length (rheap st)), (mkRt h' (set_nth i (f, Some (VRef (length (rheap st)))) (rinsts st))), f.
    unfold call. rewrite Ei. cbn [obind]. rewrite E. cbn [obind rheap rinsts].
    assert (Si := nth_set_same _ i (f, Some (VRef (length (rheap st)))) _ _ Ei).
    split; [reflexivity|]. split; [exact Si|].
    assert (Fi : first_use i evs = None) by (eapply Hfr; eauto).
    assert (Fu : forall j, j <> i -> first_use j (evs ++ [ECall i]) = first_use j evs).
    { intros j0 N0. rewrite first_use_snoc. destruct (first_use j0 evs) eqn:E0; [reflexivity|]. cbn.
      now destruct (Nat.eqb_spec i j0) as [<-|]; [contradiction|]. }
    assert (Fui : first_use i (evs ++ [ECall i]) = Some (length evs)).
    { rewrite first_use_snoc, Fi. cbn. now rewrite Nat.eqb_refl. }
    assert (Len : length (set_nth i (f, Some (VRef (length (rheap st)))) (rinsts st)) = length (rinsts st)) by apply set_nth_length.
    constructor; cbn [rheap rinsts].
    + exact W'.
    + rewrite Hld, <- Hf. eapply map_fst_set; eauto.
    + intros j f2 v2 Ej. destruct (Nat.eq_dec j i) as [->|Nj].
      * rewrite Si in Ej. injection Ej as <- <-.
        exists (length (rheap st)), d, d. repeat split; auto. intros c. rewrite Hh.
        rewrite (untouched_no_hits i c evs) by (now rewrite first_use_touched, Fi). now rewrite option_map_add0.
      * rewrite nth_set_other in Ej by exact Nj. destruct (Hb j f2 v2 Ej) as (aj & jj & dj & A & B & M & F & G).
        exists aj, jj, dj. repeat split; auto. intros c. rewrite Hh. apply G.
    + intros j f2 Ej. destruct (Nat.eq_dec j i) as [->|Nj]; [rewrite Si in Ej; discriminate|].
      rewrite nth_set_other in Ej by exact Nj. rewrite Fu by exact Nj. eapply Hfr; eauto.
    + intros j L. rewrite Len in L. rewrite Fu by lia. now apply Hn.
    + intros j f2 v2 Ej. destruct (Nat.eq_dec j i) as [->|Nj]; [now rewrite Fui|].
      rewrite nth_set_other in Ej by exact Nj. rewrite Fu by exact Nj. eapply Hu; eauto.
    + assert (Old : forall j f2, j <> i -> nth_error (rinsts st) j = Some (f2, Some (VRef (length (rheap st)))) -> False).
      { intros j f2 Nj Ej. destruct (Hb _ _ _ Ej) as (aj & jj & dj & A & B & _). injection A as <-. apply data_at_lt in B. lia. }
      intros j j' f2 f2' v2 Ej Ej'.
      destruct (Nat.eq_dec j i) as [->|Nj], (Nat.eq_dec j' i) as [->|Nj']; [reflexivity| | |].
      * rewrite Si in Ej. injection Ej as <- <-. rewrite nth_set_other in Ej' by exact Nj'. now destruct (Old _ _ Nj' Ej').
      * rewrite Si in Ej'. injection Ej' as <- <-. rewrite nth_set_other in Ej by exact Nj. now destruct (Old _ _ Nj Ej).
      * rewrite nth_set_other in Ej, Ej' by assumption. eapply Hd; eauto.
    + intros j f2 a2 Ej. destruct (Nat.eq_dec j i) as [->|Nj].
      * rewrite Si in Ej. injection Ej as <- <-. split; [|intros _; exact P]. intros _.
        exists (length evs). split; [exact Fui|]. intros i' f' n' _ _ Fn'. apply first_use_lt in Fn'. rewrite app_length in Fn'. cbn in Fn'. lia.
      * rewrite nth_set_other in Ej by exact Nj.
        assert (Li : nth_error (loaded evs) i = Some f) by (rewrite <- Hf; exact (map_nth_error fst i _ Ei)).
        assert (Dk : {file_key f2 = file_key f} + {file_key f2 <> file_key f}) by (decide equality; apply string_dec).
        destruct Dk as [Ek|Nk].
        -- split.
           ++ intros Pj. unfold file_key in Ek. injection Ek as E1 E2. rewrite E1, E2, P in Pj. injection Pj as <-. exfalso.
              destruct (Hb _ _ _ Ej) as (aj & jj & dj & A & B & _). injection A as <-. apply data_at_lt in B. lia.
           ++ intros (n & Fn & Mx). exfalso. rewrite Fu in Fn by exact Nj. apply first_use_lt in Fn.
              rewrite Hld in Mx. specialize (Mx i f (length evs) Li (eq_sym Ek) Fui). lia.
        -- rewrite O by exact Nk. rewrite (Hp j f2 a2 Ej). unfold latest. rewrite Hld, Fu by exact Nj.
           split; intros (n & Fn & Mx); exists n; (split; [exact Fn|]); intros i' f' n' Li' Ek Fn'.
           ++ destruct (Nat.eq_dec i' i) as [->|Ni']; [congruence|]. rewrite Fu in Fn' by exact Ni'. eapply Mx; eauto.
           ++ destruct (Nat.eq_dec i' i) as [->|Ni']; [congruence|]. eapply Mx; eauto. now rewrite Fu.
    + intros g p x Px.
      assert (Dk : {(g, p) = (em_gcv f, em_path f)} + {(g, p) <> (em_gcv f, em_path f)})
        by (decide equality; apply string_dec).
      destruct Dk as [E1|E1].
      * injection E1 as -> ->. rewrite P in Px. injection Px as <-. exists i, f. split; [exact Si|reflexivity].
      * rewrite O in Px by exact E1. destruct (Hk _ _ _ Px) as (j & fj & Ej & Ek).
        exists j, fj. split; [|exact Ek]. rewrite nth_set_other; [exact Ej|]. intros ->. congruence.
Qed.
Lemma ginv_start : ginv [] rt0.
Proof.
  constructor; try (intros [|i] f v H; discriminate); try reflexivity; try (intros [|i]; discriminate).
  exists []. repeat split; try discriminate.
Qed.
Lemma ginv_load : forall evs st f, ginv evs st ->
  ginv (evs ++ [ELoad f]) (mkRt (rheap st) (rinsts st ++ [(f, None)])%list).
Proof.
  intros evs st f [W Hf Hb Hfr Hn Hu Hd Hp Hk].
  assert (Hh : forall j c, hits j c (evs ++ [ELoad f]) = hits j c evs) by (intros; rewrite hits_snoc; apply N.add_0_r).
  assert (Fu : forall j, first_use j (evs ++ [ELoad f]) = first_use j evs)
    by (intros j; rewrite first_use_snoc; cbn; now destruct (first_use j evs)).
  assert (Old : forall j f2 v, nth_error (rinsts st ++ [(f, None)]) j = Some (f2, Some v) ->
     nth_error (rinsts st) j = Some (f2, Some v)).
  { intros j f2 v Ej. destruct (Nat.lt_ge_cases j (length (rinsts st))) as [L|L].
    - now rewrite nth_error_app1 in Ej by exact L.
    - rewrite nth_error_app2 in Ej by exact L. destruct (j - length (rinsts st))%nat as [|[|]]; discriminate. }
  constructor; cbn [rheap rinsts]; auto.
  - now rewrite map_app, loaded_snoc, Hf.
  - intros j f2 v Ej. apply Old in Ej. destruct (Hb j f2 v Ej) as (a & jj & d & A & B & M & F & G).
    exists a, jj, d. repeat split; auto. intros c. rewrite Hh. apply G.
  - intros j f2 Ej. rewrite Fu. destruct (Nat.lt_ge_cases j (length (rinsts st))) as [L|L]; [|now apply Hn].
    rewrite nth_error_app1 in Ej by exact L. eapply Hfr; eauto.
  - intros j L. rewrite app_length in L. rewrite Fu. apply Hn. lia.
  - intros j f2 v Ej. rewrite Fu. eapply Hu; eauto.
  - intros j j' f2 f2' v Ej Ej'. eapply Hd; eauto.
  - intros j f2 a Ej. apply Old in Ej. rewrite (Hp j f2 a Ej). unfold latest. rewrite Fu, loaded_snoc.
    split; intros (n & Fn & Mx); exists n; (split; [exact Fn|]); intros i' f' n' Li' Ek Fn'.
    + rewrite Fu in Fn'. apply (Mx i' f' n'); [|exact Ek|exact Fn'].
      destruct (Nat.lt_ge_cases i' (length (rinsts st))) as [L|L]; [|rewrite Hn in Fn' by exact L; discriminate].
      rewrite nth_error_app1 in Li'; [exact Li'|]. rewrite <- Hf, map_length. exact L.
    + apply (Mx i' f' n'); [|exact Ek|now rewrite Fu]. rewrite nth_error_app1; [exact Li'|]. apply nth_error_Some. congruence.
  - intros g p a Px. destruct (Hk _ _ _ Px) as (j & fj & Ej & Ek). exists j, fj. split; [|exact Ek].
    rewrite nth_error_app1; [exact Ej|]. apply nth_error_Some. congruence.
Qed.
Lemma first_use_inc : forall i c j evs, first_use j (evs ++ [EInc i c]) = first_use j (evs ++ [ECall i]).
Proof. intros. now rewrite !first_use_snoc. Qed.
Lemma ginv_inc : forall evs st i c a f j, ginv (evs ++ [ECall i]) st ->
  nth_error (rinsts st) i = Some (f, Some (VRef a)) -> data_at (rheap st) a = Some j ->
  ginv (evs ++ [EInc i c]) (mkRt (set_nth a (CData (bump c j)) (rheap st)) (rinsts st)).
Proof.
  intros evs st i c a f j [W Hf Hb Hfr Hn Hu Hd Hp Hk] Ei Dj.
  destruct (wf_bump (rheap st) a j (bump c j) W Dj) as [W2 Pub].
  assert (Ld : loaded (evs ++ [EInc i c]) = loaded (evs ++ [ECall i])) by now rewrite !loaded_snoc.
  constructor; cbn [rheap rinsts].
  - exact W2.
  - now rewrite Ld.
  - intros i' f' v' E'. destruct (Hb i' f' v' E') as (a' & j' & d' & -> & D' & M' & V' & C').
    destruct (Nat.eq_dec i' i) as [->|N].
    + rewrite Ei in E'. injection E' as <- <-. rewrite D' in Dj. injection Dj as <-.
      exists a, (bump c j'), d'. split; [reflexivity|]. split; [now rewrite (data_bump _ _ _ _ _ D'), Nat.eqb_refl|].
      split; [rewrite bump_hash; [exact M'|intros H; repeat destruct H as [H|H]; try discriminate; destruct H]|].
      split; [exact V'|]. intros c'. rewrite count_bump, hits_snoc, Nat.eqb_refl. cbn [andb].
      specialize (C' c'). rewrite hits_snoc, N.add_0_r in C'. destruct (counter_dec c' c) as [->|Nc].
      * rewrite C'. destruct (count c d'); [|reflexivity]. cbn [option_map]. f_equal. lia.
      * now rewrite N.add_0_r.
    + exists a', j', d'. split; [reflexivity|]. split; [|split; [exact M'|split; [exact V'|]]].
      * rewrite (data_bump _ _ _ _ _ Dj). destruct (Nat.eqb_spec a' a) as [->|]; [|exact D'].
        exfalso. apply N. eapply Hd; eauto.
      * intros c'. specialize (C' c'). rewrite hits_snoc, N.add_0_r in C'. rewrite hits_snoc.
        destruct (Nat.eqb_spec i i'); [congruence|]. cbn [andb]. now rewrite N.add_0_r.
  - intros i' f' E'. rewrite first_use_inc. eapply Hfr; eauto.
  - intros i' L. rewrite first_use_inc. auto.
  - intros i' f' v' E'. rewrite first_use_inc. eapply Hu; eauto.
  - exact Hd.
  - intros i' f' a' E'. rewrite Pub, (Hp i' f' a' E'). unfold latest. rewrite Ld, first_use_inc.
    split; intros (n & Fn & Mx); exists n; (split; [exact Fn|]); intros i2 f2 n2 L2 Ek F2; apply (Mx i2 f2 n2 L2 Ek);
      [now rewrite <- (first_use_inc i c)|now rewrite first_use_inc].
  - intros g p x. rewrite Pub. apply Hk.
Qed.
Lemma run_ginv : forall evs, valid evs -> Forall no_dollar (loaded evs) -> exists st, run evs rt0 = Some st /\ ginv evs st.
Proof.
  induction evs as [|ev evs IH] using rev_ind; intros Hv Ht.
  - exists rt0. split; [reflexivity|exact ginv_start].
  - assert (Ht0 : Forall no_dollar (loaded evs)) by (rewrite loaded_snoc in Ht; now apply Forall_app in Ht).
    destruct IH as (st & E & I); [|exact Ht0|].
    { intros pre e post Ee. apply (Hv pre e (post ++ [ev])%list). rewrite Ee, <- app_assoc. reflexivity. }
    assert (Hl : length (rinsts st) = length (loaded evs)) by (rewrite <- (g_files _ _ I); now rewrite map_length).
    specialize (Hv evs ev [] eq_refl). rewrite run_snoc, E. cbn [obind]. destruct ev as [f|i|i c].
    + eexists. split; [reflexivity|]. now apply ginv_load.
    + rewrite <- Hl in Hv. destruct (call_ginv evs st i I Ht0 Hv) as (a & st1 & f & Ec & Ei & I1).
      exists st1. cbn [step]. now rewrite Ec.
    + rewrite <- Hl in Hv. destruct (call_ginv evs st i I Ht0 Hv) as (a & st1 & f & Ec & Ei & I1).
      destruct (g_bound _ _ I1 i f (VRef a) Ei) as (a' & j & d & Ea & Dj & _). injection Ea as <-.
      exists (mkRt (set_nth a (CData (bump c j)) (rheap st1)) (rinsts st1)). split; [|now apply ginv_inc with (f := f)].
      cbn [step]. rewrite Ec. cbn [obind]. unfold bump_at, data_at in *. destruct (nth_error (rheap st1) a) as [[|j0]|]; try discriminate.
      now injection Dj as ->.
Qed.
(** What really happens when files are loaded any number of times: every instance counts into a record
    of its own that starts from the emitted data; the published one belongs to the instance that was
    initialised last. *)
Theorem every_load_counts_alone : forall evs, valid evs -> Forall no_dollar (loaded evs) ->
  exists st, run evs rt0 = Some st /\
    (forall i f, nth_error (loaded evs) i = Some f -> first_use i evs <> None ->
      exists a j d, nth_error (rinsts st) i = Some (f, Some (VRef a)) /\ data_at (rheap st) a = Some j /\
        eval (em_data f) = Some d /\
        (forall c, count c j = option_map (fun n => (n + hits i c evs)%N) (count c d)) /\
        (published (rheap st) (em_gcv f) (em_path f) = Some a <-> latest evs i f)) /\
    (forall i i' f f' v, nth_error (rinsts st) i = Some (f, Some v) -> nth_error (rinsts st) i' = Some (f', Some v) -> i = i').
Proof.
  intros evs Hv Ht. destruct (run_ginv evs Hv Ht) as (st & E & I). exists st. split; [exact E|].
  split; [|exact (g_dist _ _ I)]. intros i f Li Fu. rewrite <- (g_files _ _ I) in Li.
  destruct (nth_error (rinsts st) i) as [[f0 fn]|] eqn:Ei.
  2:{ apply nth_error_None in Ei. now rewrite (g_new _ _ I i Ei) in Fu. }
  rewrite (map_nth_error fst i _ Ei) in Li. cbn in Li. injection Li as ->. destruct fn as [v|].
  - destruct (g_bound _ _ I i f v Ei) as (a & j & d & -> & Dj & _ & V & C). exists a, j, d.
    repeat split; auto; now apply (g_pub _ _ I i f a Ei).
  - now rewrite (g_free _ _ I i f Ei) in Fu.
Qed.

(** ** Files as the instrumenter emits them *)
Lemma prop_map : forall A (g : A -> json) (m : imap N A) k, prop (dec k) (map (fun kv => (dec (fst kv), g (snd kv))) m) = option_map g (im_get k m).
Proof.
  intros A g m k. induction m as [|[k' v] m IH]; [reflexivity|]. cbn [map prop im_get fst snd].
  change (eqb k k') with (N.eqb k k').
  destruct (String.eqb_spec (dec k) (dec k')) as [E|E].
  - apply dec_inj in E. subst. now rewrite N.eqb_refl.
  - destruct (N.eqb_spec k k'); [congruence|exact IH].
Qed.
Lemma prop_sorted : forall A (g : A -> json) (m : imap N A) k, NoDup (im_keys m) ->
  member (map_json g (key_sort m)) (dec k) = option_map g (im_get k m).
Proof.
  intros A g m k H. unfold map_json, member. rewrite prop_map. f_equal. symmetry. apply im_get_perm; [|exact H].
  symmetry. now apply key_sort_perm.
Qed.
(** The number a record holds for a counter *)
Definition recorded (fc : file_coverage) (c : counter) : option N :=
  match c with
  | CS i => im_get i (fc_s fc)
  | CF i => im_get i (fc_f fc)
  | CB b i => match im_get b (fc_b fc) with Some l => nth_error l (N.to_nat i) | None => None end
  | CT b i => match fc_b_t fc with
              | Some bt => match im_get b bt with Some l => nth_error l (N.to_nat i) | None => None end
              | None => None
              end
  end.
Lemma read_nth : forall l n, (let? x := elem (nums_json l) n in read_num x) = nth_error l n.
Proof. intros l n. cbn. revert n. induction l as [|x l IH]; intros [|n]; try reflexivity. apply IH. Qed.
Theorem initial_count : forall fc c, unique_keys fc -> count c (JObj (fc_value fc)) = recorded fc c.
Proof.
  intros fc c (A & B & C & D & E & F & G). unfold count.
  assert (S1 : member (JObj (fc_value fc)) "s" = Some (map_json JNum (key_sort (fc_s fc)))) by reflexivity.
  assert (S2 : member (JObj (fc_value fc)) "f" = Some (map_json JNum (key_sort (fc_f fc)))) by reflexivity.
  assert (S3 : member (JObj (fc_value fc)) "b" = Some (map_json nums_json (key_sort (fc_b fc)))) by reflexivity.
  assert (S4 : member (JObj (fc_value fc)) "bT" = option_map (fun bt => map_json nums_json (key_sort bt)) (fc_b_t fc)).
  { unfold member, fc_value. remember (fc_hash fc) as h. clear. destruct (fc_b_t fc), (fc_input_source_map fc); reflexivity. }
  destruct c as [i|i|b i|b i]; cbn [slot recorded].
  - rewrite S1. cbn [obind]. rewrite (prop_sorted _ JNum _ i D). destruct (im_get i (fc_s fc)); reflexivity.
  - rewrite S2. cbn [obind]. rewrite (prop_sorted _ JNum _ i E). destruct (im_get i (fc_f fc)); reflexivity.
  - rewrite S3. cbn [obind]. rewrite (prop_sorted _ nums_json _ b F). destruct (im_get b (fc_b fc)) as [l|]; [|reflexivity].
    cbn [option_map obind]. apply read_nth.
  - rewrite S4. destruct (fc_b_t fc) as [bt|]; [|reflexivity]. cbn [option_map obind].
    rewrite (prop_sorted _ nums_json _ b G). destruct (im_get b bt) as [l|]; [|reflexivity]. cbn [option_map obind]. apply read_nth.
Qed.
Lemma emitted_no_dollar : forall gcv path fc, fc_names_plain fc -> no_dollar (emitted_for gcv path fc).
Proof.
  intros gcv path fc H. exists (JObj (fc_value fc)). split; [now apply data_object_value|].
  unfold member, fc_value. remember (fc_hash fc) as h. clear. destruct (fc_b_t fc), (fc_input_source_map fc); reflexivity.
Qed.
Lemma emitted_total : forall gcv path fc, fc_names_plain fc -> total_lit (emitted_for gcv path fc).
Proof. intros gcv path fc H. destruct (emitted_no_dollar gcv path fc H) as (d & E & _). now exists d. Qed.
(** A file instrumented with the record [fc] and the coverage variable [gcv] *)
Definition output_of (f : emitted) (fc : file_coverage) : Prop :=
  f = emitted_for (em_gcv f) (em_path f) fc /\ fc_names_plain fc /\ unique_keys fc.
Lemma output_value : forall f fc, output_of f fc -> eval (em_data f) = Some (JObj (fc_value fc)).
Proof. intros f fc (-> & P & _). now apply data_object_value. Qed.
Lemma output_total : forall f fc, output_of f fc -> total_lit f.
Proof. intros f fc (-> & P & _). now apply emitted_total. Qed.
Lemma output_no_dollar : forall f fc, output_of f fc -> no_dollar f.
Proof. intros f fc (-> & P & _). now apply emitted_no_dollar. Qed.
(** Any interleaving of calls and increments of files with different paths: the published record of
    every file that has been initialised holds, for every counter, the number it started with (zero
    for instrumented files) plus the number of times that file executed the increment. *)
Theorem counts_are_kept : forall evs, valid evs -> NoDup (map file_key (loaded evs)) ->
  Forall (fun f => exists fc, output_of f fc) (loaded evs) ->
  exists st, run evs rt0 = Some st /\
    forall i f fc, nth_error (loaded evs) i = Some f -> output_of f fc -> touched i evs = true ->
      exists a j, published (rheap st) (em_gcv f) (em_path f) = Some a /\ data_at (rheap st) a = Some j /\
        forall c, count c j = option_map (fun n => (n + hits i c evs)%N) (recorded fc c).
Proof.
  intros evs Hv Hk Ho. destruct (one_live_record evs Hv Hk) as (st & E & H).
  { eapply Forall_impl; [|exact Ho]. intros f (fc & O). eapply output_total; eauto. }
  exists st. split; [exact E|]. intros i f fc Li O T. specialize (H i f Li). rewrite T in H.
  destruct H as (a & j & d & _ & P & D & V & _ & C). exists a, j. split; [exact P|]. split; [exact D|].
  intros c. rewrite C. rewrite (output_value f fc O) in V. injection V as <-. rewrite initial_count; [reflexivity|].
  apply O.
Qed.
(** Once initialised an instance keeps returning the same record. *)
Lemma bound_stays : forall evs st st' i f v, run evs st = Some st' -> nth_error (rinsts st) i = Some (f, Some v) ->
  nth_error (rinsts st') i = Some (f, Some v) /\ call i st' = Some (v, st').
Proof.
  assert (C : forall i j st v0 st1 f v, call j st = Some (v0, st1) -> nth_error (rinsts st) i = Some (f, Some v) ->
     nth_error (rinsts st1) i = Some (f, Some v)).
  { intros i j st v0 st1 f v Hc Hi. unfold call in Hc.
    destruct (nth_error (rinsts st) j) as [[f2 [w|]]|] eqn:Ej; cbn [obind] in Hc; try discriminate.
    - injection Hc as <- <-. exact Hi.
    - destruct (trun (template f2) [] None (rheap st)) as [[[w repl] h]|]; [|discriminate]. cbn [obind] in Hc.
      injection Hc as <- <-. cbn [rinsts]. rewrite nth_set_other; [exact Hi|]. intros ->. congruence. }
  induction evs as [|ev evs IH]; intros st st' i f v H Hi.
  - injection H as <-. split; [exact Hi|]. unfold call. now rewrite Hi.
  - cbn [run] in H. destruct (step st ev) as [st1|] eqn:Es; [|discriminate]. cbn [obind] in H.
    apply (IH st1 st' i f v H). destruct ev as [g|j|j c]; cbn [step] in Es.
    + injection Es as <-. cbn [rinsts]. rewrite nth_error_app1; [exact Hi|]. apply nth_error_Some. congruence.
    + destruct (call j st) as [[w s2]|] eqn:Ec; [|discriminate]. injection Es as <-. eapply C; eauto.
    + destruct (call j st) as [[w s2]|] eqn:Ec; [|discriminate]. cbn [obind] in Es.
      destruct (bump_at w c (rheap s2)) as [h|]; [|discriminate]. injection Es as <-. cbn [rinsts]. eapply C; eauto.
Qed.
Lemma template_returns : forall f h v r h', trun (template f) [] None h = Some (v, r, h') -> r = Some v.
Proof.
  assert (K : forall vars r0 h v r h', trun [SReplace "actualCoverage"; SReturn "actualCoverage"] vars r0 h = Some (v, r, h') -> r = Some v).
  { intros vars r0 h v r h' H. cbn [trun] in H. destruct (im_get "actualCoverage" vars) as [w|]; [|discriminate].
    cbn [obind] in H. now injection H as <- <- <-. }
  assert (S : forall x t ss, (forall vars r0 h v r h', trun ss vars r0 h = Some (v, r, h') -> r = Some v) ->
    forall vars r0 h v r h', trun (SVar x t :: ss) vars r0 h = Some (v, r, h') -> r = Some v).
  { intros x t ss Hs vars r0 h v r h' H. cbn [trun] in H. destruct (teval t vars h) as [[w h1]|]; [|discriminate]. eapply Hs, H. }
  assert (I : forall c t ss, (forall vars r0 h v r h', trun ss vars r0 h = Some (v, r, h') -> r = Some v) ->
    forall vars r0 h v r h', trun (SIf c t :: ss) vars r0 h = Some (v, r, h') -> r = Some v).
  { intros c t ss Hs vars r0 h v r h' H. cbn [trun] in H. destruct (teval c vars h) as [[w h1]|]; [|discriminate].
    cbn [obind] in H. destruct (truthy w); [|eapply Hs, H]. destruct (teval t vars h1) as [[w2 h2]|]; [|discriminate]. eapply Hs, H. }
  intros f h v r h'. unfold template. do 6 apply S. apply I, S, K.
Qed.
Lemma call_binds : forall i st v st1, call i st = Some (v, st1) -> exists f, nth_error (rinsts st1) i = Some (f, Some v).
Proof.
  intros i st v st1 H. unfold call in H. destruct (nth_error (rinsts st) i) as [[f [w|]]|] eqn:E; cbn [obind] in H; [| |discriminate].
  - injection H as <- <-. now exists f.
  - destruct (trun (template f) [] None (rheap st)) as [[[w r] h]|] eqn:T; [|discriminate]. cbn [obind] in H.
    injection H as <- <-. rewrite (template_returns _ _ _ _ _ T). exists f. cbn [rinsts]. eapply nth_set_same; eauto.
Qed.
(** Every call after the first returns the same record and changes nothing, whatever happens between. *)
Theorem later_calls_agree : forall evs i st v st1 st', call i st = Some (v, st1) -> run evs st1 = Some st' ->
  call i st' = Some (v, st').
Proof.
  intros evs i st v st1 st' H Hr. destruct (call_binds _ _ _ _ H) as [f Hf]. now apply (bound_stays evs st1 st' i f v Hr Hf).
Qed.

(** Loading an unchanged file again: the published record starts again from the emitted data, whatever
    was counted before. *)
Theorem reload_restarts : forall evs f fc i, valid evs -> Forall (fun g => exists gc, output_of g gc) (loaded evs) ->
  output_of f fc -> nth_error (loaded evs) i = Some f -> first_use i evs <> None ->
  exists st a j, run (evs ++ [ELoad f; ECall (length (loaded evs))]) rt0 = Some st /\
    published (rheap st) (em_gcv f) (em_path f) = Some a /\ data_at (rheap st) a = Some j /\
    (forall c, count c j = recorded fc c).
Proof.
  intros evs f fc i Hv Ho Of Li Fu.
  set (evs' := (evs ++ [ELoad f; ECall (length (loaded evs))])%list).
  assert (E' : evs' = ((evs ++ [ELoad f]) ++ [ECall (length (loaded evs))])%list) by (unfold evs'; now rewrite <- app_assoc).
  assert (Ld : loaded evs' = (loaded evs ++ [f])%list) by (rewrite E', !loaded_snoc; now rewrite app_nil_r).
  assert (V' : valid evs').
  { intros pre ev post Ee. rewrite E' in Ee.
    destruct post as [|x post] using rev_ind.
    - apply app_inj_tail in Ee as [Ep Ev]. subst ev pre. rewrite loaded_snoc, app_length. cbn. lia.
    - clear IHpost. rewrite app_comm_cons, app_assoc in Ee. apply app_inj_tail in Ee as [Ee _].
      destruct post as [|y post] using rev_ind.
      + apply app_inj_tail in Ee as [Ep Ev]. subst ev. exact I.
      + clear IHpost. rewrite app_comm_cons, app_assoc in Ee. apply app_inj_tail in Ee as [Ee _].
        exact (Hv pre ev post Ee). }
  destruct (every_load_counts_alone evs' V') as (st & Er & A & _).
  { rewrite Ld. apply Forall_app. split; [|constructor; [eapply output_no_dollar; eauto|constructor]].
    eapply Forall_impl; [|exact Ho]. intros g (gc & O). eapply output_no_dollar; eauto. }
  set (n := length (loaded evs)).
  assert (Fn0 : first_use n evs = None).
  { clear - Hv. unfold n. assert (K : forall m, (length (loaded evs) <= m)%nat -> first_use m evs = None); [|now apply K].
    revert Hv. induction evs as [|ev evs IH] using rev_ind; intros Hv m L; [reflexivity|].
    rewrite first_use_snoc. rewrite loaded_snoc, app_length in L.
    rewrite IH; [|intros pre e post Ee; apply (Hv pre e (post ++ [ev])%list); rewrite Ee, <- app_assoc; reflexivity|lia].
    specialize (Hv evs ev [] eq_refl). destruct ev as [g|k|k c]; cbn; [reflexivity| |];
      destruct (Nat.eqb_spec k m); try reflexivity; subst; cbn in *; lia. }
  assert (Fn : first_use n evs' = Some (S (length evs))).
  { rewrite E', first_use_snoc, first_use_snoc, Fn0. cbn. rewrite Nat.eqb_refl, app_length. cbn. f_equal. lia. }
  destruct (A n f) as (a & j & d & Ei & Dj & V & C & P).
  { rewrite Ld, nth_error_app2 by (unfold n; lia). unfold n. now rewrite Nat.sub_diag. }
  { now rewrite Fn. }
  exists st, a, j. split; [exact Er|]. split; [|split; [exact Dj|]].
  - apply P. exists (S (length evs)). split; [exact Fn|]. intros i' f' n' _ _ F'. apply first_use_lt in F'.
    unfold evs' in F'. rewrite app_length in F'. cbn in F'. lia.
  - intros c. rewrite C. rewrite (output_value f fc Of) in V. injection V as <-.
    rewrite initial_count by apply Of.
    replace (hits n c evs') with 0%N; [apply option_map_add0|].
    symmetry. rewrite E', !hits_snoc. rewrite untouched_no_hits; [reflexivity|]. now rewrite first_use_touched, Fn0.
Qed.

(** Non-vacuity, and the counterexample to C23: the same file loaded twice. *)
Definition once : emitted := emitted_for "__coverage__" "test-emotion.js" emotion_fc.
Lemma once_output : output_of once emotion_fc.
Proof. split; [reflexivity|]. split; [constructor|]. repeat split; repeat constructor; intros []. Qed.
Fixpoint validb (n : nat) (evs : list event) : bool :=
  match evs with
  | [] => true
  | ELoad _ :: evs' => validb (S n) evs'
  | ECall i :: evs' | EInc i _ :: evs' => Nat.ltb i n && validb n evs'
  end.
Lemma validb_valid : forall evs, validb 0 evs = true -> valid evs.
Proof.
  assert (K : forall evs n pre ev post, validb n evs = true -> evs = (pre ++ ev :: post)%list ->
    match ev with ELoad _ => True | ECall i | EInc i _ => (i < n + length (loaded pre))%nat end).
  { induction evs as [|e evs IH]; intros n pre ev post H E; [now destruct pre|].
    destruct pre as [|p pre]; cbn in E; injection E as E1 E2.
    - subst. destruct ev as [f|i|i c]; cbn in H; [exact I| |]; apply andb_true_iff in H as [H _]; apply Nat.ltb_lt in H; cbn; lia.
    - subst e. destruct p as [f|i|i c]; cbn in H.
      + specialize (IH _ _ _ _ H E2). destruct ev; cbn [loaded flat_map app length]; auto; fold (loaded pre); cbn; unfold loaded in *; lia.
      + apply andb_true_iff in H as [_ H]. exact (IH _ _ _ _ H E2).
      + apply andb_true_iff in H as [_ H]. exact (IH _ _ _ _ H E2). }
  intros evs H pre ev post E. exact (K evs O pre ev post H E).
Qed.
Definition two_files : list event :=
  [ELoad once; ECall 0; ELoad (emitted_for "__coverage__" "b.js" emotion_fc); EInc 0 (CS 0); EInc 1 (CS 0); EInc 0 (CS 0)].
Example counts_are_kept_ex : exists st, run two_files rt0 = Some st /\
  (exists a j, published (rheap st) "__coverage__" "test-emotion.js" = Some a /\ data_at (rheap st) a = Some j /\ count (CS 0) j = Some 2%N) /\
  (exists a j, published (rheap st) "__coverage__" "b.js" = Some a /\ data_at (rheap st) a = Some j /\ count (CS 0) j = Some 1%N).
Proof.
  destruct (counts_are_kept two_files) as (st & E & H).
  - now apply validb_valid.
  - cbn [two_files loaded flat_map app map]. constructor; [intros [K|[]]; discriminate K|]. constructor; [intros []|constructor].
  - constructor; [exists emotion_fc; exact once_output|]. constructor; [|constructor]. exists emotion_fc.
    split; [reflexivity|]. exact (proj2 once_output).
  - exists st. split; [exact E|]. split.
    + destruct (H 0%nat once emotion_fc eq_refl once_output eq_refl) as (a & j & P & D & C). exists a, j.
      split; [exact P|]. split; [exact D|]. now rewrite C.
    + destruct (H 1%nat (emitted_for "__coverage__" "b.js" emotion_fc) emotion_fc eq_refl) as (a & j & P & D & C);
        [split; [reflexivity|exact (proj2 once_output)]|reflexivity|]. exists a, j.
      split; [exact P|]. split; [exact D|]. now rewrite C.
Qed.
(** C23 is false of the code: a file evaluated twice, its statement executed in between; afterwards
    the published count is zero. *)
Theorem reload_keeps_counts_refuted : exists f evs st a j, valid evs /\ Forall (eq f) (loaded evs) /\
  (exists fc, output_of f fc) /\ run evs rt0 = Some st /\
  published (rheap st) (em_gcv f) (em_path f) = Some a /\ data_at (rheap st) a = Some j /\
  hits 0 (CS 0) evs = 1%N /\ count (CS 0) j = Some 0%N.
Proof.
  destruct (reload_restarts [ELoad once; EInc 0 (CS 0)] once emotion_fc 0) as (st & a & j & R & P & D & C).
  - now apply validb_valid.
  - constructor; [exists emotion_fc; exact once_output|constructor].
  - exact once_output.
  - reflexivity.
  - discriminate.
  - exists once, ([ELoad once; EInc 0 (CS 0)] ++ [ELoad once; ECall 1])%list, st, a, j.
    split; [now apply validb_valid|]. split; [repeat constructor|]. split; [exists emotion_fc; exact once_output|].
    split; [exact R|]. split; [exact P|]. split; [exact D|]. split; [reflexivity|]. now rewrite C.
Qed.
