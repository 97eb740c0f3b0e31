(** From the source to the report: what a reader of the published record sees after a run. *)
From Coq Require Import NArith String Ascii List Bool Lia PeanoNat Permutation.
Import ListNotations.
From Verif Require Import Base IndexMap Decimal Oxide SipHash Json CovJson DataObject Template SourceCov Hints Ast Visitor Runtime.
From Verif Require FixtureRun.
Open Scope string_scope. Open Scope list_scope. Open Scope N_scope.

(** ** Reading a record after increments *)
(** The object with the maps in the order given (engines list integer keys in ascending order) *)
Definition raw_value (h : string) (fc : file_coverage) : list (string * json) :=
  ("all", JBool (fc_all fc)) :: ("path", JStr (fc_path fc))
   :: ("statementMap", map_json range_json (fc_statement_map fc))
   :: ("fnMap", map_json func_json (fc_fn_map fc))
   :: ("branchMap", map_json branch_value (fc_branch_map fc))
   :: ("s", map_json JNum (fc_s fc)) :: ("f", map_json JNum (fc_f fc))
   :: ("b", map_json nums_json (fc_b fc))
   :: field_opt "bT" (map_json nums_json) (fc_b_t fc)
   ++ field_opt "inputSourceMap" source_map_json (fc_input_source_map fc)
   ++ [("_coverageSchema", JStr COVERAGE_MAGIC_VALUE); ("hash", JStr h)].
Lemma value_raw : forall fc, fc_value fc = raw_value (fc_hash fc) (fc_sorted fc).
Proof. intros fc. unfold fc_value, raw_value. generalize (fc_hash fc). intros h. destruct fc as [a p sm fm bm s f b [bt|] i]; reflexivity. Qed.
Lemma read_raw : forall h fc, read_fc (JObj (raw_value h fc)) = Some fc.
Proof.
  intros h [a p sm fm bm s f b bt i]. unfold read_fc, raw_value, member.
  cbn [fc_all fc_path fc_statement_map fc_fn_map fc_branch_map fc_s fc_f fc_b fc_b_t fc_input_source_map].
  destruct bt as [bt|], i as [i|];
    cbn [app field_opt prop String.eqb Ascii.eqb Bool.eqb obind read_bool read_str option_map];
    rewrite (read_map_json _ _ _ sm read_range_json); cbn [obind];
    rewrite (read_map_json _ _ _ fm read_func_json); cbn [obind];
    rewrite (read_map_json _ _ _ bm read_branch_value); cbn [obind];
    rewrite (read_map_json _ read_num JNum s (fun _ => eq_refl)); cbn [obind];
    rewrite (read_map_json _ read_num JNum f (fun _ => eq_refl)); cbn [obind];
    rewrite (read_map_json _ _ _ b read_nums_json); cbn [obind];
    rewrite ?read_opt_nums; cbn [obind];
    try (rewrite (read_opt_some _ read_source_map source_map_json i (read_source_map_json i) eq_refl); cbn [obind]);
    reflexivity.
Qed.

Fixpoint inc_nth (n : nat) (l : list N) : list N :=
  match n, l with
  | _, [] => []
  | O, x :: l' => (x + 1) :: l'
  | S n', x :: l' => x :: inc_nth n' l'
  end.
(** One increment, on the record *)
Definition bump_fc (c : counter) (fc : file_coverage) : file_coverage :=
  let mk s f b bt := mkFC (fc_all fc) (fc_path fc) (fc_statement_map fc) (fc_fn_map fc) (fc_branch_map fc) s f b bt
                       (fc_input_source_map fc) in
  match c with
  | CS i => mk (im_update i (fun x => x + 1) (fc_s fc)) (fc_f fc) (fc_b fc) (fc_b_t fc)
  | CF i => mk (fc_s fc) (im_update i (fun x => x + 1) (fc_f fc)) (fc_b fc) (fc_b_t fc)
  | CB b i => mk (fc_s fc) (fc_f fc) (im_update b (inc_nth (N.to_nat i)) (fc_b fc)) (fc_b_t fc)
  | CT b i => mk (fc_s fc) (fc_f fc) (fc_b fc) (option_map (im_update b (inc_nth (N.to_nat i))) (fc_b_t fc))
  end.
Lemma upd_map : forall A (g : A -> json) (f : json -> json) (f' : A -> A) k (m : imap N A),
  (forall x, f (g x) = g (f' x)) ->
  upd (dec k) f (map (fun kv => (dec (fst kv), g (snd kv))) m) = map (fun kv => (dec (fst kv), g (snd kv))) (im_update k f' m).
Proof.
  intros A g f f' k m H. induction m as [|[k' v] m IH]; [reflexivity|]. cbn [map upd im_update fst snd].
  change (eqb k k') with (N.eqb k k').
  destruct (String.eqb_spec (dec k) (dec k')) as [E|E].
  - apply dec_inj in E. subst. rewrite N.eqb_refl. cbn [map fst snd]. now rewrite H.
  - destruct (N.eqb_spec k k'); [congruence|]. cbn [map fst snd]. now rewrite IH.
Qed.
Lemma at_member_map : forall A (g : A -> json) (f : json -> json) (f' : A -> A) k (m : imap N A),
  (forall x, f (g x) = g (f' x)) -> at_member (dec k) f (map_json g m) = map_json g (im_update k f' m).
Proof. intros. unfold map_json, at_member. f_equal. now apply upd_map. Qed.
Lemma plus1_num : forall x, plus1 (JNum x) = JNum (x + 1). Proof. reflexivity. Qed.
Lemma at_elem_nums : forall n l, at_elem n plus1 (nums_json l) = nums_json (inc_nth n l).
Proof.
  intros n l. unfold nums_json, at_elem. f_equal. revert l. induction n as [|n IH]; intros [|x l]; try reflexivity.
  cbn [map upd_nth inc_nth]. now rewrite IH.
Qed.
Lemma bump_raw : forall h c fc, bump c (JObj (raw_value h fc)) = JObj (raw_value h (bump_fc c fc)).
Proof.
  intros h c [a p sm fm bm s f b bt i]. unfold raw_value.
  destruct c as [k|k|k q|k q]; unfold bump; cbn [slot bump_fc fc_all fc_path fc_statement_map fc_fn_map fc_branch_map fc_s fc_f fc_b fc_b_t fc_input_source_map at_member];
    cbn [upd String.eqb Ascii.eqb Bool.eqb].
  - rewrite (at_member_map _ JNum plus1 (fun x => x + 1) k s plus1_num). reflexivity.
  - rewrite (at_member_map _ JNum plus1 (fun x => x + 1) k f plus1_num). reflexivity.
  - rewrite (at_member_map _ nums_json _ (inc_nth (N.to_nat q)) k b (at_elem_nums _)). reflexivity.
  - destruct bt as [bt|], i as [i|]; cbn [field_opt option_map app upd String.eqb Ascii.eqb Bool.eqb];
      rewrite ?(at_member_map _ nums_json _ (inc_nth (N.to_nat q)) k bt (at_elem_nums _)); reflexivity.
Qed.
Definition bumps (l : list counter) (fc : file_coverage) : file_coverage := fold_left (fun fc c => bump_fc c fc) l fc.
Lemma increased_raw : forall h l fc, increased l (JObj (raw_value h fc)) = JObj (raw_value h (bumps l fc)).
Proof.
  intros h l. unfold increased, bumps. induction l as [|c l IH]; intros fc; [reflexivity|]. cbn [fold_left]. now rewrite bump_raw, IH.
Qed.

(** All increments at once: every slot plus the number of its increments *)
Notation after := FixtureRun.after.
Notation hitn := FixtureRun.hits.
Lemma same_counter_spec : forall a b, FixtureRun.same_counter a b = if counter_dec a b then true else false.
Proof.
  intros a b. destruct (counter_dec a b) as [<-|N].
  - destruct a; cbn; now rewrite ?N.eqb_refl.
  - destruct a as [i|i|x i|x i], b as [j|j|y j|y j]; cbn; try reflexivity;
      repeat (match goal with |- context [N.eqb ?p ?q] => destruct (N.eqb_spec p q) end); subst; try reflexivity; congruence.
Qed.
Lemma hitn_snoc : forall l c c', hitn (l ++ [c]) c' = hitn l c' + (if counter_dec c' c then 1 else 0).
Proof.
  intros. unfold FixtureRun.hits. rewrite filter_app, app_length. cbn [filter]. rewrite same_counter_spec.
  destruct (counter_dec c' c); cbn [length]; lia.
Qed.
Lemma hitn_count : forall l c, hitn l c = N.of_nat (count_occ counter_dec l c).
Proof.
  intros l c. unfold FixtureRun.hits. f_equal. induction l as [|x l IH]; [reflexivity|]. cbn. rewrite same_counter_spec.
  destruct (counter_dec c x) as [E|N], (counter_dec x c) as [E2|N2]; cbn; try congruence; now rewrite IH.
Qed.
Lemma hitn_incs : forall i evs c, hitn (incs i evs) c = Runtime.hits i c evs.
Proof.
  intros i evs c. induction evs as [|ev evs IH] using rev_ind; [reflexivity|]. rewrite incs_snoc, hits_snoc.
  destruct ev as [f|k|k c']; rewrite ?app_nil_r, ?N.add_0_r; try exact IH.
  destruct (Nat.eqb k i); cbn [andb]; [|rewrite app_nil_r, N.add_0_r; exact IH]. rewrite hitn_snoc, IH.
  now destruct (counter_dec c c').
Qed.
Lemma update_map : forall A k (f : A -> A) (F G : N -> A -> A) (m : imap N A), NoDup (im_keys m) ->
  (forall v, f (F k v) = G k v) -> (forall k' v, k' <> k -> F k' v = G k' v) ->
  im_update k f (map (fun kv => (fst kv, F (fst kv) (snd kv))) m) = map (fun kv => (fst kv, G (fst kv) (snd kv))) m.
Proof.
  intros A k f F G m H Hk Ho. induction m as [|[k' v] m IH]; [reflexivity|]. inversion H as [|? ? Hn Hm]; subst.
  cbn [map im_update fst snd]. change (eqb k k') with (N.eqb k k'). destruct (N.eqb_spec k k') as [<-|N].
  - rewrite Hk. f_equal. apply map_ext_in. intros [k2 v2] Hin. cbn [fst snd]. f_equal. apply Ho. intros ->.
    apply Hn. apply in_map_iff. now exists (k, v2).
  - rewrite (IH Hm), Ho by congruence. reflexivity.
Qed.
Lemma map_same : forall A (F G : N -> A -> A) (m : imap N A), (forall k v, F k v = G k v) ->
  map (fun kv => (fst kv, F (fst kv) (snd kv))) m = map (fun kv => (fst kv, G (fst kv) (snd kv))) m.
Proof. intros A F G m H. apply map_ext. intros kv. now rewrite H. Qed.
Lemma counted_same : forall g l l' v i, (forall q, hitn l (g q) = hitn l' (g q)) -> FixtureRun.counted g l i v = FixtureRun.counted g l' i v.
Proof. intros g l l' v. induction v as [|x v IH]; intros i H; [reflexivity|]. cbn [FixtureRun.counted]. now rewrite H, (IH _ H). Qed.
Lemma counted_snoc : forall g l c v i n, (forall p q, g p = g q -> p = q) -> c = g (i + N.of_nat n) ->
  inc_nth n (FixtureRun.counted g l i v) = FixtureRun.counted g (l ++ [c]) i v.
Proof.
  intros g l c v. induction v as [|x v IH]; intros i n Hg Hc; [now destruct n|]. cbn [FixtureRun.counted].
  rewrite hitn_snoc. destruct n as [|n].
  - cbn [inc_nth]. rewrite N.add_0_r in Hc. subst c. destruct (counter_dec (g i) (g i)); [|congruence].
    f_equal; [lia|].
    assert (K : forall v i', i < i' -> FixtureRun.counted g l i' v = FixtureRun.counted g (l ++ [g i]) i' v).
    { clear - Hg. induction v as [|x v IH]; intros i' H; [reflexivity|]. cbn [FixtureRun.counted].
      rewrite hitn_snoc. destruct (counter_dec (g i') (g i)) as [E|]; [apply Hg in E; lia|].
      rewrite N.add_0_r. f_equal. apply IH. lia. }
    apply K. lia.
  - cbn [inc_nth]. destruct (counter_dec (g i) c) as [E|].
    + subst c. apply Hg in E. lia.
    + rewrite N.add_0_r. f_equal. apply IH; [exact Hg|]. rewrite Hc. f_equal. lia.
Qed.
Ltac other := intros; rewrite hitn_snoc; destruct (counter_dec _ _); [try congruence; discriminate|now rewrite ?N.add_0_r].
Lemma after_snoc : forall l c fc, unique_keys fc -> after (l ++ [c]) fc = bump_fc c (after l fc).
Proof.
  intros l c [a p sm fm bm s f b bt i] (_ & _ & _ & A & B & C & D).
  cbn [fc_s fc_f fc_b fc_b_t] in A, B, C, D. unfold FixtureRun.after, bump_fc.
  cbn [fc_all fc_path fc_statement_map fc_fn_map fc_branch_map fc_s fc_f fc_b fc_b_t fc_input_source_map].
  assert (S1 : forall l', (forall k, hitn l' (CS k) = hitn l (CS k)) ->
    map (fun kv : N * N => (fst kv, snd kv + hitn l' (CS (fst kv)))) s = map (fun kv => (fst kv, snd kv + hitn l (CS (fst kv)))) s).
  { intros l' H. apply map_ext. intros kv. now rewrite H. }
  assert (S2 : forall l', (forall k, hitn l' (CF k) = hitn l (CF k)) ->
    map (fun kv : N * N => (fst kv, snd kv + hitn l' (CF (fst kv)))) f = map (fun kv => (fst kv, snd kv + hitn l (CF (fst kv)))) f).
  { intros l' H. apply map_ext. intros kv. now rewrite H. }
  assert (S3 : forall l' (m : branch_hit_map) g, (forall k q, hitn l' (g k q) = hitn l (g k q)) ->
    map (fun kv => (fst kv, FixtureRun.counted (g (fst kv)) l' 0 (snd kv))) m = map (fun kv => (fst kv, FixtureRun.counted (g (fst kv)) l 0 (snd kv))) m).
  { intros l' m g H. apply map_ext. intros kv. f_equal. apply counted_same. auto. }
  destruct c as [k|k|k q|k q].
  - rewrite S2 by other. rewrite (S3 _ b CB) by other. f_equal.
    + symmetry. apply (update_map _ k _ (fun k0 v0 => v0 + hitn l (CS k0)) (fun k0 v0 => v0 + hitn (l ++ [CS k]) (CS k0)) s A).
      * intros v. rewrite hitn_snoc. destruct (counter_dec _ _); [lia|congruence].
      * intros k' v N. rewrite hitn_snoc. destruct (counter_dec _ _); [congruence|lia].
    + destruct bt as [bt|]; [|reflexivity]. cbn [option_map]. now rewrite (S3 _ bt CT) by other.
  - rewrite S1 by other. rewrite (S3 _ b CB) by other. f_equal.
    + symmetry. apply (update_map _ k _ (fun k0 v0 => v0 + hitn l (CF k0)) (fun k0 v0 => v0 + hitn (l ++ [CF k]) (CF k0)) f B).
      * intros v. rewrite hitn_snoc. destruct (counter_dec _ _); [lia|congruence].
      * intros k' v N. rewrite hitn_snoc. destruct (counter_dec _ _); [congruence|lia].
    + destruct bt as [bt|]; [|reflexivity]. cbn [option_map]. now rewrite (S3 _ bt CT) by other.
  - rewrite S1, S2 by other. f_equal.
    + symmetry. apply (update_map _ k _ (fun k0 v0 => FixtureRun.counted (CB k0) l 0 v0) (fun k0 v0 => FixtureRun.counted (CB k0) (l ++ [CB k q]) 0 v0) b C).
      * intros v. apply counted_snoc; [congruence|]. now rewrite N2Nat.id.
      * intros k' v N. apply counted_same. intros x. rewrite hitn_snoc. destruct (counter_dec _ _); [congruence|lia].
    + destruct bt as [bt|]; [|reflexivity]. cbn [option_map]. now rewrite (S3 _ bt CT) by other.
  - rewrite S1, S2 by other. rewrite (S3 _ b CB) by other. f_equal.
    destruct bt as [bt|]; [|reflexivity]. cbn [option_map].
    apply (f_equal Some). symmetry. apply (update_map _ k _ (fun k0 v0 => FixtureRun.counted (CT k0) l 0 v0) (fun k0 v0 => FixtureRun.counted (CT k0) (l ++ [CT k q]) 0 v0) bt D).
    + intros v. apply counted_snoc; [congruence|]. now rewrite N2Nat.id.
    + intros k' v N. apply counted_same. intros x. rewrite hitn_snoc. destruct (counter_dec _ _); [congruence|lia].
Qed.
Lemma after_nil : forall fc, after [] fc = fc.
Proof.
  intros [a p sm fm bm s f b bt i]. unfold FixtureRun.after. cbn [fc_all fc_path fc_statement_map fc_fn_map fc_branch_map fc_s fc_f fc_b fc_b_t fc_input_source_map].
  assert (Z : forall (m : imap N N) g, map (fun kv => (fst kv, snd kv + hitn [] (g (fst kv)))) m = m).
  { intros m g. induction m as [|[k v] m IH]; [reflexivity|]. cbn [map fst snd]. rewrite IH. unfold FixtureRun.hits. cbn [filter length N.of_nat]. now rewrite N.add_0_r. }
  assert (Y : forall g v i, FixtureRun.counted g [] i v = v).
  { intros g v. induction v as [|x v IH]; intros i0; [reflexivity|]. cbn [FixtureRun.counted]. rewrite IH. unfold FixtureRun.hits. cbn [filter length N.of_nat]. now rewrite N.add_0_r. }
  assert (X : forall (m : branch_hit_map) g, map (fun kv => (fst kv, FixtureRun.counted (g (fst kv)) [] 0 (snd kv))) m = m).
  { intros m g. induction m as [|[k v] m IH]; [reflexivity|]. cbn [map fst snd]. now rewrite IH, Y. }
  rewrite !Z, X. destruct bt as [bt|]; [|reflexivity]. cbn [option_map]. now rewrite X.
Qed.
Theorem bumps_after : forall l fc, unique_keys fc -> bumps l fc = after l fc.
Proof.
  intros l fc H. induction l as [|c l IH] using rev_ind; [now rewrite after_nil|].
  rewrite (after_snoc l c fc H), <- IH. unfold bumps. now rewrite fold_left_app.
Qed.

(** ** The published record *)
Lemma sorted_unique : forall fc, unique_keys fc -> unique_keys (fc_sorted fc).
Proof.
  intros fc (A & B & C & D & E & F & G).
  assert (K : forall V (m : imap N V), NoDup (im_keys m) -> NoDup (im_keys (key_sort m))).
  { intros V m H. eapply Permutation_NoDup; [|exact H]. apply Permutation_map. symmetry. now apply key_sort_perm. }
  unfold unique_keys, fc_sorted.
  cbn [fc_statement_map fc_fn_map fc_branch_map fc_s fc_f fc_b fc_b_t].
  repeat (split; [now apply K|]). destruct (fc_b_t fc); [now apply K|exact I].
Qed.
Lemma after_same_data : forall l a b, same_data a b -> same_data (after l a) (after l b).
Proof.
  intros l a b (A & B & C & D & E & F & G & H & I0 & J). unfold FixtureRun.after, same_data.
  cbn [fc_all fc_path fc_statement_map fc_fn_map fc_branch_map fc_s fc_f fc_b fc_b_t fc_input_source_map].
  repeat (split; [try assumption; now apply Permutation_map|]). split; [|assumption].
  destruct (fc_b_t a), (fc_b_t b); cbn [option_map]; try contradiction; [now apply Permutation_map|exact I].
Qed.
(** Whatever the interleaving of files with different paths, the record published for a file that has run
    reads back as the embedded record with every counter raised by the number of increments its code
    executed: same path, tables and source map. *)
Theorem published_record : forall evs, valid evs -> NoDup (map file_key (loaded evs)) ->
  Forall (fun f => exists fc, output_of f fc) (loaded evs) ->
  exists st, run evs rt0 = Some st /\
    forall i f fc, nth_error (loaded evs) i = Some f -> output_of f fc -> touched i evs = true ->
      exists a j r, published (rheap st) (em_gcv f) (em_path f) = Some a /\ data_at (rheap st) a = Some j /\
        read_fc j = Some r /\ same_data r (after (incs i evs) fc).
Proof.
  intros evs Hv Hk Ho. destruct (one_live_record evs Hv Hk) as (st & E & H).
  { eapply Forall_impl; [|exact Ho]. intros f (fc & O). eapply output_total; eauto. }
  exists st. split; [exact E|]. intros i f fc Li O T. specialize (H i f Li). rewrite T in H.
  destruct H as (a & j & d & _ & P & D & V & Ej & _).
  exists a, j, (after (incs i evs) (fc_sorted fc)). split; [exact P|]. split; [exact D|].
  assert (U : unique_keys fc) by apply O.
  rewrite (output_value f fc O) in V. injection V as <-. split.
  - rewrite Ej, value_raw, increased_raw, read_raw. now rewrite bumps_after by now apply sorted_unique.
  - apply after_same_data. now apply fc_sorted_same.
Qed.
