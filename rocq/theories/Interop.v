(** C59: the Rust side reads the counts of the published object.

    [FileCoverageInterop] (spec/swc-coverage-instrument-wasm/src/lib.rs:28-75) is how the test-suite looks at a published record
    (spec/util/verifier.ts:158-167): the object without marker and hash goes through [JSON.stringify] and serde_json into a
    [FileCoverage], whose tables are handed out again. *)
From Coq Require Import NArith String Ascii List Bool Lia PeanoNat Permutation.
Import ListNotations.
From Verif Require Import Base IndexMap Decimal Oxide SipHash SourceCov Hints Ast Visitor VisitorEx Erase Counting CountingRoot
  Json JsonParse CovJson Serde DataObject Template Runtime Report Produced Builder ReadInitial.
Open Scope string_scope. Open Scope list_scope. Open Scope N_scope.

(** verifier.ts:161-165 [const { _coverageSchema, hash, ...fileCoverage } = ...] *)
Definition file_coverage_of (j : json) : json := remove "hash" (remove COVERAGE_MAGIC_KEY j).
(** lib.rs:34-40: [val.into_serde().unwrap()]; [None] is the panic.  [into_serde] goes through [JSON.stringify]. *)
Definition interop (j : json) : option file_coverage := from_str de_file_coverage (print j).

(** ** Reading the object of a record *)
(** Every number fits in u32, the tables have no key twice, and no branch is without locations (its literal has no [locations]) *)
Definition static_u32 (fc : file_coverage) : Prop :=
  map_u32 range_u32 (fc_statement_map fc) /\ map_u32 func_u32 (fc_fn_map fc) /\ map_u32 branch_u32 (fc_branch_map fc) /\
  Forall (fun kv => b_locations (snd kv) <> []) (fc_branch_map fc) /\
  map_u32 (fun _ => True) (fc_s fc) /\ map_u32 (fun _ => True) (fc_f fc) /\ map_u32 (fun _ => True) (fc_b fc) /\
  (forall m, fc_b_t fc = Some m -> map_u32 (fun _ => True) m) /\
  (forall s, fc_input_source_map fc = Some s -> is_u32 (sm_version s)).
Definition counts_u32 (fc : file_coverage) : Prop := forall c n, recorded fc c = Some n -> is_u32 n.
Definition cut (h : string) (fc : file_coverage) : json := file_coverage_of (JObj (raw_value h fc)).
Lemma cut_fields : forall h fc, cut h fc = JObj
  (("all", JBool (fc_all fc)) :: ("path", JStr (fc_path fc))
   :: ("statementMap", map_json range_json (fc_statement_map fc)) :: ("fnMap", map_json func_json (fc_fn_map fc))
   :: ("branchMap", map_json branch_value (fc_branch_map fc)) :: ("s", map_json JNum (fc_s fc)) :: ("f", map_json JNum (fc_f fc))
   :: ("b", map_json nums_json (fc_b fc)) :: field_opt "bT" (map_json nums_json) (fc_b_t fc)
   ++ field_opt "inputSourceMap" source_map_json (fc_input_source_map fc)).
Proof.
  intros h [a p sm fm bm s f b bt i]. unfold cut, file_coverage_of, remove, raw_value.
  cbn [fc_all fc_path fc_statement_map fc_fn_map fc_branch_map fc_s fc_f fc_b fc_b_t fc_input_source_map].
  destruct bt as [bt|], i as [i|]; reflexivity.
Qed.
Lemma de_branch_value : forall b, branch_u32 b -> b_locations b <> [] -> de_branch (embed (branch_value b)) = Some b.
Proof.
  intros [l t ls k] (Hl & Hls & Hk) Hn. cbn [b_loc b_locations b_line] in *. destruct ls as [|r ls]; [contradiction|].
  unfold de_branch, branch_value. cbn [b_loc b_type b_locations b_line].
  pose proof (de_vec_embed _ de_range range_json range_u32 (r :: ls) de_range_embed Hls) as V.
  remember (JArr (map range_json (r :: ls))) as locs eqn:El. clear El.
  destruct l as [l|], k as [k|]; rewrite fields_embed; unfold find_slot; slots; cbn [required optional];
    try (rewrite (de_some _ _ _ _ (de_range_embed l (Hl l eq_refl)) eq_refl)); cbn [obind];
    rewrite de_branch_type_embed; cbn [obind];
    rewrite V; cbn [obind];
    try (rewrite (de_some _ _ _ _ (de_u32_embed k (Hk k eq_refl)) eq_refl)); reflexivity.
Qed.
Lemma de_map_fits : forall A (f : jv -> option A) (g : A -> json) (P : A -> Prop) m m',
  (forall a x, f (embed (g a)) = Some x -> P a) -> de_map f (embed (map_json g m)) = Some m' -> Forall (fun kv => P (snd kv)) m.
Proof.
  intros A f g P m m' H E. unfold map_json in E. cbn [embed de_map] in E. rewrite map_map in E.
  destruct (all_some _ _) as [kvs|] eqn:S; [|discriminate]. clear E m'. revert kvs S.
  induction m as [|[k a] m IH]; intros kvs S; [constructor|]. cbn [map all_some fst snd] in S.
  destruct (u32_key _) as [k'|]; [|discriminate]. cbn [obind] in S. destruct (f (embed (g a))) as [x|] eqn:F; [|discriminate]. cbn [obind] in S.
  destruct (all_some _ _) as [kvs'|] eqn:S'; [|discriminate]. constructor; [cbn [snd]; eauto|]. eauto.
Qed.
Lemma de_u32_fits : forall n x, de_u32 (embed (JNum n)) = Some x -> is_u32 n.
Proof. intros n x H. cbn in H. destruct (n <? u32_mod)%N eqn:L; [|discriminate]. now apply N.ltb_lt in L. Qed.
Lemma de_nums_fits : forall l x, de_vec de_u32 (embed (nums_json l)) = Some x -> Forall is_u32 l.
Proof.
  intros l. unfold nums_json. cbn [embed de_vec]. induction l as [|n l IH]; intros x H; [constructor|]. cbn [map all_some] in H.
  destruct (de_u32 _) eqn:E; [|discriminate]. cbn [obind] in H. destruct (all_some _ _) eqn:S; [|discriminate]. constructor; [eapply de_u32_fits; eauto|]. eapply IH. eauto.
Qed.
Definition tables_u32 (fc : file_coverage) : Prop :=
  Forall (fun kv => is_u32 (snd kv)) (fc_s fc) /\ Forall (fun kv => is_u32 (snd kv)) (fc_f fc) /\
  Forall (fun kv => Forall is_u32 (snd kv)) (fc_b fc) /\ (forall m, fc_b_t fc = Some m -> Forall (fun kv => Forall is_u32 (snd kv)) m).
Lemma counts_tables : forall fc, unique_keys fc -> (counts_u32 fc <-> tables_u32 fc).
Proof.
  intros fc (_ & _ & _ & U1 & U2 & U3 & U4). unfold counts_u32, tables_u32.
  assert (L : forall (m : imap N N), NoDup (im_keys m) -> (forall k n, im_get k m = Some n -> is_u32 n) -> Forall (fun kv => is_u32 (snd kv)) m).
  { intros m U H. apply Forall_forall. intros [k n] Hin. apply (H k). now apply im_in_get. }
  assert (B : forall (m : imap N (list N)), NoDup (im_keys m) ->
    (forall k q n, match im_get k m with Some l => nth_error l (N.to_nat q) | None => None end = Some n -> is_u32 n) -> Forall (fun kv => Forall is_u32 (snd kv)) m).
  { intros m U H. apply Forall_forall. intros [k l] Hin. apply Forall_forall. intros n Hn. cbn [snd] in Hn. apply In_nth_error in Hn as (q & Hq).
    apply (H k (N.of_nat q)). rewrite (im_in_get m U k l Hin), Nat2N.id. exact Hq. }
  assert (G : forall A (P : A -> Prop) (m : imap N A) k a, Forall (fun kv => P (snd kv)) m -> im_get k m = Some a -> P a).
  { intros A P m k a F E. apply im_get_in in E. rewrite Forall_forall in F. exact (F _ E). }
  split.
  - intros H. split; [|split; [|split]].
    + apply L; [exact U1|]. intros k n. exact (H (CS k) n).
    + apply L; [exact U2|]. intros k n. exact (H (CF k) n).
    + apply B; [exact U3|]. intros k q n. exact (H (CB k q) n).
    + intros m Hm. rewrite Hm in U4. apply B; [exact U4|]. intros k q n. pose proof (H (CT k q) n) as K. cbn in K. rewrite Hm in K. exact K.
  - intros (A & C & D & E) c n R. destruct c as [k|k|k q|k q]; cbn [recorded] in R.
    + exact (G _ is_u32 _ _ _ A R).
    + exact (G _ is_u32 _ _ _ C R).
    + destruct (im_get k (fc_b fc)) as [l|] eqn:X; [|discriminate]. apply (G _ (Forall is_u32)) in X; [|exact D]. rewrite Forall_forall in X. apply X. eapply nth_error_In; eauto.
    + destruct (fc_b_t fc) as [bt|]; [|discriminate]. destruct (im_get k bt) as [l|] eqn:X; [|discriminate].
      apply (G _ (Forall is_u32)) in X; [|now apply E]. rewrite Forall_forall in X. apply X. eapply nth_error_In; eauto.
Qed.
Lemma map_u32_and : forall A (P : A -> Prop) m, map_u32 (fun _ => True) m -> Forall (fun kv => P (snd kv)) m -> map_u32 P m.
Proof.
  intros A P m [U F] H. split; [exact U|]. rewrite Forall_forall in *. intros kv Hin. split; [now apply F|now apply H].
Qed.
Lemma map_both : forall (P Q : branch -> Prop) m, map_u32 P m -> Forall (fun kv => Q (snd kv)) m -> map_u32 (fun b => P b /\ Q b) m.
Proof.
  intros P Q m [U F] H. split; [exact U|]. rewrite Forall_forall in *. intros kv Hin. destruct (F kv Hin). split; [assumption|]. split; [assumption|now apply H].
Qed.
(** Exactly the records whose counts fit are read, and they are read as they are. *)
Lemma interop_cut : forall h fc, static_u32 fc -> (tables_u32 fc -> interop (cut h fc) = Some fc) /\
  (forall r, interop (cut h fc) = Some r -> tables_u32 fc).
Proof.
  intros h fc (H1 & H2 & H3 & H3' & H4 & H5 & H6 & H7 & H8). unfold interop, from_str. rewrite parse_print. cbn [obind]. rewrite cut_fields.
  pose proof (map_both branch_u32 (fun b => b_locations b <> []) _ H3 H3') as H3b. clear H3 H3'. unfold tables_u32.
  assert (DB : forall b, branch_u32 b /\ b_locations b <> [] -> de_branch (embed (branch_value b)) = Some b) by (intros b [X Y]; now apply de_branch_value).
  destruct fc as [a p sm fm bm s f b bt i].
  cbn [fc_all fc_path fc_statement_map fc_fn_map fc_branch_map fc_s fc_f fc_b fc_b_t fc_input_source_map] in *.
  assert (T2 : forall m, i = Some m -> de_option de_source_map (embed (source_map_json m)) = Some (Some m)).
  { intros m Hm. apply de_some; [|reflexivity]. apply de_source_map_embed. now apply H8. }
  unfold de_file_coverage.
  split.
  - intros (F1 & F2 & F3 & F4).
    assert (T1 : forall m, bt = Some m -> de_option (de_map (de_vec de_u32)) (embed (map_json nums_json m)) = Some (Some m)).
    { intros m Hm. apply de_some; [|reflexivity]. apply (de_map_embed _ _ _ (Forall is_u32)); [exact de_nums_embed|]. apply map_u32_and; auto. }
    destruct bt as [bt|], i as [i|]; rewrite fields_embed; unfold find_slot; slots; cbn [defaulted required];
      cbn [embed de_bool obind]; change (VStr (ustr p)) with (embed (JStr p)); rewrite de_string_embed; cbn [obind];
      rewrite (de_map_embed _ _ _ range_u32 sm de_range_embed H1); cbn [obind];
      rewrite (de_map_embed _ _ _ func_u32 fm de_function_embed H2); cbn [obind];
      rewrite (de_map_embed _ _ _ _ bm DB H3b); cbn [obind];
      rewrite (de_map_embed _ _ _ is_u32 s de_u32_embed (map_u32_and _ _ _ H4 F1)); cbn [obind];
      rewrite (de_map_embed _ _ _ is_u32 f de_u32_embed (map_u32_and _ _ _ H5 F2)); cbn [obind];
      rewrite (de_map_embed _ _ _ (Forall is_u32) b de_nums_embed (map_u32_and _ _ _ H6 F3)); cbn [obind];
      try (rewrite (T1 bt eq_refl); cbn [obind]); try (rewrite (T2 i eq_refl); cbn [obind]); reflexivity.
  - intros r E.
    assert (K : exists s' f' b', de_map de_u32 (embed (map_json JNum s)) = Some s' /\ de_map de_u32 (embed (map_json JNum f)) = Some f' /\
      de_map (de_vec de_u32) (embed (map_json nums_json b)) = Some b' /\
      forall m, bt = Some m -> exists m', de_option (de_map (de_vec de_u32)) (embed (map_json nums_json m)) = Some m').
    { destruct bt as [bt|], i as [i|]; rewrite fields_embed in E; unfold find_slot in E;
      cbn [map all_some filter fst snd String.eqb Ascii.eqb Bool.eqb obind app field_opt] in E; cbn [defaulted required] in E;
      cbn [embed de_bool obind] in E; change (VStr (ustr p)) with (embed (JStr p)) in E; rewrite de_string_embed in E; cbn [obind] in E;
      rewrite (de_map_embed _ _ _ range_u32 sm de_range_embed H1) in E; cbn [obind] in E;
      rewrite (de_map_embed _ _ _ func_u32 fm de_function_embed H2) in E; cbn [obind] in E;
      rewrite (de_map_embed _ _ _ _ bm DB H3b) in E; cbn [obind] in E;
      (destruct (de_map de_u32 (embed (map_json JNum s))) as [s'|]; [|discriminate E]); cbn [obind] in E;
      (destruct (de_map de_u32 (embed (map_json JNum f))) as [f'|]; [|discriminate E]); cbn [obind] in E;
      (destruct (de_map (de_vec de_u32) (embed (map_json nums_json b))) as [b'|]; [|discriminate E]); cbn [obind] in E;
      exists s', f', b'; (do 3 (split; [reflexivity|])); intros m Hm; try discriminate Hm; injection Hm as <-;
      (destruct (de_option (de_map (de_vec de_u32)) (embed (map_json nums_json bt))) as [m'|]; [now exists m'|discriminate]). }
    destruct K as (s' & f' & b' & K1 & K2 & K3 & K4).
    split; [eapply de_map_fits; [|exact K1]; apply de_u32_fits|]. split; [eapply de_map_fits; [|exact K2]; apply de_u32_fits|].
    split; [eapply de_map_fits; [|exact K3]; apply de_nums_fits|]. intros m Hm. destruct (K4 m Hm) as (m' & K). unfold de_option in K.
    destruct (embed (map_json nums_json m)) eqn:Em; [discriminate Em| | | | |]; rewrite <- Em in K;
      destruct (de_map (de_vec de_u32) (embed (map_json nums_json m))) as [m2|] eqn:E2; try discriminate K; eapply de_map_fits; try exact E2; apply de_nums_fits.
Qed.

(** ** Runs *)
Lemma static_after : forall l fc, static_u32 fc -> unique_keys fc -> static_u32 (after l (fc_sorted fc)).
Proof.
  intros l fc (H1 & H2 & H3 & H3' & H4 & H5 & H6 & H7 & H8) (U1 & U2 & U3 & U4 & U5 & U6 & U7).
  assert (K : forall A (P : A -> Prop) (m : imap N A), map_u32 P m -> map_u32 P (key_sort m)).
  { intros A P m [U F]. pose proof (key_sort_perm m U) as Pm. split; [eapply Permutation_NoDup; [apply Permutation_map; symmetry; exact Pm|exact U]|].
    eapply Permutation_Forall; [symmetry; exact Pm|exact F]. }
  assert (M : forall A (F : N * A -> A) (m : imap N A), map_u32 (fun _ : A => True) m -> map_u32 (fun _ : A => True) (map (fun kv => (fst kv, F kv)) m)).
  { intros A F m [U G]. split.
    - rewrite map_map. cbn [fst]. exact U.
    - apply Forall_map. eapply Forall_impl; [|exact G]. intros kv [Q _]. now split. }
  unfold static_u32, FixtureRun.after, fc_sorted. cbn [fc_all fc_path fc_statement_map fc_fn_map fc_branch_map fc_s fc_f fc_b fc_b_t fc_input_source_map].
  split; [now apply K|]. split; [now apply K|]. split; [now apply K|]. split.
  { eapply Permutation_Forall; [symmetry; now apply key_sort_perm|exact H3']. }
  split; [now apply (M _ (fun kv => snd kv + _)), K|]. split; [now apply (M _ (fun kv => snd kv + _)), K|].
  split; [now apply (M _ (fun kv => FixtureRun.counted _ l 0 (snd kv))), K|]. split; [|exact H8].
  intros m Hm. destruct (fc_b_t fc) as [bt|]; [|discriminate]. cbn [option_map] in Hm. injection Hm as <-.
  apply (M _ (fun kv => FixtureRun.counted (CT (fst kv)) l 0 (snd kv))), K. now apply H7.
Qed.
Lemma count_raw : forall h fc c, count c (JObj (raw_value h fc)) = recorded fc c.
Proof.
  intros h fc c. unfold count.
  assert (S1 : member (JObj (raw_value h fc)) "s" = Some (map_json JNum (fc_s fc))) by reflexivity.
  assert (S2 : member (JObj (raw_value h fc)) "f" = Some (map_json JNum (fc_f fc))) by reflexivity.
  assert (S3 : member (JObj (raw_value h fc)) "b" = Some (map_json nums_json (fc_b fc))) by reflexivity.
  assert (S4 : member (JObj (raw_value h fc)) "bT" = option_map (map_json nums_json) (fc_b_t fc)) by (destruct fc as [a p sm fm bm s f b [bt|] [i|]]; reflexivity).
  destruct c as [i|i|b i|b i]; cbn [slot recorded].
  - rewrite S1. cbn [obind map_json member]. rewrite prop_map. destruct (im_get i (fc_s fc)); reflexivity.
  - rewrite S2. cbn [obind map_json member]. rewrite prop_map. destruct (im_get i (fc_f fc)); reflexivity.
  - rewrite S3. cbn [obind map_json member]. rewrite prop_map. destruct (im_get b (fc_b fc)) as [l|]; [|reflexivity]. cbn [option_map obind]. apply read_nth.
  - rewrite S4. destruct (fc_b_t fc) as [bt|]; [|reflexivity]. cbn [option_map obind map_json member]. rewrite prop_map.
    destruct (im_get b bt) as [l|]; [|reflexivity]. cbn [option_map obind]. apply read_nth.
Qed.
(** The record published for a file that has run is read with the number of increments its code executed added to every counter; the
    reader panics exactly if one of these numbers does not fit in 32 bits. *)
Theorem interop_counts : forall evs, valid evs -> NoDup (map file_key (loaded evs)) ->
  Forall (fun f => exists fc, output_of f fc) (loaded evs) ->
  exists st, run evs rt0 = Some st /\
    forall i f fc, nth_error (loaded evs) i = Some f -> output_of f fc -> touched i evs = true -> static_u32 fc ->
      exists a j, published (rheap st) (em_gcv f) (em_path f) = Some a /\ data_at (rheap st) a = Some j /\
        (forall c, count c j = option_map (fun n => n + Runtime.hits i c evs) (recorded fc c)) /\
        ((forall c n, recorded fc c = Some n -> n + Runtime.hits i c evs < 4294967296) ->
           exists r, interop (file_coverage_of j) = Some r /\ same_data r (after (incs i evs) fc) /\
             forall c, recorded r c = option_map (fun n => n + Runtime.hits i c evs) (recorded fc c)) /\
        ((exists c n, recorded fc c = Some n /\ 4294967296 <= n + Runtime.hits i c evs) -> interop (file_coverage_of j) = None).
Proof.
  intros evs Hv Hk Ho. destruct (one_live_record evs Hv Hk) as (st & E & H).
  { eapply Forall_impl; [|exact Ho]. intros f (fc & O). eapply output_total; eauto. }
  exists st. split; [exact E|]. intros i f fc Li O T Su. specialize (H i f Li). rewrite T in H.
  destruct H as (a & j & d & _ & P & D & V & Ej & C).
  assert (U : unique_keys fc) by apply O. rewrite (output_value f fc O) in V. injection V as <-.
  set (r := after (incs i evs) (fc_sorted fc)).
  assert (Ej' : j = JObj (raw_value (fc_hash fc) r)).
  { rewrite Ej, value_raw, increased_raw. unfold r. now rewrite bumps_after by now apply sorted_unique. }
  assert (Cn : forall c, count c j = option_map (fun n => n + Runtime.hits i c evs) (recorded fc c)).
  { intros c. rewrite C. now rewrite initial_count. }
  assert (Cr : forall c, recorded r c = option_map (fun n => n + Runtime.hits i c evs) (recorded fc c)).
  { intros c. rewrite <- Cn, Ej'. symmetry. apply count_raw. }
  clear Ej C. generalize (fc_hash fc), Ej'. intros h ->. pose proof (static_after (incs i evs) fc Su U) as Sr. fold r in Sr.
  destruct (interop_cut h r Sr) as (G1 & G2). unfold cut in G1, G2.
  assert (Ur : unique_keys r).
  { destruct Sr as ((S1 & _) & (S2 & _) & (S3 & _) & _ & (S4 & _) & (S5 & _) & (S6 & _) & S7 & _).
    repeat split; try assumption. destruct (fc_b_t r) as [m|]; [|exact I]. now apply (S7 m). }
  assert (Iff : counts_u32 r <-> forall c n, recorded fc c = Some n -> n + Runtime.hits i c evs < 4294967296).
  { unfold counts_u32. split; intros Q c n R.
    - apply (Q c). now rewrite Cr, R.
    - rewrite Cr in R. destruct (recorded fc c) as [m|] eqn:Em; [|discriminate]. injection R as <-. exact (Q c m Em). }
  exists a, (JObj (raw_value h r)). split; [exact P|]. split; [exact D|]. split; [exact Cn|]. split.
  - intros Q. exists r. split; [apply G1, counts_tables; [exact Ur|now apply Iff]|]. split; [|exact Cr].
    apply after_same_data. now apply fc_sorted_same.
  - intros (c & n & R & L). destruct (interop (file_coverage_of (JObj (raw_value h r)))) as [r'|] eqn:X; [|reflexivity]. exfalso.
    pose proof (G2 r' eq_refl) as Y. apply counts_tables in Y; [|exact Ur]. apply Iff with (c := c) (n := n) in Y; [lia|exact R].
Qed.

(** Every record the instrumenter makes for a file with fewer than 2^32 counters of each kind is one of these. *)
Theorem produced_static : forall e n path ism t items t' sc, program_items t = Some items ->
  instrument e n path ism t = Ok (t', sc) ->
  sc_s sc <= 4294967296 -> sc_f sc <= 4294967296 -> sc_b sc <= 4294967296 -> (forall m, ism = Some m -> is_u32 (sm_version m)) ->
  static_u32 (sc_fc sc).
Proof.
  intros e n path ism t items t' sc Hi H Ls Lf Lb Hm.
  destruct (produced_fits e n path ism t items t' sc Hi H Ls Lf Lb Hm) as (A & B & C & D & E & F & G & I).
  pose proof (produced_record _ _ _ _ _ _ _ _ Hi H) as P. cbv zeta in P. destruct P as (_ & _ & _ & _ & _ & _ & _ & _ & P3 & _ & P4 & _).
  assert (W : forall A (P : A -> Prop) m, map_u32 P m -> map_u32 (fun _ : A => True) m).
  { intros A0 P m [U Q]. split; [exact U|]. eapply Forall_impl; [|exact Q]. intros kv [X _]. now split. }
  unfold static_u32. split; [exact A|]. split; [exact B|]. split; [exact C|]. split.
  { apply Forall_forall. intros [k br] Hin. apply (P4 k br). now apply im_in_get. }
  split; [eapply W; exact D|]. split; [eapply W; exact E|]. split; [eapply W; exact F|]. split; [|exact I].
  intros m Em. eapply W. now apply G.
Qed.
(** Non-vacuity: two files; the first one's record is read with the two increments of its statement, and an object with a number
    beyond 32 bits is not read. *)
Lemma emotion_static : static_u32 emotion_fc.
Proof. unfold static_u32, map_u32, emotion_fc. cbn. repeat split; repeat constructor; try (intros; discriminate); intros []. Qed.
Lemma hits_le : forall i c evs, Runtime.hits i c evs <= N.of_nat (length evs).
Proof. intros i c evs. unfold Runtime.hits. match goal with |- N.of_nat (length (filter ?p ?l)) <= _ => pose proof (filter_le _ p l) end. lia. Qed.
Lemma two_files_small : forall c n, recorded emotion_fc c = Some n -> n + Runtime.hits 0 c two_files < 4294967296.
Proof.
  intros c n Hc. pose proof (hits_le 0 c two_files) as L. change (length two_files) with 6%nat in L. revert L. generalize (Runtime.hits 0 c two_files). intros h L.
  assert (n = 0); [|lia]. clear L. destruct c as [k|k|k q|k q]; [|discriminate Hc|discriminate Hc|discriminate Hc].
  unfold recorded, emotion_fc in Hc. cbn [fc_s im_get] in Hc. destruct (eqb k 0); [|discriminate]. congruence.
Qed.
Example interop_ex : exists st a j r, run two_files rt0 = Some st /\
  published (rheap st) "__coverage__" "test-emotion.js" = Some a /\ data_at (rheap st) a = Some j /\
  interop (file_coverage_of j) = Some r /\ im_get 0 (fc_s r) = Some 2.
Proof.
  destruct (interop_counts two_files) as (st & E & H).
  - now apply validb_valid.
  - cbn [two_files loaded flat_map app map]. constructor; [intros [K|[]]; discriminate K|]. constructor; [intros []|constructor].
  - constructor; [exists emotion_fc; exact once_output|]. constructor; [|constructor]. exists emotion_fc.
    split; [reflexivity|]. exact (proj2 once_output).
  - destruct (H 0%nat once emotion_fc eq_refl once_output eq_refl emotion_static) as (a & j & P & D & _ & R & _).
    destruct R as (r & R & _ & C).
    + exact two_files_small.
    + exists st, a, j, r. split; [exact E|]. split; [exact P|]. split; [exact D|]. split; [exact R|]. pose proof (C (CS 0)) as K. exact K.
Qed.
Example interop_overflow_ex : interop (JObj [("all", JBool false); ("path", JStr "a"); ("statementMap", JObj []); ("fnMap", JObj []); ("branchMap", JObj []);
    ("s", JObj [("0", JNum 4294967296)]); ("f", JObj []); ("b", JObj [])]) = None /\
  interop (JObj [("all", JBool false); ("path", JStr "a"); ("statementMap", JObj []); ("fnMap", JObj []); ("branchMap", JObj []);
    ("s", JObj [("0", JNum 4294967295)]); ("f", JObj []); ("b", JObj [])]) <> None.
Proof. split; vm_compute; [reflexivity|discriminate]. Qed.
