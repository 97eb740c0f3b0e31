(** Reports of several runs of one instrumented program, merged: the merged report tells what happened in all
    the runs together. *)
From Coq Require Import NArith String List Bool Lia PeanoNat Permutation.
Import ListNotations.
From Verif Require OneEntry.
From Verif Require Import Base IndexMap Decimal Oxide OxideSpec OxideMergeProofs OxideMerge OxideViews SourceCov SourceCovProofs
  Hints Ast Visitor VisitorRel VisitorEx Erase Counting CountingRoot Json CovJson DataObject Template Runtime Produced Report
  Sem SemShape SemErase SemVisit SemProps Account Slots Sites AccountVisit Accurate EndToEnd.
Open Scope string_scope. Open Scope list_scope. Open Scope N_scope.

(** ** Rows *)
(** The same rows, whatever numbers the counters have *)
Definition same_rows (a b : file_coverage) : Prop :=
  Permutation (stmt_rows a) (stmt_rows b) /\ Permutation (fn_rows a) (fn_rows b) /\
  Permutation (branch_rows a) (branch_rows b).

Section Rows.
Context {T H : Type}.
Definition krow := ((N * H) * (range * T))%type.
Definition krows (loc : T -> option range) (hits : imap N H) (mp : imap N T) : list krow :=
  flat_map (fun kh =>
    match im_get (fst kh) mp with
    | Some t => match loc t with Some r => [(kh, (r, t))] | None => [] end
    | None => []
    end) hits.
Definition row_of (g : N -> H -> H) (x : krow) : range * (H * T) :=
  (fst (snd x), (g (fst (fst x)) (snd (fst x)), snd (snd x))).
Lemma rows_mapped : forall loc (g : N -> H -> H) (hits : imap N H) (mp : imap N T),
  rows loc (map (fun kv => (fst kv, g (fst kv) (snd kv))) hits) mp = map (row_of g) (krows loc hits mp).
Proof.
  intros loc g hits mp. unfold rows, krows. induction hits as [|[k h] hits IH]; [reflexivity|].
  cbn [map flat_map fst snd]. rewrite IH. refine (eq_trans _ (eq_sym (map_app _ _ _))). f_equal.
  destruct (im_get k mp) as [t|]; [|reflexivity]. now destruct (loc t).
Qed.
Lemma rows_perm : forall loc (h1 h2 : imap N H) (m1 m2 : imap N T), Permutation h1 h2 -> Permutation m1 m2 ->
  NoDup (im_keys m1) -> Permutation (rows loc h1 m1) (rows loc h2 m2).
Proof.
  intros loc h1 h2 m1 m2 P1 P2 W. unfold rows. rewrite P1. clear P1 h1.
  induction h2 as [|[k h] h2 IH]; [constructor|]. cbn [flat_map fst snd]. rewrite (im_get_perm _ _ k P2 W).
  now apply Permutation_app_head.
Qed.
Lemma locs_mapped : forall g (X : list krow), map fst (map (row_of g) X) = map (fun x => fst (snd x)) X.
Proof. intros g X. rewrite map_map. now apply map_ext. Qed.
Lemma lookup_perm : forall (R : list (range * (H * T))) l y, NoDup (map fst R) -> In (l, y) R -> lookup_row l R = Some y.
Proof.
  intros R l y. induction R as [|[l0 y0] R IH]; intros W I; [contradiction|]. cbn in W. apply NoDup_cons_iff in W as [W1 W2].
  unfold lookup_row in *. cbn [find fst]. destruct (range_eqb l0 l) eqn:E.
  - apply range_eqb_spec in E as ->. destruct I as [E|I]; [now injection E as ->|]. exfalso. apply W1.
    now apply (in_map fst) in I.
  - destruct I as [E2|I]; [|now apply IH]. injection E2 as -> ->. exfalso.
    assert (range_eqb l l = true) by now apply range_eqb_spec. congruence.
Qed.
(** Merging the rows of two runs of one program *)
Lemma merge_rows_same : forall (plus : H -> H -> H) g1 g2 (X : list krow) R1 R2,
  NoDup (map (fun x => fst (snd x)) X) ->
  Permutation R1 (map (row_of g1) X) -> Permutation R2 (map (row_of g2) X) ->
  Permutation (spec_merge_rows plus R1 R2) (map (row_of (fun k v => plus (g1 k v) (g2 k v))) X).
Proof.
  intros plus g1 g2 X R1 R2 W P1 P2. unfold spec_merge_rows.
  assert (W2 : NoDup (map fst R2)).
  { eapply Permutation_NoDup; [apply Permutation_map; symmetry; exact P2|]. now rewrite locs_mapped. }
  assert (F : filter (fun r => negb (existsb (fun q => range_eqb (fst q) (fst r)) R1)) R2 = []).
  { assert (K : forall r, In r R2 -> existsb (fun q => range_eqb (fst q) (fst r)) R1 = true).
    { intros r I. apply (Permutation_in r P2) in I. apply in_map_iff in I as (x & <- & I). apply existsb_exists.
      exists (row_of g1 x). split; [|now apply range_eqb_spec].
      apply (Permutation_in _ (Permutation_sym P1)). now apply in_map. }
    revert K. clear. intros K. induction R2 as [|r R2 IH]; [reflexivity|]. cbn [filter].
    rewrite (K r (or_introl eq_refl)). cbn. apply IH. intros r' I. apply K. now right. }
  rewrite F, app_nil_r, P1, map_map. apply Permutation_refl'. apply map_ext_in. intros x I.
  cbn [row_of fst snd].
  rewrite (lookup_perm R2 (fst (snd x)) (g2 (fst (fst x)) (snd (fst x)), snd (snd x)) W2); [reflexivity|].
  apply (Permutation_in _ (Permutation_sym P2)). apply in_map_iff. now exists x.
Qed.
Lemma hits_perm : forall (val : H -> N) (R1 R2 : list (range * (H * T))) l, Permutation R1 R2 -> hits_at val R1 l = hits_at val R2 l.
Proof.
  intros val R1 R2 l P. unfold hits_at, sumN. induction P as [|x a b P IH|x y a|a b c _ IH1 _ IH2].
  - reflexivity.
  - cbn [filter]. destruct (range_eqb (fst x) l); [|exact IH]. cbn. now rewrite IH.
  - cbn [filter]. destruct (range_eqb (fst x) l), (range_eqb (fst y) l); try reflexivity. cbn. lia.
  - congruence.
Qed.
Lemma hits_sum : forall (val : H -> N) (plus : H -> H -> H) g1 g2 (X : list krow) l,
  (forall x, In x X -> val (plus (g1 (fst (fst x)) (snd (fst x))) (g2 (fst (fst x)) (snd (fst x)))) =
     val (g1 (fst (fst x)) (snd (fst x))) + val (g2 (fst (fst x)) (snd (fst x)))) ->
  hits_at val (map (row_of g1) X) l + hits_at val (map (row_of g2) X) l =
  hits_at val (map (row_of (fun k v => plus (g1 k v) (g2 k v))) X) l.
Proof.
  intros val plus g1 g2 X l Hv. unfold hits_at, sumN. induction X as [|x X IH]; [reflexivity|].
  cbn [map filter row_of fst]. specialize (IH (fun y I => Hv y (or_intror I))).
  destruct (range_eqb (fst (snd x)) l); [|exact IH]. cbn [map fst snd]. cbn.
  rewrite (Hv x (or_introl eq_refl)). lia.
Qed.
Lemma hits_le : forall (val : H -> N) g1 g2 (X : list krow) l,
  (forall x, In x X -> val (g1 (fst (fst x)) (snd (fst x))) <= val (g2 (fst (fst x)) (snd (fst x)))) ->
  hits_at val (map (row_of g1) X) l <= hits_at val (map (row_of g2) X) l.
Proof.
  intros val g1 g2 X l Hv. unfold hits_at, sumN. induction X as [|x X IH]; [reflexivity|].
  cbn [map filter row_of fst]. specialize (IH (fun y I => Hv y (or_intror I))).
  destruct (range_eqb (fst (snd x)) l); [|exact IH]. cbn [map fst snd]. cbn.
  specialize (Hv x (or_introl eq_refl)). lia.
Qed.
End Rows.

(** ** Records of runs *)
Definition zeroed (fc : file_coverage) : Prop :=
  Forall (fun kv => snd kv = 0) (fc_s fc) /\ Forall (fun kv => snd kv = 0) (fc_f fc) /\
  Forall (fun kv => Forall (fun x => x = 0) (snd kv)) (fc_b fc).
Lemma hitn_app : forall a b c, hitn (a ++ b) c = hitn a c + hitn b c.
Proof. intros. unfold FixtureRun.hits. rewrite filter_app, app_length. lia. Qed.
Definition xs (fc : file_coverage) := krows stmt_loc (fc_s fc) (fc_statement_map fc).
Definition xf (fc : file_coverage) := krows fn_loc (fc_f fc) (fc_fn_map fc).
Definition xb (fc : file_coverage) := krows br_loc (fc_b fc) (fc_branch_map fc).
Definition gs (l : list counter) (k v : N) : N := v + hitn l (CS k).
Definition gf (l : list counter) (k v : N) : N := v + hitn l (CF k).
Definition gb (l : list counter) (k : N) (v : list N) : list N := FixtureRun.counted (CB k) l 0 v.
Lemma rows_after : forall l fc,
  stmt_rows (after l fc) = map (row_of (gs l)) (xs fc) /\ fn_rows (after l fc) = map (row_of (gf l)) (xf fc) /\
  branch_rows (after l fc) = map (row_of (gb l)) (xb fc).
Proof.
  intros l fc. split; [|split].
  - exact (rows_mapped stmt_loc (gs l) (fc_s fc) (fc_statement_map fc)).
  - exact (rows_mapped fn_loc (gf l) (fc_f fc) (fc_fn_map fc)).
  - exact (rows_mapped br_loc (gb l) (fc_b fc) (fc_branch_map fc)).
Qed.
Lemma krows_in : forall T H (loc : T -> option range) (hits : imap N H) (mp : imap N T) x,
  In x (krows loc hits mp) <->
  In (fst x) hits /\ im_get (fst (fst x)) mp = Some (snd (snd x)) /\ loc (snd (snd x)) = Some (fst (snd x)).
Proof.
  intros T H loc hits mp [kh [r t]]. unfold krows. rewrite in_flat_map. cbn [fst snd]. split.
  - intros (kh' & I & Hx). destruct (im_get (fst kh') mp) as [t'|] eqn:E; [|contradiction].
    destruct (loc t') as [r'|] eqn:E2; [|contradiction]. destruct Hx as [Hx|[]]. injection Hx as -> -> ->. auto.
  - intros (I & E1 & E2). exists kh. split; [exact I|]. rewrite E1, E2. now left.
Qed.
Lemma krows_locs : forall T H (loc : T -> option range) (hits : imap N H) (mp : imap N T),
  map (fun x => fst (snd x)) (krows loc hits mp) = map fst (rows loc hits mp).
Proof.
  intros. rewrite <- (locs_mapped (fun _ v => v)). rewrite <- rows_mapped. f_equal. f_equal.
  rewrite <- map_id. apply map_ext. now intros [].
Qed.
Lemma counted_app : forall c l1 l2 v i, Forall (fun x => x = 0) v ->
  zip_plus (FixtureRun.counted c l1 i v) (FixtureRun.counted c l2 i v) = FixtureRun.counted c (l1 ++ l2) i v.
Proof.
  intros c l1 l2 v. induction v as [|x v IH]; intros i Z; [reflexivity|]. apply Forall_cons_iff in Z as [-> Z].
  cbn [FixtureRun.counted zip_plus]. rewrite hitn_app, IH by exact Z. now rewrite !N.add_0_l.
Qed.

Section Runs.
Variable fc : file_coverage.
Hypothesis Hall : fc_all fc = false.
Hypothesis Hbt : fc_b_t fc = None.
Hypothesis Hu : unique_keys fc.
Hypothesis Ht : tables_ok fc.
Hypothesis Hl : locs_unique fc.
Hypothesis Hz : zeroed fc.

Definition Inv (a : file_coverage) (l : list counter) : Prop := same_rows a (after l fc) /\ OxideMerge.plain a /\ unique_keys a.
Definition fits (a : file_coverage) : Prop :=
  (forall l, stmt_hits a l < u32_mod) /\ (forall l, fn_hits a l < u32_mod) /\ (forall l j, path_hits a l j < u32_mod).

Lemma base_nodup : NoDup (map (fun x => fst (snd x)) (xs fc)) /\ NoDup (map (fun x => fst (snd x)) (xf fc)) /\
  NoDup (map (fun x => fst (snd x)) (xb fc)).
Proof. unfold xs, xf, xb. rewrite !krows_locs. exact Hl. Qed.
Lemma after_unique : forall l, locs_unique (after l fc).
Proof.
  intros l. destruct (rows_after l fc) as (E1 & E2 & E3). unfold locs_unique. rewrite E1, E2, E3, !locs_mapped. exact base_nodup.
Qed.
Lemma after_tables : forall l, tables_ok (after l fc).
Proof.
  intros l. destruct Ht as (T1 & T2 & T3). unfold tables_ok, table_ok, after. cbn [fc_s fc_f fc_b fc_statement_map fc_fn_map fc_branch_map].
  assert (K : forall V W (f : N -> V -> W) (m : imap N V), im_keys (map (fun kv => (fst kv, f (fst kv) (snd kv))) m) = im_keys m).
  { intros. unfold im_keys. rewrite map_map. reflexivity. }
  rewrite (K _ _ (gs l)), (K _ _ (gf l)), (K _ _ (gb l)). auto.
Qed.
Lemma same_data_rows : forall r l, same_data r (after l fc) -> same_rows r (after l fc).
Proof.
  intros r l D. pose proof (unique_perm _ _ (same_data_sym _ _ D) (keys_after l fc Hu)) as U.
  destruct D as (_ & _ & P1 & P2 & P3 & P4 & P5 & P6 & _). destruct U as (U1 & U2 & U3 & _).
  split; [|split]; now apply rows_perm.
Qed.
Lemma inv_start : forall r l, same_data r (after l fc) -> Inv r l.
Proof.
  intros r l D. pose proof (unique_perm _ _ (same_data_sym _ _ D) (keys_after l fc Hu)) as U.
  pose proof (same_data_rows r l D) as S0. split; [exact S0|]. split; [|exact U].
  pose proof D as D'. destruct D' as (A & _ & P1 & P2 & P3 & P4 & P5 & P6 & P7 & _).
  destruct U as (U1 & U2 & U3 & _). destruct S0 as (S1 & S2 & S3).
  split; [now rewrite A|]. split; [|split].
  - destruct (after_tables l) as (T1 & T2 & T3).
    assert (K : forall T H (loc : T -> option range) (h1 h2 : imap N H) (m1 m2 : imap N T), Permutation h1 h2 -> Permutation m1 m2 ->
      NoDup (im_keys m1) -> table_ok loc h2 m2 -> table_ok loc h1 m1).
    { intros T H loc h1 h2 m1 m2 Q1 Q2 W Tk k I. rewrite (im_get_perm _ _ k Q2 W). apply Tk.
      apply (Permutation_in k (Permutation_map fst Q1)). exact I. }
    split; [|split]; eapply K; eauto.
  - destruct (after_unique l) as (N1 & N2 & N3).
    split; [|split]; (eapply Permutation_NoDup; [apply Permutation_map; symmetry; eassumption|assumption]).
  - cbn [after fc_b_t] in P7. rewrite Hbt in P7. destruct (fc_b_t r); [contradiction|reflexivity].
Qed.
Lemma sums : forall l1 l2,
  (forall x, In x (xs fc) -> gs l1 (fst (fst x)) (snd (fst x)) + gs l2 (fst (fst x)) (snd (fst x)) = gs (l1 ++ l2) (fst (fst x)) (snd (fst x))) /\
  (forall x, In x (xf fc) -> gf l1 (fst (fst x)) (snd (fst x)) + gf l2 (fst (fst x)) (snd (fst x)) = gf (l1 ++ l2) (fst (fst x)) (snd (fst x))) /\
  (forall x, In x (xb fc) -> zip_plus (gb l1 (fst (fst x)) (snd (fst x))) (gb l2 (fst (fst x)) (snd (fst x))) = gb (l1 ++ l2) (fst (fst x)) (snd (fst x))).
Proof.
  intros l1 l2. destruct Hz as (Z1 & Z2 & Z3). rewrite Forall_forall in Z1, Z2, Z3. split; [|split]; intros x I; apply krows_in in I as (I & _).
  - unfold gs. rewrite (Z1 _ I), hitn_app. lia.
  - unfold gf. rewrite (Z2 _ I), hitn_app. lia.
  - unfold gb. apply counted_app. exact (Z3 _ I).
Qed.
Lemma row_ext : forall T H (g1 g2 : N -> H -> H) (X : list (@krow T H)),
  (forall x, In x X -> g1 (fst (fst x)) (snd (fst x)) = g2 (fst (fst x)) (snd (fst x))) -> map (row_of g1) X = map (row_of g2) X.
Proof. intros T H g1 g2 X E. apply map_ext_in. intros x I. unfold row_of. now rewrite E. Qed.
Lemma inv_merge : forall m a l r l', Inv a l -> same_data r (after l' fc) -> fits (after (l ++ l') fc) ->
  exists R, fc_merge m a r = Ok R /\ Inv R (l ++ l').
Proof.
  intros m a l r l' ((S1 & S2 & S3) & (A1 & A2 & A3 & A4) & _) D (F1 & F2 & F3).
  destruct (inv_start r l' D) as ((Q1 & Q2 & Q3) & (B1 & B2 & B3 & B4) & _).
  destruct (rows_after l fc) as (E1 & E2 & E3), (rows_after l' fc) as (E1' & E2' & E3'), (rows_after (l ++ l') fc) as (G1 & G2 & G3).
  destruct (sums l l') as (K1 & K2 & K3), base_nodup as (W1 & W2 & W3).
  unfold stmt_hits, fn_hits, path_hits in F1, F2, F3. rewrite G1 in F1. rewrite G2 in F2. rewrite G3 in F3.
  rewrite E1 in S1. rewrite E2 in S2. rewrite E3 in S3. rewrite E1' in Q1. rewrite E2' in Q2. rewrite E3' in Q3.
  assert (Fit : merge_fits a r).
  { split; [|split].
    - intros x. rewrite (hits_perm _ _ _ x S1), (hits_perm _ _ _ x Q1).
      rewrite (hits_sum (fun h => h) N.add); [|reflexivity]. rewrite (row_ext _ _ _ (gs (l ++ l'))); [apply F1|exact K1].
    - intros x. rewrite (hits_perm _ _ _ x S2), (hits_perm _ _ _ x Q2).
      rewrite (hits_sum (fun h => h) N.add); [|reflexivity]. rewrite (row_ext _ _ _ (gf (l ++ l'))); [apply F2|exact K2].
    - intros j x. rewrite (hits_perm _ _ _ x S3), (hits_perm _ _ _ x Q3).
      rewrite (hits_sum (fun v => nth j v 0) zip_plus); [|intros; apply zip_plus_nth]. rewrite (row_ext _ _ _ (gb (l ++ l'))); [apply F3|exact K3]. }
  exists (spec_merge a r (fc_b_t a)). split; [apply merge_shape; auto|].
  destruct (spec_merge_rows_eq a r (fc_b_t a)) as (M1 & M2 & M3). split; [|split].
  - unfold same_rows. rewrite M1, M2, M3, G1, G2, G3. unfold merged_rows_s, merged_rows_f, merged_rows_b. split; [|split].
    + rewrite <- (row_ext _ _ (fun k v => gs l k v + gs l' k v)); [now apply merge_rows_same|exact K1].
    + rewrite <- (row_ext _ _ (fun k v => gf l k v + gf l' k v)); [now apply merge_rows_same|exact K2].
    + rewrite <- (row_ext _ _ (fun k v => zip_plus (gb l k v) (gb l' k v))); [now apply merge_rows_same|exact K3].
  - destruct (spec_merge_wf a r (fc_b_t a) A3 B3) as [X1 X2]. split; [reflexivity|]. split; [exact X1|]. split; [exact X2|exact A4].
  - unfold unique_keys, spec_merge, im_keys. cbn [fc_statement_map fc_fn_map fc_branch_map fc_s fc_f fc_b fc_b_t]. rewrite A4.
    repeat (split; [apply number_from_NoDup|]). exact I.
Qed.
Lemma counted_le : forall g l l' v i j, nth j (FixtureRun.counted g l i v) 0 <= nth j (FixtureRun.counted g (l ++ l') i v) 0.
Proof.
  intros g l l' v. induction v as [|x v IH]; intros i j; [reflexivity|]. destruct j as [|j]; cbn [FixtureRun.counted nth]; [|apply IH].
  rewrite hitn_app. lia.
Qed.
Lemma fits_prefix : forall l l', fits (after (l ++ l') fc) -> fits (after l fc).
Proof.
  intros l l' (F1 & F2 & F3). unfold fits, stmt_hits, fn_hits, path_hits in *.
  destruct (rows_after l fc) as (E1 & E2 & E3), (rows_after (l ++ l') fc) as (G1 & G2 & G3).
  rewrite E1, E2, E3. rewrite G1 in F1. rewrite G2 in F2. rewrite G3 in F3. split; [|split].
  - intros x. eapply N.le_lt_trans; [|apply (F1 x)]. apply hits_le. intros y _. unfold gs. rewrite hitn_app. lia.
  - intros x. eapply N.le_lt_trans; [|apply (F2 x)]. apply hits_le. intros y _. unfold gf. rewrite hitn_app. lia.
  - intros x j. eapply N.le_lt_trans; [|apply (F3 x j)]. apply (hits_le (fun v => nth j v 0)). intros y _. apply counted_le.
Qed.
Lemma inv_fold : forall m ls rs, Forall2 (fun l r => same_data r (after l fc)) ls rs -> forall a l, Inv a l ->
  fits (after (l ++ concat ls) fc) -> exists R, fold_res (fc_merge m) a rs = Ok R /\ Inv R (l ++ concat ls).
Proof.
  intros m ls rs F. induction F as [|l1 r1 ls rs D _ IH]; intros a l Ha Hf.
  - exists a. cbn [concat]. rewrite app_nil_r. now split.
  - cbn [concat] in *. rewrite app_assoc in *.
    destruct (inv_merge m a l r1 l1 Ha D (fits_prefix _ _ Hf)) as (R1 & E1 & H1).
    destruct (IH R1 (l ++ l1) H1 Hf) as (R & E & H). exists R. split; [|exact H]. cbn [fold_res]. rewrite E1. exact E.
Qed.
Lemma fits_recorded : forall l, (forall c v, recorded (after l fc) c = Some v -> v < u32_mod) -> fits (after l fc).
Proof.
  intros l Hr. destruct (after_unique l) as (U1 & U2 & U3). destruct (keys_after l fc Hu) as (_ & _ & _ & K1 & K2 & K3 & _).
  assert (P : 0 < u32_mod) by reflexivity.
  assert (G : forall T H (val : H -> N) (rs : list (range * (H * T))) x, NoDup (map fst rs) ->
    (forall h t, In (x, (h, t)) rs -> val h < u32_mod) -> hits_at val rs x < u32_mod).
  { intros T H val rs x W V. destruct (lookup_row x rs) as [[h t]|] eqn:E.
    - rewrite (lookup_hits_at _ _ val rs x h t W E). apply (V h t). unfold lookup_row in E.
      destruct (find _ rs) as [[y z]|] eqn:F; [|discriminate]. apply find_some in F as [F1 F2]. cbn in E, F2.
      apply range_eqb_spec in F2 as ->. injection E as ->. exact F1.
    - apply lookup_row_None in E. rewrite hits_at_notin by exact E. exact P. }
  assert (R : forall T H (loc : T -> option range) (hits : imap N H) (mp : imap N T) x h t, In (x, (h, t)) (rows loc hits mp) ->
    exists k, In (k, h) hits).
  { intros T H loc hits mp x h t I. unfold rows in I. apply in_flat_map in I as ([k h'] & I & Hx). cbn [fst snd] in Hx.
    destruct (im_get k mp) as [t'|]; [|contradiction]. destruct (loc t'); [|contradiction]. destruct Hx as [Hx|[]].
    injection Hx as _ -> _. now exists k. }
  split; [|split].
  - intros x. apply G; [exact U1|]. intros h t I. apply R in I as (k & I). apply (Hr (CS k)). now apply im_in_get.
  - intros x. apply G; [exact U2|]. intros h t I. apply R in I as (k & I). apply (Hr (CF k)). now apply im_in_get.
  - intros x j. apply G; [exact U3|]. intros h t I. apply R in I as (k & I).
    destruct (nth_error h j) as [v|] eqn:E.
    + rewrite (nth_error_nth h j 0 E). apply (Hr (CB k (N.of_nat j))). cbn [recorded].
      rewrite (im_in_get _ K3 _ _ I), Nnat.Nat2N.id. exact E.
    + apply nth_error_None in E. rewrite nth_overflow by exact E. exact P.
Qed.
End Runs.

(** The records of some runs of one program, merged in any order, hold what one record would hold after all the
    increments of all runs, up to the numbering. *)
Theorem merge_runs : forall m fc, OxideMerge.plain fc -> unique_keys fc -> zeroed fc ->
  forall l0 ls r0 rs, same_data r0 (after l0 fc) -> Forall2 (fun l r => same_data r (after l fc)) ls rs ->
  (forall c v, recorded (after (concat (l0 :: ls)) fc) c = Some v -> v < u32_mod) ->
  exists R, fold_res (fc_merge m) r0 rs = Ok R /\ same_rows R (after (concat (l0 :: ls)) fc) /\
    OxideMerge.plain R /\ unique_keys R.
Proof.
  intros m fc (A & B & C & D) U Z l0 ls r0 rs H0 Hs Hr.
  destruct (inv_fold fc A D U B C Z m ls rs Hs r0 l0 (inv_start fc A D U B C r0 l0 H0) (fits_recorded fc U C _ Hr))
    as (R & E & H). now exists R.
Qed.

(** ** Runs of a program *)
(** [r] is the record published by a process in which the instrumented program [t'] was run once (next to other files)
    where the original program [t] would have had the events [log]. *)
Definition ran (t t' : node) (sc : source_cov) (gcv path : string) (log : list event) (r : file_coverage) : Prop :=
  exists h fuel x w hist i st a j,
    log = evs h (snd (run_program h fuel t x w)) /\
    valid hist /\ NoDup (map file_key (loaded hist)) /\ Forall (fun f => exists fc, output_of f fc) (loaded hist) /\
    nth_error (loaded hist) i = Some (emitted_for gcv path (sc_fc sc)) /\ touched i hist = true /\
    Permutation (incs i hist) (cnt h (snd (run_program h fuel t' x w))) /\
    Runtime.run hist rt0 = Some st /\ published (rheap st) gcv path = Some a /\ data_at (rheap st) a = Some j /\ read_fc j = Some r.

Lemma produced_zeroed : forall e n path ism t items t' sc, program_items t = Some items ->
  instrument e n path ism t = Ok (t', sc) -> zeroed (sc_fc sc) /\ tables_ok (sc_fc sc) /\ fc_all (sc_fc sc) = false /\
  (e_report_logic e = false -> fc_b_t (sc_fc sc) = None).
Proof.
  intros e n path ism t items t' sc Hi H. pose proof (produced_record e n path ism t items t' sc Hi H) as PR. cbv zeta in PR.
  destruct PR as (A & _ & _ & S1 & F1 & S2 & F2 & _ & B1 & B2 & B3 & B4 & B5).
  split; [|split; [|split; [exact A|]]].
  - split; [|split].
    + rewrite S2. apply Forall_forall. intros kv I. apply in_map_iff in I as (y & <- & _). reflexivity.
    + rewrite F2. apply Forall_forall. intros kv I. apply in_map_iff in I as (y & <- & _). reflexivity.
    + apply Forall_forall. intros [k v] I. apply (im_in_get _ B2) in I. rewrite B4 in I. cbn [snd].
      destruct (im_get k (fc_branch_map (sc_fc sc))) as [br|]; [|discriminate]. cbn in I. injection I as <-.
      apply Forall_forall. intros y Iy. now apply repeat_spec in Iy.
  - assert (G : forall V (m : imap N V) k, In k (im_keys m) -> exists v, im_get k m = Some v).
    { intros V m k I. destruct (im_get k m) as [v|] eqn:E; [now exists v|]. now apply im_get_None in E. }
    split; [|split]; intros k I.
    + rewrite S2 in I. unfold im_keys in I. rewrite map_map in I. apply G in I as (rg & E). now exists rg, rg.
    + rewrite F2 in I. unfold im_keys in I. rewrite map_map in I. apply G in I as (f & E). now exists f, (f_loc f).
    + apply G in I as (v & E). rewrite B4 in E. destruct (im_get k (fc_branch_map (sc_fc sc))) as [br|] eqn:Eb; [|discriminate].
      exists br. destruct (B3 k br Eb) as [Ne _]. unfold br_loc. destruct (b_locations br) as [|r0 l]; [congruence|]. now exists r0.
  - intros Er. destruct (fc_b_t (sc_fc sc)); [|reflexivity]. destruct B5 as [B5 _]. congruence.
Qed.

Lemma ran_counted : forall e n path ism t items t' sc gcv log r,
  program_items t = Some items -> Forall DataObject.plain (idents t) -> instrument e n path ism t = Ok (t', sc) ->
  ran t t' sc gcv path log r -> exists l h fuel x w, same_data r (after l (sc_fc sc)) /\
    log = evs h (snd (run_program h fuel t x w)) /\ Permutation l (cnt h (snd (run_program h fuel t' x w))).
Proof.
  intros e n path ism t items t' sc gcv log r Hi Hp H (h & fuel & x & w & hist & i & st & a & j & E0 & V & K & O & L & T & P & E1 & E2 & E3 & E4).
  destruct (produced_literal e n path ism t items t' sc Hi H Hp) as [O1 _]. specialize (O1 gcv).
  destruct (published_record hist V K O) as (st' & R & Q). destruct (Q i _ _ L O1 T) as (a' & j' & r' & Q1 & Q2 & Q3 & Q4).
  exists (incs i hist), h, fuel, x, w. cbn [em_gcv em_path emitted_for] in Q1.
  assert (st' = st) by congruence. subst st'. assert (a' = a) by congruence. subst a'.
  assert (j' = j) by congruence. subst j'. assert (r' = r) by congruence. subst r'. auto.
Qed.

Lemma same_rows_recorded : forall R fc, tables_ok R -> unique_keys R -> unique_keys fc -> same_rows R fc ->
  forall c, seen c = true -> slot_exists R c = true -> exists c', seen c' = true /\ slot_exists fc c' = true /\
    recorded R c = recorded fc c' /\ loc_of R c = loc_of fc c' /\ forall ev, suits c ev = suits c' ev.
Proof.
  intros R fc (T1 & T2 & T3) (_ & _ & _ & U4 & U5 & U6 & _) (_ & _ & _ & W4 & W5 & W6 & _) (S1 & S2 & S3) c Hs Hse.
  assert (G : forall T H (loc : T -> option range) (hr hf : imap N H) (mr mf : imap N T) k h,
    NoDup (im_keys hf) ->
    table_ok loc hr mr -> Permutation (rows loc hr mr) (rows loc hf mf) -> im_get k hr = Some h ->
    exists k' t, im_get k mr = Some t /\ im_get k' hf = Some h /\ im_get k' mf = Some t).
  { intros T H loc hr hf mr mf k h W Tk P E. apply im_get_in in E as I.
    destruct (Tk k) as (t & x & Et & El). { unfold im_keys. now apply (in_map fst) in I. }
    assert (J : In (x, (h, t)) (rows loc hr mr)).
    { unfold rows. apply in_flat_map. exists (k, h). split; [exact I|]. cbn [fst snd]. rewrite Et, El. now left. }
    apply (Permutation_in _ P) in J. unfold rows in J. apply in_flat_map in J as ([k' h'] & J & Hx). cbn [fst snd] in Hx.
    destruct (im_get k' mf) as [t'|] eqn:Et'; [|contradiction]. destruct (loc t'); [|contradiction]. destruct Hx as [Hx|[]].
    injection Hx as _ -> ->. exists k', t. split; [exact Et|]. split; [now apply im_in_get|exact Et']. }
  rewrite slot_recorded in Hse. destruct (recorded R c) as [v|] eqn:E; [|discriminate].
  destruct c as [i|i|b i|b i]; try discriminate; cbn [recorded] in E.
  - destruct (G _ _ _ _ _ _ _ _ _ W4 T1 S1 E) as (k & t & E1 & E2 & E3). exists (CS k).
    rewrite slot_recorded. cbn [recorded loc_of]. rewrite E2. repeat split; congruence.
  - destruct (G _ _ _ _ _ _ _ _ _ W5 T2 S2 E) as (k & t & E1 & E2 & E3). exists (CF k).
    rewrite slot_recorded. cbn [recorded loc_of]. rewrite E2, E1, E3. repeat split; congruence.
  - destruct (im_get b (fc_b R)) as [row|] eqn:Eb; [|discriminate].
    destruct (G _ _ _ _ _ _ _ _ _ W6 T3 S3 Eb) as (k & t & E1 & E2 & E3). exists (CB k i).
    rewrite slot_recorded. cbn [recorded loc_of]. rewrite E2, E1, E3, E. repeat split; congruence.
Qed.

Definition like (t t' : node) (l : list counter) (log : list event) : Prop :=
  exists h fuel x w, log = evs h (snd (run_program h fuel t x w)) /\ Permutation l (cnt h (snd (run_program h fuel t' x w))).
Lemma rans_counted : forall e n path ism t items t' sc gcv,
  program_items t = Some items -> Forall DataObject.plain (idents t) -> instrument e n path ism t = Ok (t', sc) ->
  forall logs rs, Forall2 (ran t t' sc gcv path) logs rs ->
  exists ls, Forall2 (fun l r => same_data r (after l (sc_fc sc))) ls rs /\ Forall2 (like t t') ls logs.
Proof.
  intros e n path ism t items t' sc gcv Hi Hp H logs rs F. induction F as [|log r logs rs R _ (ls & A & B)].
  - now exists [].
  - destruct (ran_counted e n path ism t items t' sc gcv log r Hi Hp H R) as (l & h & fuel & x & w & D & E & P).
    exists (l :: ls). split; constructor; auto. now exists h, fuel, x, w.
Qed.
Lemma like_counts : forall t t' c ev,
  (forall h fuel x w, count_occ counter_dec (cnt h (snd (run_program h fuel t' x w))) c =
      count_occ event_dec (evs h (snd (run_program h fuel t x w))) ev) ->
  forall ls logs, Forall2 (like t t') ls logs -> hitn (concat ls) c = N.of_nat (count_occ event_dec (concat logs) ev).
Proof.
  intros t t' c ev Hc ls logs F. induction F as [|l log ls logs (h & fuel & x & w & -> & P) _ IH]; [reflexivity|].
  cbn [concat]. rewrite hitn_app, count_occ_app, IH, Nnat.Nat2N.inj_add. f_equal. rewrite hitn_count. f_equal.
  rewrite <- Hc. rewrite (Permutation_count_occ Runtime.counter_dec) in P. rewrite P. clear.
  generalize (cnt h (snd (run_program h fuel t' x w))). intros l. induction l as [|y l IH]; [reflexivity|]. cbn.
  destruct (Runtime.counter_dec y c), (counter_dec y c); congruence.
Qed.

(** Any record with the rows of the embedded one after the increments [l] tells what is in [log], if [l] counts every event
    of [log] which the instrumented program counts. *)
Definition told (t t' : node) (l : list counter) (log : list event) : Prop :=
  forall c ev, (forall h fuel x w, count_occ counter_dec (cnt h (snd (run_program h fuel t' x w))) c =
      count_occ event_dec (evs h (snd (run_program h fuel t x w))) ev) ->
    hitn l c = N.of_nat (count_occ event_dec log ev).
Definition told_for (G : host -> Prop) (t t' : node) (l : list counter) (log : list event) : Prop :=
  forall c ev, (forall h, G h -> forall fuel x w, count_occ counter_dec (cnt h (snd (run_program h fuel t' x w))) c =
      count_occ event_dec (evs h (snd (run_program h fuel t x w))) ev) ->
    hitn l c = N.of_nat (count_occ event_dec log ev).
Lemma rows_tell_for : forall e n path ism t items t' sc,
  program_items t = Some items -> clean t = true -> forallb (good true) items = true ->
  forallb item items = true -> forallb exact items = true -> NoDup (map fst (flat_map sites items)) ->
  covered_program (e_report_logic e) t = true ->
  instrument e n path ism t = Ok (t', sc) ->
  forall l log, told_for (fun h => e_report_logic e = true -> pure_tests h) t t' l log ->
  ((forall ev, N.of_nat (count_occ event_dec log ev) < u32_mod) ->
   forall c v, seen c = true -> recorded (after l (sc_fc sc)) c = Some v -> v < u32_mod) /\
  forall R, same_rows R (after l (sc_fc sc)) -> tables_ok R -> unique_keys R ->
    length (fc_s R) = length (fc_statement_map (sc_fc sc)) /\ length (fc_f R) = length (fc_fn_map (sc_fc sc)) /\
    length (concat (im_values (fc_b R))) = length (concat (im_values (fc_b (sc_fc sc)))) /\
    forall c, seen c = true -> slot_exists R c = true -> exists ev, tells e items log R c ev.
Proof.
  intros e n path ism t items t' sc Hi Hcl Hg Hit Hx Hnd Hcov H l log B.
  destruct (produced_zeroed e n path ism t items t' sc Hi H) as (Z & Tk & Al & Bt).
  pose proof (produced_unique_keys e n path ism t items t' sc Hi H) as U.
  assert (Tell : forall c, seen c = true -> slot_exists (sc_fc sc) c = true -> exists ev sp,
    In (ev, sp) (flat_map sites items) /\ suits c ev = true /\ loc_of (sc_fc sc) c = Some (range_of e sp) /\
    recorded (after l (sc_fc sc)) c = Some (N.of_nat (count_occ event_dec log ev))).
  { intros c Hs Hse.
    destruct (counters_tell_original_partial e n path ism t items t' sc Hi Hcl Hg Hit Hx Hnd Hcov H c Hs Hse) as (ev & sp & C1 & C2 & C3 & C4).
    exists ev, sp. do 3 (split; [assumption|]).
    rewrite recorded_after, (produced_zero e n path ism t items t' sc c Hi H Hse). cbn [option_map]. rewrite N.add_0_l. f_equal.
    apply B. intros h Hh fuel x w. now apply C4. }
  assert (Sl : forall l c, slot_exists (after l (sc_fc sc)) c = slot_exists (sc_fc sc) c).
  { intros l0 c. rewrite !slot_recorded, recorded_after. now destruct (recorded (sc_fc sc) c). }
  split.
  { intros Hb c v Hs Hv. destruct (Tell c Hs) as (ev & _ & _ & _ & _ & T).
    { rewrite <- (Sl l), slot_recorded. now rewrite Hv. }
    assert (v = N.of_nat (count_occ event_dec log ev)) by congruence. subst v. apply Hb. }
  intros R Sr P Ur. pose proof P as Pt.
  assert (Ln : forall T H (loc : T -> option range) (h : imap N H) (mp : imap N T), table_ok loc h mp -> length (rows loc h mp) = length h).
  { intros T H0 loc h mp Ht. unfold rows. induction h as [|[k v] h IH]; [reflexivity|]. cbn [flat_map]. rewrite app_length, IH.
    - destruct (Ht k (or_introl eq_refl)) as (y & z & E1 & E2). cbn [fst]. now rewrite E1, E2.
    - intros k' I. apply Ht. now right. }
  destruct Sr as (S1 & S2 & S3). destruct Pt as (P1 & P2 & P3).
  destruct (after_tables (sc_fc sc) Tk l) as (Q1 & Q2 & Q3).
  pose proof (produced_record e n path ism t items t' sc Hi H) as PR. cbv zeta in PR.
  destruct PR as (_ & _ & _ & _ & _ & F1 & F2 & _).
  split; [|split; [|split]].
  - apply Permutation_length in S1. unfold stmt_rows in S1. rewrite !Ln in S1 by assumption. rewrite S1. cbn [after fc_s].
    rewrite map_length, F1. apply map_length.
  - apply Permutation_length in S2. unfold fn_rows in S2. rewrite !Ln in S2 by assumption. rewrite S2. cbn [after fc_f].
    rewrite map_length, F2. apply map_length.
  - assert (Lv : forall T (h : branch_hit_map) (mp : imap N T) (loc : T -> option range), table_ok loc h mp ->
      length (concat (im_values h)) = fold_right Nat.add 0%nat (map (fun r => length (fst (snd r))) (rows loc h mp))).
    { intros T h mp loc Ht. unfold rows, im_values. induction h as [|[k v] h IH]; [reflexivity|]. cbn [map concat flat_map snd].
      rewrite app_length, IH by (intros k' I; apply Ht; now right).
      destruct (Ht k (or_introl eq_refl)) as (y & z & E1 & E2). cbn [fst]. now rewrite E1, E2. }
    assert (Lp : forall T (a b : list (range * (list N * T))), Permutation a b ->
      fold_right Nat.add 0%nat (map (fun r => length (fst (snd r))) a) = fold_right Nat.add 0%nat (map (fun r => length (fst (snd r))) b)).
    { intros T a b Pm. induction Pm; cbn; lia. }
    rewrite (Lv _ _ _ br_loc P3). change (rows br_loc (fc_b R) (fc_branch_map R)) with (branch_rows R). rewrite (Lp _ _ _ S3). unfold branch_rows. rewrite <- (Lv _ _ _ br_loc Q3). cbn [after fc_b].
    assert (Cn : forall l g v k, length (FixtureRun.counted g l k v) = length v).
    { intros l1 g v. induction v as [|y v IH]; intros k; [reflexivity|]. cbn. now rewrite IH. }
    unfold im_values. clear - Cn. induction (fc_b (sc_fc sc)) as [|[k v] mp IH]; [reflexivity|]. cbn [map concat fst snd].
    rewrite !app_length, IH. now rewrite Cn.
  - intros c Hs Hse.
    destruct (same_rows_recorded R (after l (sc_fc sc)) P Ur (keys_after _ _ U) (conj S1 (conj S2 S3)) c Hs Hse)
      as (c' & G1 & G2 & G3 & G4 & G5).
    rewrite Sl in G2. destruct (Tell c' G1 G2) as (ev & sp & C1 & C2 & C3 & C4). exists ev, sp. split; [exact C1|].
    split; [now rewrite G5|]. split; [now rewrite G4|]. congruence.
Qed.

Lemma rows_tell : forall e n path ism t items t' sc,
  program_items t = Some items -> clean t = true -> forallb (good true) items = true ->
  forallb item items = true -> forallb exact items = true -> NoDup (map fst (flat_map sites items)) ->
  covered_program (e_report_logic e) t = true ->
  instrument e n path ism t = Ok (t', sc) -> e_report_logic e = false ->
  forall l log, told t t' l log ->
  ((forall ev, N.of_nat (count_occ event_dec log ev) < u32_mod) ->
   forall c v, recorded (after l (sc_fc sc)) c = Some v -> v < u32_mod) /\
  forall R, same_rows R (after l (sc_fc sc)) -> OxideMerge.plain R -> unique_keys R ->
    length (fc_s R) = length (fc_statement_map (sc_fc sc)) /\ length (fc_f R) = length (fc_fn_map (sc_fc sc)) /\
    length (concat (im_values (fc_b R))) = length (concat (im_values (fc_b (sc_fc sc)))) /\
    forall c, seen c = true -> slot_exists R c = true -> exists ev, tells e items log R c ev.
Proof.
  intros e n path ism t items t' sc Hi Hcl Hg Hit Hx Hnd Hcov H Hr l log B.
  destruct (rows_tell_for e n path ism t items t' sc Hi Hcl Hg Hit Hx Hnd Hcov H l log) as [A C].
  { intros c ev Hc. apply B. intros h. apply Hc. congruence. }
  split; [|intros R Sr (_ & P & _); now apply C]. intros Hb c v Hv. destruct (seen c) eqn:Hs; [now apply (A Hb c v)|].
  destruct (produced_zeroed e n path ism t items t' sc Hi H) as (_ & _ & _ & Bt).
  destruct c; try discriminate. cbn [recorded after fc_b_t] in Hv. rewrite (Bt Hr) in Hv. discriminate.
Qed.

(** The merged record of any number of runs tells how often everything happened in all the runs together. *)
Theorem merged_runs_tell_partial : forall e n path ism t items t' sc gcv,
  program_items t = Some items -> clean t = true -> forallb (good true) items = true ->
  forallb item items = true -> forallb exact items = true -> NoDup (map fst (flat_map sites items)) ->
  covered_program (e_report_logic e) t = true -> Forall DataObject.plain (idents t) ->
  instrument e n path ism t = Ok (t', sc) -> e_report_logic e = false -> locs_unique (sc_fc sc) ->
  forall m log0 r0 logs rs, ran t t' sc gcv path log0 r0 -> Forall2 (ran t t' sc gcv path) logs rs ->
  (forall ev, N.of_nat (count_occ event_dec (concat (log0 :: logs)) ev) < u32_mod) ->
  exists R, fold_res (fc_merge m) r0 rs = Ok R /\ locs_unique R /\ unique_keys R /\ tables_ok R /\
    length (fc_s R) = length (fc_statement_map (sc_fc sc)) /\ length (fc_f R) = length (fc_fn_map (sc_fc sc)) /\
    length (concat (im_values (fc_b R))) = length (concat (im_values (fc_b (sc_fc sc)))) /\
    forall c, seen c = true -> slot_exists R c = true -> exists ev, tells e items (concat (log0 :: logs)) R c ev.
Proof.
  intros e n path ism t items t' sc gcv Hi Hcl Hg Hit Hx Hnd Hcov Hp H Hr Hl m log0 r0 logs rs R0 Rs Hb.
  destruct (rans_counted e n path ism t items t' sc gcv Hi Hp H (log0 :: logs) (r0 :: rs) (Forall2_cons _ _ R0 Rs)) as (ls & A & B).
  inversion A as [|l0 ? ls' ? D Ds]; subst. clear A.
  destruct (produced_zeroed e n path ism t items t' sc Hi H) as (Z & Tk & Al & Bt).
  pose proof (produced_unique_keys e n path ism t items t' sc Hi H) as U.
  assert (Pl : OxideMerge.plain (sc_fc sc)) by (repeat (split; [assumption|]); auto).
  destruct (rows_tell e n path ism t items t' sc Hi Hcl Hg Hit Hx Hnd Hcov H Hr (concat (l0 :: ls')) (concat (log0 :: logs))) as [Fit Tell].
  { intros c ev Hc. now apply (like_counts t t'). }
  destruct (merge_runs m (sc_fc sc) Pl U Z l0 ls' r0 rs D Ds (Fit Hb)) as (R & E & Sr & P & Ur).
  exists R. split; [exact E|]. pose proof P as (_ & Pt & Pu & _). do 3 (split; [assumption|]). now apply Tell.
Qed.

(** The report over any number of runs: covered is exactly what was reached in at least one of them. *)
Theorem merged_report_partial : forall e n path ism t items t' sc gcv,
  program_items t = Some items -> clean t = true -> forallb (good true) items = true ->
  forallb item items = true -> forallb exact items = true -> NoDup (map fst (flat_map sites items)) ->
  covered_program (e_report_logic e) t = true -> Forall DataObject.plain (idents t) ->
  instrument e n path ism t = Ok (t', sc) -> e_report_logic e = false -> locs_unique (sc_fc sc) ->
  N.of_nat (length (concat (im_values (fc_b (sc_fc sc))))) < u32_mod ->
  forall m log0 r0 logs rs, ran t t' sc gcv path log0 r0 -> Forall2 (ran t t' sc gcv path) logs rs ->
  let log := concat (log0 :: logs) in
  (forall ev, N.of_nat (count_occ event_dec log ev) < u32_mod) ->
  exists R s ls evS evF evB,
    fold_res (fc_merge m) r0 rs = Ok R /\ to_summary m R = Ok s /\ get_uncovered_lines R = Ok ls /\
    length evS = length (fc_statement_map (sc_fc sc)) /\ length evF = length (fc_fn_map (sc_fc sc)) /\
    length evB = length (concat (im_values (fc_b (sc_fc sc)))) /\
    Forall2 (fun p ev => tells e items log R (fst p) ev) (stmts_of R) evS /\
    Forall2 (fun p ev => tells e items log R (fst p) ev) (fns_of R) evF /\
    Forall2 (fun p ev => tells e items log R (fst p) ev) (paths (fc_b R)) evB /\
    cs_statements s = spec_totals (N.of_nat (length evS)) (reached log evS) /\
    cs_functions s = spec_totals (N.of_nat (length evF)) (reached log evF) /\
    cs_branches s = spec_totals (N.of_nat (length evB)) (reached log evB) /\
    (forall l, In l ls <->
       (exists k rg, im_get k (fc_statement_map R) = Some rg /\ im_get k (fc_s R) <> None /\ line (rstart rg) = l) /\
       (forall k rg ev, im_get k (fc_statement_map R) = Some rg -> line (rstart rg) = l ->
          tells e items log R (CS k) ev -> happened log ev = false)).
Proof.
  intros e n path ism t items t' sc gcv Hi Hcl Hg Hit Hx Hnd Hcov Hp H Hr Hl Hlen m log0 r0 logs rs R0 Rs log Hb.
  destruct (merged_runs_tell_partial e n path ism t items t' sc gcv Hi Hcl Hg Hit Hx Hnd Hcov Hp H Hr Hl m log0 r0 logs rs R0 Rs Hb)
    as (R & E & Lu & Uk & (Tk & Tk2 & Tk3) & L1 & L2 & L3 & T). fold log in T.
  destruct (summary_of_tells e items log R m Uk Tk) as (s & ls & evS & evF & evB & A1 & A2 & A3 & A4 & A5 & A6).
  - now rewrite L3.
  - intros bt Eb. exfalso. destruct (rans_counted e n path ism t items t' sc gcv Hi Hp H (log0 :: logs) (r0 :: rs) (Forall2_cons _ _ R0 Rs)) as (lz & A & _).
    destruct (produced_zeroed e n path ism t items t' sc Hi H) as (_ & _ & _ & B0). specialize (B0 Hr).
    assert (K : Forall (fun r => fc_b_t r = None) (r0 :: rs)).
    { clear - A B0. remember (r0 :: rs) as q. clear Heqq. induction A as [|x y l l' D _ IH]; constructor; auto.
      destruct D as (_ & _ & _ & _ & _ & _ & _ & _ & D & _). cbn [after fc_b_t] in D. rewrite B0 in D.
      destruct (fc_b_t y); [contradiction|reflexivity]. }
    apply Forall_cons_iff in K as [K0 K]. clear - E Eb K0 K.
    revert r0 E K0. induction K as [|r rs Kr _ IH]; intros r0 E K0; cbn [fold_res] in E; [congruence|].
    destruct (fc_merge m r0 r) as [x| |] eqn:Em; try discriminate. apply (IH x E).
    unfold fc_merge in Em. destruct (fc_all r); [congruence|]. destruct (fc_all r0); [congruence|].
    apply bind_ok in Em as ((? & ?) & _ & Em). apply bind_ok in Em as ((? & ?) & _ & Em). apply bind_ok in Em as ((? & ?) & _ & Em).
    rewrite K0 in Em. cbn in Em. injection Em as <-. reflexivity.
  - exact T.
  - exists R, s, ls, evS, evF, evB. do 3 (split; [assumption|]).
    assert (FL : forall (P : counter * N -> event -> Prop) l0 l1, Forall2 P l0 l1 -> length l1 = length l0).
    { intros P l0 l1 F. induction F; cbn; congruence. }
    split; [rewrite (FL _ _ _ A3); unfold stmts_of; now rewrite map_length|].
    split; [rewrite (FL _ _ _ A4); unfold fns_of; now rewrite map_length|].
    split; [rewrite (FL _ _ _ A5), <- L3, <- paths_values; now rewrite map_length|].
    now repeat (split; [assumption|]).
Qed.

(** ** Examples *)
Lemma occurrences_le ev (l : list event) : N.of_nat (count_occ event_dec l ev) <= N.of_nat (length l).
Proof. pose proof (count_occ_bound event_dec ev l). lia. Qed.

Ltac events_nodup := match goal with |- NoDup ?l => replace l with (nodup event_dec l) by (vm_compute; reflexivity); apply NoDup_nodup end.

Lemma concat_two (a b : list event) : concat [a; b] = a ++ b.
Proof. cbn [concat]. now rewrite app_nil_r. Qed.
Definition count_log (n : nat) : list event := evs pure_toy (snd (run_program pure_toy n ex_count tt w0)).
Lemma count_locs_unique t' sc : instrument line_env 60 "f.js" None ex_count = Ok (t', sc) -> locs_unique (sc_fc sc).
Proof. intros H. vm_compute in H. injection H as _ <-. repeat split; apply nodupb_ok; vm_compute; reflexivity. Qed.
Lemma count_logs_small ev : N.of_nat (count_occ event_dec (concat [count_log 9; count_log 1]) ev) < u32_mod.
Proof. refine (N.le_lt_trans _ _ _ (occurrences_le ev _) _). vm_compute. reflexivity. Qed.
Lemma count_ran t' sc n : instrument line_env 60 "f.js" None ex_count = Ok (t', sc) ->
  exists r, ran ex_count t' sc "__coverage__" "f.js" (count_log n) r.
Proof.
  intros H. assert (Pl : Forall DataObject.plain (idents ex_count)) by (vm_compute; repeat constructor).
  destruct (produced_literal line_env 60 "f.js" None ex_count _ t' sc eq_refl H Pl) as [O _].
  set (l := cnt _ (snd (run_program pure_toy n t' tt w0))).
  destruct (one_file_ok (emitted_for "__coverage__" "f.js" (sc_fc sc)) l) as (V & L & I0 & T).
  destruct (published_record (one_file (emitted_for "__coverage__" "f.js" (sc_fc sc)) l) V) as (st & R & P).
  { rewrite L. repeat constructor. intros []. }
  { rewrite L. constructor; [|constructor]. exists (sc_fc sc). apply O. }
  destruct (P 0%nat (emitted_for "__coverage__" "f.js" (sc_fc sc)) (sc_fc sc)) as (a & j & r & P1 & P2 & P3 & _).
  { now rewrite L. } { apply O. } { exact T. }
  exists r, pure_toy, n, tt, w0, (one_file (emitted_for "__coverage__" "f.js" (sc_fc sc)) l), 0%nat, st, a, j.
  split; [reflexivity|]. split; [exact V|]. split. { rewrite L. repeat constructor. intros []. }
  split. { rewrite L. constructor; [|constructor]. exists (sc_fc sc). apply O. }
  split; [now rewrite L|]. split; [exact T|]. split; [now rewrite I0|]. auto.
Qed.

(** The program of [report_ex] runs to the end in one process and runs out of stack in another one: the theorem
    applies, and the merged report is the one of the longer run, with the numbers of both. *)
Definition count_after (n : nat) (t' : node) (sc : source_cov) : file_coverage :=
  after (cnt pure_toy (snd (run_program pure_toy n t' tt w0))) (sc_fc sc).
Example merged_ex : forall t' sc, instrument line_env 60 "f.js" None ex_count = Ok (t', sc) ->
  exists r0 r1 R, ran ex_count t' sc "__coverage__" "f.js" (count_log 9) r0 /\
    ran ex_count t' sc "__coverage__" "f.js" (count_log 1) r1 /\ fold_res (fc_merge Debug) r0 [r1] = Ok R /\
    forall c, seen c = true -> slot_exists R c = true ->
      exists items ev, program_items ex_count = Some items /\ tells line_env items (count_log 9 ++ count_log 1) R c ev.
Proof.
  intros t' sc H. assert (Pl : Forall DataObject.plain (idents ex_count)) by (vm_compute; repeat constructor).
  destruct (count_ran t' sc 9%nat H) as (r0 & R0), (count_ran t' sc 1%nat H) as (r1 & R1).
  exists r0, r1.
  destruct (merged_runs_tell_partial line_env 60 "f.js" None ex_count _ t' sc "__coverage__" eq_refl eq_refl eq_refl eq_refl
    eq_refl ltac:(events_nodup) eq_refl Pl H eq_refl) with (m := Debug) (log0 := count_log 9)
    (r0 := r0) (logs := [count_log 1]) (rs := [r1]) as (R & E & _ & _ & _ & _ & _ & _ & Tl).
  - exact (count_locs_unique t' sc H).
  - exact R0.
  - constructor; [exact R1|constructor].
  - exact count_logs_small.
  - exists R. split; [exact R0|]. split; [exact R1|]. split; [exact E|]. intros c Hs Hc. destruct (Tl c Hs Hc) as (ev & Te).
    eexists _, ev. split; [reflexivity|]. now rewrite concat_two in Te.
Qed.
Example merged_numbers_ex :
  match instrument line_env 60 "f.js" None ex_count with
  | Ok (t', sc) =>
      match fc_merge Debug (count_after 9 t' sc) (count_after 1 t' sc) with
      | Ok R => im_values (fc_s R) = [2; 2; 2; 2; 2; 2; 2; 1; 1; 0] /\
          match to_summary Debug R with
          | Ok s => (short (cs_statements s), short (cs_functions s), short (cs_branches s)) = ((10, 9), (2, 1), (6, 4))
          | _ => False
          end
      | _ => False
      end
  | _ => False
  end.
Proof. vm_compute. split; reflexivity. Qed.

Lemma emits_ok (t : node) l : forallb (fun c => if in_dec counter_dec c (counters t) then true else false) l = true ->
  Forall (fun c => In c (counters t)) l.
Proof. rewrite forallb_forall, Forall_forall. intros H c Hc. specialize (H c Hc). destruct (in_dec counter_dec c (counters t)); [auto|discriminate]. Qed.

(** Without unique locations the sum is lost (F2, F6): a tagged template as initialiser is visited twice, so the arrow
    in it has two entries in the function table.  Both counters of a run are 1, but merging two such runs gives 3 and
    not 4 entries of the function. *)
Theorem merged_runs_refuted : exists e t t' sc l R loc,
  instrument e 20 "f.js" None t = Ok (t', sc) /\ Forall (fun c => In c (counters t')) l /\ e_report_logic e = false /\
  fc_merge Debug (after l (sc_fc sc)) (after l (sc_fc sc)) = Ok R /\
  fn_hits R loc <> fn_hits (after l (sc_fc sc)) loc + fn_hits (after l (sc_fc sc)) loc.
Proof.
  destruct (instrument plain_env 20 "f.js" None OneEntry.ex_tagged_init) as [[t' sc]| |] eqn:H; [|vm_compute in H; discriminate..].
  destruct (fc_merge Debug (after [CF 0; CF 1] (sc_fc sc)) (after [CF 0; CF 1] (sc_fc sc))) as [R| |] eqn:HR;
    [|exfalso; vm_compute in H; injection H as <- <-; vm_compute in HR; discriminate..].
  exists plain_env, OneEntry.ex_tagged_init, t', sc, [CF 0; CF 1], R, (range_of plain_env (mkSpan 21 30)).
  split; [exact H|]. vm_compute in H. injection H as <- <-. split; [apply emits_ok; vm_compute; reflexivity|].
  split; [reflexivity|]. split; [exact HR|]. vm_compute in HR. injection HR as <-. vm_compute. discriminate.
Qed.

(** With [reportLogic] the truthiness counters do not add up (F1): [fc_merge] numbers them again from 0, so those of a
    logical expression which is not the first branch are attributed to another branch. *)
Theorem merged_logic_refuted : exists e t t' sc l R loc,
  instrument e 40 "f.js" None t = Ok (t', sc) /\ Forall (fun c => In c (counters t')) l /\ locs_unique (sc_fc sc) /\
  fc_merge Debug (after l (sc_fc sc)) (after l (sc_fc sc)) = Ok R /\
  truth_hits R loc 0 <> truth_hits (after l (sc_fc sc)) loc 0 + truth_hits (after l (sc_fc sc)) loc 0.
Proof.
  destruct (instrument logic_env 40 "f.js" None ex_calls) as [[t' sc]| |] eqn:H; [|vm_compute in H; discriminate..].
  destruct (fc_merge Debug (after [CT 1 0] (sc_fc sc)) (after [CT 1 0] (sc_fc sc))) as [R| |] eqn:HR;
    [|exfalso; vm_compute in H; injection H as <- <-; vm_compute in HR; discriminate..].
  exists logic_env, ex_calls, t', sc, [CT 1 0], R, (range_of logic_env (mkSpan 41 42)).
  split; [exact H|]. vm_compute in H. injection H as <- <-. split; [apply emits_ok; vm_compute; reflexivity|].
  split; [repeat split; apply nodupb_ok; vm_compute; reflexivity|].
  split; [exact HR|]. vm_compute in HR. injection HR as <-. vm_compute. discriminate.
Qed.
