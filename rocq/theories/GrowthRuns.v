(** One more run of a program never lowers a figure of its report (see [Growth.v]). *)
From Coq Require Import Reals.
From Coq Require Import NArith String List Bool Lia PeanoNat Permutation.
Import ListNotations.
From Verif Require Import FloatR Percent.
From Verif Require Import Base IndexMap Decimal Oxide OxideSpec OxideMergeProofs OxideMerge OxideViews SourceCov SourceCovProofs
  Hints Ast Visitor VisitorEx CountingRoot Json CovJson DataObject Template Runtime Produced Report Sem SemProps Accurate EndToEnd Runs Growth.
Open Scope string_scope. Open Scope list_scope. Open Scope N_scope.

Lemma more_counted : forall g l l' v i j, nth j (FixtureRun.counted g l i v) 0 <= nth j (FixtureRun.counted g (l ++ l') i v) 0.
Proof.
  intros g l l' v. induction v as [|x v IH]; intros i j; [reflexivity|]. destruct j as [|j]; cbn [FixtureRun.counted nth]; [|apply IH].
  rewrite hitn_app. lia.
Qed.
Section More.
Variable fc : file_coverage.
Variables l l' : list counter.
Variables R R' : file_coverage.
Hypothesis HR : same_rows R (after l fc).
Hypothesis HR' : same_rows R' (after (l ++ l') fc).
Lemma more_stmts : forall p h t, In (p, (h, t)) (stmt_rows R) -> exists h', In (p, (h', t)) (stmt_rows R') /\ h <= h'.
Proof.
  destruct HR as (P & _), HR' as (P' & _). destruct (rows_after l fc) as (E & _), (rows_after (l ++ l') fc) as (E' & _).
  rewrite E in P. rewrite E' in P'. intros p h t I. apply (Permutation_in _ P) in I. apply in_map_iff in I as (x & Ex & I).
  unfold row_of in Ex. injection Ex as <- <- <-. exists (gs (l ++ l') (fst (fst x)) (snd (fst x))). split.
  - apply (Permutation_in _ (Permutation_sym P')). apply in_map_iff. exists x. now split.
  - unfold gs. rewrite hitn_app. lia.
Qed.
Lemma more_fns : forall p h t, In (p, (h, t)) (fn_rows R) -> exists h', In (p, (h', t)) (fn_rows R') /\ h <= h'.
Proof.
  destruct HR as (_ & P & _), HR' as (_ & P' & _). destruct (rows_after l fc) as (_ & E & _), (rows_after (l ++ l') fc) as (_ & E' & _).
  rewrite E in P. rewrite E' in P'. intros p h t I. apply (Permutation_in _ P) in I. apply in_map_iff in I as (x & Ex & I).
  unfold row_of in Ex. injection Ex as <- <- <-. exists (gf (l ++ l') (fst (fst x)) (snd (fst x))). split.
  - apply (Permutation_in _ (Permutation_sym P')). apply in_map_iff. exists x. now split.
  - unfold gf. rewrite hitn_app. lia.
Qed.
Lemma counted_length : forall g l i v, length (FixtureRun.counted g l i v) = length v.
Proof. intros g q i v. revert i. induction v as [|x v IH]; intros i; cbn; auto. Qed.
Lemma more_branches : forall p v t, In (p, (v, t)) (branch_rows R) -> exists v', In (p, (v', t)) (branch_rows R') /\
  length v' = length v /\ forall j, nth j v 0 <= nth j v' 0.
Proof.
  destruct HR as (_ & _ & P), HR' as (_ & _ & P'). destruct (rows_after l fc) as (_ & _ & E), (rows_after (l ++ l') fc) as (_ & _ & E').
  rewrite E in P. rewrite E' in P'. intros p h t I. apply (Permutation_in _ P) in I. apply in_map_iff in I as (x & Ex & I).
  unfold row_of in Ex. injection Ex as <- <- <-. exists (gb (l ++ l') (fst (fst x)) (snd (fst x))). split; [|split].
  - apply (Permutation_in _ (Permutation_sym P')). apply in_map_iff. exists x. now split.
  - unfold gb. now rewrite !counted_length.
  - intros j. unfold gb. apply more_counted.
Qed.
Lemma row_counts : length (stmt_rows R') = length (stmt_rows R) /\ length (fn_rows R') = length (fn_rows R) /\
  length (Growth.paths (branch_rows R')) = length (Growth.paths (branch_rows R)).
Proof.
  destruct HR as (P1 & P2 & P3), HR' as (P1' & P2' & P3').
  destruct (rows_after l fc) as (E1 & E2 & E3), (rows_after (l ++ l') fc) as (E1' & E2' & E3').
  rewrite (Permutation_length P1), (Permutation_length P1'), (Permutation_length P2), (Permutation_length P2'), E1, E1', E2, E2', !map_length.
  do 2 (split; [reflexivity|]).
  assert (Q : forall T (a b : list (range * (list N * T))), Permutation a b -> length (Growth.paths a) = length (Growth.paths b)).
  { intros T a b P. unfold Growth.paths. induction P as [|x a b P IH|x y a|a b c _ IH1 _ IH2]; cbn [flat_map]; rewrite ?app_length; lia. }
  rewrite (Q _ _ _ P3), (Q _ _ _ P3'), E3, E3'. clear. unfold Growth.paths. induction (xb fc) as [|x X IH]; [reflexivity|].
  cbn [map flat_map]. rewrite !app_length, !map_length, IH. f_equal. rewrite !seq_length. unfold row_of. cbn [fst snd].
  unfold gb. now rewrite !counted_length.
Qed.
Hypothesis PR : OxideMerge.plain R.
Lemma more_more : same_more R R'.
Proof.
  destruct row_counts as (C1 & C2 & C3). pose proof PR as (_ & _ & (U1 & U2 & U3) & _).
  assert (GS : grows (flat (stmt_rows R)) (flat (stmt_rows R'))).
  { intros p h I. apply flat_in in I as (t & I). destruct (more_stmts p h t I) as (h' & J & L). exists h'.
    split; [apply flat_in; now exists t|lia]. }
  assert (GF : grows (flat (fn_rows R)) (flat (fn_rows R'))).
  { intros p h I. apply flat_in in I as (t & I). destruct (more_fns p h t I) as (h' & J & L). exists h'.
    split; [apply flat_in; now exists t|lia]. }
  assert (GB : grows (Growth.paths (branch_rows R)) (Growth.paths (branch_rows R'))).
  { intros [p j] h I. apply Growth.paths_in in I as (v & t & I & L & ->). destruct (more_branches p v t I) as (v' & J & E & Q).
    exists (nth j v' 0). split; [apply Growth.paths_in; exists v', t; split; [exact J|split; [lia|reflexivity]]|]. specialize (Q j). lia. }
  assert (GL : grows (spec_line_coverage R) (spec_line_coverage R')).
  { intros p h I. apply lines_in in I as (([q [h0 t]] & I & E) & ->). destruct (more_stmts q h0 t I) as (h' & J & L).
    eexists. split; [apply lines_in; split; [now exists (q, (h', t))|reflexivity]|]. rewrite !line_max.
    intros ([q2 [h2 t2]] & I2 & E2 & Z2). destruct (more_stmts q2 h2 t2 I2) as (h3 & J3 & L3). exists (q2, (h3, t2)).
    split; [exact J3|]. split; [exact E2|]. cbn [fst snd] in *. lia. }
  assert (L : forall T (X : list (range * (N * T))), length (flat X) = length X) by (intros; unfold flat; now rewrite map_length).
  split; [split|split; [split|split; [split|split]]].
  - (* the same lines *)
    apply Nat.le_antisymm; [|now apply grows_counts in GL; [|apply lines_nodup]].
    rewrite <- (map_length fst (spec_line_coverage R)), <- (map_length fst (spec_line_coverage R')).
    apply NoDup_incl_length; [apply lines_nodup|]. intros p I. apply in_map_iff in I as ([p' h] & <- & I).
    apply lines_in in I as (([q [h' t]] & I & E) & _). cbn [fst snd] in *.
    assert (J : exists h0, In (q, (h0, t)) (stmt_rows R)).
    { destruct HR as (P & _), HR' as (P' & _). destruct (rows_after l fc) as (E1 & _), (rows_after (l ++ l') fc) as (E1' & _).
      rewrite E1 in P. rewrite E1' in P'. apply (Permutation_in _ P') in I. apply in_map_iff in I as (x & Ex & I).
      unfold row_of in Ex. injection Ex as <- <- <-. eexists. apply (Permutation_in _ (Permutation_sym P)). apply in_map_iff. exists x.
      split; [reflexivity|exact I]. }
    destruct J as (h0 & J). apply in_map_iff. exists (p', maxN (vals_of p' (line_rows R))). split; [reflexivity|].
    apply lines_in. split; [|reflexivity]. now exists (q, (h0, t)).
  - apply grows_counts; [apply lines_nodup|exact GL].
  - now rewrite !L.
  - apply grows_counts; [now rewrite flat_locs|exact GS].
  - now rewrite !L.
  - apply grows_counts; [now rewrite flat_locs|exact GF].
  - exact C3.
  - apply grows_counts; [now apply paths_nodup|exact GB].
Qed.
End More.

(** The merge of the records [r0], [rs] of some runs and the merge that takes in the record [r] of one more *)
Lemma more_runs : forall m fc, OxideMerge.plain fc -> unique_keys fc -> zeroed fc -> few_paths fc ->
  forall l0 ls l r0 rs r, same_data r0 (after l0 fc) -> Forall2 (fun l r => same_data r (after l fc)) ls rs -> same_data r (after l fc) ->
  (forall c v, recorded (after (concat (l0 :: ls) ++ l) fc) c = Some v -> v < u32_mod) ->
  exists R R' s s', fold_res (fc_merge m) r0 rs = Ok R /\ fold_res (fc_merge m) r0 (rs ++ [r]) = Ok R' /\
  to_summary m R = Ok s /\ to_summary m R' = Ok s' /\
  forall f, In f figures -> t_total (f s') = t_total (f s) /\ t_covered (f s) <= t_covered (f s') /\
  exists x y, t_pct (f s) = PValue x /\ t_pct (f s') = PValue y /\ (val32 x <= val32 y)%R.
Proof.
  intros m fc Pl U Z Hf l0 ls l r0 rs r D0 Ds D Fit. pose proof Pl as (Al & Tk & Hu & Bt).
  assert (Cc : concat (l0 :: (ls ++ [l])) = concat (l0 :: ls) ++ l).
  { cbn [concat]. rewrite concat_app. cbn [concat]. now rewrite app_nil_r, app_assoc. }
  destruct (merge_runs m fc Pl U Z l0 (ls ++ [l]) r0 (rs ++ [r]) D0) as (R' & E' & S' & P' & _).
  { apply Forall2_app; [exact Ds|]. now constructor. }
  { rewrite Cc. exact Fit. }
  destruct (inv_fold fc Al Bt U Tk Hu Z m ls rs Ds r0 l0 (inv_start fc Al Bt U Tk Hu r0 l0 D0)) as (R & E & S & P & _).
  { eapply (fits_prefix fc) with (l' := l); try eassumption. apply (fits_recorded fc U Hu). exact Fit. }
  rewrite Cc in S'. change (l0 ++ concat ls) with (concat (l0 :: ls)) in S.
  pose proof (more_more fc (concat (l0 :: ls)) l R R' S S' P) as M.
  assert (Fr : few_paths R').
  { pose proof P' as (_ & T' & _). unfold few_paths in *. rewrite few_places in * by assumption.
    assert (S0 : same_rows fc (after [] fc)).
    { destruct (rows_after [] fc) as (Q1 & Q2 & Q3). unfold same_rows. rewrite Q1, Q2, Q3.
      assert (K : forall T (X : list (@krow T N)), map (row_of (gs [])) X = map (row_of (fun _ v => v)) X).
      { intros T X. apply map_ext. intros x. unfold row_of, gs. cbn. now rewrite N.add_0_r. }
      assert (K2 : forall T (X : list (@krow T N)), map (row_of (gf [])) X = map (row_of (fun _ v => v)) X).
      { intros T X. apply map_ext. intros x. unfold row_of, gf. cbn. now rewrite N.add_0_r. }
      assert (K3 : forall T (X : list (@krow T (list N))), map (row_of (gb [])) X = map (row_of (fun _ v => v)) X).
      { intros T X. apply map_ext. intros x. unfold row_of, gb. do 3 f_equal. generalize 0. 
        induction (snd (fst x)) as [|y v IH]; intros i; [reflexivity|]. cbn [FixtureRun.counted]. rewrite IH. f_equal. cbn. now rewrite N.add_0_r. }
      rewrite K, K2, K3. unfold xs, xf, xb. rewrite <- !rows_mapped.
      assert (Id : forall H (m0 : imap N H), map (fun kv => (fst kv, snd kv)) m0 = m0).
      { intros A m0. rewrite <- (map_id m0) at 2. apply map_ext. now intros []. }
      rewrite !Id. repeat split; apply Permutation_refl. }
    destruct (row_counts fc [] (concat (l0 :: ls) ++ l) fc R' S0 S') as (_ & _ & Q). now rewrite Q. }
  destruct (percentages_grow m R R' P P' Fr M) as (s & s' & E1 & E2 & G). exists R, R', s, s'. auto.
Qed.

(** [r0], [rs] and [r] hold what the initial record holds after some increments each; then the report that takes [r] in
    as well has the same totals as the one without, and no percentage is lower. *)
Theorem one_more_run : forall e n path ism t items t' sc, program_items t = Some items ->
  instrument e n path ism t = Ok (t', sc) -> e_report_logic e = false -> locs_unique (sc_fc sc) -> few_paths (sc_fc sc) ->
  forall m l0 ls l r0 rs r, same_data r0 (after l0 (sc_fc sc)) -> Forall2 (fun l r => same_data r (after l (sc_fc sc))) ls rs ->
  same_data r (after l (sc_fc sc)) ->
  (forall c v, recorded (after (concat (l0 :: ls) ++ l) (sc_fc sc)) c = Some v -> v < u32_mod) ->
  exists R R' s s', fold_res (fc_merge m) r0 rs = Ok R /\ fold_res (fc_merge m) r0 (rs ++ [r]) = Ok R' /\
  to_summary m R = Ok s /\ to_summary m R' = Ok s' /\
  forall f, In f figures -> t_total (f s') = t_total (f s) /\ t_covered (f s) <= t_covered (f s') /\
  exists x y, t_pct (f s) = PValue x /\ t_pct (f s') = PValue y /\ (val32 x <= val32 y)%R.
Proof.
  intros e n path ism t items t' sc Hi H Hl Hu Hf m l0 ls l r0 rs r.
  destruct (produced_zeroed e n path ism t items t' sc Hi H) as (Z & Tk & Al & Bt).
  apply (more_runs m (sc_fc sc) (conj Al (conj Tk (conj Hu (Bt Hl)))) (produced_unique_keys e n path ism t items t' sc Hi H) Z Hf).
Qed.

(** ** Example *)
Lemma short_log : forall l fc, zeroed fc -> fc_b_t fc = None -> N.of_nat (length l) < u32_mod ->
  forall c v, recorded (after l fc) c = Some v -> v < u32_mod.
Proof.
  intros l fc (Z1 & Z2 & Z3) B L c v E. rewrite recorded_after in E. rewrite Forall_forall in Z1, Z2, Z3.
  assert (Q : hitn l c <= N.of_nat (length l)). { unfold FixtureRun.hits. pose proof (filter_length_le _ (FixtureRun.same_counter c) l). lia. }
  assert (G : forall V (m : imap N V) k x, im_get k m = Some x -> In (k, x) m).
  { intros V m k x. induction m as [|[k' x'] m IH]; [discriminate|]. cbn. destruct (N.eqb_spec k k') as [->|].
    - intros Ex. injection Ex as ->. now left.
    - intros Ex. right. now apply IH. }
  destruct (recorded fc c) as [u|] eqn:R; [|discriminate]. cbn in E. injection E as <-. enough (u = 0) by lia.
  destruct c as [i|i|b i|b i]; cbn [recorded] in R.
  - exact (Z1 _ (G _ _ _ _ R)).
  - exact (Z2 _ (G _ _ _ _ R)).
  - destruct (im_get b (fc_b fc)) as [v|] eqn:Eb; [|discriminate]. apply nth_error_In in R. specialize (Z3 _ (G _ _ _ _ Eb)). cbn [snd] in Z3.
    rewrite Forall_forall in Z3. now apply Z3.
  - rewrite B in R. discriminate.
Qed.
Definition count_increments (n : nat) (t' : node) : list counter := Sem.cnt pure_toy (snd (Sem.run_program pure_toy n t' tt w0)).
Definition shares (s : coverage_summary) : list (N * N) := map (fun f => (t_covered (f s), t_total (f s))) figures.
Lemma more_numbers : forall t' sc, instrument line_env 60 "f.js" None ex_count = Ok (t', sc) ->
  (N.of_nat (length (concat [count_increments 1 t'] ++ count_increments 9 t')) < u32_mod /\ few_paths (sc_fc sc)) /\
  match to_summary Debug (after (count_increments 1 t') (sc_fc sc)),
        fold_res (fc_merge Debug) (after (count_increments 1 t') (sc_fc sc)) [after (count_increments 9 t') (sc_fc sc)] with
  | Ok s, Ok R => match to_summary Debug R with Ok s' => (shares s, shares s') | _ => ([], []) end
  | _, _ => ([], [])
  end = ([(1, 9); (1, 10); (0, 2); (0, 6)], [(8, 9); (9, 10); (1, 2); (4, 6)]).
Proof.
  intros t' sc H. vm_compute in H. injection H as <- <-. split; [split; vm_compute; reflexivity|]. vm_compute. reflexivity.
Qed.
Lemma same_data_self : forall fc, same_data fc fc.
Proof.
  intros fc. unfold same_data. do 8 (split; [auto using Permutation_refl|]). split; [|auto]. now destruct (fc_b_t fc).
Qed.
(** A run that ends early and then a complete one: [one_more_run] applies, and the figures go up. *)
Example one_more_ex : forall t' sc, instrument line_env 60 "f.js" None ex_count = Ok (t', sc) ->
  exists R s s', fold_res (fc_merge Debug) (after (count_increments 1 t') (sc_fc sc)) [after (count_increments 9 t') (sc_fc sc)] = Ok R /\
  to_summary Debug (after (count_increments 1 t') (sc_fc sc)) = Ok s /\ to_summary Debug R = Ok s' /\
  shares s = [(1, 9); (1, 10); (0, 2); (0, 6)] /\ shares s' = [(8, 9); (9, 10); (1, 2); (4, 6)] /\
  forall f, In f figures -> exists x y, t_pct (f s) = PValue x /\ t_pct (f s') = PValue y /\ (val32 x <= val32 y)%R.
Proof.
  intros t' sc H. destruct (more_numbers t' sc H) as ((L & F) & Nm).
  destruct (produced_zeroed line_env 60 "f.js" None ex_count _ t' sc eq_refl H) as (Z & _ & _ & Bt). specialize (Bt eq_refl).
  destruct (one_more_run line_env 60 "f.js" None ex_count _ t' sc eq_refl H eq_refl (count_locs_unique t' sc H) F Debug
    (count_increments 1 t') [] (count_increments 9 t') _ [] _ (same_data_self _) (Forall2_nil _) (same_data_self _)
    (short_log _ _ Z Bt L)) as (R & R' & s & s' & E1 & E2 & E3 & E4 & G).
  cbn [fold_res] in E1. injection E1 as <-. cbn [app] in E2. rewrite E2, E3, E4 in Nm.
  exists R', s, s'. do 3 (split; [assumption|]). split; [exact (f_equal fst Nm)|]. split; [exact (f_equal snd Nm)|].
  intros f I. destruct (G f I) as (_ & _ & X). exact X.
Qed.
