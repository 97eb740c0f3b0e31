(** With [reportLogic] one more run never lowers a figure either (see [Growth.v], [GrowthRuns.v] and [LogicReport.v]). *)
From Coq Require Import Reals.
From Coq Require Import NArith String List Bool Lia PeanoNat Permutation.
Import ListNotations.
From Verif Require Import FloatR Percent.
From Verif Require Import Base IndexMap Decimal Oxide OxideSpec OxideMergeProofs OxideMerge OxideViews SourceCov SourceCovProofs
  Hints Ast Visitor VisitorEx CountingRoot Json CovJson DataObject Template Runtime Produced Report Sem SemProps Account Accurate EndToEnd Runs
  Project LogicReport LogicModes Growth GrowthRuns.
Open Scope string_scope. Open Scope list_scope. Open Scope N_scope.

Lemma figures_without : forall f s, In f figures -> f (no_truth s) = f s.
Proof. intros f s I. destruct I as [<-|[<-|[<-|[<-|[]]]]]; reflexivity. Qed.
Lemma few_without : forall fc, few_paths fc -> few_paths (without fc).
Proof. intros fc H. exact H. Qed.
Lemma fold_without : forall m rs a R, fold_res (fc_merge m) a rs = Ok R ->
  fold_res (fc_merge m) (without a) (map without rs) = Ok (without R).
Proof.
  intros m rs. induction rs as [|r rs IH]; intros a R H; cbn [fold_res map] in *; [now injection H as <-|].
  destruct (fc_merge m a r) as [a'| |] eqn:E; cbn [bind] in H; try discriminate.
  rewrite (merge_without _ _ _ _ E). cbn [bind]. now apply IH.
Qed.

(** [merge_never_lowers] for records with truthiness counters: whenever the merge and the summaries can be computed *)
Theorem logic_merge_never_lowers : forall m a b r sa sb sr, OxideMerge.plain (without a) -> OxideMerge.plain (without b) ->
  merge_fits (without a) (without b) -> fc_merge m a b = Ok r -> few_paths r ->
  to_summary m a = Ok sa -> to_summary m b = Ok sb -> to_summary m r = Ok sr ->
  forall f, In f figures ->
    t_covered (f sa) <= t_covered (f sr) /\ t_covered (f sb) <= t_covered (f sr) /\
    t_covered (f sr) <= t_covered (f sa) + t_covered (f sb) /\
    t_total (f sa) <= t_total (f sr) /\ t_total (f sb) <= t_total (f sr) /\ t_total (f sr) <= t_total (f sa) + t_total (f sb).
Proof.
  intros m a b r sa sb sr Pa Pb F H Fr Ha Hb Hr f I.
  destruct (merge_never_lowers m _ _ _ Pa Pb F (merge_without _ _ _ _ H) (few_without r Fr)) as (ta & tb & tr & Ea & Eb & Er & G).
  apply summary_without in Ha, Hb, Hr. rewrite Ha in Ea. rewrite Hb in Eb. rewrite Hr in Er. injection Ea as <-. injection Eb as <-. injection Er as <-.
  specialize (G f I). rewrite !(figures_without f) in G by assumption. exact G.
Qed.
(** [merge_percentages] for records with truthiness counters *)
Theorem logic_merge_percentages : forall m a b r sa sr, OxideMerge.plain (without a) -> OxideMerge.plain (without b) ->
  merge_fits (without a) (without b) -> known a b -> fc_merge m a b = Ok r -> few_paths r -> to_summary m a = Ok sa -> to_summary m r = Ok sr ->
  forall f, In f figures -> t_total (f sr) = t_total (f sa) /\ t_covered (f sa) <= t_covered (f sr) /\
  exists x y, t_pct (f sa) = PValue x /\ t_pct (f sr) = PValue y /\ (val32 x <= val32 y)%R.
Proof.
  intros m a b r sa sr Pa Pb F K H Fr Ha Hr f I.
  pose proof (merge_percentages m (without a) (without b) (without r) (no_truth sa) (no_truth sr) Pa Pb F K (merge_without _ _ _ _ H) (few_without r Fr)
    (summary_without _ _ _ Ha) (summary_without _ _ _ Hr) f I) as G.
  rewrite !(figures_without f) in G by assumption. exact G.
Qed.

(** ** One more run *)
Section Logic.
Variables (e : env) (n : nat) (path : string) (ism : option source_map) (t : node) (items : list node) (t' : node) (sc : source_cov).
Hypothesis Hi : program_items t = Some items.
Hypothesis H : instrument e n path ism t = Ok (t', sc).
Hypothesis Hl : locs_unique (sc_fc sc).
Let fc := sc_fc sc.

Lemma step_plain : OxideMerge.plain (without fc) /\ unique_keys (without fc) /\ zeroed (without fc).
Proof.
  destruct (produced_step e n path ism t items t' sc Hi H Hl) as (A & U & T & L & Z & _). fold fc in A, U, T, L, Z.
  split; [exact (conj A (conj T (conj L eq_refl)))|]. split; [exact (step_unique fc U)|exact Z].
Qed.
Lemma without_recorded : forall l, (forall c v, seen c = true -> recorded (after l fc) c = Some v -> v < u32_mod) ->
  forall c v, recorded (after l (without fc)) c = Some v -> v < u32_mod.
Proof. intros l G c v E. destruct (seen c) eqn:S0; [|destruct c; discriminate]. apply (G c v S0). destruct c; [exact E..|discriminate]. Qed.
Lemma all_without_same : forall ls rs, Forall2 (fun l r => same_data r (after l fc)) ls rs ->
  Forall2 (fun l r => same_data r (after l (without fc))) ls (map without rs).
Proof. intros ls rs F. induction F; constructor; [now apply without_same|assumption]. Qed.

Lemma logic_more : few_paths fc ->
  forall m l0 ls l r0 rs r, same_data r0 (after l0 fc) -> Forall2 (fun l r => same_data r (after l fc)) ls rs -> same_data r (after l fc) ->
  (forall c v, seen c = true -> recorded (after (concat (l0 :: ls) ++ l) fc) c = Some v -> v < u32_mod) ->
  forall R R' s s', fold_res (fc_merge m) r0 rs = Ok R -> fold_res (fc_merge m) r0 (rs ++ [r]) = Ok R' ->
  to_summary m R = Ok s -> to_summary m R' = Ok s' ->
  forall f, In f figures -> t_total (f s') = t_total (f s) /\ t_covered (f s) <= t_covered (f s') /\
  exists x y, t_pct (f s) = PValue x /\ t_pct (f s') = PValue y /\ (val32 x <= val32 y)%R.
Proof.
  intros Hf m l0 ls l r0 rs r D0 Ds D Fit R R' s s' E1 E2 E3 E4 f I. destruct step_plain as (P & U & Z).
  destruct (more_runs m (without fc) P U Z Hf l0 ls l (without r0) (map without rs) (without r) (without_same _ _ _ D0) (all_without_same _ _ Ds)
    (without_same _ _ _ D) (without_recorded _ Fit)) as (Q & Q' & q & q' & A1 & A2 & A3 & A4 & G).
  rewrite (fold_without _ _ _ _ E1) in A1. injection A1 as <-.
  pose proof (fold_without _ _ _ _ E2) as X2. rewrite map_app in X2. cbn [map] in X2. rewrite X2 in A2. injection A2 as <-.
  rewrite (summary_without _ _ _ E3) in A3. injection A3 as <-. rewrite (summary_without _ _ _ E4) in A4. injection A4 as <-.
  specialize (G f I). rewrite !(figures_without f) in G by assumption. exact G.
Qed.

(** In a release build the merge can be computed. *)
Lemma logic_folds : no_gaps fc ->
  forall ls rs, Forall2 (fun l r => same_data r (after l fc)) ls rs -> forall a l, Inv (without fc) (without a) l -> bounded fc a ->
  fits (after (l ++ concat ls) (without fc)) -> exists R, fold_res (fc_merge Release) a rs = Ok R.
Proof.
  intros Hg ls rs F. destruct (produced_step e n path ism t items t' sc Hi H Hl) as (A & U & T & L & Z & B & At). fold fc in A, U, T, L, Z, B, At.
  induction F as [|l1 r1 ls rs D _ IH]; intros a l Ia Ba Hf; [eexists; reflexivity|]. cbn [concat] in Hf. rewrite app_assoc in Hf.
  pose proof (fits_prefix (without fc) A _ _ Hf) as Hp.
  destruct (logic_step fc A U T L Z Hg B At a l r1 l1 Ia Ba D Hp) as (R1 & E1 & B1).
  destruct (inv_merge (without fc) A eq_refl (step_unique fc U) T L Z Release (without a) l (without r1) l1 Ia (without_same _ _ _ D) Hp) as (R0 & E0 & I0).
  rewrite (merge_without _ _ _ _ E1) in E0. injection E0 as <-.
  cbn [fold_res]. rewrite E1. cbn [bind]. exact (IH R1 (l ++ l1) I0 B1 Hf).
Qed.
(** With overflow checks it can if the truthiness counters are few and small. *)
Lemma logic_folds_modes : forall m, no_gaps fc ->
  forall ls rs, Forall2 (fun l r => same_data r (after l fc)) ls rs -> forall a l, Inv (without fc) (without a) l -> bounded fc a ->
  fits (after (l ++ concat ls) (without fc)) -> truth_weight a + sumN (map truth_weight rs) < u32_mod ->
  exists R, fold_res (fc_merge m) a rs = Ok R /\ truth_weight R <= truth_weight a + sumN (map truth_weight rs).
Proof.
  intros m Hg ls rs F. destruct (produced_step e n path ism t items t' sc Hi H Hl) as (A & U & T & L & Z & B & At). fold fc in A, U, T, L, Z, B, At.
  induction F as [|l1 r1 ls rs D _ IH]; intros a l Ia Ba Hf W; cbn [map] in W |- *; rewrite ?sumN_cons in W |- *.
  { exists a. split; [reflexivity|]. change (sumN []) with 0. lia. }
  cbn [concat] in Hf. rewrite app_assoc in Hf. pose proof (fits_prefix (without fc) A _ _ Hf) as Hp.
  destruct (logic_step_modes m fc A U T L Z Hg B At a l r1 l1 Ia Ba D Hp) as (R1 & E1 & B1 & W1); [lia|].
  destruct (inv_merge (without fc) A eq_refl (step_unique fc U) T L Z m (without a) l (without r1) l1 Ia (without_same _ _ _ D) Hp) as (R0 & E0 & I0).
  rewrite (merge_without _ _ _ _ E1) in E0. injection E0 as <-. cbn [fold_res]. rewrite E1. cbn [bind].
  destruct (IH R1 (l ++ l1) I0 B1 Hf) as (R & E & W2); [lia|]. exists R. split; [exact E|lia].
Qed.
End Logic.

(** [one_more_run] with or without [reportLogic], whenever the merges and the summaries can be computed *)
Theorem logic_one_more_run : forall e n path ism t items t' sc, program_items t = Some items ->
  instrument e n path ism t = Ok (t', sc) -> locs_unique (sc_fc sc) -> few_paths (sc_fc sc) ->
  forall m l0 ls l r0 rs r, same_data r0 (after l0 (sc_fc sc)) -> Forall2 (fun l r => same_data r (after l (sc_fc sc))) ls rs ->
  same_data r (after l (sc_fc sc)) ->
  (forall c v, seen c = true -> recorded (after (concat (l0 :: ls) ++ l) (sc_fc sc)) c = Some v -> v < u32_mod) ->
  forall R R' s s', fold_res (fc_merge m) r0 rs = Ok R -> fold_res (fc_merge m) r0 (rs ++ [r]) = Ok R' ->
  to_summary m R = Ok s -> to_summary m R' = Ok s' ->
  forall f, In f figures -> t_total (f s') = t_total (f s) /\ t_covered (f s) <= t_covered (f s') /\
  exists x y, t_pct (f s) = PValue x /\ t_pct (f s') = PValue y /\ (val32 x <= val32 y)%R.
Proof. intros e n path ism t items t' sc Hi H Hl. exact (logic_more e n path ism t items t' sc Hi H Hl). Qed.

(** In a release build they can, if no branch was removed from the record. *)
Theorem logic_one_more_release : forall e n path ism t items t' sc, program_items t = Some items ->
  instrument e n path ism t = Ok (t', sc) -> locs_unique (sc_fc sc) -> few_paths (sc_fc sc) -> no_gaps (sc_fc sc) ->
  forall l0 ls l r0 rs r, same_data r0 (after l0 (sc_fc sc)) -> Forall2 (fun l r => same_data r (after l (sc_fc sc))) ls rs ->
  same_data r (after l (sc_fc sc)) ->
  (forall c v, seen c = true -> recorded (after (concat (l0 :: ls) ++ l) (sc_fc sc)) c = Some v -> v < u32_mod) ->
  exists R R' s s', fold_res (fc_merge Release) r0 rs = Ok R /\ fold_res (fc_merge Release) r0 (rs ++ [r]) = Ok R' /\
  to_summary Release R = Ok s /\ to_summary Release R' = Ok s' /\
  forall f, In f figures -> t_total (f s') = t_total (f s) /\ t_covered (f s) <= t_covered (f s') /\
  exists x y, t_pct (f s) = PValue x /\ t_pct (f s') = PValue y /\ (val32 x <= val32 y)%R.
Proof.
  intros e n path ism t items t' sc Hi H Hl Hf Hg l0 ls l r0 rs r D0 Ds D Fit.
  destruct (produced_step e n path ism t items t' sc Hi H Hl) as (A & U & T & L & Z & B & At).
  destruct (step_plain e n path ism t items t' sc Hi H Hl) as (P & U' & Z').
  assert (I0 : Inv (without (sc_fc sc)) (without r0) l0) by exact (inv_start (without (sc_fc sc)) A eq_refl U' T L (without r0) l0 (without_same _ _ _ D0)).
  assert (B0 : bounded (sc_fc sc) r0).
  { pose proof (truth_keys (sc_fc sc) U T Hg B At r0 l0 D0) as K. unfold bounded. destruct (fc_b_t r0); [apply K|exact I]. }
  assert (F2 : fits (after (l0 ++ concat (ls ++ [l])) (without (sc_fc sc)))).
  { apply (fits_recorded (without (sc_fc sc)) U' L), without_recorded. rewrite concat_app. cbn [concat] in *. rewrite app_nil_r, app_assoc. exact Fit. }
  assert (F1 : fits (after (l0 ++ concat ls) (without (sc_fc sc)))).
  { rewrite concat_app, app_assoc in F2. exact (fits_prefix (without (sc_fc sc)) A _ _ F2). }
  destruct (logic_folds e n path ism t items t' sc Hi H Hl Hg ls rs Ds r0 l0 I0 B0 F1) as (R & E1).
  assert (Ds' : Forall2 (fun l r => same_data r (after l (sc_fc sc))) (ls ++ [l]) (rs ++ [r])).
  { apply Forall2_app; [exact Ds|]. now constructor. }
  destruct (logic_folds e n path ism t items t' sc Hi H Hl Hg _ _ Ds' r0 l0 I0 B0 F2) as (R' & E2).
  destruct (more_runs Release (without (sc_fc sc)) P U' Z' Hf l0 ls l (without r0) (map without rs) (without r) (without_same _ _ _ D0)
    (all_without_same sc _ _ Ds) (without_same _ _ _ D) (without_recorded sc _ Fit)) as (Q & Q' & q & q' & A1 & A2 & A3 & A4 & _).
  rewrite (fold_without _ _ _ _ E1) in A1. injection A1 as <-.
  pose proof (fold_without _ _ _ _ E2) as X2. rewrite map_app in X2. cbn [map] in X2. rewrite X2 in A2. injection A2 as <-.
  destruct (summary_release _ _ _ A3) as (s & E3), (summary_release _ _ _ A4) as (s' & E4).
  exists R, R', s, s'. do 4 (split; [assumption|]).
  exact (logic_more e n path ism t items t' sc Hi H Hl Hf Release l0 ls l r0 rs r D0 Ds D Fit R R' s s' E1 E2 E3 E4).
Qed.

(** In builds with overflow checks too, if the truthiness counters of the records are few and small. *)
Theorem logic_one_more_modes : forall e n path ism t items t' sc, program_items t = Some items ->
  instrument e n path ism t = Ok (t', sc) -> locs_unique (sc_fc sc) -> few_paths (sc_fc sc) -> no_gaps (sc_fc sc) ->
  forall m l0 ls l r0 rs r, same_data r0 (after l0 (sc_fc sc)) -> Forall2 (fun l r => same_data r (after l (sc_fc sc))) ls rs ->
  same_data r (after l (sc_fc sc)) ->
  (forall c v, seen c = true -> recorded (after (concat (l0 :: ls) ++ l) (sc_fc sc)) c = Some v -> v < u32_mod) ->
  truth_weight r0 + sumN (map truth_weight (rs ++ [r])) < u32_mod ->
  exists R R' s s', fold_res (fc_merge m) r0 rs = Ok R /\ fold_res (fc_merge m) r0 (rs ++ [r]) = Ok R' /\
  to_summary m R = Ok s /\ to_summary m R' = Ok s' /\
  forall f, In f figures -> t_total (f s') = t_total (f s) /\ t_covered (f s) <= t_covered (f s') /\
  exists x y, t_pct (f s) = PValue x /\ t_pct (f s') = PValue y /\ (val32 x <= val32 y)%R.
Proof.
  intros e n path ism t items t' sc Hi H Hl Hf Hg m l0 ls l r0 rs r D0 Ds D Fit Wt.
  destruct (produced_step e n path ism t items t' sc Hi H Hl) as (A & U & T & L & Z & B & At).
  destruct (step_plain e n path ism t items t' sc Hi H Hl) as (P & U' & Z').
  assert (I0 : Inv (without (sc_fc sc)) (without r0) l0) by exact (inv_start (without (sc_fc sc)) A eq_refl U' T L (without r0) l0 (without_same _ _ _ D0)).
  assert (B0 : bounded (sc_fc sc) r0).
  { pose proof (truth_keys (sc_fc sc) U T Hg B At r0 l0 D0) as K. unfold bounded. destruct (fc_b_t r0); [apply K|exact I]. }
  assert (F2 : fits (after (l0 ++ concat (ls ++ [l])) (without (sc_fc sc)))).
  { apply (fits_recorded (without (sc_fc sc)) U' L), without_recorded. rewrite concat_app. cbn [concat] in *. rewrite app_nil_r, app_assoc. exact Fit. }
  assert (F1 : fits (after (l0 ++ concat ls) (without (sc_fc sc)))).
  { rewrite concat_app, app_assoc in F2. exact (fits_prefix (without (sc_fc sc)) A _ _ F2). }
  assert (Wt1 : truth_weight r0 + sumN (map truth_weight rs) < u32_mod) by (rewrite map_app, sumN_app in Wt; lia).
  destruct (logic_folds_modes e n path ism t items t' sc Hi H Hl m Hg ls rs Ds r0 l0 I0 B0 F1 Wt1) as (R & E1 & W1).
  assert (Ds' : Forall2 (fun l r => same_data r (after l (sc_fc sc))) (ls ++ [l]) (rs ++ [r])).
  { apply Forall2_app; [exact Ds|]. now constructor. }
  destruct (logic_folds_modes e n path ism t items t' sc Hi H Hl m Hg _ _ Ds' r0 l0 I0 B0 F2 Wt) as (R' & E2 & W2).
  destruct (more_runs m (without (sc_fc sc)) P U' Z' Hf l0 ls l (without r0) (map without rs) (without r) (without_same _ _ _ D0)
    (all_without_same sc _ _ Ds) (without_same _ _ _ D) (without_recorded sc _ Fit)) as (Q & Q' & q & q' & A1 & A2 & A3 & A4 & _).
  rewrite (fold_without _ _ _ _ E1) in A1. injection A1 as <-.
  pose proof (fold_without _ _ _ _ E2) as X2. rewrite map_app in X2. cbn [map] in X2. rewrite X2 in A2. injection A2 as <-.
  destruct (summary_modes _ _ _ A3) as (s & E3 & _); [lia|]. destruct (summary_modes _ _ _ A4) as (s' & E4 & _); [lia|].
  exists R, R', s, s'. do 4 (split; [assumption|]).
  exact (logic_more e n path ism t items t' sc Hi H Hl Hf m l0 ls l r0 rs r D0 Ds D Fit R R' s s' E1 E2 E3 E4).
Qed.

(** ** Example *)
Lemma logic_numbers : forall t' sc, instrument logic_env 40 "f.js" None ex_calls = Ok (t', sc) ->
  (N.of_nat (length (calls_incs 1 (calls_program t' sc) ++ calls_incs 20 (calls_program t' sc))) < u32_mod /\ few_paths (sc_fc sc)) /\
  match to_summary Release (after (calls_incs 1 (calls_program t' sc)) (sc_fc sc)),
        fold_res (fc_merge Release) (after (calls_incs 1 (calls_program t' sc)) (sc_fc sc)) [after (calls_incs 20 (calls_program t' sc)) (sc_fc sc)] with
  | Ok s, Ok R => match to_summary Release R with Ok s' => (shares s, shares s') | _ => ([], []) end
  | _, _ => ([], [])
  end = ([(1, 1); (1, 5); (0, 1); (0, 4)], [(1, 1); (5, 5); (1, 1); (4, 4)]).
Proof.
  intros t' sc H. vm_compute in H. injection H as <- <-. split; [split; vm_compute; reflexivity|]. vm_compute. reflexivity.
Qed.
(** A run that ends early and then a complete one, with [reportLogic]: [logic_one_more_release] applies, and the figures go up. *)
Example logic_more_ex : forall t' sc, instrument logic_env 40 "f.js" None ex_calls = Ok (t', sc) ->
  let r i := after (calls_incs i (calls_program t' sc)) (sc_fc sc) in
  exists R s s', fc_b_t (sc_fc sc) <> None /\ fold_res (fc_merge Release) (r 1%nat) [r 20%nat] = Ok R /\
  to_summary Release (r 1%nat) = Ok s /\ to_summary Release R = Ok s' /\
  shares s = [(1, 1); (1, 5); (0, 1); (0, 4)] /\ shares s' = [(1, 1); (5, 5); (1, 1); (4, 4)] /\
  forall f, In f figures -> exists x y, t_pct (f s) = PValue x /\ t_pct (f s') = PValue y /\ (val32 x <= val32 y)%R.
Proof.
  intros t' sc H r. destruct (logic_numbers t' sc H) as ((L & F) & Nm). destruct (calls_modelled t' sc H) as (Mo & _ & Ng & Bt).
  pose proof Mo as (_ & _ & _ & _ & _ & _ & _ & _ & _ & Hl). unfold p_record in Hl. cbn [calls_program p_cov] in Hl.
  destruct (modelled_logic_record _ Mo) as (_ & _ & _ & Z). unfold p_record in Z. cbn [calls_program p_cov] in Z.
  destruct (logic_one_more_release logic_env 40 "f.js" None ex_calls _ t' sc eq_refl H Hl F Ng
    (calls_incs 1 (calls_program t' sc)) [] (calls_incs 20 (calls_program t' sc)) _ [] _ (same_data_self _) (Forall2_nil _) (same_data_self _))
    as (R & R' & s & s' & E1 & E2 & E3 & E4 & G).
  { cbn [concat]. rewrite app_nil_r. intros c v S0 E. apply (short_log _ (without (sc_fc sc)) Z eq_refl L c v). destruct c; [exact E..|discriminate]. }
  cbn [fold_res] in E1. injection E1 as <-. cbn [app] in E2. rewrite E2, E3, E4 in Nm.
  exists R', s, s'. do 4 (split; [assumption|]). split; [exact (f_equal fst Nm)|]. split; [exact (f_equal snd Nm)|].
  intros f I. destruct (G f I) as (_ & _ & X). exact X.
Qed.
