(** C73: truthiness counts never exceed the counts of their paths, in the records processes publish and in their summaries.

    With [reportLogic] an operand of a logical expression increments its entry of [b] and, if its value is truthy, the entry of [bT]
    with the same numbers (instrument/create_increase_true_expr.rs:11-59, source_coverage/mod.rs:84-164). *)
From Coq Require Import NArith String List Bool Lia PeanoNat Permutation.
Import ListNotations.
From Verif Require Import Base IndexMap Decimal Oxide OxideSpec OxideMergeProofs OxideMerge OxideViews SourceCov SourceCovProofs
  Hints Ast Visitor VisitorRel VisitorEx Erase Counting CountingRoot Json CovJson DataObject Template Runtime Produced Report
  Sem SemShape SemErase SemVisit SemProps Account Slots Sites AccountVisit Accurate EndToEnd Runs Project LogicReport Truths.
Open Scope string_scope. Open Scope list_scope. Open Scope N_scope.

(** Every truthiness counter stands beside a counter of a path that is at least as large. *)
Definition truths_below (r : file_coverage) : Prop :=
  match fc_b_t r with
  | Some bt => forall k v, In (k, v) bt -> exists w, In (k, w) (fc_b r) /\ Forall2 N.le v w
  | None => True
  end.

Lemma counted_le : forall l k v i, (forall j, hitn l (CT k j) <= hitn l (CB k j)) ->
  Forall2 N.le (FixtureRun.counted (CT k) l i v) (FixtureRun.counted (CB k) l i v).
Proof.
  intros l k v i H. revert i. induction v as [|x v IH]; intros i; [constructor|]. cbn [FixtureRun.counted]. constructor; [|apply IH].
  specialize (H i). lia.
Qed.
Lemma produced_below : forall e n path ism t items t' sc l r, program_items t = Some items ->
  instrument e n path ism t = Ok (t', sc) -> (forall b i, hitn l (CT b i) <= hitn l (CB b i)) ->
  same_data r (after l (sc_fc sc)) -> truths_below r.
Proof.
  intros e n path ism t items t' sc l r Hi H L D. pose proof (produced_record _ _ _ _ _ _ _ _ Hi H) as PR. cbv zeta in PR.
  destruct PR as (_ & _ & _ & _ & _ & _ & _ & _ & _ & _ & _ & Z & Bt). destruct D as (_ & _ & _ & _ & _ & _ & _ & Pb & Pt & _).
  unfold truths_below. destruct (fc_b_t r) as [bt|]; [|exact I]. intros k v Ik. cbn [FixtureRun.after fc_b fc_b_t] in Pb, Pt.
  destruct (fc_b_t (sc_fc sc)) as [bt0|]; [|contradiction]. cbn [option_map] in Pt. destruct Bt as (_ & Nb & Bt).
  apply (Permutation_in _ Pt) in Ik. apply in_map_iff in Ik as ([k0 v0] & E & Ik). cbn [fst snd] in E. injection E as <- <-.
  assert (G : im_get k0 bt0 = Some v0) by (now apply im_in_get).
  apply Bt in G as (br & Eb & _ & ->). exists (FixtureRun.counted (CB k0) l 0 (repeat 0 (length (b_locations br)))).
  split; [|now apply counted_le]. apply (Permutation_in _ (Permutation_sym Pb)). apply in_map_iff.
  exists (k0, repeat 0 (length (b_locations br))). split; [reflexivity|]. apply im_get_in. now rewrite Z, Eb.
Qed.

(** ** Runs *)
Theorem run_truths_partial : forall e n path ism t items t' sc, program_items t = Some items -> clean t = true ->
  (e_report_logic e = true -> once t = true) -> instrument e n path ism t = Ok (t', sc) ->
  forall h fuel x w l r, Permutation l (cnt h (snd (run_program h fuel t' x w))) -> same_data r (after l (sc_fc sc)) -> truths_below r.
Proof.
  intros e n path ism t items t' sc Hi Hc Ho H h fuel x w l r Pm D.
  destruct (e_report_logic e) eqn:Rl.
  2: { pose proof (produced_record _ _ _ _ _ _ _ _ Hi H) as PR. cbv zeta in PR. destruct PR as (_ & _ & _ & _ & _ & _ & _ & _ & _ & _ & _ & _ & Bt).
       destruct D as (_ & _ & _ & _ & _ & _ & _ & _ & Pt & _). cbn [FixtureRun.after fc_b_t] in Pt.
       destruct (fc_b_t (sc_fc sc)); [destruct Bt; congruence|]. unfold truths_below. destruct (fc_b_t r); [contradiction|exact I]. }
  specialize (Ho eq_refl). eapply produced_below; eauto. intros b i. rewrite !hitn_count.
  pose proof (truths_at_most_passes e n path ism t t' sc Hc Ho H h fuel x w b i) as T.
  assert (C : forall (d1 d2 : forall a b : counter, {a = b} + {a <> b}) l c, count_occ d1 l c = count_occ d2 l c).
  { clear. intros d1 d2 l c. induction l as [|y l IH]; [reflexivity|]. cbn. destruct (d1 y c), (d2 y c); congruence. }
  rewrite (Permutation_count_occ Runtime.counter_dec) in Pm.
  rewrite !Pm.
  rewrite (C _ Runtime.counter_dec _ (CT b i)), (C _ Runtime.counter_dec _ (CB b i)) in T. lia.
Qed.
(** ** Summaries *)
Lemma table_mono : forall (f : list N -> nat), (forall v w, Forall2 N.le v w -> (f v <= f w)%nat) ->
  forall (bt b : branch_hit_map), NoDup (im_keys bt) -> (forall k v, In (k, v) bt -> exists w, In (k, w) b /\ Forall2 N.le v w) ->
  (list_sum (map (fun kv => f (snd kv)) bt) <= list_sum (map (fun kv => f (snd kv)) b))%nat.
Proof.
  intros f Hf bt. induction bt as [|[k v] bt IH]; intros b Nd H; [cbn; lia|]. cbn in Nd. apply NoDup_cons_iff in Nd as [Nk Nd].
  destruct (H k v (or_introl eq_refl)) as (w & Iw & L). apply in_split in Iw as (b1 & b2 & ->).
  specialize (IH (b1 ++ b2) Nd). cbn [map list_sum fold_right snd]. rewrite map_app, list_sum_app in *. cbn [map list_sum fold_right snd].
  assert (list_sum (map (fun kv => f (snd kv)) bt) <=
          list_sum (map (fun kv : N * list N => f (snd kv)) b1) + list_sum (map (fun kv : N * list N => f (snd kv)) b2))%nat.
  { apply IH. intros k' v' I. destruct (H k' v' (or_intror I)) as (w' & Iw & L'). exists w'. split; [|exact L'].
    apply in_app_iff in Iw as [Iw|[Iw|Iw]]; apply in_app_iff; [now left| |now right].
    injection Iw as <- <-. exfalso. apply Nk. now apply (in_map fst) in I. }
  specialize (Hf v w L). fold (list_sum (map (fun kv => f (snd kv)) bt)). fold (list_sum (map (fun kv => f (snd kv)) b2)). lia.
Qed.
Lemma concat_sum : forall (bt : branch_hit_map) (g : list N -> nat), (forall a b, g (a ++ b) = (g a + g b)%nat) -> g [] = O ->
  g (concat (im_values bt)) = list_sum (map (fun kv => g (snd kv)) bt).
Proof.
  intros bt g Ga G0. induction bt as [|[k v] bt IH]; [exact G0|]. cbn [im_values map concat snd]. rewrite Ga.
  unfold im_values in IH. rewrite IH. reflexivity.
Qed.

(** If the paths of a file can be counted, its summary has at most as many truthiness entries as paths, and covers at most as
    many. *)
Theorem summary_truths : forall m r s t, truths_below r -> match fc_b_t r with Some bt => NoDup (im_keys bt) | None => True end ->
  N.of_nat (length (concat (im_values (fc_b r)))) < u32_mod ->
  to_summary m r = Ok s -> cs_branches_true s = Some t ->
  t_total t <= t_total (cs_branches s) /\ t_covered t <= t_covered (cs_branches s).
Proof.
  intros m r s t B Nd L H Et. unfold truths_below in B. unfold to_summary in H.
  destruct (get_line_coverage r) as [lc| |]; cbn [bind] in H; try discriminate.
  rewrite branch_totals_spec in H by exact L. cbn [bind] in H.
  destruct (fc_b_t r) as [bt|]; cbn [bind] in H; [|injection H as <-; discriminate].
  assert (Ll : (length (concat (im_values bt)) <= length (concat (im_values (fc_b r))))%nat).
  { rewrite !(concat_sum _ (@length N)) by (try apply app_length; reflexivity). apply table_mono; [|exact Nd|exact B].
    intros v w F. induction F; cbn; lia. }
  rewrite branch_totals_spec in H by lia. cbn [bind] in H. injection H as <-. cbn in Et. injection Et as <-. cbn.
  split; [lia|]. unfold OxideViews.covered_count. pose (g := fun v : list N => length (filter (fun x => negb (x =? 0)) v)).
  assert (Lg : (g (concat (im_values bt)) <= g (concat (im_values (fc_b r))))%nat); [|unfold g in Lg; lia].
  rewrite !(concat_sum _ g) by (try (intros; unfold g; now rewrite filter_app, app_length); reflexivity).
  apply table_mono; [|exact Nd|exact B]. intros v w F. unfold g. induction F as [|a b v w Hab _ IH]; [reflexivity|]. cbn [filter].
  destruct (N.eqb_spec a 0), (N.eqb_spec b 0); cbn [negb length]; lia.
Qed.

(** ** Processes *)
(** A process that runs files of a project, each with the increments of some run of it *)
Theorem process_truths_partial : forall l gcv hist rs,
  Forall (fun P => program_items (p_tree P) = Some (p_items P) /\ clean (p_tree P) = true /\
    (e_report_logic (p_env P) = true -> once (p_tree P) = true) /\
    instrument (p_env P) (p_fuel P) (p_path P) (p_ism P) (p_tree P) = Ok (p_out P, p_cov P)) l ->
  (forall P, In P l -> used gcv (p_path P) hist = true -> exists h fuel x w,
     Permutation (done gcv (p_path P) hist) (cnt h (snd (run_program h fuel (p_out P) x w)))) ->
  process (project l) gcv hist rs ->
  Forall (fun r => truths_below r /\
    forall m s t, N.of_nat (length (concat (im_values (fc_b r)))) < u32_mod -> to_summary m r = Ok s -> cs_branches_true s = Some t ->
      t_total t <= t_total (cs_branches s) /\ t_covered t <= t_covered (cs_branches s)) rs.
Proof.
  intros l gcv hist rs Hl Ha (V & K & O & st & named & E & Er & ->).
  assert (O' : Forall (fun f => exists fc, output_of f fc) (loaded hist)).
  { eapply Forall_impl; [|exact O]. intros f (fc & Of & _). eauto. }
  destruct (variable_read hist gcv V K O') as (st' & rs' & E' & Er' & Nd & Us & Sd).
  assert (st' = st) by congruence. subst st'. assert (rs' = named) by congruence. subst rs'. clear E' Er'.
  apply Forall_forall. intros r I. apply in_map_iff in I as ([p r'] & Ep & I). cbn in Ep. subst r'.
  destruct (Sd p r I) as (i & f & Ei & Ek & D).
  pose proof (proj1 (Forall_forall _ _) O f (nth_error_In _ _ Ei)) as (fc' & Of' & Pf). unfold file_key in Ek. injection Ek as Eg Ep.
  specialize (Pf Eg). rewrite Ep in Pf. apply project_in in Pf as (P & IP & Pp & Pr).
  destruct (proj1 (Forall_forall _ _) Hl P IP) as (A1 & A2 & A3 & A4).
  assert (U : used gcv (p_path P) hist = true). { rewrite Pp. apply Us. now apply (in_map fst) in I. }
  destruct (Ha P IP U) as (h & fuel & x & w & Pm). rewrite Pp in Pm.
  specialize (D fc' Of'). rewrite <- Pr in D.
  pose proof (run_truths_partial _ _ _ _ _ _ _ _ A1 A2 A3 A4 h fuel x w _ r Pm D) as B. split; [exact B|].
  intros m s t L Es Et. apply (summary_truths m r); [exact B| |exact L|exact Es|exact Et].
  pose proof (produced_unique_keys _ _ _ _ _ _ _ _ A1 A4) as Hu.
  apply (unique_perm _ _ (same_data_sym _ _ D) (keys_after _ _ Hu)).
Qed.

(** [if (7) {}  a || 7] *)
Definition ex_if_or : node :=
  module_ 1 40 [T 1 9 KIf [num 5 6; T 8 9 (KBlock false) [mk KStmts []]; none]; T 11 18 KExprStmt [X 11 17 (KBin OpOr) [var 11 12 "a"; num 16 17]]].
Example truth_bound_ex :
  program_items ex_if_or <> None /\ clean ex_if_or && once ex_if_or = true /\
  match instrument logic_env 40 "f.js" None ex_if_or with
  | Ok (t', c) =>
      let l := cnt pure_toy (snd (run_program pure_toy 9 t' tt w0)) in
      fc_b (after l (sc_fc c)) = [(0, [1; 0]); (1, [1; 1])] /\ fc_b_t (after l (sc_fc c)) = Some [(1, [0; 1])]
  | _ => False
  end.
Proof. split; [discriminate|]. split; [reflexivity|]. vm_compute. split; reflexivity. Qed.

(** ** After a merge *)
(** Merging renumbers the entries of [bT] (C05): two such records give one with a path that was never taken but truthy twice. *)
Theorem merged_truths_refuted : exists e t t' c h fuel x w, clean t = true /\ once t = true /\
  instrument e 40 "f.js" None t = Ok (t', c) /\
  let r := after (cnt h (snd (run_program h fuel t' x w))) (sc_fc c) in
  truths_below r /\ forall m, exists q, fc_merge m r r = Ok q /\
    fc_b q = [(0, [2; 0]); (1, [2; 2])] /\ fc_b_t q = Some [(0, [0; 2])] /\ ~ truths_below q.
Proof.
  exists logic_env, ex_if_or. destruct (instrument logic_env 40 "f.js" None ex_if_or) as [[t' c]| |] eqn:H; [|vm_compute in H; discriminate..].
  exists t', c, pure_toy, 9%nat, tt, w0. split; [reflexivity|]. split; [reflexivity|]. split; [reflexivity|]. cbv zeta.
  split.
  - refine (run_truths_partial logic_env 40 "f.js" None ex_if_or _ t' c eq_refl eq_refl (fun _ => eq_refl) H pure_toy 9%nat tt w0 _ _ (Permutation_refl _) _).
    unfold same_data. repeat (split; [reflexivity|]). split; [|reflexivity]. destruct (fc_b_t _); [apply Permutation_refl|exact I].
  - vm_compute in H. injection H as <- <-. intros m.
    match goal with |- exists q, ?f = Ok q /\ _ => destruct f as [q| |] eqn:Q; [|destruct m; vm_compute in Q; discriminate..] end.
    exists q. destruct m; vm_compute in Q; injection Q as <-; (split; [reflexivity|]); (split; [reflexivity|]); (split; [reflexivity|]);
      intros B; destruct (B 0 [0; 2] (or_introl eq_refl)) as (v & I & F); (destruct I as [E|[E|[]]]; [|discriminate]);
      injection E as <-; inversion F as [|? ? ? ? _ F2]; subst; inversion F2 as [|? ? ? ? L _]; subst; vm_compute in L; now apply L.
Qed.

(** Where merging keeps the truthiness counters in their places, it keeps the relation. *)
Theorem merged_truths_partial : forall a b bta btb, fc_all a = false -> fc_all b = false ->
  tables_ok a -> tables_ok b -> locs_unique a -> locs_unique b -> merge_fits a b ->
  dense_branches a -> full_truth a bta -> full_truth b btb ->
  (forall l j, truth_hits a l j <= path_hits a l j) -> (forall l j, truth_hits b l j <= path_hits b l j) ->
  exists r bt, fc_merge Debug a b = Ok r /\ full_truth r bt /\ forall l j, truth_hits r l j <= path_hits r l j.
Proof.
  intros a b bta btb A B Ta Tb Ua Ub Mf Db Fa Fb La Lb.
  assert (Tf : forall l j, truth_hits a l j + truth_hits b l j < u32_mod).
  { intros l j. destruct Mf as (_ & _ & Mf). specialize (Mf j l). specialize (La l j). specialize (Lb l j). unfold path_hits in *. lia. }
  destruct (merge_truthiness_partial Debug a b bta btb A B Ta Tb Ua Ub Mf Db Fa Fb Tf) as (r & bt & E & Et & Ek & H).
  exists r, bt. split; [exact E|]. split; [now split|]. intros l j. destruct (merge_adds_hits a b r A B Ua E) as (_ & _ & P).
  rewrite H, P. specialize (La l j). specialize (Lb l j). lia.
Qed.
Example merged_truths_ex : exists r bt, fc_merge Debug (truth_fc 3) (truth_fc 4) = Ok r /\ full_truth r bt /\
  forall l j, truth_hits r l j <= path_hits r l j.
Proof.
  assert (B : forall n l j, truth_hits (truth_fc n) l j <= path_hits (truth_fc n) l j).
  { intros n l j. unfold truth_hits, path_hits, truth_rows, branch_rows, rows, hits_at. cbn. destruct (range_eqb _ _); cbn; [|lia].
    destruct j as [|[|[|j]]]; lia. }
  apply (merged_truths_partial (truth_fc 3) (truth_fc 4) [(0, [3; 0])] [(0, [4; 0])]); try reflexivity; try apply B;
    try (repeat split; try solve_table; try solve_nodup; fail).
  apply fits_by_totals; vm_compute; reflexivity.
Qed.
