(** The theorems on coherence, thresholds and placeholders (C62, C63, C69, C70) for projects instrumented with [reportLogic]. *)
From Coq Require Import Reals.
From Coq Require Import NArith String List Bool Lia PeanoNat Permutation.
Import ListNotations.
From Verif Require OneEntry.
From Verif Require Import Base IndexMap Decimal Oxide OxideSpec OxideMergeProofs OxideMerge OxideViews SourceCov SourceCovProofs
  Hints Ast Visitor VisitorRel VisitorEx Erase Counting CountingRoot Json CovJson DataObject Template Runtime Produced Report
  Sem SemShape SemErase SemVisit SemProps Account Slots Sites AccountVisit Accurate EndToEnd Runs Project LogicReport LogicModes Threshold Placeholders.
From Verif Require Consistent FitReport Unreached IdleReport.
Open Scope string_scope. Open Scope list_scope. Open Scope N_scope.

Lemma without_ok : forall M, cm_ok M -> cm_ok (all_without M).
Proof.
  intros M [O1 O2]. split; [unfold cm_get_files in *; now rewrite without_keys|]. intros p R G.
  unfold cm_get_coverage_for_file in G. rewrite without_get in G. destruct (im_get p M) as [R0|] eqn:E; [|discriminate]. injection G as <-. now apply (O2 p R0).
Qed.
Lemma without_values : forall M, im_values (all_without M) = map without (im_values M).
Proof. intros M. unfold im_values, all_without. now rewrite !map_map. Qed.
Lemma without_part : forall logs M x, part_of logs (all_without M) x -> part_of logs M x.
Proof.
  intros logs M x (X1 & X2 & X3 & R & ls & G & Ul & Y1 & Y2 & Y3 & Y4).
  unfold cm_get_coverage_for_file in G. rewrite without_get in G. destruct (im_get (p_path (r_prog x)) M) as [R0|] eqn:E; [|discriminate].
  injection G as <-. split; [exact X1|]. split; [exact X2|]. split; [exact X3|]. exists R0, ls. split; [exact E|]. split; [exact Ul|].
  assert (Mono : forall A (f : A -> counter) ps es, Forall2 (fun p ev => tells (p_env (r_prog x)) (p_items (r_prog x)) (concat (logs (r_prog x))) (without R0) (f p) ev) ps es ->
    Forall2 (fun p ev => tells (p_env (r_prog x)) (p_items (r_prog x)) (concat (logs (r_prog x))) R0 (f p) ev) ps es).
  { intros A f ps es Fq. clear - Fq. induction Fq; constructor; auto. now apply without_tells. }
  split; [now apply (Mono _ fst)|]. split; [now apply (Mono _ fst)|]. split; [now apply (Mono _ fst)|].
  intros n. rewrite Y4. split; (intros [Z1 Z2]; split; [exact Z1|]); intros k rg ev G1 G2 G3; apply (Z2 k rg ev G1 G2).
  - now apply tells_without.
  - now apply without_tells.
Qed.
Lemma without_lines : forall M s lss, lines_add (all_without M) (no_truth s) lss -> lines_add M s lss.
Proof.
  intros M s lss (A & B & C & D & E). unfold lines_add. rewrite without_values in *. rewrite map_map in B.
  assert (Mr : forall l, map_res get_uncovered_lines (map without l) = map_res get_uncovered_lines l).
  { induction l as [|R l IH]; [reflexivity|]. cbn [map map_res]. now rewrite IH. }
  rewrite Mr in A. auto.
Qed.
Definition totals_of (l : list program) (s : coverage_summary) : Prop :=
  t_total (cs_statements s) = sum_over (fun P => length (fc_statement_map (p_record P))) l /\
  t_total (cs_functions s) = sum_over (fun P => length (fc_fn_map (p_record P))) l /\
  t_total (cs_branches s) = sum_over (fun P => length (paths_of P)) l.
(** What a report with truthiness counters says, if it can be computed *)
Lemma logic_report_of : forall m l sel logs M, NoDup (map p_path l) -> small l -> cm_ok M ->
  (forall p, In p (cm_get_files M) <-> exists P, In P l /\ p_path P = p /\ sel p = true) ->
  (forall P R, In P l -> cm_get_coverage_for_file M (p_path P) = Some R -> readable logs P (without R)) ->
  (exists P, In P l /\ sel (p_path P) = true) ->
  (m = Release \/ map_weight M < u32_mod -> exists s, cm_get_coverage_summary m M = Ok s) /\
  forall s, cm_get_coverage_summary m M = Ok s ->
  exists parts lss, map (fun x => p_path (r_prog x)) parts = cm_get_files M /\
    Permutation (map r_prog parts) (filter (fun P => sel (p_path P)) l) /\
    Forall (part_of logs M) parts /\ totals_of (filter (fun P => sel (p_path P)) l) s /\ says_all logs s parts /\ lines_add M s lss.
Proof.
  intros m l sel logs M W Sm Ok0 Fs Rd Ne.
  assert (Fs' : forall p, In p (cm_get_files (all_without M)) <-> exists P, In P l /\ p_path P = p /\ sel p = true).
  { intros p. unfold cm_get_files. rewrite without_keys. apply Fs. }
  assert (Rd' : forall P R, In P l -> cm_get_coverage_for_file (all_without M) (p_path P) = Some R -> readable logs P R).
  { intros P R I G. unfold cm_get_coverage_for_file in G. rewrite without_get in G. destruct (im_get (p_path P) M) as [R0|] eqn:E; [|discriminate].
    injection G as <-. now apply (Rd P R0 I). }
  destruct (summaries_of m l sel logs (all_without M) W Sm (without_ok M Ok0) Fs' Rd') as (s2 & parts2 & Es2 & _ & Pm2 & Pt2 & (A1 & _) & (A2 & _) & (A3 & _) & ss & Es & _).
  split; [intros [->|Wt]; [exact (report_release Release M ss Es)|destruct (report_modes m M s2 Es2 Wt) as (s' & Hs & _); now exists s']|]. intros s Hs. apply report_without in Hs.
  destruct (report_of m l sel logs (all_without M) W Sm (without_ok M Ok0) Fs' Rd' Ne) as (s' & parts & lss & H1 & H2 & H3 & H4 & H5 & H6).
  assert (s' = no_truth s) by congruence. subst s'. assert (s2 = no_truth s) by congruence. subst s2.
  exists parts, lss. unfold cm_get_files in H2 |- *. rewrite without_keys in H2.
  split; [exact H2|]. split; [exact H3|]. split; [eapply Forall_impl; [apply without_part|exact H4]|].
  split; [|split; [|now apply without_lines]].
  2: { intros f pe I. specialize (H5 f pe I). cbn [In] in I. destruct I as [I|[I|[I|[]]]]; injection I as <- <-; exact H5. }
  assert (Sz : forall (g : program -> nat) (pe : part -> list event), (forall x, In x parts2 -> length (pe x) = g (r_prog x)) ->
    sumN (map (fun x => N.of_nat (length (pe x))) parts2) = sum_over g (filter (fun P => sel (p_path P)) l)).
  { intros g pe Hg. rewrite (sum_ext _ _ (fun x => N.of_nat (g (r_prog x)))) by (intros x I; now rewrite Hg).
    rewrite <- (map_map r_prog (fun P => N.of_nat (g P))). now apply sum_perm. }
  rewrite Forall_forall in Pt2. cbn [no_truth cs_statements cs_functions cs_branches] in A1, A2, A3. unfold totals_of. rewrite A1, A2, A3.
  split; [apply Sz; intros x I; exact (proj1 (Pt2 x I))|].
  split; [apply Sz; intros x I; exact (proj1 (proj2 (Pt2 x I)))|]. apply Sz; intros x I; exact (proj1 (proj2 (proj2 (Pt2 x I)))).
Qed.

(** ** Coherence *)
(** The counts of the merged map fit together, and nothing is counted inside what was not reached. *)
Theorem logic_coherent_partial : forall m l gcv hs rss logs M, NoDup (map p_path l) -> Forall modelled_logic l ->
  Forall2 (process (project l) gcv) hs rss -> (forall P, In P l -> Forall2 (acted_logic gcv P) hs (logs P)) ->
  (forall P ev, In P l -> N.of_nat (count_occ event_dec (concat (logs P)) ev) < u32_mod) ->
  merge_maps m rss = Ok M ->
  forall P R, In P l -> cm_get_coverage_for_file M (p_path P) = Some R ->
    (forall c, seen c = true -> slot_exists R c = true -> exists ev, tells (p_env P) (p_items P) (concat (logs P)) R c ev) /\
    FitReport.coherent (p_env P) (p_tree P) (p_items P) (concat (logs P)) R /\
    IdleReport.unreached (p_env P) (p_tree P) (p_items P) (concat (logs P)) R.
Proof.
  intros m l gcv hs rss logs M W Hm F Ha Hb E P R I G. destruct (logic_tells_partial m l gcv hs rss logs M W Hm F Ha Hb E) as (_ & _ & T).
  destruct (T P R I G) as (_ & T6). split; [exact T6|]. rewrite Forall_forall in Hm. destruct (Hm P I) as (H1 & _ & _ & _ & H5 & H6 & _).
  specialize (Ha P I). split.
  - apply FitReport.fits_coherent, Consistent.fits_concat. clear - Ha H1 H5 H6. induction Ha as [|hist log hs ls A _ IH]; constructor; [|exact IH].
    unfold acted_logic in A. destruct (used gcv (p_path P) hist); [|subst; apply Consistent.fits_nil].
    destruct A as (h & fuel & x & w & _ & -> & _). eapply FitReport.program_fits; eauto.
  - apply IdleReport.idle_unreached, Unreached.idle_concat. clear - Ha H1 H5 H6. induction Ha as [|hist log hs ls A _ IH]; constructor; [|exact IH].
    unfold acted_logic in A. destruct (used gcv (p_path P) hist); [|subst; apply Unreached.idle_nil].
    destruct A as (h & fuel & x & w & _ & -> & _). eapply IdleReport.program_idle; eauto.
Qed.

(** ** Thresholds *)
Theorem logic_threshold_partial : forall m l gcv hs rss logs M s, NoDup (map p_path l) -> Forall modelled_logic l -> small l ->
  Forall2 (process (project l) gcv) hs rss -> (forall P, In P l -> Forall2 (acted_logic gcv P) hs (logs P)) ->
  (forall P ev, In P l -> N.of_nat (count_occ event_dec (concat (logs P)) ev) < u32_mod) ->
  (exists P, In P l /\ ran_once gcv (p_path P) hs = true) ->
  merge_maps m rss = Ok M -> cm_get_coverage_summary m M = Ok s ->
  exists parts lss, map (fun x => p_path (r_prog x)) parts = cm_get_files M /\
    Permutation (map r_prog parts) (filter (fun P => ran_once gcv (p_path P) hs) l) /\
    Forall (part_of logs M) parts /\ totals_of (filter (fun P => ran_once gcv (p_path P) hs) l) s /\
    says_all logs s parts /\ lines_add M s lss.
Proof.
  intros m l gcv hs rss logs M s W Hm Sm F Ha Hb Hr E Hs.
  destruct (logic_tells_partial m l gcv hs rss logs M W Hm F Ha Hb E) as (Ok0 & Fs & T).
  destruct (logic_report_of m l (fun p => ran_once gcv p hs) logs M W Sm Ok0 Fs) as (_ & X); [|exact Hr|exact (X s Hs)].
  intros P R I G. exact (proj1 (T P R I G)).
Qed.

(** ** Placeholders *)
Lemma logic_placeholder_reads : forall gcv hs logs P, modelled_logic P -> Forall2 (acted_logic gcv P) hs (logs P) ->
  ran_once gcv (p_path P) hs = false -> readable logs P (without (placeholder (p_record P))).
Proof.
  intros gcv hs logs P M F R.
  assert (Lg : concat (logs P) = []).
  { revert R F. unfold ran_once. generalize (logs P). clear. induction hs as [|h hs IH]; intros ls R F; inversion F; subst; [reflexivity|].
    cbn [existsb] in R. apply orb_false_iff in R as [R1 R2]. unfold acted_logic in H1. rewrite R1 in H1. subst. cbn [concat app]. now apply IH. }
  destruct (modelled_logic_record P M) as (_ & Pl & U & _). pose proof Pl as (_ & Tk & _ & Bt).
  destruct M as (H1 & H2 & H3 & H4 & H5 & H6 & H7 & _ & H9 & _).
  destruct (rows_tell_for (p_env P) (p_fuel P) (p_path P) (p_ism P) (p_tree P) (p_items P) (p_out P) (p_cov P) H1 H2 H3 H4 H5 H6 H7 H9 [] []) as [_ T].
  { intros c ev _. reflexivity. }
  destruct (T (without (p_record P))) as (L1 & L2 & L3 & T'); [|exact Tk|exact U|].
  { rewrite after_nil. now repeat split. }
  split; [exact (proj1 Tk)|]. split; [exact Bt|]. split; [exact U|]. split; [exact L1|]. split; [exact L2|]. split; [exact L3|].
  rewrite Lg. intros c Hc Hs. destruct (T' c Hc Hs) as (ev & Te). now exists ev.
Qed.
(** If the maps of the processes can be merged, they can with the placeholders of all files; the report has all the files, its
    totals are those of the whole project, and its percentages are about every place of every file. *)
Theorem logic_complete_partial : forall m l gcv hs rss maps logs M0, l <> [] -> NoDup (map p_path l) -> Forall modelled_logic l -> small l ->
  Forall2 (process (project l) gcv) hs rss -> (forall P, In P l -> Forall2 (acted_logic gcv P) hs (logs P)) ->
  (forall P ev, In P l -> N.of_nat (count_occ event_dec (concat (logs P)) ev) < u32_mod) ->
  completed l rss maps -> merge_maps m rss = Ok M0 ->
  exists M, merge_maps m maps = Ok M /\
    (m = Release \/ sumN (map truth_weight (concat maps)) < u32_mod -> exists s, cm_get_coverage_summary m M = Ok s) /\
    forall s, cm_get_coverage_summary m M = Ok s ->
    exists parts lss, map (fun x => p_path (r_prog x)) parts = cm_get_files M /\ Permutation (map r_prog parts) l /\
      Forall (part_of logs M) parts /\ totals_of l s /\ says_all logs s parts /\ lines_add M s lss.
Proof.
  intros m l gcv hs rss maps logs M0 Ne W Hm Sm F Ha Hb (C1 & C2 & C3 & C4) E0. pose proof Hm as Hm'. rewrite Forall_forall in Hm'.
  assert (Pp : forall p fc, im_get p (project l) = Some fc -> fc_path fc = p).
  { intros p fc E. destruct (project_in l p fc E) as (P & I & <- & <-). apply modelled_logic_record, Hm', I. }
  destruct (logic_tells_partial m l gcv hs rss logs M0 W Hm F Ha Hb E0) as (Ok0 & Fs0 & Tl0).
  assert (Nd : Forall (fun rs => NoDup (map fc_path rs)) rss).
  { clear - F Pp. induction F as [|evs rs hs rss P _ IH]; constructor; [|exact IH].
    destruct (process_paths (project l) Pp gcv evs rs P) as (K & _ & N & _). exact N. }
  rewrite (merge_maps_adds m rss Nd) in E0.
  pose proof (placeholders_fill m (concat maps)) as Fill. unfold cm_from_iter in Fill. rewrite C2, E0 in Fill. destruct Fill as (M & E & G).
  destruct (adds_effect m (concat maps) [] M) as (Ok1 & _ & Fl); [split; [constructor|discriminate]|exact E|].
  assert (PPath : forall P, In P l -> fc_path (p_record P) = p_path P) by (intros P I; apply modelled_logic_record, Hm', I).
  assert (Ph : forall P, In P l -> placeholder_for (p_path P) (concat maps) = Some (placeholder (p_record P))).
  { intros P I. unfold placeholder_for.
    destruct (find (fun r => fc_all r && String.eqb (fc_path r) (p_path P)) (concat maps)) as [r|] eqn:Ef.
    - apply find_some in Ef as [Ir Er]. apply andb_true_iff in Er as [Er1 Er2]. apply String.eqb_eq in Er2.
      destruct (C4 r Ir Er1) as (Q & IQ & ->). f_equal. cbn [placeholder fc_path] in Er2. rewrite (PPath Q IQ) in Er2.
      assert (Eq : Some (p_record Q) = Some (p_record P)); [|injection Eq as ->; reflexivity].
      rewrite <- (project_get l Q W IQ), <- (project_get l P W I). now rewrite Er2.
    - exfalso. pose proof (find_none _ _ Ef _ (C3 P I)) as Z. cbn [placeholder fc_all fc_path andb] in Z.
      rewrite (PPath P I), String.eqb_refl in Z. discriminate. }
  assert (Fs : forall p, In p (cm_get_files M) <-> exists P, In P l /\ p_path P = p /\ (fun _ : string => true) p = true).
  { intros p. split.
    - intros I. unfold cm_get_files, im_keys in I. apply in_map_iff in I as ([q R] & Eq & I). cbn in Eq. subst q.
      apply (im_in_get _ (proj1 Ok1)) in I. change (cm_get_coverage_for_file M p = Some R) in I. rewrite G in I.
      destruct (cm_get_coverage_for_file M0 p) as [R0|] eqn:E1.
      + assert (Ip : In p (cm_get_files M0)). { apply im_get_in in E1. now apply (in_map fst) in E1. }
        apply Fs0 in Ip as (P & IP & EP & _). now exists P.
      + apply find_some in I as [Ir Er]. apply andb_true_iff in Er as [Er1 Er2]. apply String.eqb_eq in Er2.
        destruct (C4 R Ir Er1) as (Q & IQ & ->). exists Q. split; [exact IQ|]. split; [|reflexivity]. cbn [placeholder fc_path] in Er2.
        rewrite <- Er2. symmetry. now apply PPath.
    - intros (P & I & <- & _). assert (Q : exists R, cm_get_coverage_for_file M (p_path P) = Some R).
      { rewrite G. destruct (cm_get_coverage_for_file M0 (p_path P)) as [R|]; [now exists R|]. rewrite (Ph P I). eauto. }
      destruct Q as (R & Q). apply im_get_in in Q. now apply (in_map fst) in Q. }
  exists M. split; [rewrite (merge_maps_adds m maps C1); exact E|].
  destruct (logic_report_of m l (fun _ => true) logs M W Sm Ok1 Fs) as (X1 & X2).
  { intros P R I Q. rewrite G in Q. destruct (cm_get_coverage_for_file M0 (p_path P)) as [R0|] eqn:E1.
    - injection Q as <-. exact (proj1 (Tl0 P R0 I E1)).
    - rewrite (Ph P I) in Q. injection Q as <-. apply (logic_placeholder_reads gcv hs); [now apply Hm'|now apply Ha|].
      destruct (ran_once gcv (p_path P) hs) eqn:Er; [|reflexivity]. exfalso. apply im_get_None in E1. apply E1. apply Fs0. now exists P. }
  { destruct l as [|P l']; [congruence|]. exists P. split; [now left|reflexivity]. }
  split; [intros [Rm|Wt]; apply X1; [now left|right; apply adds_weight in E; change (map_weight []) with 0 in E; lia]|].
  intros s Hs. destruct (X2 s Hs) as (parts & lss & Y1 & Y2 & Y3 & Y4 & Y5).
  assert (Ft : forall l' : list program, filter (fun P => (fun _ : string => true) (p_path P)) l' = l').
  { induction l' as [|P l' IH]; [reflexivity|]. cbn [filter]. now rewrite IH. }
  rewrite Ft in Y2, Y4. exists parts, lss. auto.
Qed.

(** ** Release builds *)
(** Without removed branches all of that exists in a release build. *)
Theorem logic_whole_partial : forall l gcv hs rss maps logs, l <> [] -> NoDup (map p_path l) -> Forall modelled_logic l -> small l ->
  (forall P, In P l -> no_gaps (p_record P)) ->
  Forall2 (process (project l) gcv) hs rss -> (forall P, In P l -> Forall2 (acted_logic gcv P) hs (logs P)) ->
  (forall P ev, In P l -> N.of_nat (count_occ event_dec (concat (logs P)) ev) < u32_mod) ->
  completed l rss maps ->
  exists M s parts lss, merge_maps Release maps = Ok M /\ cm_get_coverage_summary Release M = Ok s /\
    map (fun x => p_path (r_prog x)) parts = cm_get_files M /\ Permutation (map r_prog parts) l /\
    Forall (part_of logs M) parts /\ totals_of l s /\ says_all logs s parts /\ lines_add M s lss.
Proof.
  intros l gcv hs rss maps logs Ne W Hm Sm Ng F Ha Hb Cp.
  destruct (logic_release_partial l gcv hs rss logs W Hm Sm Ng F Ha Hb) as (M0 & _ & _ & E0 & _).
  destruct (logic_complete_partial Release l gcv hs rss maps logs M0 Ne W Hm Sm F Ha Hb Cp E0) as (M & E & X1 & X2).
  destruct (X1 (or_introl eq_refl)) as (s & Hs). destruct (X2 s Hs) as (parts & lss & H). exists M, s, parts, lss. exact (conj E (conj Hs H)).
Qed.

(** ** Both build modes *)
(** With overflow checks too, as long as the truthiness counters of all records and placeholders are few and small *)
Theorem logic_whole_modes_partial : forall m l gcv hs rss maps logs, l <> [] -> NoDup (map p_path l) -> Forall modelled_logic l -> small l ->
  (forall P, In P l -> no_gaps (p_record P)) ->
  Forall2 (process (project l) gcv) hs rss -> (forall P, In P l -> Forall2 (acted_logic gcv P) hs (logs P)) ->
  (forall P ev, In P l -> N.of_nat (count_occ event_dec (concat (logs P)) ev) < u32_mod) ->
  completed l rss maps -> sumN (map truth_weight (concat maps)) < u32_mod ->
  exists M s parts lss, merge_maps m maps = Ok M /\ cm_get_coverage_summary m M = Ok s /\
    map (fun x => p_path (r_prog x)) parts = cm_get_files M /\ Permutation (map r_prog parts) l /\
    Forall (part_of logs M) parts /\ totals_of l s /\ says_all logs s parts /\ lines_add M s lss.
Proof.
  intros m l gcv hs rss maps logs Ne W Hm Sm Ng F Ha Hb Cp Wt.
  assert (Wr : sumN (map truth_weight (concat rss)) < u32_mod).
  { destruct Cp as (_ & C2 & _). rewrite <- C2. eapply N.le_lt_trans; [|exact Wt]. clear. induction (concat maps) as [|r rs IH]; [apply N.le_refl|].
    cbn [filter map]. rewrite sumN_cons. destruct (real_record r); cbn [map]; rewrite ?sumN_cons; lia. }
  destruct (logic_modes_partial m l gcv hs rss logs W Hm Sm Ng F Ha Hb Wr) as (M0 & _ & _ & E0 & _).
  destruct (logic_complete_partial m l gcv hs rss maps logs M0 Ne W Hm Sm F Ha Hb Cp E0) as (M & E & X1 & X2).
  destruct (X1 (or_intror Wt)) as (s & Hs). destruct (X2 s Hs) as (parts & lss & H). exists M, s, parts, lss. exact (conj E (conj Hs H)).
Qed.

(** ** Example *)
(** Two files, one instrumented with [reportLogic] and one without; one process runs the first, nobody runs the second.  The
    report counts both. *)
Lemma modelled_either : forall P, modelled P -> modelled_logic P.
Proof. intros P (H1 & H2 & H3 & H4 & H5 & H6 & H7 & H8 & H9 & _ & H10). unfold modelled_logic. now repeat (split; [assumption|]). Qed.
Example logic_whole_ex : forall tf cf tg cg, instrument logic_env 40 "f.js" None ex_calls = Ok (tf, cf) ->
  instrument line_env 60 "g.js" None ex_count = Ok (tg, cg) ->
  let F := calls_program tf cf in let G := count_program "g.js" tg cg in let l := [F; G] in
  let hs := [one_file (calls_emitted F) (calls_incs 20 F)] in
  exists rss M s, Forall2 (process (project l) "__coverage__") hs rss /\
    merge_maps Release (rss ++ [[placeholder (p_record F); placeholder (p_record G)]]) = Ok M /\
    cm_get_coverage_summary Release M = Ok s /\ Permutation (cm_get_files M) ["f.js"; "g.js"] /\
    fc_b_t (p_record F) <> None /\
    t_total (cs_statements s) = 15 /\ t_total (cs_functions s) = 3 /\ t_total (cs_branches s) = 10.
Proof.
  intros tf cf tg cg Hf Hg F G l hs.
  destruct (calls_modelled tf cf Hf) as (Mf & _ & Ngf & Bt). fold F in Mf. destruct (count_modelled _ _ _ Hg) as (Mg & G1 & G2 & G3).
  fold G in Mg. assert (Lf : length (fc_statement_map (sc_fc cf)) = 5%nat /\ length (fc_fn_map (sc_fc cf)) = 1%nat /\
    length (concat (im_values (fc_b (sc_fc cf)))) = 4%nat). { clear - Hf. vm_compute in Hf. injection Hf as _ <-. repeat split. }
  destruct Lf as (F1 & F2 & F3).
  assert (Ngg : no_gaps (sc_fc cg)).
  { clear - Hg. vm_compute in Hg. injection Hg as _ <-. intros k I. vm_compute in I. vm_compute. intuition (subst; lia). }
  assert (Wl : NoDup (map p_path l)). { repeat constructor; cbn; intuition discriminate. }
  assert (Hm : Forall modelled_logic l). { constructor; [exact Mf|]. constructor; [exact (modelled_either G Mg)|constructor]. }
  assert (Sm : small l).
  { unfold small, sum_over, l, F, G, paths_of, p_record, calls_program, count_program. cbn [map p_cov sumN fold_right]. rewrite F1, G1, F2, G2, F3, G3. repeat split. }
  assert (In1 : exists rs, process (project l) "__coverage__" (one_file (calls_emitted F) (calls_incs 20 F)) rs).
  { destruct (one_file_ok (calls_emitted F) (calls_incs 20 F)) as (V & L & _).
    assert (O : Forall (fun f => exists fc, output_of f fc /\ (em_gcv f = "__coverage__" -> im_get (em_path f) (project l) = Some fc))
      (loaded (one_file (calls_emitted F) (calls_incs 20 F)))).
    { rewrite L. constructor; [|constructor]. exists (p_record F). destruct Mf as (H1 & _ & _ & _ & _ & _ & _ & H8 & H9 & _). split.
      - destruct (produced_literal _ _ _ _ _ _ _ _ H1 H9 H8) as [O _]. apply O.
      - intros _. reflexivity. }
    assert (W1 : NoDup (map file_key (loaded (one_file (calls_emitted F) (calls_incs 20 F))))) by (rewrite L; repeat constructor; intros []).
    destruct (variable_read _ "__coverage__" V W1) as (st & rs & E & Er & _).
    { eapply Forall_impl; [|exact O]. intros f (fc & Of & _). eauto. }
    exists (map snd rs). split; [exact V|]. split; [exact W1|]. split; [exact O|]. exists st, rs. auto. }
  destruct In1 as (r1 & P1).
  assert (Fp : Forall2 (process (project l) "__coverage__") hs [r1]) by (constructor; [exact P1|constructor]).
  set (logs := fun P => if String.eqb (p_path P) "f.js" then [calls_log 20] else [[]]).
  assert (Ac : forall P, In P l -> Forall2 (acted_logic "__coverage__" P) hs (logs P)).
  { intros P [<-|[<-|[]]].
    - constructor; [|constructor]. unfold acted_logic. destruct (one_ok (calls_emitted F) (calls_incs 20 F)) as (_ & U & D). rewrite U.
      exists pure_toy, 20%nat, tt, w0. split; [intros _; apply pure_toy_tests|]. split; [reflexivity|].
      change (done "__coverage__" (p_path F)) with (done (em_gcv (calls_emitted F)) (em_path (calls_emitted F))). rewrite D. apply Permutation_refl.
    - constructor; [|constructor]. unfold acted_logic. destruct (one_ok (calls_emitted F) (calls_incs 20 F)) as (_ & U & D). rewrite U. reflexivity. }
  assert (Fit : forall P ev, In P l -> N.of_nat (count_occ event_dec (concat (logs P)) ev) < u32_mod).
  { intros P ev _. refine (N.le_lt_trans _ _ _ (occurrences_le ev _) _). unfold logs.
    destruct (String.eqb (p_path P) "f.js"); vm_compute; reflexivity. }
  assert (Pp : forall P, In P l -> fc_path (p_record P) = p_path P).
  { intros P I. rewrite Forall_forall in Hm. apply modelled_logic_record, Hm, I. }
  assert (Pj : forall p fc, im_get p (project l) = Some fc -> fc_path fc = p).
  { intros p fc E. destruct (project_in l p fc E) as (P & I & <- & <-). now apply Pp. }
  destruct (process_paths (project l) Pj "__coverage__" _ r1 P1) as (K & Wh & Nd & _).
  assert (Re : forall r, In r (concat [r1]) -> fc_all r = false).
  { cbn [concat]. rewrite app_nil_r. clear - Hm Wh. intros r I.
    induction Wh as [|x r0 K rs (fc & E & D) _ IHw]; [destruct I|]. destruct I as [<-|I]; [|now apply IHw].
    destruct (project_in l _ fc E) as (P & IP & _ & <-). rewrite Forall_forall in Hm. destruct D as (D & _).
    destruct (modelled_logic_step P (Hm P IP)) as (A & _). cbn in D. congruence. }
  destruct (completed_first l [r1] Wl Pp) as [_ Cp]; [constructor; [exact Nd|constructor]|exact Re|].
  assert (Ng : forall P, In P l -> no_gaps (p_record P)). { intros P [<-|[<-|[]]]; [exact Ngf|exact Ngg]. }
  destruct (logic_whole_partial l "__coverage__" hs [r1] _ logs (fun E => nil_cons (eq_sym E)) Wl Hm Sm Ng Fp Ac Fit Cp)
    as (M & s & parts & lss & E1 & E2 & E3 & E4 & _ & (T1 & T2 & T3) & _).
  exists [r1], M, s. split; [exact Fp|]. split; [exact E1|]. split; [exact E2|]. split.
  { rewrite <- E3, <- (map_map r_prog p_path). change ["f.js"; "g.js"] with (map p_path l). now apply Permutation_map. }
  split; [exact Bt|].
  rewrite T1, T2, T3. unfold sum_over, l, F, G, paths_of, p_record, calls_program, count_program. cbn [map p_cov sumN fold_right].
  rewrite F1, G1, F2, G2, F3, G3. repeat split.
Qed.
