(** Reports with [reportLogic]: the truthiness counters, which do not survive a merge (C05), have no influence on the rest of a
    report. *)
From Coq Require Import NArith String List Bool Lia PeanoNat Permutation.
Import ListNotations.
From Verif Require OneEntry.
From Verif Require Import Base IndexMap Decimal Oxide OxideSpec OxideMergeProofs OxideMerge OxideViews SourceCov SourceCovProofs
  Hints Ast Visitor VisitorRel VisitorEx Erase Counting CountingRoot Json CovJson DataObject Template Runtime Produced Report
  Sem SemShape SemErase SemVisit SemProps Account Slots Sites AccountVisit Accurate EndToEnd Runs Project.
Open Scope string_scope. Open Scope list_scope. Open Scope N_scope.

(** A record and a map without their truthiness counters *)
Definition without (fc : file_coverage) : file_coverage :=
  mkFC (fc_all fc) (fc_path fc) (fc_statement_map fc) (fc_fn_map fc) (fc_branch_map fc) (fc_s fc) (fc_f fc) (fc_b fc) None
    (fc_input_source_map fc).
Definition all_without (M : coverage_map) : coverage_map := map (fun kv => (fst kv, without (snd kv))) M.
Definition no_truth (s : coverage_summary) : coverage_summary :=
  mkSummary (cs_lines s) (cs_statements s) (cs_functions s) (cs_branches s) None.

Lemma merge_without : forall m a b r, fc_merge m a b = Ok r -> fc_merge m (without a) (without b) = Ok (without r).
Proof.
  intros m a b r H. unfold fc_merge in *. cbn [without fc_all fc_path fc_statement_map fc_fn_map fc_branch_map fc_s fc_f fc_b fc_b_t fc_input_source_map].
  destruct (fc_all b); [now injection H as <-|]. destruct (fc_all a); [now injection H as <-|].
  destruct (merge_properties m _ (fc_s a) _ _ _) as [[s sm]| |]; cbn [bind] in *; try discriminate.
  destruct (merge_properties m _ (fc_f a) _ _ _) as [[f fm]| |]; cbn [bind] in *; try discriminate.
  destruct (merge_properties_hits_vec m branch_key (fc_b a) _ _ _) as [[c bm]| |]; cbn [bind] in *; try discriminate.
  match goal with H : bind ?x _ = _ |- _ => destruct x as [bt| |]; cbn [bind] in H; try discriminate end.
  injection H as <-. reflexivity.
Qed.
Lemma without_keys : forall M, im_keys (all_without M) = im_keys M.
Proof. intros M. unfold im_keys, all_without. rewrite map_map. reflexivity. Qed.
Lemma without_get : forall M p, im_get p (all_without M) = option_map without (im_get p M).
Proof.
  intros M p. induction M as [|[q r] M IH]; [reflexivity|]. cbn [all_without map im_get fst snd]. destruct (eqb p q); [reflexivity|exact IH].
Qed.
Lemma add_without : forall m M r M', add_coverage_for_file m M r = Ok M' ->
  add_coverage_for_file m (all_without M) (without r) = Ok (all_without M').
Proof.
  intros m M r M' H. unfold add_coverage_for_file in *. change (fc_path (without r)) with (fc_path r). rewrite without_get.
  destruct (im_get (fc_path r) M) as [v|] eqn:G; cbn [option_map].
  - destruct (fc_merge m v r) as [v'| |] eqn:E; cbn [bind] in H; try discriminate. rewrite (merge_without _ _ _ _ E). cbn [bind].
    injection H as <-. f_equal. clear G. unfold all_without. induction M as [|[q x] M IH]; [reflexivity|]. cbn [map im_update fst snd].
    destruct (eqb (fc_path r) q); [reflexivity|]. cbn [map fst snd]. now rewrite IH.
  - injection H as <-. f_equal. clear G. unfold all_without. induction M as [|[q x] M IH]; [reflexivity|]. cbn [map im_insert fst snd].
    destruct (eqb (fc_path r) q); [reflexivity|]. cbn [map fst snd]. now rewrite IH.
Qed.
Lemma adds_without : forall m rs M M', fold_res (add_coverage_for_file m) M rs = Ok M' ->
  fold_res (add_coverage_for_file m) (all_without M) (map without rs) = Ok (all_without M').
Proof.
  intros m rs. induction rs as [|r rs IH]; intros M M' H; cbn [fold_res map] in *; [now injection H as <-|].
  destruct (add_coverage_for_file m M r) as [M1| |] eqn:E; cbn [bind] in H; try discriminate.
  rewrite (add_without _ _ _ _ E). cbn [bind]. now apply IH.
Qed.
Lemma maps_without : forall m rss M, merge_maps m rss = Ok M ->
  merge_maps m (map (map without) rss) = Ok (all_without M).
Proof.
  intros m rss. unfold merge_maps.
  assert (G : forall acc M, fold_res (fun acc rs => let* cm := cm_from_iter m rs in cm_merge m acc cm) acc rss = Ok M ->
    fold_res (fun acc rs => let* cm := cm_from_iter m rs in cm_merge m acc cm) (all_without acc) (map (map without) rss) = Ok (all_without M)).
  { induction rss as [|rs rss IH]; intros acc M H; cbn [fold_res map] in *; [now injection H as <-|].
    destruct (cm_from_iter m rs) as [cm| |] eqn:E1; cbn [bind] in H; try discriminate.
    destruct (cm_merge m acc cm) as [acc'| |] eqn:E2; cbn [bind] in H; try discriminate.
    unfold cm_from_iter in *. pose proof (adds_without m rs [] cm E1) as E3. cbn [all_without map] in E3. rewrite E3. cbn [bind].
    unfold cm_merge in *. apply adds_without in E2.
    assert (V : im_values (all_without cm) = map without (im_values cm)) by (unfold im_values, all_without; rewrite !map_map; reflexivity).
    rewrite V, E2. cbn [bind]. now apply IH. }
  intros M H. exact (G [] M H).
Qed.
Lemma summary_without : forall m fc s, to_summary m fc = Ok s -> to_summary m (without fc) = Ok (no_truth s).
Proof.
  intros m fc s H. unfold to_summary in *. change (get_line_coverage (without fc)) with (get_line_coverage fc).
  cbn [without fc_s fc_f fc_b fc_b_t]. destruct (get_line_coverage fc) as [lc| |]; cbn [bind] in *; try discriminate.
  destruct (compute_branch_totals m (fc_b fc)) as [t| |]; cbn [bind] in *; try discriminate.
  match goal with H : bind ?x _ = _ |- _ => destruct x as [bt| |]; cbn [bind] in H; try discriminate end.
  injection H as <-. reflexivity.
Qed.
Lemma sums_without : forall m a b s, summary_merge m a b = Ok s -> summary_merge m (no_truth a) (no_truth b) = Ok (no_truth s).
Proof.
  intros m a b s H. unfold summary_merge in *. cbn [no_truth cs_lines cs_statements cs_functions cs_branches cs_branches_true].
  do 4 (match goal with H : bind ?x _ = _ |- _ => destruct x; cbn [bind] in *; try discriminate end).
  match goal with H : bind ?x _ = _ |- _ => destruct x as [bt| |]; cbn [bind] in H; try discriminate end.
  injection H as <-. reflexivity.
Qed.
Lemma report_without : forall m M s, cm_get_coverage_summary m M = Ok s ->
  cm_get_coverage_summary m (all_without M) = Ok (no_truth s).
Proof.
  intros m M s. unfold cm_get_coverage_summary.
  assert (G : forall l a s, fold_res (fun acc fc => let* s := to_summary m fc in summary_merge m acc s) a l = Ok s ->
    fold_res (fun acc fc => let* s := to_summary m fc in summary_merge m acc s) (no_truth a) (map without l) = Ok (no_truth s)).
  { induction l as [|fc l IH]; intros a s0 H; cbn [fold_res map] in *; [now injection H as <-|].
    destruct (to_summary m fc) as [t| |] eqn:E1; cbn [bind] in H; try discriminate.
    destruct (summary_merge m a t) as [a'| |] eqn:E2; cbn [bind] in H; try discriminate.
    rewrite (summary_without _ _ _ E1). cbn [bind]. rewrite (sums_without _ _ _ _ E2). cbn [bind]. now apply IH. }
  intros H. apply G in H. unfold im_values, all_without in *. rewrite map_map in *. exact H.
Qed.

(** Whenever maps with truthiness counters can be merged and summed up, everything but the truthiness counters is as if they
    were absent. *)
Theorem truth_bystander : forall m rss M, merge_maps m rss = Ok M ->
  merge_maps m (map (map without) rss) = Ok (all_without M) /\
  forall s, cm_get_coverage_summary m M = Ok s -> cm_get_coverage_summary m (all_without M) = Ok (no_truth s).
Proof. intros m rss M H. split; [now apply maps_without|]. intros s. apply report_without. Qed.

(** ** Projects instrumented with or without [reportLogic] *)
(** As [modelled], with [reportLogic] allowed *)
Definition modelled_logic (P : program) : Prop :=
  program_items (p_tree P) = Some (p_items P) /\ clean (p_tree P) = true /\ forallb (good true) (p_items P) = true /\
  forallb item (p_items P) = true /\ forallb exact (p_items P) = true /\ NoDup (map fst (flat_map sites (p_items P))) /\
  covered_program (e_report_logic (p_env P)) (p_tree P) = true /\ Forall DataObject.plain (idents (p_tree P)) /\
  instrument (p_env P) (p_fuel P) (p_path P) (p_ism P) (p_tree P) = Ok (p_out P, p_cov P) /\ locs_unique (p_record P).
(** As [acted]; with [reportLogic] the tests for truthiness run no code of the program *)
Definition acted_logic (gcv : string) (P : program) (hist : list Runtime.event) (log : list event) : Prop :=
  if used gcv (p_path P) hist
  then exists h fuel x w, (e_report_logic (p_env P) = true -> pure_tests h) /\
         log = evs h (snd (run_program h fuel (p_tree P) x w)) /\
         Permutation (done gcv (p_path P) hist) (cnt h (snd (run_program h fuel (p_out P) x w)))
  else log = [].

Lemma acted_logic_told : forall gcv P hs logs, Forall2 (acted_logic gcv P) hs logs ->
  told_for (fun h => e_report_logic (p_env P) = true -> pure_tests h) (p_tree P) (p_out P) (total gcv (p_path P) hs) (concat logs).
Proof.
  intros gcv P hs logs F c ev Hc. unfold total. induction F as [|hist log hs logs A _ IH]; [reflexivity|].
  cbn [flat_map concat]. rewrite hitn_app, count_occ_app, Nnat.Nat2N.inj_add, IH. f_equal. unfold acted_logic in A.
  destruct (used gcv (p_path P) hist) eqn:U.
  - destruct A as (h & fuel & x & w & Hh & -> & Pm). rewrite hitn_count. f_equal. rewrite <- (Hc h Hh fuel x w).
    rewrite (Permutation_count_occ Runtime.counter_dec) in Pm. rewrite Pm. clear.
    generalize (cnt h (snd (run_program h fuel (p_out P) x w))). intros l. induction l as [|y l IH]; [reflexivity|]. cbn.
    destruct (Runtime.counter_dec y c), (counter_dec y c); congruence.
  - rewrite A, (not_used_done _ _ _ U). reflexivity.
Qed.
Lemma without_same : forall r l fc, same_data r (after l fc) -> same_data (without r) (after l (without fc)).
Proof.
  intros r l fc (A & B & C & D & E & F & G & H & _ & K). unfold same_data. cbn in *. now repeat (split; [assumption|]).
Qed.
Lemma without_tells : forall e items log R c ev, tells e items log (without R) c ev -> tells e items log R c ev.
Proof. intros e items log R c ev (sp & A & B & C & D). exists sp. split; [exact A|]. split; [exact B|]. destruct c; [auto..|discriminate]. Qed.
Lemma tells_without : forall e items log R c ev, seen c = true -> tells e items log R c ev -> tells e items log (without R) c ev.
Proof. intros e items log R c ev S0 (sp & A & B & C & D). exists sp. split; [exact A|]. split; [exact B|]. destruct c; [auto..|discriminate]. Qed.
Lemma without_slot : forall R c, slot_exists (without R) c = true -> slot_exists R c = true.
Proof. intros R c H. rewrite slot_recorded in *. destruct c; [exact H..|discriminate]. Qed.

Lemma modelled_logic_record : forall P, modelled_logic P -> fc_path (p_record P) = p_path P /\
  OxideMerge.plain (without (p_record P)) /\ unique_keys (without (p_record P)) /\ zeroed (without (p_record P)).
Proof.
  intros P (Hi & _ & _ & _ & _ & _ & _ & _ & H & Hl). unfold p_record in *.
  pose proof (produced_record _ _ _ _ _ _ _ _ Hi H) as PR. cbv zeta in PR. destruct PR as (A & B & _).
  destruct (produced_zeroed _ _ _ _ _ _ _ _ Hi H) as (Z & Tk & _ & Bt). split; [exact B|].
  destruct (produced_unique_keys _ _ _ _ _ _ _ _ Hi H) as (U1 & U2 & U3 & U4 & U5 & U6 & _).
  split; [exact (conj A (conj Tk (conj Hl eq_refl)))|]. split; [now repeat (split; [assumption|])|exact Z].
Qed.

(** What the merged map says, if merging succeeds *)
Theorem logic_tells_partial : forall m l gcv hs rss logs M, NoDup (map p_path l) -> Forall modelled_logic l ->
  Forall2 (process (project l) gcv) hs rss -> (forall P, In P l -> Forall2 (acted_logic gcv P) hs (logs P)) ->
  (forall P ev, In P l -> N.of_nat (count_occ event_dec (concat (logs P)) ev) < u32_mod) ->
  merge_maps m rss = Ok M ->
  cm_ok M /\ (forall p, In p (cm_get_files M) <-> exists P, In P l /\ p_path P = p /\ ran_once gcv p hs = true) /\
  forall P R, In P l -> cm_get_coverage_for_file M (p_path P) = Some R ->
    readable logs P (without R) /\
    forall c, seen c = true -> slot_exists R c = true -> exists ev, tells (p_env P) (p_items P) (concat (logs P)) R c ev.
Proof.
  intros m l gcv hs rss logs M W Hm F Ha Hb HM. rewrite Forall_forall in Hm.
  assert (Pp : forall p fc, im_get p (project l) = Some fc -> fc_path fc = p).
  { intros p fc E. destruct (project_in l p fc E) as (P & I & <- & <-). apply modelled_logic_record, Hm, I. }
  set (proj := all_without (project l)).
  assert (Pr : forall p fc, im_get p proj = Some fc -> fc_path fc = p /\ OxideMerge.plain fc /\ unique_keys fc /\ zeroed fc).
  { intros p fc E. unfold proj in E. rewrite without_get in E. destruct (im_get p (project l)) as [fc0|] eqn:E0; [|discriminate].
    injection E as <-. destruct (project_in l p fc0 E0) as (P & I & <- & <-). apply modelled_logic_record, Hm, I. }
  assert (X : exists K, Forall2 (whole (project l)) K (concat rss) /\ Forall (fun rs => NoDup (map fc_path rs)) rss /\
    forall p, has p K = ran_once gcv p hs /\ logs_of p K = total gcv p hs).
  { clear - F Pp. induction F as [|evs rs hs rss P _ (K & A & B & C)].
    - exists []. split; [constructor|]. split; [constructor|]. now intros p.
    - destruct (process_paths (project l) Pp gcv evs rs P) as (K1 & A1 & B1 & C1). exists (K1 ++ K). cbn [concat].
      split; [now apply Forall2_app|]. split; [now constructor|]. intros p. unfold ran_once, total. cbn [existsb flat_map].
      destruct (C p) as [C2 C3], (C1 p) as [C4 C5]. rewrite has_app, logs_app, C2, C3, C4, C5. now split. }
  destruct X as (K & A & B & C).
  assert (Tl : forall P, In P l -> ((forall c v, seen c = true -> recorded (after (total gcv (p_path P) hs) (p_record P)) c = Some v -> v < u32_mod) /\
    forall R, same_rows R (after (total gcv (p_path P) hs) (p_record P)) -> tables_ok R -> unique_keys R ->
    length (fc_s R) = length (fc_statement_map (p_record P)) /\ length (fc_f R) = length (fc_fn_map (p_record P)) /\
    length (concat (im_values (fc_b R))) = length (paths_of P) /\
    forall c, seen c = true -> slot_exists R c = true -> exists ev, tells (p_env P) (p_items P) (concat (logs P)) R c ev)).
  { intros P I. pose proof (Hm P I) as (H1 & H2 & H3 & H4 & H5 & H6 & H7 & _ & H9 & _).
    destruct (rows_tell_for (p_env P) (p_fuel P) (p_path P) (p_ism P) (p_tree P) (p_items P) (p_out P) (p_cov P) H1 H2 H3 H4 H5 H6 H7 H9
      (total gcv (p_path P) hs) (concat (logs P)) (acted_logic_told gcv P hs (logs P) (Ha P I))) as [X1 X2].
    split; [|exact X2]. apply X1. intros ev. now apply Hb. }
  assert (A' : Forall2 (whole proj) K (map without (concat rss))).
  { clear - A. unfold proj. induction A as [|x r K rs (fc & E & D) _ IH]; [constructor|]. constructor; [|exact IH].
    exists (without fc). rewrite without_get, E. split; [reflexivity|]. now apply without_same. }
  assert (B' : Forall (fun rs => NoDup (map fc_path rs)) (map (map without) rss)).
  { apply Forall_map. eapply Forall_impl; [|exact B]. intros rs N0. rewrite map_map. exact N0. }
  pose proof (maps_without m rss M HM) as HW. rewrite (merge_maps_adds m _ B') in HW.
  assert (Cc : concat (map (map without) rss) = map without (concat rss)) by (symmetry; apply concat_map).
  rewrite Cc in HW.
  destruct (adds_state proj Pr m K (map without (concat rss)) A' [] []) as (M' & E & Ok1 & S1).
  { split; [split; [constructor|discriminate]|]. now intros p. }
  { intros p fc Ep. cbn [app]. destruct (C p) as [_ ->]. destruct (Pr p fc Ep) as (_ & (P1 & P2 & P3 & P4) & P5 & P6).
    apply (fits_recorded fc P5 P3). intros c v Hv. unfold proj in Ep. rewrite without_get in Ep.
    destruct (im_get p (project l)) as [fc0|] eqn:E0; [|discriminate]. injection Ep as <-. destruct (project_in l p fc0 E0) as (P & I & <- & <-).
    destruct (seen c) eqn:Sc; [|destruct c; discriminate]. apply (proj1 (Tl P I) c v Sc). destruct c; [exact Hv..|discriminate]. }
  assert (M' = all_without M) by congruence. subst M'. clear HW E. cbn [app] in S1.
  assert (Ok0 : cm_ok M).
  { destruct Ok1 as [O1 O2]. unfold cm_get_files, cm_get_coverage_for_file in *. split; [unfold cm_get_files; now rewrite <- without_keys|].
    intros p R G. specialize (O2 p (without R)). unfold cm_get_coverage_for_file in G. rewrite without_get, G in O2. now apply O2. }
  assert (Rs : forall p, if has p K then exists fc R, im_get p (project l) = Some fc /\ im_get p M = Some R /\
      same_rows (without R) (after (total gcv p hs) fc) /\ OxideMerge.plain (without R) /\ unique_keys (without R) else im_get p M = None).
  { intros p. specialize (S1 p). destruct (C p) as [_ Cl]. destruct (has p K).
    - destruct S1 as (fc & R & E1 & E2 & (I1 & I2 & I3)). unfold proj in E1. rewrite without_get in E1, E2.
      destruct (im_get p (project l)) as [fc0|]; [|discriminate]. destruct (im_get p M) as [R0|]; [|discriminate].
      injection E1 as <-. injection E2 as <-. rewrite Cl in I1. exists fc0, R0. auto.
    - rewrite without_get in S1. now destruct (im_get p M). }
  split; [exact Ok0|]. split.
  - intros p. specialize (Rs p). destruct (C p) as [Ch _]. rewrite Ch in Rs. unfold cm_get_files. split.
    + intros I. destruct (ran_once gcv p hs); [|now apply im_get_None in Rs]. destruct Rs as (fc & R & E1 & _).
      destruct (project_in l p fc E1) as (P & IP & EP & _). now exists P.
    + intros (P & IP & EP & Hr). rewrite Hr in Rs. destruct Rs as (fc & R & _ & E2 & _). apply im_get_in in E2. now apply (in_map fst) in E2.
  - intros P R I Eg. specialize (Rs (p_path P)). unfold cm_get_coverage_for_file in Eg. destruct (has (p_path P) K); [|congruence].
    destruct Rs as (fc & R0 & E1 & E2 & Sr & (L1 & L2 & L3 & L4) & U). assert (R0 = R) by congruence. subst R0.
    rewrite (project_get l P W I) in E1. injection E1 as <-. destruct (proj2 (Tl P I) (without R) Sr L2 U) as (T1 & T2 & T3 & T4).
    split; [exact (conj (proj1 L2) (conj L4 (conj U (conj T1 (conj T2 (conj T3 T4))))))|].
    intros c Sc Hc. destruct (T4 c Sc) as (ev & Hev); [destruct c; [exact Hc..|discriminate]|]. exists ev. now apply without_tells.
Qed.
(** The report of the project, if it can be computed: as in [project_report_partial] *)
Theorem logic_report_partial : forall m l gcv hs rss logs M s, NoDup (map p_path l) -> Forall modelled_logic l -> small l ->
  Forall2 (process (project l) gcv) hs rss -> (forall P, In P l -> Forall2 (acted_logic gcv P) hs (logs P)) ->
  (forall P ev, In P l -> N.of_nat (count_occ event_dec (concat (logs P)) ev) < u32_mod) ->
  merge_maps m rss = Ok M -> cm_get_coverage_summary m M = Ok s ->
  exists parts, map (fun x => p_path (r_prog x)) parts = cm_get_files M /\
    Permutation (map r_prog parts) (filter (fun P => ran_once gcv (p_path P) hs) l) /\
    Forall (part_of logs M) parts /\
    adds_up logs r_stmts parts (cs_statements s) /\ adds_up logs r_fns parts (cs_functions s) /\
    adds_up logs r_paths parts (cs_branches s).
Proof.
  intros m l gcv hs rss logs M s W Hm Sm F Ha Hb HM Hs.
  destruct (logic_tells_partial m l gcv hs rss logs M W Hm F Ha Hb HM) as (Ok0 & Fs & Rd).
  assert (Ok1 : cm_ok (all_without M)).
  { destruct Ok0 as [O1 O2]. split; [unfold cm_get_files in *; now rewrite without_keys|]. intros p R G.
    unfold cm_get_coverage_for_file in G. rewrite without_get in G. destruct (im_get p M) as [R0|] eqn:E; [|discriminate]. injection G as <-. now apply (O2 p R0). }
  destruct (summaries_of m l (fun p => ran_once gcv p hs) logs (all_without M) W Sm Ok1) as (s' & parts & H2 & H3 & H4 & H5 & H6 & H7 & H8 & _).
  { intros p. unfold cm_get_files. rewrite without_keys. apply Fs. }
  { intros P R I G. unfold cm_get_coverage_for_file in G. rewrite without_get in G. destruct (im_get (p_path P) M) as [R0|] eqn:E; [|discriminate].
    injection G as <-. now apply (Rd P R0 I). }
  assert (s' = no_truth s) by (apply report_without in Hs; congruence). subst s'.
  exists parts. unfold cm_get_files in H3. rewrite without_keys in H3. split; [exact H3|]. split; [exact H4|].
  split; [|exact (conj H6 (conj H7 H8))]. eapply Forall_impl; [|exact H5]. intros x (X1 & X2 & X3 & R & ls & G & Ul & Y1 & Y2 & Y3 & Y4).
  unfold cm_get_coverage_for_file in G. rewrite without_get in G. destruct (im_get (p_path (r_prog x)) M) as [R0|] eqn:E; [|discriminate].
  injection G as <-. split; [exact X1|]. split; [exact X2|]. split; [exact X3|]. exists R0, ls. split; [exact E|]. split; [exact Ul|].
  assert (Mono : forall A (f : A -> counter) ps es, Forall2 (fun p ev => tells (p_env (r_prog x)) (p_items (r_prog x)) (concat (logs (r_prog x))) (without R0) (f p) ev) ps es ->
    Forall2 (fun p ev => tells (p_env (r_prog x)) (p_items (r_prog x)) (concat (logs (r_prog x))) R0 (f p) ev) ps es).
  { intros A f ps es Fq. clear - Fq. induction Fq; constructor; auto. now apply without_tells. }
  split; [now apply (Mono _ fst)|]. split; [now apply (Mono _ fst)|]. split; [now apply (Mono _ fst)|].
  intros n. rewrite Y4. split; (intros [Z1 Z2]; split; [exact Z1|]); intros k rg ev G1 G2 G3; apply (Z2 k rg ev G1 G2).
  - now apply tells_without.
  - now apply without_tells.
Qed.

(** ** Merging succeeds when no branch was removed *)
Lemma insert_keys_in : forall V k (v : V) (items : imap string V) x, In x (im_keys (im_insert k v items)) -> x = k \/ In x (im_keys items).
Proof.
  intros V k v items x I. unfold im_keys in *. induction items as [|[k' v'] items IH]; cbn [im_insert map fst In] in *; [intuition congruence|].
  destruct (eqb k k') eqn:E; cbn [map fst In] in I; intuition.
Qed.
Lemma upsert_keys_in : forall V k f (v : V) (items items' : imap string V) x, im_upsert k f v items = Ok items' ->
  In x (im_keys items') -> x = k \/ In x (im_keys items).
Proof.
  intros V k f v items. unfold im_keys. induction items as [|[k' v'] items IH]; intros items' x E I; cbn [im_upsert] in E.
  - injection E as <-. cbn in *. intuition congruence.
  - destruct (eqb k k').
    + destruct (f v') as [y| |]; cbn [bind] in E; try discriminate. injection E as <-. cbn in *. intuition.
    + destruct (im_upsert k f v items) as [r| |]; cbn [bind] in E; try discriminate. injection E as <-. cbn [map fst In] in *.
      destruct I as [I|I]; [now right; left|]. destruct (IH r x eq_refl I) as [J|J]; [now left|now right; right].
Qed.
Section Keys.
Context {T H : Type} (add : H -> H -> res H).
Lemma ins_keys_in : forall (rs : list (range * (H * T))) items x, In x (im_keys (ins_rows items rs)) ->
  In x (im_keys items) \/ In x (map (fun r => key_from_loc (fst r)) rs).
Proof.
  intros rs. unfold ins_rows. induction rs as [|r rs IH]; intros items x I; cbn [fold_left map In] in *; [now left|].
  destruct (IH _ _ I) as [J|J]; [|now right; right]. apply insert_keys_in in J as [J|J]; [right; now left|now left].
Qed.
Lemma ups_keys_in : forall (rs : list (range * (H * T))) items items' x, ups_rows add items rs = Ok items' -> In x (im_keys items') ->
  In x (im_keys items) \/ In x (map (fun r => key_from_loc (fst r)) rs).
Proof.
  intros rs. unfold ups_rows. induction rs as [|r rs IH]; intros items items' x E I; cbn [fold_res map In] in *; [injection E as <-; now left|].
  destruct (im_upsert _ _ _ items) as [i1| |] eqn:E1; cbn [bind] in E; try discriminate.
  destruct (IH _ _ _ E I) as [J|J]; [|now right; right]. apply (upsert_keys_in _ _ _ _ _ _ _ E1) in J as [J|J]; [right; now left|now left].
Qed.
End Keys.

(** The ids of a truthiness table are ids of branch counters of the record. *)
Definition attached (bt : branch_hit_map) (fc : file_coverage) : Prop := forall k, In k (im_keys bt) -> In k (im_keys (fc_b fc)).
Lemma attached_table : forall bt fc, attached bt fc -> tables_ok fc -> table_ok br_loc bt (fc_branch_map fc).
Proof. intros bt fc A (_ & _ & T) k I. now apply T, A. Qed.
Lemma attached_locs : forall bt fc r, attached bt fc -> In r (rows br_loc bt (fc_branch_map fc)) -> In (fst r) (map fst (branch_rows fc)).
Proof.
  intros bt fc r A I. unfold rows in I. apply in_flat_map in I as ([k h] & I & Hx). cbn [fst snd] in Hx.
  destruct (im_get k (fc_branch_map fc)) as [t|] eqn:E; [|contradiction]. destruct (br_loc t) as [g|] eqn:El; [|contradiction].
  destruct Hx as [<-|[]]. cbn [fst]. assert (Ik : In k (im_keys (fc_b fc))). { apply A. unfold im_keys. now apply (in_map fst) in I. }
  unfold im_keys in Ik. apply in_map_iff in Ik as ([k' v] & Ek & Ik). cbn in Ek. subst k'.
  apply in_map_iff. exists (g, (v, t)). split; [reflexivity|]. unfold branch_rows, rows. apply in_flat_map. exists (k, v). split; [exact Ik|].
  cbn [fst snd]. rewrite E, El. now left.
Qed.
Lemma truth_merge : forall bt1 X1 bt2 X2 (L : list range), tables_ok X1 -> tables_ok X2 -> attached bt1 X1 -> attached bt2 X2 ->
  (forall g, In g (map fst (branch_rows X1)) -> In g L) -> (forall g, In g (map fst (branch_rows X2)) -> In g L) ->
  exists bt mp, merge_properties_hits_vec Release branch_key bt1 (fc_branch_map X1) bt2 (fc_branch_map X2) = Ok (bt, mp) /\
    forall k, In k (im_keys bt) -> (N.to_nat k < length L)%nat.
Proof.
  intros bt1 X1 bt2 X2 L T1 T2 A1 A2 L1 L2. unfold merge_properties_hits_vec.
  rewrite (merge_gen_rows _ _ br_loc k_br_loc) by now apply attached_table.
  destruct (ups_total _ _ _ vec_add_release (rows br_loc bt2 (fc_branch_map X2)) (ins_rows [] (rows br_loc bt1 (fc_branch_map X1)))) as [items E].
  rewrite E. cbn [bind merge_renumber]. do 2 eexists. split; [reflexivity|]. intros k I. unfold im_keys in I. rewrite number_from_fst in I.
  apply in_map_iff in I as (n & <- & I). apply in_seq in I. unfold im_values in I. rewrite !map_length in I.
  assert (W : NoDup (im_keys items)).
  { eapply (ups_wf (vec_add Release)); [|exact E]. apply ins_wf. constructor. }
  assert (Inc : incl (im_keys items) (map key_from_loc L)).
  { intros x Ix. apply (ups_keys_in (vec_add Release) _ _ _ _ E) in Ix as [Ix|Ix].
    - apply ins_keys_in in Ix as [[]|Ix]. apply in_map_iff in Ix as (r & <- & Ir). apply in_map, L1. eapply attached_locs; eauto.
    - apply in_map_iff in Ix as (r & <- & Ir). apply in_map, L2. eapply attached_locs; eauto. }
  pose proof (NoDup_incl_length W Inc) as Le. unfold im_keys in Le. rewrite !map_length in Le. lia.
Qed.
(** A merge is the merge without truthiness counters, with the merged truthiness counters added. *)
Definition with_truth (fc : file_coverage) (bt : option branch_hit_map) : file_coverage :=
  mkFC (fc_all fc) (fc_path fc) (fc_statement_map fc) (fc_fn_map fc) (fc_branch_map fc) (fc_s fc) (fc_f fc) (fc_b fc) bt
    (fc_input_source_map fc).
Lemma merge_split : forall m a b r0, fc_all a = false -> fc_all b = false -> fc_merge m (without a) (without b) = Ok r0 ->
  fc_merge m a b =
    (let* bt := match fc_b_t a, fc_b_t b with
                | Some bt1, Some bt2 =>
                    let* (bt, _) := merge_properties_hits_vec m branch_key bt1 (fc_branch_map r0) bt2 (fc_branch_map b) in Ok (Some bt)
                | _, _ => Ok (fc_b_t a)
                end in Ok (with_truth r0 bt)) /\
  exists vs : list (list N), fc_b r0 = number_from 0 vs.
Proof.
  intros m a b r0 Ha Hb H. unfold fc_merge in *. cbn [without fc_all fc_path fc_statement_map fc_fn_map fc_branch_map fc_s fc_f fc_b fc_b_t fc_input_source_map] in H.
  rewrite Ha, Hb in *.
  destruct (merge_properties m _ (fc_s a) _ _ _) as [[s sm]| |]; cbn [bind] in *; try discriminate.
  destruct (merge_properties m _ (fc_f a) _ _ _) as [[f fm]| |]; cbn [bind] in *; try discriminate.
  unfold merge_properties_hits_vec at 1 in H. unfold merge_properties_hits_vec at 1. unfold merge_properties_gen at 1 in H. unfold merge_properties_gen at 1.
  destruct (fold_res (merge_loop1 branch_key (fc_branch_map a)) [] (fc_b a)) as [i1| |]; cbn [bind] in *; try discriminate.
  destruct (fold_res (merge_loop2 (vec_add m) branch_key (fc_branch_map b)) i1 (fc_b b)) as [i2| |]; cbn [bind merge_renumber] in *; try discriminate.
  injection H as <-. split; [|eexists; reflexivity]. reflexivity.
Qed.

(** No branch of the record was removed: its ids are those below the number of its branches. *)
Definition no_gaps (fc : file_coverage) : Prop :=
  forall k, In k (im_keys (fc_branch_map fc)) -> (N.to_nat k < length (fc_branch_map fc))%nat.
Definition bounded (fc R : file_coverage) : Prop :=
  match fc_b_t R with Some bt => forall k, In k (im_keys bt) -> (N.to_nat k < length (branch_rows fc))%nat | None => True end.
Section Step.
Variable fc : file_coverage.
Hypothesis Hall : fc_all fc = false.
Hypothesis Hu : unique_keys fc.
Hypothesis Ht : tables_ok fc.
Hypothesis Hl : locs_unique fc.
Hypothesis Hz : zeroed fc.
Hypothesis Hg : no_gaps fc.
Hypothesis Hb : forall k, In k (im_keys (fc_branch_map fc)) <-> In k (im_keys (fc_b fc)).
Hypothesis Ha : match fc_b_t fc with Some bt => attached bt fc | None => True end.

Lemma step_unique : unique_keys (without fc).
Proof. destruct Hu as (U1 & U2 & U3 & U4 & U5 & U6 & _). now repeat (split; [assumption|]). Qed.
Lemma rows_len : forall T H (loc : T -> option range) (h : imap N H) (mp : imap N T), table_ok loc h mp -> length (rows loc h mp) = length h.
Proof.
  intros T H loc h mp Hk. unfold rows. induction h as [|[k v] h IH]; [reflexivity|]. cbn [flat_map]. rewrite app_length, IH.
  - destruct (Hk k (or_introl eq_refl)) as (y & z & E1 & E2). cbn [fst]. now rewrite E1, E2.
  - intros k' I. apply Hk. now right.
Qed.
Lemma branches_len : length (branch_rows fc) = length (fc_branch_map fc).
Proof.
  unfold branch_rows. rewrite rows_len by apply Ht. destruct Hu as (_ & _ & U3 & _ & _ & U6 & _).
  rewrite <- (map_length fst (fc_b fc)), <- (map_length fst (fc_branch_map fc)). apply Permutation_length.
  apply NoDup_Permutation; [exact U6|exact U3|]. intros k. symmetry. apply Hb.
Qed.
Lemma truth_keys : forall r l, same_data r (after l fc) ->
  match fc_b_t r with Some bt => attached bt r /\ forall k, In k (im_keys bt) -> (N.to_nat k < length (branch_rows fc))%nat | None => True end.
Proof.
  intros r l (_ & _ & _ & _ & _ & _ & _ & P6 & P7 & _). destruct (fc_b_t r) as [bt|]; [|exact I]. cbn [after fc_b_t fc_b] in P6, P7.
  destruct (fc_b_t fc) as [bt0|]; [|contradiction]. cbn [option_map] in P7.
  assert (K : forall k, In k (im_keys bt) -> In k (im_keys bt0)).
  { intros k Ik. unfold im_keys in *. rewrite P7 in Ik. rewrite map_map in Ik. exact Ik. }
  split.
  - intros k Ik. apply K, Ha in Ik. unfold im_keys in *. rewrite P6, map_map. exact Ik.
  - intros k Ik. rewrite branches_len. now apply Hg, Hb, Ha, K.
Qed.
Lemma logic_step : forall a l r l', Inv (without fc) (without a) l -> bounded fc a -> same_data r (after l' fc) ->
  fits (after (l ++ l') (without fc)) -> exists R, fc_merge Release a r = Ok R /\ bounded fc R.
Proof.
  intros a l r l' Ia Ba D F. pose proof (without_same _ _ _ D) as D'.
  destruct (inv_merge (without fc) Hall eq_refl step_unique Ht Hl Hz Release (without a) l (without r) l' Ia D' F) as (r0 & E0 & I0).
  destruct (inv_start (without fc) Hall eq_refl step_unique Ht Hl (without r) l' D') as (Sr & (Pr1 & Pr2 & _) & _).
  destruct Ia as (Sa & (Pa1 & Pa2 & _) & _). destruct I0 as (S0 & (_ & T0 & _) & _).
  destruct (merge_split Release a r r0 Pa1 Pr1 E0) as (-> & vs & Ev).
  pose proof (truth_keys r l' D) as Tr. unfold bounded in Ba. destruct (fc_b_t a) as [bt1|]; [|eexists; split; [reflexivity|exact I]].
  destruct (fc_b_t r) as [bt2|]; [|eexists; split; [reflexivity|exact Ba]]. destruct Tr as [Tr1 Tr2].
  assert (Locs : forall l, map fst (branch_rows (after l (without fc))) = map fst (branch_rows fc)).
  { intros l0. destruct (rows_after l0 (without fc)) as (_ & _ & ->). rewrite locs_mapped. unfold xb. rewrite krows_locs. reflexivity. }
  assert (LL : forall X l0, same_rows X (after l0 (without fc)) -> Permutation (map fst (branch_rows X)) (map fst (branch_rows fc))).
  { intros X l0 (_ & _ & S3). rewrite <- (Locs l0). now apply Permutation_map. }
  destruct (truth_merge bt1 r0 bt2 r (map fst (branch_rows fc)) T0 Pr2) as (bt & mp & E & Bd).
  - intros k Ik. apply Ba in Ik. rewrite Ev. unfold im_keys. rewrite number_from_fst. apply in_map_iff. exists (N.to_nat k). split; [lia|].
    apply in_seq. split; [lia|]. cbn. rewrite <- (number_from_length _ vs 0), <- Ev.
    rewrite <- (rows_len _ _ br_loc _ _ (proj2 (proj2 T0))). change (rows br_loc (fc_b r0) (fc_branch_map r0)) with (branch_rows r0).
    rewrite <- (map_length fst (branch_rows r0)), (Permutation_length (LL r0 _ S0)), map_length. exact Ik.
  - exact Tr1.
  - intros g Ig. exact (Permutation_in g (LL r0 _ S0) Ig).
  - intros g Ig. exact (Permutation_in g (LL (without r) _ Sr) Ig).
  - rewrite E. cbn [bind]. eexists. split; [reflexivity|]. unfold bounded. cbn [with_truth fc_b_t]. intros k Ik. rewrite <- (map_length fst (branch_rows fc)). now apply Bd.
Qed.
End Step.

Lemma produced_step : forall e n path ism t items t' sc, program_items t = Some items ->
  instrument e n path ism t = Ok (t', sc) -> locs_unique (sc_fc sc) -> let fc := sc_fc sc in
  fc_all fc = false /\ unique_keys fc /\ tables_ok fc /\ locs_unique fc /\ zeroed fc /\
  (forall k, In k (im_keys (fc_branch_map fc)) <-> In k (im_keys (fc_b fc))) /\
  match fc_b_t fc with Some bt => attached bt fc | None => True end.
Proof.
  intros e n path ism t items t' sc Hi H Hl fc. fold fc in Hl.
  pose proof (produced_record _ _ _ _ _ _ _ _ Hi H) as PR. cbv zeta in PR. fold fc in PR.
  destruct PR as (A & B & _ & _ & _ & _ & _ & _ & N1 & N2 & _ & Z & Bt).
  destruct (produced_zeroed _ _ _ _ _ _ _ _ Hi H) as (Zr & Tk & _ & _). fold fc in Zr, Tk.
  assert (Kb : forall k, In k (im_keys (fc_branch_map fc)) <-> In k (im_keys (fc_b fc))).
  { intros k. pose proof (im_get_None k (fc_branch_map fc)) as G1. pose proof (im_get_None k (fc_b fc)) as G2. rewrite Z in G2.
    destruct (in_dec N.eq_dec k (im_keys (fc_branch_map fc))) as [Y|Y], (in_dec N.eq_dec k (im_keys (fc_b fc))) as [X|X]; try tauto.
    - destruct (im_get k (fc_branch_map fc)); [apply G2 in X; discriminate|]. now apply G1 in Y.
    - apply G1 in Y as Y'. rewrite Y' in G2. now apply G2 in X. }
  split; [exact A|]. split; [exact (produced_unique_keys _ _ _ _ _ _ _ _ Hi H)|]. do 3 (split; [assumption|]). split; [exact Kb|].
  destruct (fc_b_t fc) as [bt|]; [|exact I]. destruct Bt as (_ & Nb & Bt). intros k Ik. apply Kb.
  destruct (im_get k bt) as [v|] eqn:E; [|now apply im_get_None in E]. apply Bt in E as (br & E & _). apply im_get_in in E.
  unfold im_keys. now apply (in_map fst) in E.
Qed.
Lemma modelled_logic_step : forall P, modelled_logic P -> let fc := p_record P in
  fc_all fc = false /\ unique_keys fc /\ tables_ok fc /\ locs_unique fc /\ zeroed fc /\
  (forall k, In k (im_keys (fc_branch_map fc)) <-> In k (im_keys (fc_b fc))) /\
  match fc_b_t fc with Some bt => attached bt fc | None => True end.
Proof. intros P (Hi & _ & _ & _ & _ & _ & _ & _ & H & Hl). exact (produced_step _ _ _ _ _ _ _ _ Hi H Hl). Qed.
Lemma adds_logic : forall l, Forall modelled_logic l -> (forall P, In P l -> no_gaps (p_record P)) ->
  forall K rs, Forall2 (whole (project l)) K rs -> forall M H, state (all_without (project l)) (all_without M) H ->
  (forall p fc R, im_get p (project l) = Some fc -> im_get p M = Some R -> bounded fc R) ->
  (forall p fc, im_get p (all_without (project l)) = Some fc -> fits (after (logs_of p (H ++ K)) fc)) ->
  exists M', fold_res (add_coverage_for_file Release) M rs = Ok M'.
Proof.
  intros l Hm Hg. rewrite Forall_forall in Hm.
  assert (Pr : forall p fc, im_get p (all_without (project l)) = Some fc -> fc_path fc = p /\ OxideMerge.plain fc /\ unique_keys fc /\ zeroed fc).
  { intros p fc E. rewrite without_get in E. destruct (im_get p (project l)) as [fc0|] eqn:E0; [|discriminate].
    injection E as <-. destruct (project_in l p fc0 E0) as (P & I & <- & <-). apply modelled_logic_record, Hm, I. }
  intros K rs F. induction F as [|[p lg] r K rs (fc & Ep & D) _ IH]; intros M H S0 Bd Ft; [now exists M|].
  cbn [fst snd] in *. assert (E0 : H ++ (p, lg) :: K = (H ++ [(p, lg)]) ++ K) by (rewrite <- app_assoc; reflexivity). rewrite E0 in Ft.
  assert (Ep' : im_get p (all_without (project l)) = Some (without fc)) by (rewrite without_get, Ep; reflexivity).
  assert (Fp : fits (after (logs_of p (H ++ [(p, lg)])) (without fc))).
  { specialize (Ft p _ Ep'). rewrite logs_app in Ft. destruct (Pr p _ Ep') as (_ & (A & B & C & Dn) & U & Z). eapply fits_prefix; eauto. }
  destruct (add_state (all_without (project l)) Pr Release (all_without M) H p lg (without fc) (without r) S0 Ep' (without_same _ _ _ D) Fp) as (W1 & Ew & Sw).
  destruct (project_in l p fc Ep) as (P & IP & <- & <-). pose proof (modelled_logic_step P (Hm P IP)) as X. cbv zeta in X.
  destruct X as (X1 & X2 & X3 & X4 & X5 & X6 & X7).
  assert (Pth : fc_path r = p_path P).
  { pose proof (proj1 (Pr _ _ Ep')) as Q. destruct D as (_ & D & _). cbn in D, Q. congruence. }
  assert (Lg : logs_of (p_path P) (H ++ [(p_path P, lg)]) = logs_of (p_path P) H ++ lg).
  { rewrite logs_app. f_equal. unfold logs_of. cbn. now rewrite String.eqb_refl, app_nil_r. }
  rewrite Lg in Fp.
  assert (X : exists M1, add_coverage_for_file Release M r = Ok M1 /\ forall q fc R, im_get q (project l) = Some fc -> im_get q M1 = Some R -> bounded fc R).
  { unfold add_coverage_for_file. rewrite Pth. destruct (im_get (p_path P) M) as [R|] eqn:Eg.
    - destruct S0 as [_ S0]. specialize (S0 (p_path P)).
      assert (Eg' : im_get (p_path P) (all_without M) = Some (without R)) by (rewrite without_get, Eg; reflexivity).
      destruct (has (p_path P) H); [|congruence]. destruct S0 as (fc' & R' & E1 & E2 & I0). rewrite Ep' in E1. rewrite Eg' in E2.
      injection E1 as <-. injection E2 as <-.
      destruct (logic_step (p_record P) X1 X2 X3 X4 X5 (Hg P IP) X6 X7 R _ r lg I0 (Bd _ _ _ Ep Eg) D Fp) as (R1 & E1 & B1).
      rewrite E1. cbn [bind]. eexists. split; [reflexivity|]. intros q fc R2 Eq Er. rewrite im_get_update in Er.
      destruct (eqb q (p_path P)) eqn:Eqp.
      + apply String.eqb_eq in Eqp. subst q. rewrite Eg in Er. cbn in Er. injection Er as <-. rewrite Ep in Eq. injection Eq as <-. exact B1.
      + now apply (Bd q).
    - eexists. split; [reflexivity|]. intros q fc R2 Eq Er. rewrite im_get_insert in Er. destruct (eqb q (p_path P)) eqn:Eqp.
      + apply String.eqb_eq in Eqp. subst q. injection Er as <-. rewrite Ep in Eq. injection Eq as <-.
        pose proof (truth_keys (p_record P) X2 X3 (Hg P IP) X6 X7 r lg D) as T. unfold bounded. destruct (fc_b_t r); [apply T|exact I].
      + now apply (Bd q). }
  destruct X as (M1 & E1 & B1). cbn [fold_res]. rewrite E1. cbn [bind]. pose proof (add_without _ _ _ _ E1) as Ea.
  assert (W1 = all_without M1) by congruence. subst W1. exact (IH M1 _ Sw B1 Ft).
Qed.
Lemma totals_release : forall a b, exists t, totals_merge Release a b = Ok t.
Proof. intros a b. unfold totals_merge, u32_add. cbn [bind]. eauto. Qed.
Lemma sums_release : forall a b, exists s, summary_merge Release a b = Ok s.
Proof.
  intros a b. unfold summary_merge.
  destruct (totals_release (cs_lines a) (cs_lines b)) as [x1 ->]. destruct (totals_release (cs_statements a) (cs_statements b)) as [x2 ->].
  destruct (totals_release (cs_functions a) (cs_functions b)) as [x3 ->]. destruct (totals_release (cs_branches a) (cs_branches b)) as [x4 ->]. cbn [bind].
  destruct (cs_branches_true b) as [t|]; [|cbn; eauto].
  destruct (totals_release (match cs_branches_true a with Some v => v | None => totals_default end) t) as [x5 ->]. cbn. eauto.
Qed.
Lemma branch_totals_release : forall bm, exists t, compute_branch_totals Release bm = Ok t.
Proof.
  intros bm. unfold compute_branch_totals. generalize (0, 0). generalize (im_values bm). intros l. induction l as [|v l IH]; intros p.
  - destruct p. cbn. eauto.
  - cbn [fold_res]. unfold branch_totals_step at 1. unfold u32_add. cbn [bind]. apply IH.
Qed.
Lemma summary_release : forall m fc s, to_summary m (without fc) = Ok s -> exists s', to_summary Release fc = Ok s'.
Proof.
  intros m fc s H. unfold to_summary in *. change (get_line_coverage (without fc)) with (get_line_coverage fc) in H.
  destruct (get_line_coverage fc) as [lc| |]; cbn [bind] in *; try discriminate. destruct (branch_totals_release (fc_b fc)) as [t ->]. cbn [bind].
  destruct (fc_b_t fc) as [bt|]; [|cbn; eauto]. destruct (branch_totals_release bt) as [t' ->]. cbn. eauto.
Qed.
Lemma report_release : forall m M ss, map_res (to_summary m) (im_values (all_without M)) = Ok ss -> exists s, cm_get_coverage_summary Release M = Ok s.
Proof.
  intros m M. unfold cm_get_coverage_summary, im_values, all_without. rewrite map_map. cbn [snd]. generalize summary_derived_default.
  induction M as [|[p fc] M IH]; intros a ss H; cbn [map map_res fold_res snd] in *; [eauto|].
  destruct (to_summary m (without fc)) as [s| |] eqn:E; cbn [bind] in H; try discriminate.
  match type of H with bind ?x _ = _ => destruct x as [ss'| |] eqn:E2; cbn [bind] in H; try discriminate end.
  destruct (summary_release m fc s E) as [s' ->]. cbn [bind]. destruct (sums_release a s') as [a' ->]. cbn [bind]. now apply (IH a' ss').
Qed.

(** In a release build the report of a project instrumented with [reportLogic] can be computed if no branch was removed from a
    record, and says the same as without [reportLogic]. *)
Theorem logic_release_partial : forall l gcv hs rss logs, NoDup (map p_path l) -> Forall modelled_logic l -> small l ->
  (forall P, In P l -> no_gaps (p_record P)) ->
  Forall2 (process (project l) gcv) hs rss -> (forall P, In P l -> Forall2 (acted_logic gcv P) hs (logs P)) ->
  (forall P ev, In P l -> N.of_nat (count_occ event_dec (concat (logs P)) ev) < u32_mod) ->
  exists M s parts, merge_maps Release rss = Ok M /\ cm_get_coverage_summary Release M = Ok s /\
    map (fun x => p_path (r_prog x)) parts = cm_get_files M /\
    Permutation (map r_prog parts) (filter (fun P => ran_once gcv (p_path P) hs) l) /\
    Forall (part_of logs M) parts /\
    adds_up logs r_stmts parts (cs_statements s) /\ adds_up logs r_fns parts (cs_functions s) /\
    adds_up logs r_paths parts (cs_branches s).
Proof.
  intros l gcv hs rss logs W Hm Sm Hg F Ha Hb. pose proof Hm as Hm'. rewrite Forall_forall in Hm'.
  assert (Pp : forall p fc, im_get p (project l) = Some fc -> fc_path fc = p).
  { intros p fc E. destruct (project_in l p fc E) as (P & I & <- & <-). apply modelled_logic_record, Hm', I. }
  assert (X : exists K, Forall2 (whole (project l)) K (concat rss) /\ Forall (fun rs => NoDup (map fc_path rs)) rss /\
    forall p, has p K = ran_once gcv p hs /\ logs_of p K = total gcv p hs).
  { clear - F Pp. induction F as [|evs rs hs rss P _ (K & A & B & C)].
    - exists []. split; [constructor|]. split; [constructor|]. now intros p.
    - destruct (process_paths (project l) Pp gcv evs rs P) as (K1 & A1 & B1 & C1). exists (K1 ++ K). cbn [concat].
      split; [now apply Forall2_app|]. split; [now constructor|]. intros p. unfold ran_once, total. cbn [existsb flat_map].
      destruct (C p) as [C2 C3], (C1 p) as [C4 C5]. rewrite has_app, logs_app, C2, C3, C4, C5. now split. }
  destruct X as (K & A & B & C).
  destruct (adds_logic l Hm Hg K (concat rss) A [] []) as (M & E).
  { split; [split; [constructor|discriminate]|]. now intros p. }
  { discriminate. }
  { intros p fc Ep. cbn [app]. destruct (C p) as [_ ->]. rewrite without_get in Ep.
    destruct (im_get p (project l)) as [fc0|] eqn:E0; [|discriminate]. injection Ep as <-. destruct (project_in l p fc0 E0) as (P & I & <- & <-).
    destruct (modelled_logic_record P (Hm' P I)) as (_ & (P1 & P2 & P3 & P4) & P5 & P6).
    apply (fits_recorded (without (p_record P)) P5 P3). intros c v Hv. pose proof (Hm' P I) as (H1 & H2 & H3 & H4 & H5 & H6 & H7 & _ & H9 & _).
    destruct (rows_tell_for (p_env P) (p_fuel P) (p_path P) (p_ism P) (p_tree P) (p_items P) (p_out P) (p_cov P) H1 H2 H3 H4 H5 H6 H7 H9
      (total gcv (p_path P) hs) (concat (logs P)) (acted_logic_told gcv P hs (logs P) (Ha P I))) as [X1 _].
    destruct (seen c) eqn:Sc; [|destruct c; discriminate]. apply (X1 (fun ev => Hb P ev I) c v Sc). destruct c; [exact Hv..|discriminate]. }
  rewrite <- (merge_maps_adds Release rss B) in E.
  destruct (logic_tells_partial Release l gcv hs rss logs M W Hm F Ha Hb E) as (Ok0 & Fs & Rd).
  assert (Ok1 : cm_ok (all_without M)).
  { destruct Ok0 as [O1 O2]. split; [unfold cm_get_files in *; now rewrite without_keys|]. intros p R G.
    unfold cm_get_coverage_for_file in G. rewrite without_get in G. destruct (im_get p M) as [R0|] eqn:E1; [|discriminate]. injection G as <-. now apply (O2 p R0). }
  destruct (summaries_of Release l (fun p => ran_once gcv p hs) logs (all_without M) W Sm Ok1) as (_ & _ & _ & _ & _ & _ & _ & _ & _ & ss & Es & _).
  { intros p. unfold cm_get_files. rewrite without_keys. apply Fs. }
  { intros P R I G. unfold cm_get_coverage_for_file in G. rewrite without_get in G. destruct (im_get (p_path P) M) as [R0|] eqn:E1; [|discriminate].
    injection G as <-. now apply (Rd P R0 I). }
  destruct (report_release Release M ss Es) as (s & Hs).
  destruct (logic_report_partial Release l gcv hs rss logs M s W Hm Sm F Ha Hb E Hs) as (parts & H). exists M, s, parts. auto.
Qed.

(** ** Example *)
(** [ex_calls] (an [if] and an [||]) instrumented with [reportLogic] runs in two processes. *)
Definition calls_program (t' : node) (sc : source_cov) : program :=
  mkProgram logic_env 40 "f.js" None ex_calls (match program_items ex_calls with Some l => l | None => [] end) t' sc.
Definition calls_log (n : nat) : list event := evs pure_toy (snd (run_program pure_toy n ex_calls tt w0)).
Definition calls_incs (n : nat) (P : program) : list counter := cnt pure_toy (snd (run_program pure_toy n (p_out P) tt w0)).
Lemma calls_modelled : forall t' sc, instrument logic_env 40 "f.js" None ex_calls = Ok (t', sc) ->
  modelled_logic (calls_program t' sc) /\ small [calls_program t' sc] /\ no_gaps (sc_fc sc) /\ fc_b_t (sc_fc sc) <> None.
Proof.
  intros t' sc H. split.
  - unfold modelled_logic, calls_program. cbn [p_env p_fuel p_path p_ism p_tree p_items p_out p_cov]. do 5 (split; [reflexivity|]).
    split; [events_nodup|]. split; [reflexivity|]. split; [vm_compute; repeat constructor|]. split; [exact H|].
    unfold p_record. cbn [p_cov]. vm_compute in H. injection H as _ <-. repeat split; apply nodupb_ok; vm_compute; reflexivity.
  - unfold small, sum_over, paths_of, p_record, calls_program. cbn [map p_cov sumN fold_right].
    vm_compute in H. injection H as _ <-. split; [repeat split; vm_compute; reflexivity|]. split; [|discriminate].
    intros k I. vm_compute in I. destruct I as [<-|[<-|[]]]; vm_compute; lia.
Qed.
Definition calls_emitted (P : program) : emitted := emitted_for "__coverage__" (p_path P) (p_record P).
Lemma pure_toy_tests : pure_tests pure_toy.
Proof. intros n v x w. exists v. reflexivity. Qed.
Lemma map_single : forall {A B} {f : A -> B} l b, map f l = [b] -> exists a, l = [a] /\ f a = b.
Proof. intros A B f [|a [|a' l]] b E; try discriminate. injection E as E. now exists a. Qed.
(** The theorem applies. *)
Example logic_report_ex : forall t' sc, instrument logic_env 40 "f.js" None ex_calls = Ok (t', sc) ->
  let P := calls_program t' sc in
  let hs := [one_file (calls_emitted P) (calls_incs 20 P); one_file (calls_emitted P) (calls_incs 1 P)] in
  exists rss M s R, Forall2 (process (project [P]) "__coverage__") hs rss /\ merge_maps Release rss = Ok M /\
    cm_get_coverage_summary Release M = Ok s /\ cm_get_files M = ["f.js"] /\ cm_get_coverage_for_file M "f.js" = Some R /\
    t_total (cs_statements s) = 5 /\ t_total (cs_functions s) = 1 /\ t_total (cs_branches s) = 4 /\
    (forall c, seen c = true -> slot_exists R c = true -> exists ev, tells logic_env (p_items P) (concat [calls_log 20; calls_log 1]) R c ev).
Proof.
  intros t' sc H P hs. destruct (calls_modelled t' sc H) as (Mo & Sm & Ng & _). fold P in Mo, Sm.
  assert (Wl : NoDup (map p_path [P])) by (repeat constructor; intros []).
  assert (Hm : Forall modelled_logic [P]) by (constructor; [exact Mo|constructor]).
  assert (In1 : forall n, exists rs, process (project [P]) "__coverage__" (one_file (calls_emitted P) (calls_incs n P)) rs).
  { intros n. destruct (one_file_ok (calls_emitted P) (calls_incs n P)) as (V & L & _).
    assert (O : Forall (fun f => exists fc, output_of f fc /\ (em_gcv f = "__coverage__" -> im_get (em_path f) (project [P]) = Some fc))
      (loaded (one_file (calls_emitted P) (calls_incs n P)))).
    { rewrite L. constructor; [|constructor]. exists (p_record P). destruct Mo as (H1 & _ & _ & _ & _ & _ & _ & H8 & H9 & _). split.
      - destruct (produced_literal _ _ _ _ _ _ _ _ H1 H9 H8) as [O _]. apply O.
      - intros _. reflexivity. }
    assert (W1 : NoDup (map file_key (loaded (one_file (calls_emitted P) (calls_incs n P))))) by (rewrite L; repeat constructor; intros []).
    destruct (variable_read _ "__coverage__" V W1) as (st & rs & E & Er & _).
    { eapply Forall_impl; [|exact O]. intros f (fc & Of & _). eauto. }
    exists (map snd rs). split; [exact V|]. split; [exact W1|]. split; [exact O|]. exists st, rs. auto. }
  destruct (In1 20%nat) as (r1 & P1), (In1 1%nat) as (r2 & P2).
  assert (Pr : Forall2 (process (project [P]) "__coverage__") hs [r1; r2]) by (constructor; [exact P1|constructor; [exact P2|constructor]]).
  assert (Ac : forall Q, In Q [P] -> Forall2 (acted_logic "__coverage__" Q) hs [calls_log 20; calls_log 1]).
  { intros Q [<-|[]]. constructor; [|constructor; [|constructor]]; unfold acted_logic.
    - destruct (one_ok (calls_emitted P) (calls_incs 20 P)) as (_ & U & D). rewrite U. exists pure_toy, 20%nat, tt, w0.
      split; [intros _; apply pure_toy_tests|]. split; [reflexivity|]. change (done "__coverage__" (p_path P)) with (done (em_gcv (calls_emitted P)) (em_path (calls_emitted P))). rewrite D. apply Permutation_refl.
    - destruct (one_ok (calls_emitted P) (calls_incs 1 P)) as (_ & U & D). rewrite U. exists pure_toy, 1%nat, tt, w0.
      split; [intros _; apply pure_toy_tests|]. split; [reflexivity|]. change (done "__coverage__" (p_path P)) with (done (em_gcv (calls_emitted P)) (em_path (calls_emitted P))). rewrite D. apply Permutation_refl. }
  assert (Fit : forall Q ev, In Q [P] -> N.of_nat (count_occ event_dec (concat [calls_log 20; calls_log 1]) ev) < u32_mod).
  { intros Q ev _. refine (N.le_lt_trans _ _ _ (occurrences_le ev _) _). vm_compute. reflexivity. }
  destruct (logic_release_partial [P] "__coverage__" hs [r1; r2] (fun _ => [calls_log 20; calls_log 1]) Wl Hm Sm) as (M & s & parts & E1 & E2 & E3 & E4 & E5 & (A1 & _) & (A2 & _) & (A3 & _)).
  { intros Q [<-|[]]. exact Ng. } { exact Pr. } { exact Ac. } { exact Fit. }
  destruct (logic_tells_partial Release [P] "__coverage__" hs [r1; r2] (fun _ => [calls_log 20; calls_log 1]) M Wl Hm Pr Ac Fit E1) as (_ & _ & Tl).
  assert (Fl : filter (fun Q => ran_once "__coverage__" (p_path Q) hs) [P] = [P]).
  { unfold hs, ran_once. cbn [filter existsb]. destruct (one_ok (calls_emitted P) (calls_incs 20 P)) as (_ & U & _). rewrite U. reflexivity. }
  rewrite Fl in E4. apply Permutation_sym, Permutation_length_1_inv in E4.
  destruct (map_single _ _ E4) as (x & -> & Ex).
  cbn [map] in E3. rewrite Ex in E3. apply Forall_inv in E5 as (X1 & X2 & X3 & R & ls & G & _). rewrite Ex in X1, X2, X3, G.
  exists [r1; r2], M, s, R. split; [exact Pr|]. split; [exact E1|]. split; [exact E2|]. split; [symmetry; exact E3|]. split; [exact G|].
  rewrite A1, A2, A3. cbn [map sumN fold_right]. rewrite X1, X2, X3. unfold paths_of, p_record, P, calls_program. cbn [p_cov].
  split; [|split; [|split]]; [clear - H; vm_compute in H; injection H as _ <-; reflexivity..|].
  exact (proj2 (Tl P R (or_introl eq_refl) G)).
Qed.
(** The numbers of three runs.  All of them but the truthiness counters are right; the one logical expression, with two operands,
    has become two of them. *)
Example logic_numbers_ex :
  match instrument logic_env 40 "f.js" None ex_calls with
  | Ok (t, sc) =>
      let r := after (cnt pure_toy (snd (run_program pure_toy 20 t tt w0))) (sc_fc sc) in
      match merge_maps Release [[r]; [r]; [r]] with
      | Ok M => match cm_get_coverage_summary Release M with
          | Ok s => (cm_get_files M, short (cs_statements s), short (cs_functions s), short (cs_branches s), option_map short (cs_branches_true s)) =
                      (["f.js"], (5, 5), (1, 1), (4, 4), Some (4, 2)) /\
                    fc_b_t r = Some [(1, [0; 1])] /\ map (fun kv => fc_b_t (snd kv)) M = [Some [(0, [0; 2]); (1, [0; 1])]]
          | _ => False
          end
      | _ => False
      end
  | _ => False
  end.
Proof. vm_compute. repeat split. Qed.
(** Hence the truthiness totals of a merged report are not those of the file. *)
Theorem logic_totals_refuted : exists e t t' sc r M s0 s, instrument e 40 "f.js" None t = Ok (t', sc) /\ no_gaps (sc_fc sc) /\
  same_tables (sc_fc sc) r /\ to_summary Release r = Ok s0 /\ merge_maps Release [[r]; [r]; [r]] = Ok M /\ cm_get_coverage_summary Release M = Ok s /\
  option_map t_total (cs_branches_true s0) = Some 2 /\ option_map t_total (cs_branches_true s) = Some 4.
Proof.
  destruct (instrument logic_env 40 "f.js" None ex_calls) as [[t' sc]| |] eqn:H; [|vm_compute in H; discriminate..].
  destruct (calls_modelled t' sc H) as (_ & _ & Ng & _).
  destruct (to_summary Release (sc_fc sc)) as [s0| |] eqn:E0; [|exfalso; vm_compute in H; injection H as <- <-; vm_compute in E0; discriminate..].
  destruct (merge_maps Release [[sc_fc sc]; [sc_fc sc]; [sc_fc sc]]) as [M| |] eqn:E1; [|exfalso; vm_compute in H; injection H as <- <-; vm_compute in E1; discriminate..].
  destruct (cm_get_coverage_summary Release M) as [s| |] eqn:E2;
    [|exfalso; vm_compute in H; injection H as <- <-; vm_compute in E1; injection E1 as <-; vm_compute in E2; discriminate..].
  exists logic_env, ex_calls, t', sc, (sc_fc sc), M, s0, s. split; [exact H|]. split; [exact Ng|]. split.
  { clear. repeat split. }
  split; [exact E0|]. split; [exact E1|]. split; [exact E2|].
  vm_compute in H. injection H as _ <-. split.
  - change ((match @Ok coverage_summary s0 with Ok x => option_map t_total (cs_branches_true x) | _ => None end) = Some 2).
    rewrite <- E0. vm_compute. reflexivity.
  - change ((match @Ok coverage_summary s with Ok x => option_map t_total (cs_branches_true x) | _ => None end) = Some 4). rewrite <- E2.
    change ((match (match @Ok coverage_map M with Ok M => cm_get_coverage_summary Release M | _ => Panic RIndex end) with Ok x => option_map t_total (cs_branches_true x) | _ => None end) = Some 4).
    rewrite <- E1. vm_compute. reflexivity.
Qed.
