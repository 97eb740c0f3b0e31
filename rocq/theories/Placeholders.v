(** C70: files nobody loaded.

    A report about a whole project has to count the files that no test loads.  For these a reporter adds placeholders, the
    embedded records marked with [all] (file_coverage.rs:129-131, 259-272).  Proved here: wherever the placeholders come among the
    records that are merged, they change nothing for files with a real record and stand for the others; with a placeholder
    for every file, the totals of the report are those of the whole project, and 100 percent means that every statement of every
    file ran. *)
From Coq Require Import NArith ZArith Reals.
From Coq Require Import String List Bool Lia PeanoNat Permutation.
Import ListNotations.
From Verif Require Import Base IndexMap Decimal Oxide OxideSpec OxideMergeProofs OxideMerge OxideViews SourceCov SourceCovProofs
  Hints Ast Visitor VisitorRel VisitorEx Erase Counting CountingRoot Json CovJson DataObject Template Runtime Produced Report
  Sem SemShape SemErase SemVisit SemProps Account Slots Sites AccountVisit Accurate EndToEnd Runs Project Threshold.
Open Scope string_scope. Open Scope list_scope. Open Scope N_scope.

Definition real_record (r : file_coverage) : bool := negb (fc_all r).
(** The first placeholder for a path *)
Definition placeholder_for (p : string) (l : list file_coverage) : option file_coverage :=
  find (fun r => fc_all r && String.eqb (fc_path r) p) l.

(** ** Merging *)
Definition filled (M M' : coverage_map) (ph : string -> option file_coverage) : Prop :=
  (forall p R, im_get p M = Some R -> fc_all R = false) /\
  (forall p y, ph p = Some y -> fc_all y = true) /\
  forall p, im_get p M' = match im_get p M with Some R => Some R | None => ph p end.

Lemma merge_real : forall m a b r, fc_all a = false -> fc_all b = false -> fc_merge m a b = Ok r -> fc_all r = false.
Proof. intros m a b r Ha Hb E. now apply (merge_keeps_identity m a b r Ha Hb) in E. Qed.

Lemma fill_real : forall m M M' ph x, filled M M' ph -> fc_all x = false ->
  match add_coverage_for_file m M x with
  | Ok M1 => exists M1', add_coverage_for_file m M' x = Ok M1' /\ filled M1 M1' ph
  | Panic r => add_coverage_for_file m M' x = Panic r
  | OutOfFuel => add_coverage_for_file m M' x = OutOfFuel
  end.
Proof.
  intros m M M' ph x (F1 & F2 & F3) Hx. unfold add_coverage_for_file. rewrite (F3 (fc_path x)).
  destruct (im_get (fc_path x) M) as [R|] eqn:E.
  - destruct (fc_merge m R x) as [v| |] eqn:Em; cbn [bind]; [|reflexivity|reflexivity].
    eexists. split; [reflexivity|]. split; [|split; [exact F2|]].
    + intros p R' G. rewrite im_get_update in G. destruct (eqb p (fc_path x)) eqn:Ep; [|now apply (F1 p)].
      apply eqb_spec in Ep. subst p. rewrite E in G. cbn in G. injection G as <-. now apply (merge_real m R x v (F1 _ _ E) Hx).
    + intros p. rewrite !im_get_update. destruct (eqb p (fc_path x)) eqn:Ep; [|apply F3].
      apply eqb_spec in Ep. subst p. rewrite F3, E. reflexivity.
  - destruct (ph (fc_path x)) as [y|] eqn:Ey.
    + rewrite (merge_placeholder_replaced m y x (F2 _ _ Ey) Hx). cbn [bind]. eexists. split; [reflexivity|]. split; [|split; [exact F2|]].
      * intros p R G. rewrite im_get_insert in G. destruct (eqb p (fc_path x)); [congruence|now apply (F1 p)].
      * intros p. rewrite im_get_update, im_get_insert. destruct (eqb p (fc_path x)) eqn:Ep; [|apply F3].
        apply eqb_spec in Ep. subst p. rewrite F3, E, Ey. reflexivity.
    + eexists. split; [reflexivity|]. split; [|split; [exact F2|]].
      * intros p R G. rewrite im_get_insert in G. destruct (eqb p (fc_path x)); [congruence|now apply (F1 p)].
      * intros p. rewrite !im_get_insert. destruct (eqb p (fc_path x)); [reflexivity|apply F3].
Qed.
Lemma fill_placeholder : forall m M M' ph x, filled M M' ph -> fc_all x = true ->
  exists M1', add_coverage_for_file m M' x = Ok M1' /\
    filled M M1' (fun p => match ph p with Some y => Some y | None => if String.eqb (fc_path x) p then Some x else None end).
Proof.
  intros m M M' ph x (F1 & F2 & F3) Hx. unfold add_coverage_for_file.
  assert (F2' : forall p y, match ph p with Some y => Some y | None => if String.eqb (fc_path x) p then Some x else None end = Some y -> fc_all y = true).
  { intros p y. destruct (ph p) as [z|] eqn:Ez; [intros E; injection E as <-; now apply (F2 p)|]. destruct (String.eqb (fc_path x) p); congruence. }
  destruct (im_get (fc_path x) M') as [R|] eqn:E.
  - rewrite (merge_placeholder_ignored m R x Hx). cbn [bind]. eexists. split; [reflexivity|]. split; [exact F1|]. split; [exact F2'|].
    intros p. rewrite im_get_update. destruct (eqb p (fc_path x)) eqn:Ep.
    + apply eqb_spec in Ep. subst p. rewrite E. cbn [option_map]. rewrite F3 in E. destruct (im_get (fc_path x) M); [now rewrite E|].
      now rewrite E.
    + rewrite F3. destruct (im_get p M); [reflexivity|]. destruct (ph p); [reflexivity|].
      destruct (String.eqb_spec (fc_path x) p) as [<-|]; [|reflexivity]. rewrite eqb_refl in Ep. discriminate.
  - eexists. split; [reflexivity|]. split; [exact F1|]. split; [exact F2'|]. intros p. rewrite im_get_insert. rewrite F3 in E.
    destruct (eqb p (fc_path x)) eqn:Ep.
    + apply eqb_spec in Ep. subst p. destruct (im_get (fc_path x) M); [discriminate|]. rewrite E, String.eqb_refl. reflexivity.
    + rewrite F3. destruct (im_get p M); [reflexivity|]. destruct (ph p); [reflexivity|].
      destruct (String.eqb_spec (fc_path x) p) as [<-|]; [|reflexivity]. rewrite eqb_refl in Ep. discriminate.
Qed.
Lemma filled_ext : forall M M' ph ph', (forall p, ph p = ph' p) -> filled M M' ph -> filled M M' ph'.
Proof.
  intros M M' ph ph' H (F1 & F2 & F3). split; [exact F1|]. split; intros p; [intros y|]; rewrite <- H; [apply F2|apply F3].
Qed.
Lemma find_snoc : forall A (p : A -> bool) l x, find p (l ++ [x]) = match find p l with Some y => Some y | None => if p x then Some x else None end.
Proof. intros A p l x. induction l as [|y l IH]; [reflexivity|]. cbn [app find]. destruct (p y); [reflexivity|exact IH]. Qed.
Lemma filter_snoc : forall A (p : A -> bool) l x, filter p (l ++ [x]) = filter p l ++ (if p x then [x] else []).
Proof. intros A p l x. rewrite filter_app. reflexivity. Qed.

(** Records and placeholders in any order: the map is that of the real records, completed by the placeholders of the files
    without one; if the real records cannot be merged, the placeholders do not help. *)
Theorem placeholders_fill : forall m l,
  match cm_from_iter m (filter real_record l) with
  | Ok M => exists M', cm_from_iter m l = Ok M' /\
      forall p, cm_get_coverage_for_file M' p =
        match cm_get_coverage_for_file M p with Some R => Some R | None => placeholder_for p l end
  | Panic r => cm_from_iter m l = Panic r
  | OutOfFuel => cm_from_iter m l = OutOfFuel
  end.
Proof.
  intros m l.
  enough (X : match cm_from_iter m (filter real_record l) with
    | Ok M => exists M', cm_from_iter m l = Ok M' /\ filled M M' (fun p => placeholder_for p l)
    | Panic r => cm_from_iter m l = Panic r | OutOfFuel => cm_from_iter m l = OutOfFuel end).
  { destruct (cm_from_iter m (filter real_record l)) as [M| |]; [|exact X|exact X]. destruct X as (M' & E & _ & _ & F). now exists M'. }
  unfold cm_from_iter. induction l as [|x l IH] using rev_ind.
  - cbn. exists []. split; [reflexivity|]. split; [discriminate|]. split; [discriminate|reflexivity].
  - rewrite filter_snoc, !fold_res_app. unfold real_record at 2.
    assert (Hp : forall p, placeholder_for p (l ++ [x]) = match placeholder_for p l with Some y => Some y | None => if fc_all x && String.eqb (fc_path x) p then Some x else None end).
    { intros p. apply find_snoc. }
    destruct (fold_res (add_coverage_for_file m) [] (filter real_record l)) as [M| |]; cbn [bind].
    + destruct IH as (M' & E & F). rewrite E. cbn [bind]. destruct (fc_all x) eqn:Hx; cbn [negb].
      * destruct (fill_placeholder m M M' _ x F Hx) as (M1' & E1 & F1). cbn [fold_res]. rewrite E1. cbn [bind]. exists M1'.
        split; [reflexivity|]. eapply filled_ext; [|exact F1]. intros p. rewrite Hp. reflexivity.
      * pose proof (fill_real m M M' _ x F Hx) as S1. cbn [fold_res]. destruct (add_coverage_for_file m M x) as [M1| |]; cbn [bind].
        -- destruct S1 as (M1' & E1 & F1). rewrite E1. cbn [bind]. exists M1'. split; [reflexivity|]. eapply filled_ext; [|exact F1].
           intros p. rewrite Hp. cbn [andb]. now destruct (placeholder_for p l).
        -- now rewrite S1.
        -- now rewrite S1.
    + rewrite IH. reflexivity.
    + rewrite IH. reflexivity.
Qed.

(** ** A whole project *)
(** The embedded record, marked as a placeholder *)
Definition placeholder (fc : file_coverage) : file_coverage :=
  mkFC true (fc_path fc) (fc_statement_map fc) (fc_fn_map fc) (fc_branch_map fc) (fc_s fc) (fc_f fc) (fc_b fc) (fc_b_t fc)
    (fc_input_source_map fc).
(** [maps] are the maps of the processes together with placeholders of all the files, in whatever order *)
Definition completed (l : list program) (rss maps : list (list file_coverage)) : Prop :=
  Forall (fun rs => NoDup (map fc_path rs)) maps /\ filter real_record (concat maps) = concat rss /\
  (forall P, In P l -> In (placeholder (p_record P)) (concat maps)) /\
  (forall r, In r (concat maps) -> fc_all r = true -> exists P, In P l /\ r = placeholder (p_record P)).

Lemma maps_distinct : forall l gcv hs rss, (forall p fc, im_get p (project l) = Some fc ->
    fc_path fc = p /\ OxideMerge.plain fc /\ unique_keys fc /\ zeroed fc) ->
  Forall2 (process (project l) gcv) hs rss -> Forall (fun rs => NoDup (map fc_path rs)) rss.
Proof.
  intros l gcv hs rss Hp F. induction F as [|evs rs hs rss P _ IH]; constructor; [|exact IH].
  destruct (process_whole (project l) Hp gcv evs rs P) as (K & _ & N & _). exact N.
Qed.
Lemma placeholder_reads : forall gcv hs logs P, modelled P -> Forall2 (acted gcv P) hs (logs P) -> ran_once gcv (p_path P) hs = false ->
  readable logs P (placeholder (p_record P)).
Proof.
  intros gcv hs logs P M F R.
  assert (Lg : concat (logs P) = []).
  { revert R F. unfold ran_once. generalize (logs P). clear. induction hs as [|h hs IH]; intros ls R F; inversion F; subst; [reflexivity|].
    cbn [existsb] in R. apply orb_false_iff in R as [R1 R2]. unfold acted in H1. rewrite R1 in H1. subst. cbn [concat app]. now apply IH. }
  destruct (modelled_record P M) as (_ & Pl & U & _). pose proof Pl as (_ & Tk & _ & Bt).
  destruct M as (H1 & H2 & H3 & H4 & H5 & H6 & H7 & _ & H9 & H10 & _).
  destruct (rows_tell (p_env P) (p_fuel P) (p_path P) (p_ism P) (p_tree P) (p_items P) (p_out P) (p_cov P) H1 H2 H3 H4 H5 H6 H7 H9 H10 [] []) as [_ T].
  { intros c ev _. reflexivity. }
  destruct (T (p_record P)) as (L1 & L2 & L3 & T'); [|exact Pl|exact U|].
  { rewrite after_nil. now repeat split. }
  split; [exact (proj1 Tk)|]. split; [exact Bt|]. split; [exact U|]. split; [exact L1|]. split; [exact L2|]. split; [exact L3|].
  rewrite Lg. intros c Hc Hs. destruct (T' c Hc Hs) as (ev & Te). now exists ev.
Qed.

(** The report of a project with placeholders for all its files has all its files; its totals are those of the whole project,
    and its percentages are about every place of every file. *)
Theorem project_complete_partial : forall m l gcv hs rss maps logs, l <> [] -> NoDup (map p_path l) -> Forall modelled l -> small l ->
  Forall2 (process (project l) gcv) hs rss -> (forall P, In P l -> Forall2 (acted gcv P) hs (logs P)) ->
  (forall P ev, In P l -> N.of_nat (count_occ event_dec (concat (logs P)) ev) < u32_mod) ->
  completed l rss maps ->
  exists M s parts lss, merge_maps m maps = Ok M /\ cm_get_coverage_summary m M = Ok s /\
    map (fun x => p_path (r_prog x)) parts = cm_get_files M /\ Permutation (map r_prog parts) l /\
    Forall (part_of logs M) parts /\
    t_total (cs_statements s) = sum_over (fun P => length (fc_statement_map (p_record P))) l /\
    t_total (cs_functions s) = sum_over (fun P => length (fc_fn_map (p_record P))) l /\
    t_total (cs_branches s) = sum_over (fun P => length (paths_of P)) l /\
    says_all logs s parts /\ lines_add M s lss.
Proof.
  intros m l gcv hs rss maps logs Ne W Hm Sm F Ha Hb (C1 & C2 & C3 & C4).
  assert (Pr : forall p fc, im_get p (project l) = Some fc -> fc_path fc = p /\ OxideMerge.plain fc /\ unique_keys fc /\ zeroed fc).
  { intros p fc E. destruct (project_in l p fc E) as (P & I & <- & <-). apply modelled_record. rewrite Forall_forall in Hm. now apply Hm. }
  destruct (project_tells_partial m l gcv hs rss logs W Hm F Ha Hb) as (M0 & E0 & Ok0 & Fs0 & Tl0).
  rewrite (merge_maps_adds m rss (maps_distinct l gcv hs rss Pr F)) in E0.
  pose proof (placeholders_fill m (concat maps)) as Fill. unfold cm_from_iter in Fill. rewrite C2, E0 in Fill. destruct Fill as (M & E & G).
  destruct (adds_effect m (concat maps) [] M) as (Ok1 & _ & Fl); [split; [constructor|discriminate]|exact E|].
  assert (Ph : forall P, In P l -> placeholder_for (p_path P) (concat maps) = Some (placeholder (p_record P))).
  { intros P I. unfold placeholder_for.
    destruct (find (fun r => fc_all r && String.eqb (fc_path r) (p_path P)) (concat maps)) as [r|] eqn:Ef.
    - apply find_some in Ef as [Ir Er]. apply andb_true_iff in Er as [Er1 Er2]. apply String.eqb_eq in Er2.
      destruct (C4 r Ir Er1) as (Q & IQ & ->). f_equal. cbn [placeholder fc_path] in Er2.
      rewrite Forall_forall in Hm. destruct (modelled_record Q (Hm Q IQ)) as (PQ & _). rewrite PQ in Er2.
      assert (Eq : Some (p_record Q) = Some (p_record P)); [|injection Eq as ->; reflexivity].
      rewrite <- (project_get l Q W IQ), <- (project_get l P W I). now rewrite Er2.
    - exfalso. pose proof (find_none _ _ Ef _ (C3 P I)) as Z. cbn [placeholder fc_all fc_path andb] in Z.
      rewrite Forall_forall in Hm. destruct (modelled_record P (Hm P I)) as (PP & _). rewrite PP, String.eqb_refl in Z. discriminate. }
  assert (Fs : forall p, In p (cm_get_files M) <-> exists P, In P l /\ p_path P = p /\ (fun _ : string => true) p = true).
  { intros p. split.
    - intros I. unfold cm_get_files, im_keys in I. apply in_map_iff in I as ([q R] & Eq & I). cbn in Eq. subst q.
      apply (im_in_get _ (proj1 Ok1)) in I. change (cm_get_coverage_for_file M p = Some R) in I. rewrite G in I.
      destruct (cm_get_coverage_for_file M0 p) as [R0|] eqn:E1.
      + assert (Ip : In p (cm_get_files M0)). { apply im_get_in in E1. now apply (in_map fst) in E1. }
        apply Fs0 in Ip as (P & IP & EP & _). now exists P.
      + apply find_some in I as [Ir Er]. apply andb_true_iff in Er as [Er1 Er2]. apply String.eqb_eq in Er2.
        destruct (C4 R Ir Er1) as (Q & IQ & ->). exists Q. split; [exact IQ|]. split; [|reflexivity]. cbn [placeholder fc_path] in Er2.
        rewrite Forall_forall in Hm. destruct (modelled_record Q (Hm Q IQ)) as (PQ & _). congruence.
    - intros (P & I & <- & _). assert (Q : exists R, cm_get_coverage_for_file M (p_path P) = Some R).
      { rewrite G. destruct (cm_get_coverage_for_file M0 (p_path P)) as [R|]; [now exists R|]. rewrite (Ph P I). eauto. }
      destruct Q as (R & Q). apply im_get_in in Q. now apply (in_map fst) in Q. }
  assert (Tl : forall P R, In P l -> cm_get_coverage_for_file M (p_path P) = Some R -> readable logs P R).
  { intros P R I Q. rewrite G in Q. destruct (cm_get_coverage_for_file M0 (p_path P)) as [R0|] eqn:E1.
    - injection Q as <-. destruct (Tl0 P R0 I E1) as ((P1 & P2 & P3 & P4) & T). exact (conj (proj1 P2) (conj P4 T)).
    - rewrite (Ph P I) in Q. injection Q as <-. rewrite Forall_forall in Hm. apply (placeholder_reads gcv hs); [now apply Hm|now apply Ha|].
      destruct (ran_once gcv (p_path P) hs) eqn:Er; [|reflexivity]. exfalso. apply im_get_None in E1. apply E1. apply Fs0. now exists P. }
  destruct (report_of m l (fun _ => true) logs M W Sm Ok1 Fs Tl) as (s & parts & lss & Es & Ef & Pm & Pt & Sa & La).
  { destruct l as [|P l']; [congruence|]. exists P. split; [now left|reflexivity]. }
  assert (Ft : forall l' : list program, filter (fun P => (fun _ : string => true) (p_path P)) l' = l').
  { induction l' as [|P l' IH]; [reflexivity|]. cbn [filter]. now rewrite IH. }
  rewrite Ft in Pm.
  destruct (summaries_of m l (fun _ => true) logs M W Sm Ok1 Fs Tl) as (s2 & parts2 & Es2 & _ & Pm2 & Pt2 & (A1 & _) & (A2 & _) & (A3 & _) & _).
  assert (s2 = s) by congruence. subst s2. rewrite Ft in Pm2. rewrite Forall_forall in Pt2.
  assert (Sz : forall (g : program -> nat) (pe : part -> list event), (forall x, In x parts2 -> length (pe x) = g (r_prog x)) ->
    sumN (map (fun x => N.of_nat (length (pe x))) parts2) = sum_over g l).
  { intros g pe Hg. rewrite (sum_ext _ _ (fun x => N.of_nat (g (r_prog x)))) by (intros x I; now rewrite Hg).
    rewrite <- (map_map r_prog (fun P => N.of_nat (g P))). now apply sum_perm. }
  exists M, s, parts, lss. split; [rewrite (merge_maps_adds m maps C1); exact E|]. split; [exact Es|]. split; [exact Ef|]. split; [exact Pm|].
  split; [exact Pt|].
  split; [rewrite A1; apply Sz; intros x I; exact (proj1 (Pt2 x I))|].
  split; [rewrite A2; apply Sz; intros x I; exact (proj1 (proj2 (Pt2 x I)))|].
  split; [rewrite A3; apply Sz; intros x I; exact (proj1 (proj2 (proj2 (Pt2 x I))))|].
  split; [exact Sa|exact La].
Qed.

(** ** Examples *)
(** The placeholders of all files before, or after, the maps of the processes *)
Lemma completed_first : forall l rss, NoDup (map p_path l) -> (forall P, In P l -> fc_path (p_record P) = p_path P) -> Forall (fun rs => NoDup (map fc_path rs)) rss ->
  (forall r, In r (concat rss) -> fc_all r = false) ->
  completed l rss (map (fun P => placeholder (p_record P)) l :: rss) /\
  completed l rss (rss ++ [map (fun P => placeholder (p_record P)) l]).
Proof.
  intros l rss W Hm Nd Re. set (ps := map (fun P => placeholder (p_record P)) l).
  assert (Np : NoDup (map fc_path ps)).
  { unfold ps. rewrite map_map. rewrite (map_ext_in _ p_path); [exact W|]. intros P I. now apply Hm. }
  assert (Fp : filter real_record ps = []). { unfold ps. clear. induction l as [|P l IH]; [reflexivity|exact IH]. }
  assert (Fr : filter real_record (concat rss) = concat rss).
  { revert Re. generalize (concat rss). intros rs Re. induction rs as [|r rs IH]; [reflexivity|]. cbn [filter]. unfold real_record at 1.
    rewrite (Re r (or_introl eq_refl)). cbn [negb]. f_equal. apply IH. intros r' I. apply Re. now right. }
  assert (Ip : forall P, In P l -> In (placeholder (p_record P)) ps). { intros P I. now apply (in_map (fun P => placeholder (p_record P))). }
  assert (Pi : forall r, In r ps -> exists P, In P l /\ r = placeholder (p_record P)). { intros r I. apply in_map_iff in I as (P & <- & I). now exists P. }
  split; (split; [|split; [|split]]).
  - now constructor.
  - cbn [concat]. now rewrite filter_app, Fp, Fr.
  - intros P I. cbn [concat]. apply in_or_app. left. now apply Ip.
  - intros r I Hr. cbn [concat] in I. apply in_app_or in I as [I|I]; [now apply Pi|]. rewrite (Re r I) in Hr. discriminate.
  - apply Forall_app. split; [exact Nd|]. now constructor.
  - rewrite concat_app, filter_app, Fr. cbn [concat]. now rewrite app_nil_r, Fp, app_nil_r.
  - intros P I. rewrite concat_app. apply in_or_app. right. cbn [concat]. rewrite app_nil_r. now apply Ip.
  - intros r I Hr. rewrite concat_app in I. apply in_app_or in I as [I|I]; [rewrite (Re r I) in Hr; discriminate|].
    cbn [concat] in I. rewrite app_nil_r in I. now apply Pi.
Qed.
(** The project of [threshold_ex], completed: the second file, which nobody ran, counts. *)
Example complete_ex : forall tf cf tg cg, instrument line_env 60 "f.js" None ex_count = Ok (tf, cf) ->
  instrument line_env 60 "g.js" None ex_count = Ok (tg, cg) ->
  let F := count_program "f.js" tf cf in let G := count_program "g.js" tg cg in let l := [F; G] in
  let hs := [one_file (count_emitted F) (count_incs 1 F)] in
  exists rss M s, Forall2 (process (project l) "__coverage__") hs rss /\
    merge_maps Debug (rss ++ [[placeholder (p_record F); placeholder (p_record G)]]) = Ok M /\
    cm_get_coverage_summary Debug M = Ok s /\ Permutation (cm_get_files M) ["f.js"; "g.js"] /\
    t_total (cs_statements s) = 20 /\ t_total (cs_functions s) = 4 /\ t_total (cs_branches s) = 12.
Proof.
  intros tf cf tg cg Hf Hg F G l hs.
  destruct (threshold_ex tf cf tg cg Hf Hg) as (rss & Wl & Hm & Sm & Fp & Ac & Fit & _).
  change (NoDup (map p_path l)) in Wl. change (Forall modelled l) in Hm. change (Forall2 (process (project l) "__coverage__") hs rss) in Fp.
  assert (Pr : forall p fc, im_get p (project l) = Some fc -> fc_path fc = p /\ OxideMerge.plain fc /\ unique_keys fc /\ zeroed fc).
  { intros p fc E. destruct (project_in l p fc E) as (P & I & <- & <-). apply modelled_record. rewrite Forall_forall in Hm. now apply Hm. }
  assert (Re : forall r, In r (concat rss) -> fc_all r = false).
  { clear - Fp Pr. induction Fp as [|evs rs hs0 rss P _ IH]; intros r I; [destruct I|]. cbn [concat] in I. apply in_app_or in I as [I|I]; [|now apply IH].
    destruct (process_whole (project l) Pr "__coverage__" evs rs P) as (K & Wh & _). clear - Pr Wh I.
    induction Wh as [|x r0 K rs (fc & E & D) _ IHw]; [destruct I|]. destruct I as [<-|I]; [|now apply IHw].
    destruct D as (D & _). destruct (Pr _ _ E) as (_ & (A & _) & _). cbn in D. congruence. }
  assert (Pp : forall P, In P l -> fc_path (p_record P) = p_path P). { intros P I. rewrite Forall_forall in Hm. apply (modelled_record P (Hm P I)). }
  destruct (completed_first l rss Wl Pp (maps_distinct l "__coverage__" hs rss Pr Fp) Re) as [_ Cp].
  destruct (project_complete_partial Debug l "__coverage__" hs rss _ _ (fun E => nil_cons (eq_sym E)) Wl Hm Sm Fp Ac Fit Cp)
    as (M & s & parts & lss & E1 & E2 & E3 & E4 & _ & T1 & T2 & T3 & _).
  exists rss, M, s. split; [exact Fp|]. split; [exact E1|]. split; [exact E2|]. split.
  { rewrite <- E3, <- (map_map r_prog p_path). change ["f.js"; "g.js"] with (map p_path l). now apply Permutation_map. }
  destruct (count_modelled _ _ _ Hf) as (_ & F1 & F2 & F3), (count_modelled _ _ _ Hg) as (_ & G1 & G2 & G3).
  rewrite T1, T2, T3. unfold sum_over, l, F, G, paths_of, p_record, count_program. cbn [map p_cov sumN fold_right].
  rewrite F1, G1, F2, G2, F3, G3. repeat split.
Qed.
