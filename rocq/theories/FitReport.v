(** The counts of a published record, of merged records and of a project's report fit together. *)
From Coq Require Import NArith String List Bool Lia PeanoNat Permutation.
Import ListNotations.
From Verif Require Import Base IndexMap Decimal Oxide OxideSpec OxideMergeProofs OxideMerge OxideViews SourceCov SourceCovProofs
  Hints Ast Visitor VisitorRel VisitorEx Erase Counting CountingRoot Json CovJson DataObject Template Runtime Produced Report
  Sem SemShape SemErase SemVisit SemProps Account Slots Sites AccountVisit Accurate EndToEnd Runs Project Ledger Consistent.
Open Scope string_scope. Open Scope list_scope. Open Scope N_scope.

(** ** Specification *)
(** [coherent e t items log r]: the counts in the record [r] of the program [t] agree with its text.  The counter of something
    that is only reached through something else is not higher than the counter of that; the two ways of an if
    statement together are not counted more often than the statement. *)
Definition coherent (e : env) (t : node) (items : list node) (log : list event) (r : file_coverage) : Prop :=
  (forall u b g cb cg, part u t -> follows b g u -> tells e items log r cb b -> tells e items log r cg g ->
     exists vb vg, recorded r cb = Some vb /\ recorded r cg = Some vg /\ vb <= vg) /\
  (forall sp x y z c0 c1 cs, part (Node KIf sp [x; y; z]) t -> nowhere sp = false ->
     tells e items log r c0 (EArm sp false) -> tells e items log r c1 (EArm sp true) -> tells e items log r cs (EStmt sp) ->
     exists v0 v1 v, recorded r c0 = Some v0 /\ recorded r c1 = Some v1 /\ recorded r cs = Some v /\ v0 + v1 <= v).

Lemma fits_coherent : forall e t items log r, fits t log -> coherent e t items log r.
Proof.
  intros e t items log r [F1 F2]. split.
  - intros u b g cb cg Hp Hf (sb & _ & _ & _ & Rb) (sg & _ & _ & _ & Rg). do 2 eexists. split; [exact Rb|]. split; [exact Rg|].
    specialize (F1 u b g Hp Hf). unfold times in F1. lia.
  - intros sp x y z c0 c1 cs Hp Hn (s0 & _ & _ & _ & R0) (s1 & _ & _ & _ & R1) (s2 & _ & _ & _ & R2).
    do 3 eexists. split; [exact R0|]. split; [exact R1|]. split; [exact R2|].
    specialize (F2 sp x y z Hp Hn). unfold times in F2. lia.
Qed.

Lemma exact_bodies : forall t, exact t = true -> block_bodies t = true.
Proof.
  induction t as [k sp cs IH] using node_ind'. intros H. cbn [exact] in H. apply andb_true_iff in H as [H Hc].
  apply andb_true_iff in H as [H _]. cbn [block_bodies]. apply andb_true_iff. split.
  - destruct k; try reflexivity; cbn [form has_block] in *.
    + destruct cs as [|? [|? [|? [|? [|? ?]]]]]; try reflexivity. now apply andb_true_iff in H as [_ H].
    + destruct cs as [|? [|? [|? [|? ?]]]]; try reflexivity. now apply andb_true_iff in H as [_ H].
    + destruct cs as [|? [|? [|? [|? [|? ?]]]]]; try reflexivity. now apply andb_true_iff in H as [_ H].
  - rewrite forallb_forall in *. rewrite Forall_forall in IH. auto.
Qed.
Lemma program_block_bodies : forall t items, program_items t = Some items -> forallb exact items = true -> block_bodies t = true.
Proof.
  assert (E : forall items, forallb exact items = true -> forallb block_bodies items = true).
  { intros items Hx. apply forallb_forall. intros c Hc. rewrite forallb_forall in Hx. now apply exact_bodies, Hx. }
  intros [k sp cs] items Hi Hx. apply E in Hx. destruct k; try discriminate; destruct cs as [|[k2 sp2 cs2] [|? ?]]; try discriminate;
    destruct k2; try discriminate; inversion Hi; subst; cbn; now rewrite Hx.
Qed.
Lemma program_nodup : forall t items, program_items t = Some items -> NoDup (map fst (flat_map sites items)) -> NoDup (events t).
Proof.
  intros [k sp cs] items Hi Hx. destruct k; try discriminate; destruct cs as [|[k2 sp2 cs2] [|? ?]]; try discriminate;
    destruct k2; try discriminate; inversion Hi; subst; unfold events, posed; cbn [sites own_sites flat_map]; unfold posed; cbn [own_sites];
    destruct (nowhere sp), (nowhere sp2); cbn [app]; now rewrite app_nil_r.
Qed.
Lemma program_fits : forall h n t items x v, program_items t = Some items -> forallb exact items = true ->
  NoDup (map fst (flat_map sites items)) -> fits t (evs h (snd (run_program h n t x v))).
Proof. intros h n t items x v Hi Hx Hd. apply run_fits; [eapply program_nodup; eauto|eapply program_block_bodies; eauto]. Qed.

(** ** The published record of one run *)
Theorem record_coherent_partial : forall e n path ism t items t' sc gcv,
  program_items t = Some items -> clean t = true -> forallb (good true) items = true ->
  forallb item items = true -> forallb exact items = true -> NoDup (map fst (flat_map sites items)) ->
  covered_program (e_report_logic e) t = true -> Forall DataObject.plain (idents t) ->
  instrument e n path ism t = Ok (t', sc) ->
  forall h, (e_report_logic e = true -> pure_tests h) -> forall fuel x w,
  let log := evs h (snd (run_program h fuel t x w)) in
  forall hist i, valid hist -> NoDup (map file_key (loaded hist)) ->
  Forall (fun f => exists fc, output_of f fc) (loaded hist) ->
  nth_error (loaded hist) i = Some (emitted_for gcv path (sc_fc sc)) -> touched i hist = true ->
  Permutation (incs i hist) (cnt h (snd (run_program h fuel t' x w))) ->
  exists st a j r, Runtime.run hist rt0 = Some st /\ published (rheap st) gcv path = Some a /\ data_at (rheap st) a = Some j /\
    read_fc j = Some r /\ (forall c, seen c = true -> slot_exists (sc_fc sc) c = true -> exists ev, tells e items log r c ev) /\
    coherent e t items log r.
Proof.
  intros e n path ism t items t' sc gcv Hi Hcl Hg Hit Hx Hnd Hcov Hp H h Hh fuel x w log hist i Hv Hk Ho Hl Ht Hc.
  destruct (record_tells_original_partial e n path ism t items t' sc gcv Hi Hcl Hg Hit Hx Hnd Hcov Hp H h Hh fuel x w hist i Hv Hk Ho Hl Ht Hc)
    as (st & a & j & r & A1 & A2 & A3 & A4 & _ & A5).
  exists st, a, j, r. do 4 (split; [assumption|]). split; [exact A5|]. apply fits_coherent. unfold log. eapply program_fits; eauto.
Qed.

(** ** Merged records of several runs *)
Theorem merged_coherent_partial : forall e n path ism t items t' sc gcv,
  program_items t = Some items -> clean t = true -> forallb (good true) items = true ->
  forallb item items = true -> forallb exact items = true -> NoDup (map fst (flat_map sites items)) ->
  covered_program (e_report_logic e) t = true -> Forall DataObject.plain (idents t) ->
  instrument e n path ism t = Ok (t', sc) -> e_report_logic e = false -> locs_unique (sc_fc sc) ->
  forall m log0 r0 logs rs, ran t t' sc gcv path log0 r0 -> Forall2 (ran t t' sc gcv path) logs rs ->
  (forall ev, N.of_nat (count_occ event_dec (concat (log0 :: logs)) ev) < u32_mod) ->
  exists R, fold_res (fc_merge m) r0 rs = Ok R /\
    (forall c, seen c = true -> slot_exists R c = true -> exists ev, tells e items (concat (log0 :: logs)) R c ev) /\
    coherent e t items (concat (log0 :: logs)) R.
Proof.
  intros e n path ism t items t' sc gcv Hi Hcl Hg Hit Hx Hnd Hcov Hp H Hr Hl m log0 r0 logs rs R0 Rs Hb.
  destruct (merged_runs_tell_partial e n path ism t items t' sc gcv Hi Hcl Hg Hit Hx Hnd Hcov Hp H Hr Hl m log0 r0 logs rs R0 Rs Hb)
    as (R & E & _ & _ & _ & _ & _ & _ & T).
  exists R. split; [exact E|]. split; [exact T|]. apply fits_coherent, fits_concat.
  assert (F : forall log r, ran t t' sc gcv path log r -> fits t log).
  { intros log r (h & fuel & x & w & hist & i & st & a & j & -> & _). eapply program_fits; eauto. }
  constructor; [eapply F; eauto|]. clear - Rs F. induction Rs; constructor; eauto.
Qed.

(** ** The report of a project *)
Theorem project_coherent_partial : forall m l gcv hs rss logs, NoDup (map p_path l) -> Forall modelled l ->
  Forall2 (process (project l) gcv) hs rss -> (forall P, In P l -> Forall2 (acted gcv P) hs (logs P)) ->
  (forall P ev, In P l -> N.of_nat (count_occ event_dec (concat (logs P)) ev) < u32_mod) ->
  exists M, merge_maps m rss = Ok M /\
    forall P R, In P l -> cm_get_coverage_for_file M (p_path P) = Some R ->
      (forall c, seen c = true -> slot_exists R c = true -> exists ev, tells (p_env P) (p_items P) (concat (logs P)) R c ev) /\
      coherent (p_env P) (p_tree P) (p_items P) (concat (logs P)) R.
Proof.
  intros m l gcv hs rss logs W Hm F Ha Hb. destruct (project_tells_partial m l gcv hs rss logs W Hm F Ha Hb) as (M & E & _ & _ & T).
  exists M. split; [exact E|]. intros P R I G. destruct (T P R I G) as (_ & _ & _ & _ & _ & T6). split; [exact T6|].
  apply fits_coherent, fits_concat. rewrite Forall_forall in Hm. destruct (Hm P I) as (H1 & _ & _ & _ & H5 & H6 & _).
  specialize (Ha P I). clear - Ha H1 H5 H6. induction Ha as [|hist log hs ls A _ IH]; constructor; [|exact IH].
  unfold acted in A. destruct (used gcv (p_path P) hist); [|subst; apply fits_nil].
  destruct A as (h & fuel & x & w & -> & _). eapply program_fits; eauto.
Qed.

(** ** Examples *)
(** In [ex_count] the loop is only reached through the entry of [f], the return statement through the labelled loop, the right
    operand through the return statement, and the second print through the first.  The right operand is never reached. *)
Example follows_ex :
  (exists u, part u ex_count /\ follows (EStmt (mkSpan 22 80)) (EFn (mkSpan 1 100)) u) /\
  (exists u, part u ex_count /\ follows (EStmt (mkSpan 81 99)) (EStmt (mkSpan 20 80)) u) /\
  (exists u, part u ex_count /\ follows (EOper (mkSpan 88 98) true) (EStmt (mkSpan 81 99)) u) /\
  (exists u, part u ex_count /\ follows (EStmt (mkSpan 111 120)) (EStmt (mkSpan 101 110)) u) /\
  NoDup (events ex_count) /\ block_bodies ex_count = true /\
  map (times (count_log 9)) [EFn (mkSpan 1 100); EStmt (mkSpan 22 80); EStmt (mkSpan 20 80); EStmt (mkSpan 81 99);
    EOper (mkSpan 88 98) true; EStmt (mkSpan 101 110); EStmt (mkSpan 111 120)] = [2; 2; 2; 2; 0; 1; 1]%nat.
Proof.
  assert (Pt : forall u k sp cs i c, nth_error cs i = Some c -> part u c -> part u (Node k sp cs)).
  { intros u k sp cs i c Hc Hp. eapply P_kid; [eapply nth_error_In; eauto|exact Hp]. }
  assert (Ld : forall e k sp cs i c, arity k (length cs) = true -> once k i = true -> nth_error cs i = Some c -> leads e c -> leads e (Node k sp cs)).
  { intros. eapply L_kid; eauto. }
  assert (Fst : forall k sp cs e, arity k (length cs) = true -> nowhere sp = false -> first_event k sp cs = Some e -> leads e (Node k sp cs)).
  { intros. now apply L_first. }
  assert (Op : forall e k1 sp1 k sp cs, starts k1 = true -> arity k1 1 = true -> arity k (length cs) = true -> nowhere sp = false -> first_event k sp cs = Some e ->
    opens e (Node k1 sp1 [Node k sp cs])).
  { intros. apply O_kid; [assumption..|]. now apply O_first. }
  split; [|split; [|split; [|split; [|split; [|split]]]]].
  - eexists. split.
    + eapply (Pt _ _ _ _ 0%nat); [reflexivity|]. eapply (Pt _ _ _ _ 0%nat); [reflexivity|].
      eapply (Pt _ _ _ _ 0%nat); [reflexivity|].
      eapply (Pt _ _ _ _ 1%nat); [reflexivity|]. apply P_here.
    + apply F_function; [reflexivity|reflexivity|].
      eapply (Ld _ _ _ _ 0%nat); [reflexivity..|]. eapply (Ld _ _ _ _ 0%nat); [reflexivity..|].
      eapply (Ld _ _ _ _ 0%nat); [reflexivity..|]. eapply (Ld _ _ _ _ 1%nat); [reflexivity..|].
      eapply (Ld _ _ _ _ 0%nat); [reflexivity..|]. apply Fst; reflexivity.
  - eexists. split.
    + eapply (Pt _ _ _ _ 0%nat); [reflexivity|]. eapply (Pt _ _ _ _ 0%nat); [reflexivity|].
      eapply (Pt _ _ _ _ 0%nat); [reflexivity|].
      eapply (Pt _ _ _ _ 1%nat); [reflexivity|]. eapply (Pt _ _ _ _ 2%nat); [reflexivity|].
      eapply (Pt _ _ _ _ 0%nat); [reflexivity|]. apply P_here.
    + apply (F_after KStmts dummy_span [] _ [] _ []); [reflexivity| |].
      * apply Op; reflexivity.
      * eapply (Ld _ _ _ _ 0%nat); [reflexivity..|]. apply Fst; reflexivity.
  - eexists. split.
    + eapply (Pt _ _ _ _ 0%nat); [reflexivity|]. eapply (Pt _ _ _ _ 0%nat); [reflexivity|].
      eapply (Pt _ _ _ _ 0%nat); [reflexivity|].
      eapply (Pt _ _ _ _ 1%nat); [reflexivity|]. eapply (Pt _ _ _ _ 2%nat); [reflexivity|].
      eapply (Pt _ _ _ _ 0%nat); [reflexivity|]. eapply (Pt _ _ _ _ 1%nat); [reflexivity|]. apply P_here.
    + apply F_within; [apply Op; reflexivity| |discriminate].
      eapply (Ld _ _ _ _ 0%nat); [reflexivity..|]. eapply (Ld _ _ _ _ 0%nat); [reflexivity..|].
      eapply (Ld _ _ _ _ 0%nat); [reflexivity..|]. apply L_later; [reflexivity..|left; reflexivity].
  - eexists. split.
    + eapply (Pt _ _ _ _ 0%nat); [reflexivity|]. apply P_here.
    + eapply (F_after KModuleItems dummy_span [_] _ [] _ [_]); [reflexivity| |].
      * apply Op; reflexivity.
      * eapply (Ld _ _ _ _ 0%nat); [reflexivity..|]. apply Fst; reflexivity.
  - vm_compute. repeat (constructor; [cbn; intuition discriminate|]). constructor.
  - reflexivity.
  - vm_compute. reflexivity.
Qed.

(** The record merged of a complete run and of one that ends early is coherent. *)
Example coherent_ex : forall t' sc, instrument line_env 60 "f.js" None ex_count = Ok (t', sc) ->
  exists r0 r1 R items, ran ex_count t' sc "__coverage__" "f.js" (count_log 9) r0 /\
    ran ex_count t' sc "__coverage__" "f.js" (count_log 1) r1 /\ fold_res (fc_merge Debug) r0 [r1] = Ok R /\
    program_items ex_count = Some items /\ coherent line_env ex_count items (count_log 9 ++ count_log 1) R.
Proof.
  intros t' sc H. destruct (merged_ex t' sc H) as (r0 & r1 & R & A0 & A1 & E & _).
  exists r0, r1, R. eexists. do 3 (split; [assumption|]). split; [reflexivity|]. apply fits_coherent.
  apply fits_app; eapply program_fits; try reflexivity; vm_compute; repeat (constructor; [cbn; intuition discriminate|]); constructor.
Qed.

(** The body of a loop may well be counted more often than the loop, so the rules leave it out. *)
Definition ex_loop : node := module_ 1 50 [T 1 20 KWhile [num 5 6; T 8 19 KExprStmt [num 8 9]]].
Example loop_body_refuted : exists h n t x v sp c u b,
  NoDup (events t) /\ block_bodies t = true /\ part (Node KWhile sp [c; u]) t /\ nowhere sp = false /\ opens b u /\ leads b u /\
  (times (evs h (snd (run_program h n t x v))) (EStmt sp) < times (evs h (snd (run_program h n t x v))) b)%nat.
Proof.
  exists pure_toy, 6%nat, ex_loop, tt, w0, (mkSpan 1 20), (num 5 6), (T 8 19 KExprStmt [num 8 9]), (EStmt (mkSpan 8 19)).
  split; [vm_compute; repeat (constructor; [cbn; intuition discriminate|]); constructor|]. split; [reflexivity|].
  split; [do 3 (eapply P_kid; [left; reflexivity|]); apply P_here|]. split; [reflexivity|].
  split; [apply O_kid; [reflexivity..|]; apply O_first; reflexivity|].
  split; [eapply (L_kid _ _ _ 0%nat); [reflexivity..|]; apply L_first; reflexivity|]. vm_compute. lia.
Qed.
(** [ex_calls] calls a function twice whose if statement goes one way, then the other. *)
Example ways_ex : fits ex_calls (evs pure_toy (snd (run_program pure_toy 9 ex_calls tt w0))) /\
  (exists x y z, part (Node KIf (mkSpan 17 33) [x; y; z]) ex_calls) /\
  map (times (evs pure_toy (snd (run_program pure_toy 9 ex_calls tt w0))))
    [EArm (mkSpan 17 33) false; EArm (mkSpan 17 33) true; EStmt (mkSpan 17 33)] = [1; 1; 2]%nat.
Proof.
  split; [|split].
  - apply run_fits; [|reflexivity]. vm_compute. repeat (constructor; [cbn; intuition discriminate|]). constructor.
  - do 3 eexists. do 3 (eapply P_kid; [left; reflexivity|]). eapply P_kid; [right; left; reflexivity|].
    eapply P_kid; [right; right; left; reflexivity|]. do 3 (eapply P_kid; [left; reflexivity|]). apply P_here.
  - vm_compute. reflexivity.
Qed.
