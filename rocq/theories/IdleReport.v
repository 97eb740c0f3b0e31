(** A published record, merged records and a project's report count nothing inside what they say was never reached. *)
From Coq Require Import NArith String List Bool Lia PeanoNat Permutation.
Import ListNotations.
From Verif Require Import Base IndexMap Decimal Oxide OxideSpec OxideMergeProofs OxideMerge OxideViews SourceCov SourceCovProofs
  Hints Ast Visitor VisitorRel VisitorEx Erase Counting CountingRoot Json CovJson DataObject Template Runtime Produced Report
  Sem SemShape SemErase SemVisit SemProps Account Slots Sites AccountVisit Accurate EndToEnd Runs Project Ledger Consistent FitReport
  Keeps Unreached.
Open Scope string_scope. Open Scope list_scope. Open Scope N_scope.

(** ** Specification *)
(** [unreached e t items log r]: if the record [r] of the program [t] has a zero for something, it has zeros for everything that is
    only reached through that, in whatever loops and functions it lies. *)
Definition unreached (e : env) (t : node) (items : list node) (log : list event) (r : file_coverage) : Prop :=
  forall u b g cb cg, part u t -> guards b g u -> tells e items log r cb b -> tells e items log r cg g ->
    recorded r cg = Some 0 -> recorded r cb = Some 0.

Lemma idle_unreached : forall e t items log r, idle t log -> unreached e t items log r.
Proof.
  intros e t items log r F u b g cb cg Hp Hg (sb & _ & _ & _ & Rb) (sg & _ & _ & _ & Rg) Hz. specialize (F u b g Hp Hg). unfold times in F.
  rewrite Rb. rewrite Hz in Rg. injection Rg as Rg. rewrite F; [reflexivity|]. apply N2Nat.inj_iff in Rg. rewrite Nnat.Nat2N.id in Rg. now symmetry.
Qed.
Lemma program_idle : forall h n t items x v, program_items t = Some items -> forallb exact items = true ->
  NoDup (map fst (flat_map sites items)) -> idle t (evs h (snd (run_program h n t x v))).
Proof. intros h n t items x v Hi Hx Hd. apply run_idle; [eapply program_nodup; eauto|eapply program_block_bodies; eauto]. Qed.

(** ** The published record of one run *)
Theorem record_unreached_partial : forall e n path ism t items t' sc gcv,
  program_items t = Some items -> clean t = true -> forallb (good true) items = true ->
  forallb item items = true -> forallb exact items = true -> NoDup (map fst (flat_map sites items)) ->
  covered_program (e_report_logic e) t = true -> Forall DataObject.plain (idents t) ->
  instrument e n path ism t = Ok (t', sc) ->
  forall h, (e_report_logic e = true -> pure_tests h) -> forall fuel x w,
  let log := evs h (snd (run_program h fuel t x w)) in
  forall hist i, valid hist -> NoDup (map file_key (loaded hist)) ->
  Forall (fun f => exists fc, output_of f fc) (loaded hist) ->
  nth_error (loaded hist) i = Some (emitted_for gcv path (sc_fc sc)) -> touched i hist = true ->
  Permutation (incs i hist) (cnt h (snd (run_program h fuel t' x w))) ->
  exists st a j r, Runtime.run hist rt0 = Some st /\ published (rheap st) gcv path = Some a /\ data_at (rheap st) a = Some j /\
    read_fc j = Some r /\ (forall c, seen c = true -> slot_exists (sc_fc sc) c = true -> exists ev, tells e items log r c ev) /\
    unreached e t items log r.
Proof.
  intros e n path ism t items t' sc gcv Hi Hcl Hg Hit Hx Hnd Hcov Hp H h Hh fuel x w log hist i Hv Hk Ho Hl Ht Hc.
  destruct (record_tells_original_partial e n path ism t items t' sc gcv Hi Hcl Hg Hit Hx Hnd Hcov Hp H h Hh fuel x w hist i Hv Hk Ho Hl Ht Hc)
    as (st & a & j & r & A1 & A2 & A3 & A4 & _ & A5).
  exists st, a, j, r. do 4 (split; [assumption|]). split; [exact A5|]. apply idle_unreached. unfold log. eapply program_idle; eauto.
Qed.

(** ** Merged records of several runs *)
Theorem merged_unreached_partial : forall e n path ism t items t' sc gcv,
  program_items t = Some items -> clean t = true -> forallb (good true) items = true ->
  forallb item items = true -> forallb exact items = true -> NoDup (map fst (flat_map sites items)) ->
  covered_program (e_report_logic e) t = true -> Forall DataObject.plain (idents t) ->
  instrument e n path ism t = Ok (t', sc) -> e_report_logic e = false -> locs_unique (sc_fc sc) ->
  forall m log0 r0 logs rs, ran t t' sc gcv path log0 r0 -> Forall2 (ran t t' sc gcv path) logs rs ->
  (forall ev, N.of_nat (count_occ event_dec (concat (log0 :: logs)) ev) < u32_mod) ->
  exists R, fold_res (fc_merge m) r0 rs = Ok R /\
    (forall c, seen c = true -> slot_exists R c = true -> exists ev, tells e items (concat (log0 :: logs)) R c ev) /\
    unreached e t items (concat (log0 :: logs)) R.
Proof.
  intros e n path ism t items t' sc gcv Hi Hcl Hg Hit Hx Hnd Hcov Hp H Hr Hl m log0 r0 logs rs R0 Rs Hb.
  destruct (merged_runs_tell_partial e n path ism t items t' sc gcv Hi Hcl Hg Hit Hx Hnd Hcov Hp H Hr Hl m log0 r0 logs rs R0 Rs Hb)
    as (R & E & _ & _ & _ & _ & _ & _ & T).
  exists R. split; [exact E|]. split; [exact T|]. apply idle_unreached, idle_concat.
  assert (F : forall log r, ran t t' sc gcv path log r -> idle t log).
  { intros log r (h & fuel & x & w & hist & i & st & a & j & -> & _). eapply program_idle; eauto. }
  constructor; [eapply F; eauto|]. clear - Rs F. induction Rs; constructor; eauto.
Qed.

(** ** The report of a project *)
Theorem project_unreached_partial : forall m l gcv hs rss logs, NoDup (map p_path l) -> Forall modelled l ->
  Forall2 (process (project l) gcv) hs rss -> (forall P, In P l -> Forall2 (acted gcv P) hs (logs P)) ->
  (forall P ev, In P l -> N.of_nat (count_occ event_dec (concat (logs P)) ev) < u32_mod) ->
  exists M, merge_maps m rss = Ok M /\
    forall P R, In P l -> cm_get_coverage_for_file M (p_path P) = Some R ->
      (forall c, seen c = true -> slot_exists R c = true -> exists ev, tells (p_env P) (p_items P) (concat (logs P)) R c ev) /\
      unreached (p_env P) (p_tree P) (p_items P) (concat (logs P)) R.
Proof.
  intros m l gcv hs rss logs W Hm F Ha Hb. destruct (project_tells_partial m l gcv hs rss logs W Hm F Ha Hb) as (M & E & _ & _ & T).
  exists M. split; [exact E|]. intros P R I G. destruct (T P R I G) as (_ & _ & _ & _ & _ & T6). split; [exact T6|].
  apply idle_unreached, idle_concat. rewrite Forall_forall in Hm. destruct (Hm P I) as (H1 & _ & _ & _ & H5 & H6 & _).
  specialize (Ha P I). clear - Ha H1 H5 H6. induction Ha as [|hist log hs ls A _ IH]; constructor; [|exact IH].
  unfold acted in A. destruct (used gcv (p_path P) hist); [|subst; apply idle_nil].
  destruct A as (h & fuel & x & w & -> & _). eapply program_idle; eauto.
Qed.

(** ** Examples *)
(** [function f() { while (7) print(7); }  if (x) while (7) print(7);  throw 7;  print(7);  print(7)] *)
Definition ex_idle : node :=
  module_ 1 90
    [T 1 30 KFnDecl [at_ 10 11 (KIdent "f") []; fn_ 1 30 [] (block 12 30 [T 13 28 KWhile [num 15 16; print 18 27 (num 20 21)]])];
     T 31 50 KIf [var 33 34 "x"; T 36 49 KWhile [num 38 39; print 41 48 (num 43 44)]; none];
     T 51 60 KThrow [num 53 59];
     print 61 70 (num 63 64);
     print 71 80 (num 73 74)].
Definition idle_log : list event := evs pure_toy (snd (run_program pure_toy 9 ex_idle tt w0)).
(** The body of the loop in [f] is only reached through the entry of [f], that of the second loop through the first arm, and the last
    print through the one before it, and none of them is reached. *)
Example guards_ex :
  (exists u, part u ex_idle /\ guards (EStmt (mkSpan 18 27)) (EFn (mkSpan 1 30)) u) /\
  (exists u, part u ex_idle /\ guards (EStmt (mkSpan 41 48)) (EArm (mkSpan 31 50) false) u) /\
  (exists u, part u ex_idle /\ guards (EStmt (mkSpan 71 80)) (EStmt (mkSpan 61 70)) u) /\
  NoDup (events ex_idle) /\ block_bodies ex_idle = true /\
  map (times idle_log) [EFn (mkSpan 1 30); EStmt (mkSpan 18 27); EArm (mkSpan 31 50) false; EStmt (mkSpan 41 48);
    EStmt (mkSpan 61 70); EStmt (mkSpan 71 80); EStmt (mkSpan 31 50); EStmt (mkSpan 51 60)] = [0; 0; 0; 0; 0; 0; 1; 1]%nat.
Proof.
  assert (Pt : forall u k sp cs i c, nth_error cs i = Some c -> part u c -> part u (Node k sp cs)).
  { intros u k sp cs i c Hc Hp. eapply P_kid; [eapply nth_error_In; eauto|exact Hp]. }
  split; [|split; [|split; [|split; [|split]]]].
  - eexists. split.
    + eapply (Pt _ _ _ _ 0%nat); [reflexivity|]. eapply (Pt _ _ _ _ 0%nat); [reflexivity|].
      eapply (Pt _ _ _ _ 0%nat); [reflexivity|]. eapply (Pt _ _ _ _ 1%nat); [reflexivity|]. apply P_here.
    + eapply (G_kid _ _ _ _ _ 2%nat); [reflexivity|discriminate|reflexivity|reflexivity|]. vm_compute. tauto.
  - eexists. split.
    + eapply (Pt _ _ _ _ 0%nat); [reflexivity|]. eapply (Pt _ _ _ _ 1%nat); [reflexivity|].
      eapply (Pt _ _ _ _ 0%nat); [reflexivity|]. apply P_here.
    + eapply (G_kid _ _ _ _ _ 1%nat); [reflexivity|discriminate|reflexivity|reflexivity|]. vm_compute. tauto.
  - eexists. split.
    + eapply (Pt _ _ _ _ 0%nat); [reflexivity|]. apply P_here.
    + eapply (G_after _ _ KModuleItems dummy_span [_; _; _] _ [_]);
        [reflexivity|apply O_kid; [reflexivity..|]; apply O_first; reflexivity|left; reflexivity|reflexivity|]. vm_compute. tauto.
  - vm_compute. repeat (constructor; [cbn; intuition discriminate|]). constructor.
  - reflexivity.
  - vm_compute. reflexivity.
Qed.
(** So the record of this run has only zeros inside them. *)
Example unreached_ex : forall t' sc, instrument line_env 60 "f.js" None ex_count = Ok (t', sc) ->
  exists r0 r1 R items, ran ex_count t' sc "__coverage__" "f.js" (count_log 9) r0 /\
    ran ex_count t' sc "__coverage__" "f.js" (count_log 1) r1 /\ fold_res (fc_merge Debug) r0 [r1] = Ok R /\
    program_items ex_count = Some items /\ unreached line_env ex_count items (count_log 9 ++ count_log 1) R.
Proof.
  intros t' sc H. destruct (merged_ex t' sc H) as (r0 & r1 & R & A0 & A1 & E & _).
  exists r0, r1, R. eexists. do 3 (split; [assumption|]). split; [reflexivity|]. apply idle_unreached.
  apply idle_app; eapply program_idle; try reflexivity; vm_compute; repeat (constructor; [cbn; intuition discriminate|]); constructor.
Qed.

(** A function declared after a statement that was not reached may well have been called: the rules leave it out.
    [print(f(7));  throw 7;  print(7);  function f(a) { print(7); }] *)
Definition ex_early : node :=
  module_ 1 90
    [print 1 10 (call_ 3 9 (num 5 6)); T 11 20 KThrow [num 13 19]; print 21 30 (num 23 24);
     T 31 60 KFnDecl [at_ 40 41 (KIdent "f") []; fn_ 31 60 [at_ 42 43 (KIdent "a") []] (block 44 60 [print 46 55 (num 48 49)])]].
Example declared_function_refuted : exists h n t x v k sp pre a post y b g,
  NoDup (events t) /\ block_bodies t = true /\ part (Node k sp (pre ++ a :: post)) t /\ stmts_kind k = true /\ opens g a /\
  In y post /\ In b (events y) /\
  times (evs h (snd (run_program h n t x v))) g = 0%nat /\ times (evs h (snd (run_program h n t x v))) b = 1%nat.
Proof.
  exists pure_toy, 9%nat, ex_early, tt, w0, KModuleItems, dummy_span. eexists [_; _], _, [_], _, (EStmt (mkSpan 46 55)), (EStmt (mkSpan 21 30)).
  split; [vm_compute; repeat (constructor; [cbn; intuition discriminate|]); constructor|]. split; [reflexivity|].
  split; [eapply P_kid; [left; reflexivity|]; apply P_here|]. split; [reflexivity|].
  split; [apply O_kid; [reflexivity..|]; apply O_first; reflexivity|]. split; [left; reflexivity|].
  split; [vm_compute; tauto|]. split; vm_compute; reflexivity.
Qed.
