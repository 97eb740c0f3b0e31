(** Counters are accurate (C43): in every run of the instrumented program, every counter is
    incremented as often as the event of the source program its record entry points at happens. *)
From Coq Require Import NArith String List Bool Lia PeanoNat.
Import ListNotations.
From Verif Require Import Base IndexMap Oxide SourceCov SourceCovProofs Hints Ast Visitor VisitorRel VisitorEx Erase
  Counting CountingRoot Sem SemShape SemErase SemVisit SemProps Account Slots Sites AccountVisit.
Open Scope N_scope.

Definition event_dec (a b : event) : {a = b} + {a <> b}.
Proof. repeat decide equality. Defined.
Definition counter_dec (a b : counter) : {a = b} + {a <> b}.
Proof. repeat decide equality. Defined.

Lemma cn_count : forall c l, cn c l = count_occ counter_dec l c.
Proof.
  intros c l. induction l as [|x l IH]; [reflexivity|]. rewrite cn_cons, IH. cbn [count_occ].
  destruct (counter_eqb_spec c x), (counter_dec x c); subst; try reflexivity; congruence.
Qed.

(** ** The counters of an event *)
Fixpoint of_event (l : list entry) (ev : event) : list counter :=
  match l with
  | [] => []
  | (ev', cs) :: l' => if event_dec ev ev' then cs else of_event l' ev
  end.
Lemma of_event_agree : forall l, NoDup (map fst l) -> agree (of_event l) l.
Proof.
  induction l as [|[ev cs] l IH]; intros H; [constructor|]. cbn [map fst] in H. inversion H; subst.
  apply Forall_cons.
  - cbn [fst snd of_event]. destruct (event_dec ev ev); congruence.
  - specialize (IH H3). unfold agree in *. rewrite Forall_forall in *. intros [ev2 cs2] Hin.
    specialize (IH _ Hin). cbn [fst snd of_event] in *. destruct (event_dec ev2 ev); [|assumption].
    subst. exfalso. apply H2. now apply (in_map fst) in Hin.
Qed.
Lemma of_event_none : forall c l ev, tot c l = 0%nat -> cn c (of_event l ev) = 0%nat.
Proof.
  intros c l ev. induction l as [|[ev1 cs] l IH]; intros H; [reflexivity|].
  unfold tot in *. cbn [flat_map snd] in H. rewrite cn_app in H. cbn [of_event].
  destruct (event_dec ev ev1); [lia|]. apply IH. lia.
Qed.
Lemma of_event_out : forall c l ev, ~ In ev (map fst l) -> cn c (of_event l ev) = 0%nat.
Proof.
  intros c l ev. induction l as [|[ev1 cs] l IH]; intros H; [reflexivity|].
  cbn [map fst In of_event] in *. destruct (event_dec ev ev1); [subst; tauto|]. tauto.
Qed.
Lemma cn_in : forall c l, cn c l <> 0%nat -> In c l.
Proof. intros c l H. rewrite cn_count in H. apply (count_occ_In counter_dec). lia. Qed.
Lemma the_event : forall c l, NoDup (map fst l) -> tot c l = 1%nat ->
  exists ev cs, In (ev, cs) l /\ In c cs /\
    forall ev', cn c (of_event l ev') = if event_dec ev' ev then 1%nat else 0%nat.
Proof.
  intros c l. induction l as [|[ev cs] l IH]; intros Hn Ht; [discriminate|].
  cbn [map fst] in Hn. inversion Hn; subst.
  assert (Hs : (cn c cs + tot c l = 1)%nat).
  { unfold tot in *. cbn [flat_map snd] in Ht. now rewrite cn_app in Ht. }
  destruct (Nat.eq_dec (cn c cs) 0) as [Hz|Hz].
  - destruct IH as (ev1 & cs1 & Hin & Hc & Hall); auto; [lia|].
    exists ev1, cs1. split; [now right|]. split; [assumption|]. intros ev'. cbn [of_event].
    destruct (event_dec ev' ev) as [->|]; [|apply Hall]. rewrite Hz.
    destruct (event_dec ev ev1); [|reflexivity]. subst. exfalso. apply H1. now apply (in_map fst) in Hin.
  - exists ev, cs. split; [now left|]. split; [now apply cn_in|]. intros ev'. cbn [of_event].
    destruct (event_dec ev' ev) as [->|]; [lia|]. apply of_event_none. lia.
Qed.
Lemma events_sum : forall c (A : event -> list counter) ev l,
  (forall ev', cn c (A ev') = if event_dec ev' ev then 1%nat else 0%nat) ->
  cn c (flat_map A l) = count_occ event_dec l ev.
Proof.
  intros c A ev l H. induction l as [|x l IH]; [reflexivity|]. cbn [flat_map count_occ]. rewrite cn_app, H, IH.
  destruct (event_dec x ev); reflexivity.
Qed.

(** ** Whole programs *)
Lemma L_template : forall l i is a b, template_stmt a = true -> template_stmt b = true ->
  AccL l [] [] (i :: is) -> AccL l [] [] (i :: a :: b :: is).
Proof.
  intros l i is a b Ha Hb H. inversion H; subst.
  - apply L_adv; auto. apply L_skip; auto. apply L_skip; auto.
  - apply L_skip; auto. apply L_skip; auto. apply L_skip; auto.
  - apply L_item; auto. apply L_skip; auto. apply L_skip; auto.
Qed.

Lemma fresh_init : forall e path ism, fresh (cov (init_state e path ism)).
Proof.
  intros. unfold init_state, fresh. cbn [cov]. unfold set_input_source_map, sc_new.
  cbn [sc_fc fc_branch_map fc_b fc_statement_map fc_fn_map sc_s sc_f sc_b].
  split; [constructor|]. split; [constructor|]. repeat split; intros; try reflexivity. discriminate.
Qed.

(** The output of the instrumenter is balanced. *)
Theorem instrument_acc : forall e n path ism t items t' sc,
  program_items t = Some items -> forallb item items = true -> forallb exact items = true ->
  instrument e n path ism t = Ok (t', sc) ->
  should_ignore_file (e_word e) (e_comments e) (nspan t) = false ->
  exists l, SL e (loc_of (sc_fc sc)) (flat_map sites items) l /\ Acc l [] [] t'.
Proof.
  intros e n path ism t items t' sc Hi Hit Hx H Hig. unfold instrument in H.
  apply bind_ok in H as [[t1 s1] [Hv H]]. inversion H; subst. clear H.
  unfold visit_program in Hv. rewrite Hig in Hv.
  apply bind_ok in Hv as [[t1 s2] [Hv H]]. inversion H; subst. clear H.
  apply visit_sound in Hv. pose proof (fresh_init e path ism) as Hfr.
  destruct t as [k sp cs]. destruct k; try discriminate; destruct cs as [|[k2 sp2 cs2] [|? ?]]; try discriminate;
      destruct k2; try discriminate; inversion Hi; subst; clear Hi.
  - apply module_inv in Hv as (s0 & items' & sa & tp & ca & sb & Hc0 & Hb0 & Hm & Ht & Hcv & ->).
    pose proof (proj1 (proj2 (proj2 (proj2 (proj2 (proj2 (grows_all e)))))) _ _ _ _ Hm) as G1.
    pose proof (templates_grow _ _ _ _ Ht) as G2.
    destruct (proj1 (proj2 (proj2 (proj2 (proj2 (proj2 (account_all e (loc_of (sc_fc (cov sb))))))))) _ _ _ _ Hm)
      as (l & S1 & A1); auto.
    { rewrite Hc0. exact Hfr. }
    { intros c r Hr. apply G2; [|exact Hr]. apply G1. rewrite Hc0. exact Hfr. }
    cbn [cov pop]. rewrite Hcv. exists l. split; [exact S1|].
    rewrite <- (app_nil_r l). apply A_still; [reflexivity|]. apply AK_cons; [|apply AK_nil].
    apply A_stmts; [reflexivity|]. inversion Ht; subst.
    destruct items' as [|i is]; [inversion A1; subst; do 2 (apply L_skip; [reflexivity|]); apply L_nil|].
    now apply L_template.
  - apply script_inv in Hv as (body' & sa & tp & ca & Hm & Ht & ->).
    pose proof (proj2 (proj2 (proj2 (proj2 (proj2 (proj2 (grows_all e)))))) _ _ _ _ Hm) as G1.
    pose proof (templates_grow _ _ _ _ Ht) as G2.
    destruct (proj2 (proj2 (proj2 (proj2 (proj2 (proj2 (account_all e (loc_of (sc_fc (cov s2))))))))) _ _ _ _ Hm)
      as (l & S1 & A1); auto.
    { intros c r Hr. apply G2; [|exact Hr]. apply G1. exact Hfr. }
    exists l. split; [exact S1|].
    rewrite <- (app_nil_r l). apply A_still; [reflexivity|]. apply AK_cons; [|apply AK_nil].
    apply A_stmts; [reflexivity|]. inversion Ht; subst. now do 2 (apply L_skip; [reflexivity|]).
Qed.

Lemma SL_map : forall e F a l, SL e F a l -> map fst l = map fst a.
Proof. intros e F a l H. induction H as [|x y a l [Hxy _] _ IH]; [reflexivity|]. cbn [map]. now rewrite Hxy, IH. Qed.
Lemma SL_in : forall e F a l, SL e F a l -> forall ev cs c, In (ev, cs) l -> In c cs ->
  exists sp, In (ev, sp) a /\ right_counter e F ev sp c.
Proof.
  intros e F a l H. induction H as [|[ev0 sp0] [ev1 cs1] a l [H1 H2] _ IH]; intros ev cs c Hin Hc; [contradiction|].
  cbn [fst snd] in *. destruct Hin as [Hin|Hin].
  - inversion Hin; subst. exists sp0. split; [now left|]. rewrite Forall_forall in H2. auto.
  - destruct (IH _ _ _ Hin Hc) as (sp & A & B). exists sp. split; [now right|exact B].
Qed.

Lemma good_weaken : forall t, good true t = true -> good false t = true.
Proof.
  induction t as [k sp cs IH] using node_ind'. intros H. apply good_split in H as [Hn Hc]. cbn [good].
  apply andb_true_iff. split.
  - unfold node_ok in *. cbn [negb orb] in *. now apply andb_true_iff in Hn as [-> _].
  - clear Hn. induction IH as [|c cs Hh _ IHcs]; [reflexivity|]. cbn [forallb] in *.
    apply andb_true_iff in Hc as [H1 H2]. now rewrite Hh, IHcs.
Qed.

(** Every slot of the record (truthiness apart) belongs to an event of the source text of the
    right sort, at the place the record says; in every environment, from every scope and world
    and for every bound on calls and iterations, the counter is incremented exactly as often
    as that event happens. *)
Theorem counters_accurate_partial : forall e n path ism t items t' sc,
  program_items t = Some items -> clean t = true -> forallb (good true) items = true ->
  forallb item items = true -> forallb exact items = true -> NoDup (map fst (flat_map sites items)) ->
  instrument e n path ism t = Ok (t', sc) ->
  forall c, seen c = true -> slot_exists (sc_fc sc) c = true ->
  exists ev sp, In (ev, sp) (flat_map sites items) /\ suits c ev = true /\
    loc_of (sc_fc sc) c = Some (range_of e sp) /\
    forall h fuel x w,
      count_occ counter_dec (cnt h (snd (run_program h fuel t' x w))) c =
      count_occ event_dec (evs h (snd (run_program h fuel t' x w))) ev.
Proof.
  intros e n path ism t items t' sc Hi Hcl Hg Hit Hx Hnd H c Hc Hs.
  assert (Ho : occ c t' = 1%nat).
  { assert (Hg2 : forallb (good false) items = true).
    { clear - Hg. rewrite forallb_forall in *. intros y Hy. apply good_weaken. auto. }
    destruct (counters_account e n path ism t items t' sc Hi Hg2 Hcl H) as (_ & B & D & _).
    pose proof (statement_counters_exact e n path ism t items t' sc Hi Hg Hcl H) as A.
    destruct c; try discriminate; rewrite ?A, ?B, ?D, Hs; reflexivity. }
  destruct (should_ignore_file (e_word e) (e_comments e) (nspan t)) eqn:Hig.
  { exfalso. unfold instrument in H. apply bind_ok in H as [[t1 s1] [Hv H]]. inversion H; subst. clear H.
    unfold visit_program in Hv. rewrite Hig in Hv. inversion Hv; subst. rewrite clean_occ in Ho by assumption. discriminate. }
  destruct (instrument_acc e n path ism t items t' sc Hi Hit Hx H Hig) as (l & S1 & A1).
  pose proof (SL_map _ _ _ _ S1) as Hm.
  assert (Hn : NoDup (map fst l)) by now rewrite Hm.
  assert (Ht : tot c l = 1%nat).
  { pose proof (proj1 (acc_counts c Hc) _ _ _ _ A1) as K. rewrite Ho, !cn_nil in K. lia. }
  destruct (the_event c l Hn Ht) as (ev & cs & Hin & Hic & Hall).
  destruct (SL_in _ _ _ _ S1 _ _ _ Hin Hic) as (sp & Hsp & Hr1 & Hr2).
  exists ev, sp. split; [assumption|]. split; [assumption|]. split; [assumption|].
  intros h fuel x w. rewrite <- cn_count.
  rewrite (run_balanced h (of_event l) fuel t' l x w c A1 (of_event_agree l Hn) Hc).
  now apply events_sum.
Qed.

(** The same against the run of the original program *)
Theorem counters_tell_original_partial : forall e n path ism t items t' sc,
  program_items t = Some items -> clean t = true -> forallb (good true) items = true ->
  forallb item items = true -> forallb exact items = true -> NoDup (map fst (flat_map sites items)) ->
  covered_program (e_report_logic e) t = true ->
  instrument e n path ism t = Ok (t', sc) ->
  forall c, seen c = true -> slot_exists (sc_fc sc) c = true ->
  exists ev sp, In (ev, sp) (flat_map sites items) /\ suits c ev = true /\
    loc_of (sc_fc sc) c = Some (range_of e sp) /\
    forall h, (e_report_logic e = true -> pure_tests h) -> forall fuel x w,
      count_occ counter_dec (cnt h (snd (run_program h fuel t' x w))) c =
      count_occ event_dec (evs h (snd (run_program h fuel t x w))) ev.
Proof.
  intros e n path ism t items t' sc Hi Hcl Hg Hit Hx Hnd Hcov H c Hc Hs.
  destruct (counters_accurate_partial e n path ism t items t' sc Hi Hcl Hg Hit Hx Hnd H c Hc Hs) as (ev & sp & A & B & D & E).
  exists ev, sp. repeat (split; [assumption|]). intros h Hh fuel x w.
  rewrite E. now rewrite (proj2 (proj2 (same_behaviour e n path ism t t' sc Hcl Hcov H h Hh fuel x w))).
Qed.

(** ** Examples *)

(** [function f(a = 7) { l: while (a) { switch (a) { case 7: print(a ? 7 : a); break l } } return a || 7 }
    print(f(7)); print(f(x)); const g = () => 7;] *)
Definition ex_count : node :=
  module_ 1 200
    [T 1 100 KFnDecl [at_ 10 11 (KIdent "f") [];
       fn_ 1 100 [at_ 12 17 KAssignPat [at_ 12 13 (KIdent "a") []; num 16 17]]
        (block 19 100
          [T 20 80 KLabeled [at_ 20 21 (KIdent "l") [];
             T 22 80 KWhile [var 30 31 "a";
               at_ 33 80 KStmt [block 33 80
                 [T 34 79 KSwitch [var 40 41 "a";
                   list_ [at_ 45 78 KSwitchCase [num 46 47;
                     mk KStmts [print 50 65 (X 55 64 KCond [var 55 56 "a"; num 58 59; var 62 63 "a"]);
                                T 66 76 KBreak [at_ 72 73 (KIdent "l") []]]]]]]]]];
           T 81 99 KReturn [X 88 98 (KBin OpOr) [var 88 89 "a"; num 96 97]]])];
     print 101 110 (call_ 103 109 (num 107 108));
     print 111 120 (call_ 113 119 (var 117 118 "x"));
     let_ 121 140 VConst [declarator 127 139 "g" (X 131 139 KArrow [list_ []; num 137 138; mk KTs []])]].
Definition tally (e : env) (t : node) (fuel : nat) : option (list (counter * nat)) :=
  match instrument e 60 "f.js" None t with
  | Ok (t', _) =>
      let s := snd (run_program pure_toy fuel t' tt w0) in
      Some (map (fun c => (c, count_occ counter_dec (cnt _ s) c)) (counters t'))
  | _ => None
  end.
Example accurate_ex :
  clean ex_count = true /\ covered_program false ex_count = true /\
  match program_items ex_count with
  | Some items =>
      forallb (good true) items && forallb item items && forallb exact items = true /\
      length (flat_map sites items) = 18%nat /\
      nodup event_dec (map fst (flat_map sites items)) = map fst (flat_map sites items)
  | None => False
  end /\
  tally plain_env ex_count 9 =
  Some [(CB 0 0, 1%nat); (CF 0, 2%nat); (CS 0, 2%nat); (CS 1, 2%nat); (CS 2, 2%nat); (CB 1 0, 2%nat);
        (CS 3, 2%nat); (CB 2 0, 2%nat); (CB 2 1, 0%nat); (CS 4, 2%nat); (CS 5, 2%nat); (CB 3 0, 2%nat);
        (CB 3 1, 0%nat); (CS 6, 1%nat); (CS 7, 1%nat); (CS 8, 1%nat); (CF 1, 0%nat); (CS 9, 0%nat)].
Proof. vm_compute. repeat split; reflexivity. Qed.

(** The theorem applies to the example. *)
Example accurate_ex_applies : forall c, In c [CS 5; CF 0; CB 0 0; CB 3 1] ->
  match instrument plain_env 60 "f.js" None ex_count with
  | Ok (t', sc) =>
      exists ev sp, suits c ev = true /\ loc_of (sc_fc sc) c = Some (range_of plain_env sp) /\
        forall h fuel x w,
          count_occ counter_dec (cnt h (snd (run_program h fuel t' x w))) c =
          count_occ event_dec (evs h (snd (run_program h fuel ex_count x w))) ev
  | _ => False
  end.
Proof.
  intros c Hc. destruct (instrument plain_env 60 "f.js" None ex_count) as [[t' sc]| |] eqn:H;
    [|vm_compute in H; discriminate..].
  assert (Hs : slot_exists (sc_fc sc) c = true).
  { vm_compute in H. inversion H; subst. clear H. repeat destruct Hc as [<-|Hc]; [reflexivity..|contradiction]. }
  destruct (counters_tell_original_partial plain_env 60 "f.js" None ex_count _ t' sc eq_refl eq_refl eq_refl eq_refl
    eq_refl ltac:(apply (NoDup_count_occ event_dec); intros x; apply (NoDup_count_occ event_dec);
      match goal with |- NoDup ?l => replace l with (nodup event_dec l) by (vm_compute; reflexivity); apply NoDup_nodup end)
    eq_refl H c) as (ev & sp & _ & A & B & D); auto.
  { repeat destruct Hc as [<-|Hc]; [reflexivity..|contradiction]. }
  exists ev, sp. split; [exact A|]. split; [exact B|]. intros h. apply D. discriminate.
Qed.

(** ** Where counters are not accurate *)

(** A counter of the record that no event of its sort and place agrees with in some run *)
Definition inaccurate (e : env) (t : node) (c : counter) : Prop :=
  exists items t' sc h fuel x w,
    program_items t = Some items /\ clean t = true /\ forallb (good true) items = true /\
    forallb item items = true /\ instrument e 60 "f.js" None t = Ok (t', sc) /\
    seen c = true /\ slot_exists (sc_fc sc) c = true /\
    NoDup (map fst (flat_map sites items)) /\
    Forall (fun p => suits c (fst p) = true -> loc_of (sc_fc sc) c = Some (range_of e (snd p)) ->
      count_occ counter_dec (cnt h (snd (run_program h fuel t' x w))) c <>
      count_occ event_dec (evs h (snd (run_program h fuel t x w))) (fst p)) (flat_map sites items) /\
    Exists (fun p => suits c (fst p) = true /\ loc_of (sc_fc sc) c = Some (range_of e (snd p))) (flat_map sites items).

Ltac refute fuel0 :=
  unfold inaccurate; do 2 eexists; match goal with |- exists sc h fuel x w, _ => idtac end;
  eexists; exists pure_toy, fuel0, tt, w0;
  split; [reflexivity|]; do 3 (split; [vm_compute; reflexivity|]); split; [vm_compute; reflexivity|];
  split; [reflexivity|]; split; [vm_compute; reflexivity|];
  split; [match goal with |- NoDup ?l => replace l with (nodup event_dec l) by (vm_compute; reflexivity); apply NoDup_nodup end|];
  split; [vm_compute; repeat (apply Forall_cons; [intros; discriminate|]); apply Forall_nil
         |vm_compute; repeat (first [apply Exists_cons_hd; split; reflexivity|apply Exists_cons_tl])].

(** [class C { p = function () {} }]: the counter of the initialiser of [p] is put before the
    declaration of the class (visit_mut_class_prop with cover_statement on an initialiser with
    hoisted functions); it counts although no object is ever made. *)
Definition ex_field : node :=
  module_ 1 60 [T 1 60 KClassDecl [at_ 7 8 (KIdent "C") [];
    at_ 1 60 KClass [list_ [];
      list_ [at_ 10 50 KClassProp [at_ 10 11 (KPropIdent "p") [];
        X 14 50 KFnExpr [none; fn_ 14 50 [] (block 30 50 [T 35 45 KExprStmt [num 35 36]])]; mk KTs []; list_ []]];
      none; mk KTs []]]].
(** [function f(z) { throw 7 }  var a = f(7), b = function () {}]: both initialisers are counted
    before the declaration, although the first one throws. *)
Definition ex_declarators : node :=
  module_ 1 90
    [T 1 30 KFnDecl [at_ 10 11 (KIdent "f") []; fn_ 1 30 [at_ 12 13 (KIdent "z") []] (block 15 30 [T 17 25 KThrow [num 23 24]])];
     let_ 31 90 VVar
      [declarator 35 45 "a" (call_ 39 45 (num 43 44));
       declarator 47 89 "b" (X 51 89 KFnExpr [none; fn_ 51 89 [] (block 70 89 [T 75 85 KExprStmt [num 75 76]])])]].
Theorem field_counter_refuted : exists c, inaccurate plain_env ex_field c.
Proof. exists (CS 0). refute 9%nat. Qed.
Theorem declarator_counter_refuted : exists c, inaccurate plain_env ex_declarators c.
Proof. exists (CS 2). refute 9%nat. Qed.
