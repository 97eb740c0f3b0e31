(** C55: one file, one record.

    The visitor of the program handles every list of module items, also the one of a TypeScript namespace.  Each such list
    gets a coverage function of its own, with the entries registered so far, under the same file name: at run time the
    record of the namespace replaces the one of the file and the counts of the rest of the file are lost. *)
From Coq Require Import NArith String List Bool Lia PeanoNat.
Import ListNotations.
From Verif Require Import Base IndexMap Oxide SourceCov Hints Ast Visitor VisitorEx Erase Counting CountingRoot Json CovJson DataObject Template Runtime.
Open Scope N_scope.

(** [namespace N { items }]: a declaration with a block of module items *)
Definition namespace (a b : N) (items : list node) : node :=
  T a b (KOther 1) [at_ (a + 10) (a + 11) (KIdent "N") []; at_ (a + 12) b (KOther 2) [mk KModuleItems items]].
(** [f(); namespace N { g(); } h();] *)
Definition ex_namespace : node :=
  module_ 1 40 [T 1 5 KExprStmt [X 1 4 (KOther 0) [var 1 2 "f"]];
    namespace 6 30 [T 20 24 KExprStmt [X 20 23 (KOther 0) [var 20 21 "g"]]];
    T 31 35 KExprStmt [X 31 34 (KOther 0) [var 31 32 "h"]]].

(** The output contains two coverage functions: the one of the namespace does not know the last statement. *)
Theorem namespace_second_record_refuted : exists t t' sc inner,
  instrument plain_env 40 "f.ts" None t = Ok (t', sc) /\ templates t' = [sc_fc sc; inner] /\
  fc_path inner = fc_path (sc_fc sc) /\
  im_keys (fc_s (sc_fc sc)) = [0; 1; 2] /\ im_keys (fc_s inner) = [0; 1].
Proof.
  exists ex_namespace. destruct (instrument plain_env 40 "f.ts" None ex_namespace) as [[t' sc]|r|] eqn:H; vm_compute in H; try discriminate H.
  injection H as <- <-. eexists _, _, _. split; [reflexivity|]. split; [vm_compute; reflexivity|]. vm_compute. auto.
Qed.

(** What a second function for the same file does at run time: once it has been called, the published record is its own, and
    nothing the first function counts can be seen there. *)
Theorem second_record_replaces_first : forall evs f fc g gc n0 n1, valid evs -> loaded evs = [f; g] ->
  output_of f fc -> output_of g gc -> file_key f = file_key g ->
  first_use 0 evs = Some n0 -> first_use 1 evs = Some n1 -> (n0 < n1)%nat ->
  exists st a j, run evs rt0 = Some st /\ published (rheap st) (em_gcv f) (em_path f) = Some a /\ data_at (rheap st) a = Some j /\
    forall c, count c j = option_map (fun n => n + hits 1 c evs) (recorded gc c).
Proof.
  intros evs f fc g gc n0 n1 Hv Hl Of Og Hk F0 F1 Lt.
  destruct (every_load_counts_alone evs Hv) as (st & Er & A & _).
  { rewrite Hl. repeat constructor; eapply output_no_dollar; eauto. }
  destruct (A 1%nat g) as (a & j & d & Ei & Dj & V & C & P); [now rewrite Hl|now rewrite F1|].
  exists st, a, j. split; [exact Er|]. unfold file_key in Hk. injection Hk as -> ->. split; [|split; [exact Dj|]].
  - apply P. exists n1. split; [exact F1|]. intros i' f' n' Li _ Fu. rewrite Hl in Li.
    destruct i' as [|[|i']]; [rewrite F0 in Fu; injection Fu as <-; lia|rewrite F1 in Fu; injection Fu as <-; lia|now destruct i'].
  - intros c. rewrite C. rewrite (output_value g gc Og) in V. injection V as <-. now rewrite initial_count by apply Og.
Qed.

(** The two functions of the example and a run of the program: each statement is executed once.  The published record says
    that the first statement was never executed and does not contain the last one. *)
Definition ns_records : list file_coverage :=
  match instrument plain_env 40 "f.ts" None ex_namespace with Ok (t', _) => templates t' | _ => [] end.
Definition ns_outer : file_coverage := Eval vm_compute in nth 0 ns_records (fc_empty "" false).
Definition ns_inner : file_coverage := Eval vm_compute in nth 1 ns_records (fc_empty "" false).
Lemma ns_records_are : ns_records = [ns_outer; ns_inner].
Proof. vm_compute. reflexivity. Qed.
Definition ns_file (fc : file_coverage) : emitted := emitted_for "__coverage__" "f.ts" fc.
Lemma ns_outer_output : output_of (ns_file ns_outer) ns_outer.
Proof. split; [reflexivity|]. split; [constructor|]. repeat split; cbn; repeat constructor; cbn; intuition discriminate. Qed.
Lemma ns_inner_output : output_of (ns_file ns_inner) ns_inner.
Proof. split; [reflexivity|]. split; [constructor|]. repeat split; cbn; repeat constructor; cbn; intuition discriminate. Qed.
Definition ns_run : list event :=
  [ELoad (ns_file ns_outer); EInc 0 (CS 0); ECall 0; ELoad (ns_file ns_inner); EInc 1 (CS 1); ECall 1; EInc 0 (CS 2)].
Lemma ns_valid : valid ns_run.
Proof. now apply validb_valid. Qed.
Lemma ns_loaded : loaded ns_run = [ns_file ns_outer; ns_file ns_inner].
Proof. unfold ns_run, loaded. cbn [flat_map app]. reflexivity. Qed.
Lemma ns_key : forall fc, file_key (ns_file fc) = ("__coverage__", "f.ts")%string.
Proof. intros fc. reflexivity. Qed.
Lemma ns_hits : forall k, In k [CS 0; CS 1; CS 2] -> recorded ns_outer k = Some 0 /\ hits 0 k ns_run + hits 1 k ns_run = 1.
Proof. intros k [<-|[<-|[<-|[]]]]; split; reflexivity. Qed.
Lemma ns_program : exists t t' sc, instrument plain_env 40 "f.ts" None t = Ok (t', sc) /\ templates t' = [ns_outer; ns_inner] /\ ns_outer = sc_fc sc.
Proof.
  exists ex_namespace. destruct (instrument plain_env 40 "f.ts" None ex_namespace) as [[t' sc]|r|] eqn:H; vm_compute in H; try discriminate H.
  injection H as <- <-. eexists _, _. split; [reflexivity|]. split; vm_compute; reflexivity.
Qed.
Lemma ns_published : exists st a j, run ns_run rt0 = Some st /\ published (rheap st) "__coverage__" "f.ts" = Some a /\ data_at (rheap st) a = Some j /\
  forall c, count c j = option_map (fun n => n + hits 1 c ns_run) (recorded ns_inner c).
Proof.
  assert (K : file_key (ns_file ns_outer) = file_key (ns_file ns_inner)) by now rewrite !ns_key.
  assert (F0 : first_use 0 ns_run = Some 1%nat) by reflexivity. assert (F1 : first_use 1 ns_run = Some 4%nat) by reflexivity.
  destruct (second_record_replaces_first ns_run _ _ _ _ 1 4 ns_valid ns_loaded ns_outer_output ns_inner_output K F0 F1) as (st & a & j & R & P & D & C); [lia|].
  exists st, a, j. pose proof (f_equal fst (ns_key ns_outer)) as E1. pose proof (f_equal snd (ns_key ns_outer)) as E2.
  unfold file_key in E1, E2. cbn [fst snd] in E1, E2. rewrite E1, E2 in P. auto.
Qed.
Theorem namespace_loses_counts_refuted : exists fc inner evs st a j,
  (exists t t' sc, instrument plain_env 40 "f.ts" None t = Ok (t', sc) /\ templates t' = [fc; inner] /\ fc = sc_fc sc) /\
  valid evs /\ loaded evs = [emitted_for "__coverage__" "f.ts" fc; emitted_for "__coverage__" "f.ts" inner] /\
  (forall k, In k [CS 0; CS 1; CS 2] -> recorded fc k = Some 0 /\ hits 0 k evs + hits 1 k evs = 1) /\
  run evs rt0 = Some st /\ published (rheap st) "__coverage__" "f.ts" = Some a /\ data_at (rheap st) a = Some j /\
  count (CS 0) j = Some 0 /\ count (CS 1) j = Some 1 /\ count (CS 2) j = None.
Proof.
  destruct ns_published as (st & a & j & R & P & D & C).
  exists ns_outer, ns_inner, ns_run, st, a, j. split; [exact ns_program|]. split; [exact ns_valid|]. split; [exact ns_loaded|].
  split; [exact ns_hits|]. split; [exact R|]. split; [exact P|]. split; [exact D|]. rewrite !C. now split; [|split].
Qed.

(** Without nested lists of module items the output has one function, and its record is the complete one. *)
Theorem one_record_partial : forall e n path ism t items t' sc,
  program_items t = Some items -> forallb (good false) items = true -> clean t = true ->
  should_ignore_file (e_word e) (e_comments e) (nspan t) = false ->
  instrument e n path ism t = Ok (t', sc) -> templates t' = [sc_fc sc].
Proof. intros e n path ism t items t' sc Hi Hg Hc Hn H. now rewrite (embedded_record e n path ism t items t' sc Hi Hg Hc H), Hn. Qed.
Example one_record_ex : exists t' sc, instrument plain_env 40 "f.ts" None
  (module_ 1 40 [T 1 5 KExprStmt [X 1 4 (KOther 0) [var 1 2 "f"]]; T 31 35 KExprStmt [X 31 34 (KOther 0) [var 31 32 "h"]]]) = Ok (t', sc) /\
  templates t' = [sc_fc sc] /\ im_keys (fc_s (sc_fc sc)) = [0; 1].
Proof. eexists _, _. split; [vm_compute; reflexivity|]. split; vm_compute; reflexivity. Qed.
