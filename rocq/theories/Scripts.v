(** C57: scripts of one page count into their own records.

    The coverage function of a script is a global function.  The names are kept in process-wide cells
    (create_coverage_fn_decl.rs:22-45), so the files of one process share one name (C24), and loading the second script
    replaces the function of the first: from then on the first one's counters are raised in the record of the second. *)
From Coq Require Import NArith String Ascii List Bool Lia PeanoNat.
Import ListNotations.
From Verif Require Import Base IndexMap Decimal Oxide SourceCov Hints Ast Visitor VisitorEx CountingRoot
  Json CovJson DataObject Template Runtime Options Plugin DebugComment Emitted.
Open Scope string_scope.

(** ** A shared scope *)
(** The function a name stands for is the one of the last script loaded that declares it.  [names] are the names of the scripts in
    the order of loading, [n] of which are loaded. *)
Fixpoint last_below (p : nat -> bool) (n : nat) : option nat :=
  match n with O => None | S k => if p k then Some k else last_below p k end.
Definition resolve (names : list string) (n i : nat) : nat :=
  match last_below (fun j => String.eqb (nth j names "") (nth i names "")) n with Some j => j | None => i end.
(** The history as it happens in the shared scope *)
Fixpoint shared (names : list string) (n : nat) (hist : list event) : list event :=
  match hist with
  | [] => []
  | ELoad f :: h => ELoad f :: shared names (S n) h
  | ECall i :: h => ECall (resolve names n i) :: shared names n h
  | EInc i c :: h => EInc (resolve names n i) c :: shared names n h
  end.

Lemma last_below_some : forall p n j, last_below p n = Some j -> (j < n)%nat /\ p j = true /\ forall k, (j < k < n)%nat -> p k = false.
Proof.
  intros p. induction n as [|n IH]; intros j H; [discriminate|]. cbn in H. destruct (p n) eqn:E.
  - injection H as <-. split; [lia|]. split; [exact E|]. intros k K. lia.
  - apply IH in H as (A & B & C). split; [lia|]. split; [exact B|]. intros k K. destruct (Nat.eq_dec k n) as [->|]; [exact E|]. apply C. lia.
Qed.
Lemma last_below_none : forall p n, last_below p n = None -> forall k, (k < n)%nat -> p k = false.
Proof.
  intros p. induction n as [|n IH]; intros H k K; [lia|]. cbn in H. destruct (p n) eqn:E; [discriminate|].
  destruct (Nat.eq_dec k n) as [->|]; [exact E|]. apply IH; [exact H|lia].
Qed.
(** [resolve]: the last loaded script with that name *)
Lemma resolve_spec : forall names n i, (i < n)%nat ->
  (resolve names n i < n)%nat /\ nth (resolve names n i) names "" = nth i names "" /\ (i <= resolve names n i)%nat /\
  forall k, (resolve names n i < k < n)%nat -> nth k names "" <> nth i names "".
Proof.
  intros names n i H. unfold resolve. destruct (last_below _ n) as [j|] eqn:E.
  - apply last_below_some in E as (A & B & C). apply String.eqb_eq in B. split; [exact A|]. split; [exact B|]. split.
    + destruct (Nat.le_gt_cases i j) as [|L]; [assumption|]. specialize (C i). rewrite String.eqb_refl in C. assert (true = false) by (apply C; lia). discriminate.
    + intros k K. apply String.eqb_neq. now apply C.
  - pose proof (last_below_none _ _ E i H) as K. cbn beta in K. rewrite String.eqb_refl in K. discriminate.
Qed.

Definition valid_from (n : nat) (hist : list event) : Prop := validb n hist = true.
Lemma valid_validb : forall evs n, (forall pre ev post, evs = (pre ++ ev :: post)%list ->
    match ev with ELoad _ => True | ECall i | EInc i _ => (i < n + length (loaded pre))%nat end) -> validb n evs = true.
Proof.
  induction evs as [|e evs IH]; intros n H; [reflexivity|].
  assert (T : forall m, (match e with ELoad _ => m = S n | _ => m = n end) -> validb m evs = true).
  { intros m Hm. apply IH. intros pre ev post E. specialize (H (e :: pre) ev post). rewrite E in H. specialize (H eq_refl).
    destruct ev; [exact I| |]; destruct e; subst m; cbn [loaded flat_map app length] in H; unfold loaded; lia. }
  specialize (H [] e evs eq_refl). destruct e as [f|i|i c]; cbn [validb]; cbn in H.
  - now apply T.
  - rewrite (T n eq_refl), andb_true_r. apply Nat.ltb_lt. lia.
  - rewrite (T n eq_refl), andb_true_r. apply Nat.ltb_lt. lia.
Qed.
Lemma shared_valid : forall names hist n, validb n hist = true -> validb n (shared names n hist) = true.
Proof.
  intros names. induction hist as [|[f|i|i c] hist IH]; intros n H; cbn [shared validb] in *; [reflexivity|auto| |];
    apply andb_true_iff in H as [A B]; rewrite (IH n B), andb_true_r; apply Nat.ltb_lt in A; apply Nat.ltb_lt; now apply resolve_spec.
Qed.
Lemma shared_loaded : forall names hist n, loaded (shared names n hist) = loaded hist.
Proof.
  intros names. induction hist as [|[f|i|i c] hist IH]; intros n; cbn [shared]; [reflexivity| | |]; unfold loaded in *; cbn [flat_map app];
    rewrite IH; reflexivity.
Qed.
Lemma shared_app : forall names a b n, shared names n (a ++ b) = (shared names n a ++ shared names (n + length (loaded a)) b)%list.
Proof.
  intros names. induction a as [|[f|i|i c] a IH]; intros b n; cbn [app shared].
  - cbn. now rewrite Nat.add_0_r.
  - rewrite IH. unfold loaded. cbn [flat_map app length]. now rewrite Nat.add_succ_r.
  - rewrite IH. reflexivity.
  - rewrite IH. reflexivity.
Qed.

(** ** Different names *)
Theorem distinct_names_apart : forall names hist, NoDup names -> (length (loaded hist) <= length names)%nat -> valid hist ->
  shared names 0 hist = hist.
Proof.
  intros names hist Hn Hl Hv. apply valid_validb with (n := 0%nat) in Hv.
  assert (K : forall h n, validb n h = true -> (n + length (loaded h) <= length names)%nat -> shared names n h = h).
  { assert (R : forall n i, (i < n)%nat -> (n <= length names)%nat -> resolve names n i = i).
    { intros n i A B. destruct (resolve_spec names n i A) as (C & D & _). rewrite NoDup_nth in Hn. apply Hn in D; lia. }
    induction h as [|[f|i|i c] h IH]; intros n V L; cbn [shared validb] in *; [reflexivity| | |]; unfold loaded in L; cbn [flat_map app length] in L.
    - rewrite IH; [reflexivity|exact V|unfold loaded; lia].
    - apply andb_true_iff in V as [A B]. apply Nat.ltb_lt in A. rewrite R, IH; [reflexivity|exact B|unfold loaded; lia|exact A|lia].
    - apply andb_true_iff in V as [A B]. apply Nat.ltb_lt in A. rewrite R, IH; [reflexivity|exact B|unfold loaded; lia|exact A|lia]. }
  now apply K.
Qed.

(** ** What is published, with any names *)
(** Each record holds the increments that reached it. *)
Theorem shared_counts : forall names hist, valid hist -> NoDup (map file_key (loaded hist)) ->
  Forall (fun f => exists fc, output_of f fc) (loaded hist) ->
  exists st, run (shared names 0 hist) rt0 = Some st /\
    forall i f fc, nth_error (loaded hist) i = Some f -> output_of f fc -> touched i (shared names 0 hist) = true ->
      exists a j, published (rheap st) (em_gcv f) (em_path f) = Some a /\ data_at (rheap st) a = Some j /\
        forall c, count c j = option_map (fun k => (k + hits i c (shared names 0 hist))%N) (recorded fc c).
Proof.
  intros names hist Hv Hk Ho. destruct (counts_are_kept (shared names 0 hist)) as (st & R & H).
  - apply validb_valid, shared_valid. now apply valid_validb.
  - now rewrite shared_loaded.
  - now rewrite shared_loaded.
  - exists st. split; [exact R|]. now rewrite shared_loaded in H.
Qed.
(** Scripts with names of their own: every record holds its own script's increments. *)
Theorem scripts_apart_partial : forall names hist, NoDup names -> length names = length (loaded hist) -> valid hist ->
  NoDup (map file_key (loaded hist)) -> Forall (fun f => exists fc, output_of f fc) (loaded hist) ->
  exists st, run (shared names 0 hist) rt0 = Some st /\
    forall i f fc, nth_error (loaded hist) i = Some f -> output_of f fc -> touched i hist = true ->
      exists a j, published (rheap st) (em_gcv f) (em_path f) = Some a /\ data_at (rheap st) a = Some j /\
        forall c, count c j = option_map (fun k => (k + hits i c hist)%N) (recorded fc c).
Proof.
  intros names hist Hn Hl Hv Hk Ho. pose proof (shared_counts names hist Hv Hk Ho) as H.
  rewrite (distinct_names_apart names hist Hn) in * by (auto; lia). exact H.
Qed.
(** A script whose name is declared again later never gets another increment. *)
Theorem diverted_after : forall names h1 h2 i j c, (i < j < length (loaded h1))%nat -> nth i names "" = nth j names "" ->
  valid (h1 ++ h2) -> hits i c (shared names 0 (h1 ++ h2)) = hits i c (shared names 0 h1).
Proof.
  intros names h1 h2 i j c Hij En Hv. rewrite shared_app. cbn [Nat.add].
  assert (V2 : validb (length (loaded h1)) h2 = true).
  { apply valid_validb. intros pre ev post E. specialize (Hv (h1 ++ pre)%list ev post). rewrite <- app_assoc, E in Hv. specialize (Hv eq_refl).
    destruct ev; auto; unfold loaded in *; rewrite flat_map_app, app_length in Hv; exact Hv. }
  assert (Z : forall h n, (j < n)%nat -> validb n h = true -> hits i c (shared names n h) = 0%N).
  { assert (R : forall n k, (j < n)%nat -> (k < n)%nat -> resolve names n k <> i).
    { intros n k A B C. destruct (resolve_spec names n k B) as (D & E & F & G). rewrite C in *. apply (G j); [lia|]. now rewrite <- En. }
    assert (Cn : forall ev h, (match ev with EInc k _ => k <> i | _ => True end) -> hits i c (ev :: h) = hits i c h).
    { intros [f|k|k c'] h K; unfold hits; cbn [filter]; [reflexivity|reflexivity|]. destruct (Nat.eqb_spec k i); [contradiction|reflexivity]. }
    induction h as [|[f|k|k c'] h IH]; intros n A V; cbn [shared validb] in *; [reflexivity| | |].
    - rewrite Cn by exact I. apply IH; [lia|exact V].
    - apply andb_true_iff in V as [V1 V2']. rewrite Cn by exact I. now apply IH.
    - apply andb_true_iff in V as [V1 V2']. apply Nat.ltb_lt in V1. rewrite Cn by now apply R. now apply IH. }
  unfold hits. rewrite filter_app, app_length, Nat2N.inj_add. fold (hits i c (shared names 0 h1)).
  fold (hits i c (shared names (length (loaded h1)) h2)). rewrite (Z h2); [apply N.add_0_r|lia|exact V2].
Qed.

(** Files of one process, in the order of loading: the names are those of the outputs. *)
Definition name_of (o : output) : string := match out_names o with Some (f, _) => f | None => "" end.
Theorem one_process_diverts : forall x fs p os p' f g h1 h2 i j oi oj c, p_fn p = Some f -> p_temp p = Some g ->
  process_all x fs p = Ok (os, p') ->
  nth_error os i = Some oi -> nth_error os j = Some oj -> out_names oi <> None -> out_names oj <> None ->
  (i < j < length (loaded h1))%nat -> valid (h1 ++ h2) ->
  hits i c (shared (map name_of os) 0 (h1 ++ h2)) = hits i c (shared (map name_of os) 0 h1).
Proof.
  intros x fs p os p' f g h1 h2 i j oi oj c Hf Hg H Hi Hj Ni Nj Hij Hv.
  destruct (all_names_of_first x fs p os p' f g Hf Hg H) as (A & _).
  assert (K : forall k o, nth_error os k = Some o -> out_names o <> None -> nth k (map name_of os) "" = f).
  { intros k o E N. assert (E' : nth k (map name_of os) "" = name_of o).
    { apply (map_nth_error name_of) in E. now apply nth_error_nth. }
    rewrite E'. clear - A E N. revert k E. induction A as [|mnt o' fs' os' B A IH]; intros k E; [now destruct k|].
    destruct k as [|k]; [|now apply (IH k)]. injection E as ->. unfold name_of. rewrite B in *. destruct (excluded _ _ _); [now contradiction N|reflexivity]. }
  apply diverted_after with (j := j); [exact Hij| |exact Hv]. now rewrite (K i oi Hi Ni), (K j oj Hj Nj).
Qed.

(** ** Two scripts *)
(** a.js: [function f() { x; }]; b.js: [f();] *)
Definition two_scripts : list (meta * nat * node) :=
  [(plain_meta "a.js", 40%nat, at_ 1 20 KScript [mk KStmts [T 1 19 KFnDecl [at_ 10 11 (KIdent "f") []; fn_ 1 19 []
      (block 14 19 [T 15 17 KExprStmt [var 15 16 "x"]])]]]);
   (plain_meta "b.js", 40%nat, at_ 1 5 KScript [mk KStmts [T 1 5 KExprStmt [X 1 4 (KOther 0) [var 1 2 "f"]]]])].
Definition script_records : list file_coverage :=
  match process_all no_ext two_scripts (mkProc (Some "cov_1") (Some "cov_1_temp") false) with
  | Ok (os, _) => flat_map (fun o => templates (out_program o)) os
  | _ => []
  end.
Definition rec_a : file_coverage := Eval vm_compute in nth 0 script_records (fc_empty "" false).
Definition rec_b : file_coverage := Eval vm_compute in nth 1 script_records (fc_empty "" false).
Lemma script_records_are : exists os p', process_all no_ext two_scripts (mkProc (Some "cov_1") (Some "cov_1_temp") false) = Ok (os, p') /\
  map name_of os = ["cov_1"; "cov_1"] /\ flat_map (fun o => templates (out_program o)) os = [rec_a; rec_b].
Proof.
  destruct (process_all no_ext two_scripts _) as [[os p']|r|] eqn:H; vm_compute in H; try discriminate H.
  injection H as <- <-. eexists _, _. split; [reflexivity|]. split; reflexivity.
Qed.
Definition script_file (file : string) (fc : file_coverage) : emitted := emitted_for "__coverage__" file fc.
Lemma a_output : output_of (script_file "a.js" rec_a) rec_a.
Proof. split; [reflexivity|]. split; [constructor; [reflexivity|constructor]|]. repeat split; cbn; repeat constructor; cbn; intuition discriminate. Qed.
Lemma b_output : output_of (script_file "b.js" rec_b) rec_b.
Proof. split; [reflexivity|]. split; [constructor|]. repeat split; cbn; repeat constructor; cbn; intuition discriminate. Qed.
(** Both are loaded; the second one's statement calls [f], which counts itself and its statement. *)
Definition script_run : list event :=
  [ELoad (script_file "a.js" rec_a); ECall 0; ELoad (script_file "b.js" rec_b); ECall 1; EInc 1 (CS 0); EInc 0 (CF 0); EInc 0 (CS 0)].
Lemma script_valid : valid script_run.
Proof. now apply validb_valid. Qed.
Lemma script_loaded : loaded script_run = [script_file "a.js" rec_a; script_file "b.js" rec_b].
Proof. unfold script_run, loaded. cbn [flat_map app]. reflexivity. Qed.
Lemma script_keys : map file_key (loaded script_run) = [("__coverage__", "a.js"); ("__coverage__", "b.js")].
Proof. rewrite script_loaded. reflexivity. Qed.
Lemma script_distinct : NoDup (map file_key (loaded script_run)).
Proof. rewrite script_keys. repeat constructor; cbn; intuition discriminate. Qed.
Lemma script_outputs : Forall (fun f => exists fc, output_of f fc) (loaded script_run).
Proof. rewrite script_loaded. constructor; [exists rec_a; exact a_output|]. constructor; [exists rec_b; exact b_output|constructor]. Qed.
Lemma script_published : exists st, run (shared ["cov_1"; "cov_1"] 0 script_run) rt0 = Some st /\
  (exists a j, published (rheap st) "__coverage__" "a.js" = Some a /\ data_at (rheap st) a = Some j /\
     forall c, count c j = option_map (fun k => (k + hits 0 c (shared ["cov_1"; "cov_1"] 0 script_run))%N) (recorded rec_a c)) /\
  (exists a j, published (rheap st) "__coverage__" "b.js" = Some a /\ data_at (rheap st) a = Some j /\
     forall c, count c j = option_map (fun k => (k + hits 1 c (shared ["cov_1"; "cov_1"] 0 script_run))%N) (recorded rec_b c)).
Proof.
  destruct (shared_counts ["cov_1"; "cov_1"] script_run script_valid script_distinct script_outputs) as (st & R & H).
  exists st. split; [exact R|].
  assert (LA : nth_error (loaded script_run) 0 = Some (script_file "a.js" rec_a)) by now rewrite script_loaded.
  assert (LB : nth_error (loaded script_run) 1 = Some (script_file "b.js" rec_b)) by now rewrite script_loaded.
  split.
  - apply (H 0%nat _ _ LA a_output). reflexivity.
  - apply (H 1%nat _ _ LB b_output). reflexivity.
Qed.
Lemma script_hits : (forall c, In c [CS 0; CF 0] -> recorded rec_a c = Some 0%N /\ hits 0 c script_run = 1%N /\ hits 0 c (shared ["cov_1"; "cov_1"] 0 script_run) = 0%N) /\
  recorded rec_b (CS 0) = Some 0%N /\ hits 1 (CS 0) script_run = 1%N /\ hits 1 (CS 0) (shared ["cov_1"; "cov_1"] 0 script_run) = 2%N.
Proof. split; [|split; [reflexivity|split; reflexivity]]. intros c [<-|[<-|[]]]; split; [reflexivity|split; reflexivity|reflexivity|split; reflexivity]. Qed.
(** C57 is false of the code: the function of the first script ran once and is reported as not covered, and the one statement of
    the second script is reported twice. *)
Theorem scripts_apart_refuted : exists x fs p os p' ra rb evs st,
  process_all x fs p = Ok (os, p') /\ flat_map (fun o => templates (out_program o)) os = [ra; rb] /\
  valid evs /\ loaded evs = [emitted_for "__coverage__" "a.js" ra; emitted_for "__coverage__" "b.js" rb] /\
  run (shared (map name_of os) 0 evs) rt0 = Some st /\
  (forall c, In c [CS 0; CF 0] -> recorded ra c = Some 0%N /\ hits 0 c evs = 1%N) /\ recorded rb (CS 0) = Some 0%N /\ hits 1 (CS 0) evs = 1%N /\
  (exists a j, published (rheap st) "__coverage__" "a.js" = Some a /\ data_at (rheap st) a = Some j /\
     count (CF 0) j = Some 0%N /\ count (CS 0) j = Some 0%N) /\
  (exists a j, published (rheap st) "__coverage__" "b.js" = Some a /\ data_at (rheap st) a = Some j /\ count (CS 0) j = Some 2%N).
Proof.
  destruct script_records_are as (os & p' & P & N & F). destruct script_published as (st & R & (a & j & PA & DA & CA) & (b & k & PB & DB & CB)).
  destruct script_hits as (HA & HB1 & HB2 & HB3).
  exists no_ext, two_scripts, (mkProc (Some "cov_1") (Some "cov_1_temp") false), os, p', rec_a, rec_b, script_run, st. rewrite N.
  split; [exact P|]. split; [exact F|]. split; [exact script_valid|]. split; [exact script_loaded|]. split; [exact R|].
  split; [intros c Hc; destruct (HA c Hc) as (A & B & _); now split|]. split; [exact HB1|]. split; [exact HB2|]. split.
  - exists a, j. split; [exact PA|]. split; [exact DA|]. rewrite !CA. destruct (HA (CF 0)) as (A1 & _ & A2); [cbn; tauto|].
    destruct (HA (CS 0)) as (A3 & _ & A4); [cbn; tauto|]. rewrite A1, A2, A3, A4. now split.
  - exists b, k. split; [exact PB|]. split; [exact DB|]. rewrite CB, HB1, HB3. reflexivity.
Qed.
(** Non-vacuity: with names of their own the counts of the same run are the right ones. *)
Example scripts_apart_ex : exists st, run (shared ["cov_1"; "cov_2"] 0 script_run) rt0 = Some st /\
  exists a j, published (rheap st) "__coverage__" "a.js" = Some a /\ data_at (rheap st) a = Some j /\
    count (CF 0) j = Some 1%N /\ count (CS 0) j = Some 1%N.
Proof.
  destruct (scripts_apart_partial ["cov_1"; "cov_2"] script_run) as (st & R & H).
  - repeat constructor; cbn; intuition discriminate.
  - now rewrite script_loaded.
  - exact script_valid.
  - exact script_distinct.
  - exact script_outputs.
  - exists st. split; [exact R|].
    assert (LA : nth_error (loaded script_run) 0 = Some (script_file "a.js" rec_a)) by now rewrite script_loaded.
    destruct (H 0%nat _ _ LA a_output eq_refl) as (a & j & P & D & C). exists a, j. split; [exact P|]. split; [exact D|]. rewrite !C. now split.
Qed.
