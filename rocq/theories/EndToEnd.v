(** The whole chain: source text, instrumented program, run, published record, report.  The report tells what
    happened in the original program. *)
From Coq Require Import NArith String List Bool Lia PeanoNat Permutation.
Import ListNotations.
From Verif Require Import Base IndexMap Decimal Oxide OxideSpec OxideViews SourceCov SourceCovProofs Hints Ast Visitor VisitorRel
  VisitorEx Erase Counting CountingRoot Json CovJson DataObject Template Runtime Produced Report
  Sem SemShape SemErase SemVisit SemProps Account Slots Sites AccountVisit Accurate.
Open Scope string_scope. Open Scope list_scope. Open Scope N_scope.

(** ** Counters of the record after the increments *)
Lemma nth_counted : forall g l v i n,
  nth_error (FixtureRun.counted g l i v) n = option_map (fun x => x + FixtureRun.hits l (g (i + N.of_nat n))) (nth_error v n).
Proof.
  intros g l v. induction v as [|x v IH]; intros i [|n]; try reflexivity.
  - cbn [FixtureRun.counted nth_error option_map N.of_nat]. now rewrite N.add_0_r.
  - cbn [FixtureRun.counted nth_error]. rewrite IH. destruct (nth_error v n); [|reflexivity]. cbn [option_map].
    do 4 f_equal. lia.
Qed.
Lemma recorded_after : forall l fc c,
  recorded (FixtureRun.after l fc) c = option_map (fun x => x + FixtureRun.hits l c) (recorded fc c).
Proof.
  intros l fc c. destruct c as [i|i|b i|b i]; cbn [recorded FixtureRun.after fc_s fc_f fc_b fc_b_t].
  - apply (im_get_map _ _ _ _ (fun k v => v + FixtureRun.hits l (CS k))).
  - apply (im_get_map _ _ _ _ (fun k v => v + FixtureRun.hits l (CF k))).
  - rewrite (im_get_map _ _ _ _ (fun k v => FixtureRun.counted (CB k) l 0 v)). destruct (im_get b (fc_b fc)); [|reflexivity].
    cbn [option_map]. rewrite nth_counted, N.add_0_l, N2Nat.id. reflexivity.
  - destruct (fc_b_t fc) as [bt|]; [|reflexivity]. cbn [option_map].
    rewrite (im_get_map _ _ _ _ (fun k v => FixtureRun.counted (CT k) l 0 v)). destruct (im_get b bt); [|reflexivity].
    cbn [option_map]. rewrite nth_counted, N.add_0_l, N2Nat.id. reflexivity.
Qed.
Lemma recorded_perm : forall a b c, unique_keys a -> same_data a b -> recorded a c = recorded b c.
Proof.
  intros a b c (_ & _ & _ & U1 & U2 & U3 & U4) (_ & _ & _ & _ & _ & P1 & P2 & P3 & P4 & _).
  destruct c as [i|i|k i|k i]; cbn [recorded].
  - now apply im_get_perm.
  - now apply im_get_perm.
  - now rewrite (im_get_perm _ _ k P3 U3).
  - destruct (fc_b_t a), (fc_b_t b); try contradiction; [|reflexivity]. now rewrite (im_get_perm _ _ k P4 U4).
Qed.
Lemma loc_perm : forall a b c, unique_keys a -> same_data a b -> loc_of a c = loc_of b c.
Proof.
  intros a b c (U1 & U2 & U3 & _) (_ & _ & P1 & P2 & P3 & _). destruct c as [i|i|k i|k i]; cbn [loc_of].
  - now apply im_get_perm.
  - now rewrite (im_get_perm _ _ i P2 U2).
  - now rewrite (im_get_perm _ _ k P3 U3).
  - reflexivity.
Qed.
Lemma unique_perm : forall a b, same_data a b -> unique_keys a -> unique_keys b.
Proof.
  intros a b (_ & _ & P1 & P2 & P3 & P4 & P5 & P6 & P7 & _) (U1 & U2 & U3 & U4 & U5 & U6 & U7).
  assert (K : forall V (m m' : imap N V), Permutation m m' -> NoDup (im_keys m) -> NoDup (im_keys m')).
  { intros V m m' P H. eapply Permutation_NoDup; [apply Permutation_map, P|exact H]. }
  unfold unique_keys. repeat (split; [eapply K; eauto|]).
  destruct (fc_b_t a), (fc_b_t b); try contradiction; [eapply K; eauto|exact I].
Qed.
Lemma same_data_sym : forall a b, same_data a b -> same_data b a.
Proof.
  intros a b (A & B & C & D & E & F & G & H & I0 & J). unfold same_data.
  repeat (split; [symmetry; assumption|]). split; [|symmetry; assumption].
  destruct (fc_b_t a), (fc_b_t b); try contradiction; [now symmetry|exact I].
Qed.
Lemma keys_after : forall l fc, unique_keys fc -> unique_keys (FixtureRun.after l fc).
Proof.
  intros l fc H.
  assert (K : forall V W (f : N -> V -> W) (m : imap N V), im_keys (map (fun kv => (fst kv, f (fst kv) (snd kv))) m) = im_keys m).
  { intros. unfold im_keys. rewrite map_map. reflexivity. }
  destruct H as (U1 & U2 & U3 & U4 & U5 & U6 & U7). unfold unique_keys, FixtureRun.after.
  cbn [fc_statement_map fc_fn_map fc_branch_map fc_s fc_f fc_b fc_b_t].
  rewrite (K _ _ (fun k v => v + FixtureRun.hits l (CS k))), (K _ _ (fun k v => v + FixtureRun.hits l (CF k))),
    (K _ _ (fun k v => FixtureRun.counted (CB k) l 0 v)).
  repeat (split; [assumption|]). destruct (fc_b_t fc) as [bt|]; [|exact I]. cbn [option_map].
  now rewrite (K _ _ (fun k v => FixtureRun.counted (CT k) l 0 v)).
Qed.
Lemma produced_zero : forall e n path ism t items t' sc c, program_items t = Some items ->
  instrument e n path ism t = Ok (t', sc) -> slot_exists (sc_fc sc) c = true -> recorded (sc_fc sc) c = Some 0.
Proof.
  intros e n path ism t items t' sc c Hi H Hs.
  pose proof (produced_record e n path ism t items t' sc Hi H) as R. cbv zeta in R.
  destruct R as (_ & _ & _ & _ & _ & S2 & F2 & _ & _ & _ & _ & B4 & T).
  assert (Z : forall (V : Type) (m : imap N V) k, im_get k (map (fun kv => (fst kv, 0)) m) = option_map (fun _ => 0) (im_get k m)).
  { intros V m k. apply (im_get_map _ _ _ _ (fun _ _ => 0)). }
  assert (Rw : forall v i, (i <? N.of_nat (length v)) = true -> Forall (fun x => x = 0) v -> nth_error v (N.to_nat i) = Some 0).
  { intros v i L A. apply N.ltb_lt in L. destruct (nth_error v (N.to_nat i)) as [x|] eqn:E.
    - rewrite Forall_forall in A. f_equal. apply A. eapply nth_error_In; eauto.
    - apply nth_error_None in E. lia. }
  assert (Rep : forall k, Forall (fun x : N => x = 0) (repeat 0 k)) by (intros k; induction k; constructor; auto).
  destruct c as [i|i|b i|b i]; cbn [recorded slot_exists] in *.
  - rewrite S2, Z in *. destruct (im_get i (fc_statement_map (sc_fc sc))); [reflexivity|discriminate].
  - rewrite F2, Z in *. destruct (im_get i (fc_fn_map (sc_fc sc))); [reflexivity|discriminate].
  - unfold has_row in Hs. rewrite B4 in *. destruct (im_get b (fc_branch_map (sc_fc sc))); [|discriminate]. cbn [option_map] in *.
    apply Rw; auto.
  - destruct (fc_b_t (sc_fc sc)) as [bt|]; [|discriminate]. unfold has_row in Hs. destruct T as (_ & _ & T).
    destruct (im_get b bt) as [v|] eqn:Ev; [|discriminate]. apply Rw; [exact Hs|].
    apply T in Ev as (br & _ & _ & ->). apply Rep.
Qed.

(** ** The published record tells what happened *)
(** A source event the counter [c] of the record [r] stands for, and how often it happened *)
Definition tells (e : env) (items : list node) (log : list event) (r : file_coverage) (c : counter) (ev : event) : Prop :=
  exists sp, In (ev, sp) (flat_map sites items) /\ suits c ev = true /\ loc_of r c = Some (range_of e sp) /\
    recorded r c = Some (N.of_nat (count_occ event_dec log ev)).

Theorem record_tells_original_partial : forall e n path ism t items t' sc gcv,
  program_items t = Some items -> clean t = true -> forallb (good true) items = true ->
  forallb item items = true -> forallb exact items = true -> NoDup (map fst (flat_map sites items)) ->
  covered_program (e_report_logic e) t = true -> Forall DataObject.plain (idents t) ->
  instrument e n path ism t = Ok (t', sc) ->
  forall h, (e_report_logic e = true -> pure_tests h) -> forall fuel x w,
  let log := evs h (snd (run_program h fuel t x w)) in
  forall hist i, valid hist -> NoDup (map file_key (loaded hist)) ->
  Forall (fun f => exists fc, output_of f fc) (loaded hist) ->
  nth_error (loaded hist) i = Some (emitted_for gcv path (sc_fc sc)) -> touched i hist = true ->
  Permutation (incs i hist) (cnt h (snd (run_program h fuel t' x w))) ->
  exists st a j r, Runtime.run hist rt0 = Some st /\ published (rheap st) gcv path = Some a /\ data_at (rheap st) a = Some j /\
    read_fc j = Some r /\ same_data r (FixtureRun.after (incs i hist) (sc_fc sc)) /\
    forall c, seen c = true -> slot_exists (sc_fc sc) c = true -> exists ev, tells e items log r c ev.
Proof.
  intros e n path ism t items t' sc gcv Hi Hcl Hg Hit Hx Hnd Hcov Hp H h Hh fuel x w log hist i Hv Hk Ho Hl Ht Hc.
  destruct (produced_literal e n path ism t items t' sc Hi H Hp) as [O _]. specialize (O gcv).
  destruct (published_record hist Hv Hk Ho) as (st & R & P). destruct (P i _ _ Hl O Ht) as (a & j & r & P1 & P2 & P3 & P4).
  exists st, a, j, r. repeat (split; [assumption|]). intros c Hs Hse.
  destruct (counters_tell_original_partial e n path ism t items t' sc Hi Hcl Hg Hit Hx Hnd Hcov H c Hs Hse) as (ev & sp & A & B & D & E).
  exists ev, sp. split; [assumption|]. split; [assumption|].
  assert (U : unique_keys (FixtureRun.after (incs i hist) (sc_fc sc))) by apply keys_after, (produced_unique_keys e n path ism t items t' sc Hi H).
  pose proof (unique_perm _ _ (same_data_sym _ _ P4) U) as Ur.
  split; [rewrite (loc_perm r _ c Ur P4); exact D|].
  rewrite (recorded_perm r _ c Ur P4), recorded_after, (produced_zero e n path ism t items t' sc c Hi H Hse).
  cbn [option_map]. f_equal. rewrite N.add_0_l, hitn_count. f_equal.
  rewrite (Permutation_count_occ Runtime.counter_dec) in Hc. rewrite Hc.
  unfold log. rewrite <- (E h Hh fuel x w). clear.
  generalize (cnt h (snd (run_program h fuel t' x w))). intros l. induction l as [|y l IH]; [reflexivity|]. cbn.
  destruct (Runtime.counter_dec y c), (counter_dec y c); congruence.
Qed.

(** ** The report *)
Lemma slot_recorded : forall fc c, slot_exists fc c = match recorded fc c with Some _ => true | None => false end.
Proof.
  assert (K : forall (v : list N) i, (i <? N.of_nat (length v)) = match nth_error v (N.to_nat i) with Some _ => true | None => false end).
  { intros v i. destruct (nth_error v (N.to_nat i)) eqn:E.
    - apply N.ltb_lt. assert (L : (N.to_nat i < length v)%nat) by (apply nth_error_Some; congruence). lia.
    - apply N.ltb_ge. apply nth_error_None in E. lia. }
  intros fc [i|i|b i|b i]; cbn [slot_exists recorded]; try reflexivity.
  - unfold has_row. destruct (im_get b (fc_b fc)); [apply K|reflexivity].
  - destruct (fc_b_t fc) as [bt|]; [|reflexivity]. unfold has_row. destruct (im_get b bt); [apply K|reflexivity].
Qed.
(** The paths of a table of branches, each with its number *)
Definition paths (m : branch_hit_map) : list (counter * N) :=
  flat_map (fun kv => combine (map (fun i => CB (fst kv) (N.of_nat i)) (seq 0 (length (snd kv)))) (snd kv)) m.
Lemma snd_combine : forall A B (a : list A) (b : list B), length a = length b -> map snd (combine a b) = b.
Proof.
  intros A B a. induction a as [|x a IH]; intros [|y b] H; try discriminate; [reflexivity|]. cbn. f_equal. apply IH.
  now injection H.
Qed.
Lemma paths_values : forall m, map snd (paths m) = concat (im_values m).
Proof.
  intros m. unfold paths, im_values. induction m as [|[k v] m IH]; [reflexivity|]. cbn [flat_map map concat fst snd].
  rewrite map_app, IH, snd_combine; [reflexivity|]. now rewrite map_length, seq_length.
Qed.
Lemma in_combine_seq : forall (f : nat -> counter) (v : list N) a c x, In (c, x) (combine (map f (seq a (length v))) v) ->
  exists i, c = f (a + i)%nat /\ nth_error v i = Some x.
Proof.
  intros f v. induction v as [|y v IH]; intros a c x H; [contradiction|]. destruct H as [E|H].
  - injection E as <- <-. exists O. now rewrite Nat.add_0_r.
  - destruct (IH (S a) c x H) as (i & -> & E). exists (S i). split; [f_equal; lia|exact E].
Qed.
Lemma in_paths : forall m c x, NoDup (im_keys m) -> In (c, x) (paths m) ->
  exists b i v, c = CB b i /\ im_get b m = Some v /\ nth_error v (N.to_nat i) = Some x.
Proof.
  intros m c x W H. unfold paths in H. apply in_flat_map in H as ([k v] & Hin & H). cbn [fst snd] in H.
  apply in_combine_seq in H as (i & -> & E). exists k, (N.of_nat i), v. split; [reflexivity|].
  split; [now apply im_in_get|]. now rewrite Nnat.Nat2N.id.
Qed.
Lemma choose : forall A B (P : A -> B -> Prop) l, (forall x, In x l -> exists y, P x y) -> exists ys, Forall2 P l ys.
Proof.
  intros A B P l. induction l as [|x l IH]; intros H; [now exists []|].
  destruct (H x (or_introl eq_refl)) as [y Hy]. destruct IH as [ys Hys]; [intros z Hz; apply H; now right|].
  exists (y :: ys). now constructor.
Qed.
Definition happened (log : list event) (ev : event) : bool := if in_dec event_dec ev log then true else false.
(** How many of some events happened *)
Definition reached (log l : list event) : N := N.of_nat (length (filter (happened log) l)).
Lemma covered_reached : forall log (l : list (counter * N)) evl,
  Forall2 (fun p ev => snd p = N.of_nat (count_occ event_dec log ev)) l evl -> OxideViews.covered_count (map snd l) = reached log evl.
Proof.
  intros log l evl H. unfold OxideViews.covered_count, reached. f_equal. induction H as [|p ev l evl E _ IH]; [reflexivity|].
  cbn [map filter]. rewrite E. unfold happened at 1. destruct (in_dec event_dec ev log) as [I|I].
  - apply (count_occ_In event_dec) in I. destruct (N.eqb_spec (N.of_nat (count_occ event_dec log ev)) 0); [lia|]. cbn. now rewrite IH.
  - apply (count_occ_not_In event_dec) in I. rewrite I. exact IH.
Qed.
(** The counters of a record with their values *)
Definition stmts_of (r : file_coverage) : list (counter * N) := map (fun kv => (CS (fst kv), snd kv)) (fc_s r).
Definition fns_of (r : file_coverage) : list (counter * N) := map (fun kv => (CF (fst kv), snd kv)) (fc_f r).

Lemma summary_of_tells : forall e items log r m, unique_keys r ->
  table_ok stmt_loc (fc_s r) (fc_statement_map r) ->
  N.of_nat (length (concat (im_values (fc_b r)))) < u32_mod ->
  (forall bt, fc_b_t r = Some bt -> N.of_nat (length (concat (im_values bt))) < u32_mod) ->
  (forall c, seen c = true -> slot_exists r c = true -> exists ev, tells e items log r c ev) ->
  exists s ls evS evF evB,
    to_summary m r = Ok s /\ get_uncovered_lines r = Ok ls /\
    Forall2 (fun p ev => tells e items log r (fst p) ev) (stmts_of r) evS /\
    Forall2 (fun p ev => tells e items log r (fst p) ev) (fns_of r) evF /\
    Forall2 (fun p ev => tells e items log r (fst p) ev) (paths (fc_b r)) evB /\
    cs_statements s = spec_totals (N.of_nat (length evS)) (reached log evS) /\
    cs_functions s = spec_totals (N.of_nat (length evF)) (reached log evF) /\
    cs_branches s = spec_totals (N.of_nat (length evB)) (reached log evB) /\
    (forall l, In l ls <->
       (exists k rg, im_get k (fc_statement_map r) = Some rg /\ im_get k (fc_s r) <> None /\ line (rstart rg) = l) /\
       (forall k rg ev, im_get k (fc_statement_map r) = Some rg -> line (rstart rg) = l ->
          tells e items log r (CS k) ev -> happened log ev = false)).
Proof.
  intros e items log r m (_ & _ & _ & U4 & U5 & U6 & _) Tok B1 B2 T.
  pose proof (to_summary_spec m r Tok B1 B2) as S0. cbv zeta in S0.
  assert (St : forall p, In p (stmts_of r) -> recorded r (fst p) = Some (snd p) /\ seen (fst p) = true).
  { intros p Hp. apply in_map_iff in Hp as ([k v] & <- & Hin). cbn [fst snd recorded]. split; [now apply im_in_get|reflexivity]. }
  assert (Fn : forall p, In p (fns_of r) -> recorded r (fst p) = Some (snd p) /\ seen (fst p) = true).
  { intros p Hp. apply in_map_iff in Hp as ([k v] & <- & Hin). cbn [fst snd recorded]. split; [now apply im_in_get|reflexivity]. }
  assert (Br : forall p, In p (paths (fc_b r)) -> recorded r (fst p) = Some (snd p) /\ seen (fst p) = true).
  { intros [c v] Hp. apply in_paths in Hp as (b & i & row & -> & E1 & E2); [|exact U6]. cbn [fst snd recorded]. now rewrite E1. }
  assert (Ch : forall l, (forall p, In p l -> recorded r (fst p) = Some (snd p) /\ seen (fst p) = true) ->
    exists evl, Forall2 (fun p ev => tells e items log r (fst p) ev) l evl /\
      N.of_nat (length l) = N.of_nat (length evl) /\ OxideViews.covered_count (map snd l) = reached log evl).
  { intros l Hl. destruct (choose _ _ (fun p ev => tells e items log r (fst p) ev) l) as [evl Hevl].
    { intros p Hp. destruct (Hl p Hp) as [E Hs]. apply T; [exact Hs|]. now rewrite slot_recorded, E. }
    exists evl. split; [exact Hevl|]. split.
    - f_equal. clear - Hevl. induction Hevl; cbn; congruence.
    - apply covered_reached. clear - Hevl Hl. induction Hevl as [|p ev l evl H _ IH]; [constructor|]. constructor.
      + destruct H as (sp & _ & _ & _ & H). destruct (Hl p (or_introl eq_refl)) as [E _]. congruence.
      + apply IH. intros q Hq. apply Hl. now right. }
  destruct (Ch _ St) as (evS & S1 & S2 & S3), (Ch _ Fn) as (evF & F1 & F2 & F3), (Ch _ Br) as (evB & G1 & G2 & G3).
  assert (Ln : forall l : list (counter * N), length (map snd l) = length l) by (intros; apply map_length).
  pose proof (uncovered_spec r Tok) as Un. eexists _, _, evS, evF, evB.
  split; [exact S0|]. split; [exact Un|]. repeat (split; [assumption|]).
  cbn [cs_statements cs_functions cs_branches].
  unfold stmts_of in S2, S3. unfold fns_of in F2, F3. rewrite map_map in S3, F3. change (OxideViews.covered_count (im_values (fc_s r)) = reached log evS) in S3.
  change (OxideViews.covered_count (im_values (fc_f r)) = reached log evF) in F3. rewrite map_length in S2, F2.
  rewrite <- (paths_values (fc_b r)), Ln, G2, G3.
  split; [now rewrite S2, S3|]. split; [now rewrite F2, F3|]. split; [reflexivity|].
  intros l. rewrite (proj2 (uncovered_iff r _ Tok Un) l).
  assert (Rows : forall x, In x (stmt_rows r) <-> exists k v, im_get k (fc_s r) = Some v /\
      im_get k (fc_statement_map r) = Some (fst x) /\ snd x = (v, fst x)).
  { intros [rg y]. unfold stmt_rows, rows. rewrite in_flat_map. cbn [fst snd]. split.
    - intros ([k v] & Hin & H). cbn [fst snd] in H. destruct (im_get k (fc_statement_map r)) as [rg'|] eqn:E; [|contradiction].
      cbn in H. destruct H as [H|[]]. injection H as <- <-. exists k, v. split; [now apply im_in_get|]. auto.
    - intros (k & v & E1 & E2 & ->). exists (k, v). split; [now apply im_get_in|]. cbn [fst snd]. rewrite E2. now left. }
  assert (Zero : forall k v ev, im_get k (fc_s r) = Some v -> tells e items log r (CS k) ev -> (v = 0 <-> happened log ev = false)).
  { intros k v ev Ev (sp & _ & _ & _ & H). cbn [recorded] in H. assert (v = N.of_nat (count_occ event_dec log ev)) by congruence. subst v.
    unfold happened. destruct (in_dec event_dec ev log) as [I|I].
    - apply (count_occ_In event_dec) in I. split; [lia|discriminate].
    - apply (count_occ_not_In event_dec) in I. rewrite I. now split. }
  split; intros [A B]; split.
  - destruct A as (x & Hx & L). apply Rows in Hx as (k & v & E1 & E2 & _). exists k, (fst x). repeat split; auto. congruence.
  - intros k rg ev E L Te. destruct (im_get k (fc_s r)) as [v|] eqn:Ev.
    + apply (Zero k v ev Ev Te). apply (B (rg, (v, rg))); [|exact L]. apply Rows. now exists k, v.
    + destruct Te as (sp & _ & _ & _ & H). cbn [recorded] in H. congruence.
  - destruct A as (k & rg & E & N & L). destruct (im_get k (fc_s r)) as [v|] eqn:Ev; [|congruence].
    exists (rg, (v, rg)). split; [|exact L]. apply Rows. now exists k, v.
  - intros x Hx L. apply Rows in Hx as (k & v & E1 & E2 & ->). cbn [fst].
    destruct (T (CS k) eq_refl) as (ev & Te). { rewrite slot_recorded. cbn [recorded]. now rewrite E1. }
    apply (Zero k v ev E1 Te). eapply B; eauto.
Qed.

(** The report of a run: the totals count the statements, functions and branch paths of the source, and as
    covered exactly those whose event happened in the original program; the uncovered lines are the lines on
    which statements start and none was reached. *)
Theorem report_tells_original_partial : forall e n path ism t items t' sc gcv,
  program_items t = Some items -> clean t = true -> forallb (good true) items = true ->
  forallb item items = true -> forallb exact items = true -> NoDup (map fst (flat_map sites items)) ->
  covered_program (e_report_logic e) t = true -> Forall DataObject.plain (idents t) ->
  instrument e n path ism t = Ok (t', sc) ->
  N.of_nat (length (concat (im_values (fc_b (sc_fc sc))))) < u32_mod ->
  (forall bt, fc_b_t (sc_fc sc) = Some bt -> N.of_nat (length (concat (im_values bt))) < u32_mod) ->
  forall h, (e_report_logic e = true -> pure_tests h) -> forall fuel x w,
  let log := evs h (snd (run_program h fuel t x w)) in
  forall hist i, valid hist -> NoDup (map file_key (loaded hist)) ->
  Forall (fun f => exists fc, output_of f fc) (loaded hist) ->
  nth_error (loaded hist) i = Some (emitted_for gcv path (sc_fc sc)) -> touched i hist = true ->
  Permutation (incs i hist) (cnt h (snd (run_program h fuel t' x w))) ->
  exists st a j r, Runtime.run hist rt0 = Some st /\ published (rheap st) gcv path = Some a /\
    data_at (rheap st) a = Some j /\ read_fc j = Some r /\
  forall m, exists s ls evS evF evB,
    to_summary m r = Ok s /\ get_uncovered_lines r = Ok ls /\
    length evS = length (fc_statement_map (sc_fc sc)) /\ length evF = length (fc_fn_map (sc_fc sc)) /\
    length evB = length (concat (im_values (fc_b (sc_fc sc)))) /\
    Forall2 (fun p ev => tells e items log r (fst p) ev) (stmts_of r) evS /\
    Forall2 (fun p ev => tells e items log r (fst p) ev) (fns_of r) evF /\
    Forall2 (fun p ev => tells e items log r (fst p) ev) (paths (fc_b r)) evB /\
    cs_statements s = spec_totals (N.of_nat (length evS)) (reached log evS) /\
    cs_functions s = spec_totals (N.of_nat (length evF)) (reached log evF) /\
    cs_branches s = spec_totals (N.of_nat (length evB)) (reached log evB) /\
    (forall l, In l ls <->
       (exists k rg, im_get k (fc_statement_map r) = Some rg /\ im_get k (fc_s r) <> None /\ line (rstart rg) = l) /\
       (forall k rg ev, im_get k (fc_statement_map r) = Some rg -> line (rstart rg) = l ->
          tells e items log r (CS k) ev -> happened log ev = false)).
Proof.
  intros e n path ism t items t' sc gcv Hi Hcl Hg Hit Hx Hnd Hcov Hp H Hb Hbt h Hh fuel x w log hist i Hv Hk Ho Hl Ht Hc.
  destruct (record_tells_original_partial e n path ism t items t' sc gcv Hi Hcl Hg Hit Hx Hnd Hcov Hp H h Hh fuel x w hist i
    Hv Hk Ho Hl Ht Hc) as (st & a & j & r & R1 & R2 & R3 & R4 & R5 & R6).
  exists st, a, j, r. do 4 (split; [assumption|]). intros m.
  set (fc' := FixtureRun.after (incs i hist) (sc_fc sc)) in *.
  assert (U : unique_keys fc') by apply keys_after, (produced_unique_keys e n path ism t items t' sc Hi H).
  pose proof (unique_perm _ _ (same_data_sym _ _ R5) U) as Ur.
  assert (Slots : forall c, slot_exists r c = slot_exists (sc_fc sc) c).
  { intros c. rewrite !slot_recorded, (recorded_perm r _ c Ur R5). unfold fc'. rewrite recorded_after.
    now destruct (recorded (sc_fc sc) c). }
  assert (Cn : forall l g v k, length (FixtureRun.counted g l k v) = length v).
  { intros l g v. induction v as [|y v IH]; intros k; [reflexivity|]. cbn. now rewrite IH. }
  assert (Len : forall l g (mp : branch_hit_map),
    length (concat (im_values (map (fun kv => (fst kv, FixtureRun.counted (g (fst kv)) l 0 (snd kv))) mp))) = length (concat (im_values mp))).
  { intros l g mp. unfold im_values. induction mp as [|[k v] mp IH]; [reflexivity|]. cbn [map concat fst snd].
    rewrite !app_length, IH. now rewrite Cn. }
  assert (PL : forall (a0 b0 : branch_hit_map), Permutation a0 b0 -> length (concat (im_values a0)) = length (concat (im_values b0))).
  { intros a0 b0 P. unfold im_values. induction P; cbn [map concat]; rewrite ?app_length; lia. }
  pose proof (produced_record e n path ism t items t' sc Hi H) as PR. cbv zeta in PR.
  destruct PR as (_ & _ & _ & S1 & F1 & S2 & F2 & _ & B1 & B2 & B3 & B4 & _).
  destruct R5 as (_ & _ & P1 & P2 & P3 & P4 & P5 & P6 & P7 & _).
  assert (LS : length (fc_s r) = length (fc_statement_map (sc_fc sc))).
  { rewrite (Permutation_length P4). unfold fc', FixtureRun.after. cbn [fc_s]. rewrite map_length, S2. apply map_length. }
  assert (LF : length (fc_f r) = length (fc_fn_map (sc_fc sc))).
  { rewrite (Permutation_length P5). unfold fc', FixtureRun.after. cbn [fc_f]. rewrite map_length, F2. apply map_length. }
  assert (LB : length (concat (im_values (fc_b r))) = length (concat (im_values (fc_b (sc_fc sc))))).
  { rewrite (PL _ _ P6). unfold fc', FixtureRun.after. cbn [fc_b]. apply (Len _ CB). }
  destruct (summary_of_tells e items log r m Ur) as (s & ls & evS & evF & evB & A1 & A2 & A3 & A4 & A5 & A6).
  - intros k Hk0.
    assert (Hk1 : In k (im_keys (fc_statement_map (sc_fc sc)))).
    { apply (Permutation_in k (Permutation_map fst P4)) in Hk0. unfold fc', FixtureRun.after in Hk0. cbn [fc_s] in Hk0.
      rewrite S2, !map_map in Hk0. exact Hk0. }
    destruct (im_get k (fc_statement_map r)) as [rg|] eqn:E; [exists rg, rg; now split|]. apply im_get_None in E.
    exfalso. apply E. apply (Permutation_in k (Permutation_map fst (Permutation_sym P1))). exact Hk1.
  - now rewrite LB.
  - intros bt E. unfold fc' in P7. cbn [FixtureRun.after fc_b_t] in P7. rewrite E in P7.
    destruct (fc_b_t (sc_fc sc)) as [bt0|] eqn:E0; [|contradiction]. cbn [option_map] in P7.
    rewrite (PL _ _ P7), (Len _ CT). now apply Hbt.
  - intros c Hs Hse. apply R6; [exact Hs|]. now rewrite <- Slots.
  - exists s, ls, evS, evF, evB. do 2 (split; [assumption|]).
    assert (FL : forall (P : counter * N -> event -> Prop) l0 l1, Forall2 P l0 l1 -> length l1 = length l0).
    { intros P l0 l1 F. induction F; cbn; congruence. }
    split; [rewrite (FL _ _ _ A3); unfold stmts_of; now rewrite map_length|].
    split; [rewrite (FL _ _ _ A4); unfold fns_of; now rewrite map_length|].
    split; [rewrite (FL _ _ _ A5), <- LB, <- paths_values; now rewrite map_length|].
    now repeat (split; [assumption|]).
Qed.

(** ** Example *)
(** A file loaded alone, its counter function called, and then some increments *)
Definition one_file (f : emitted) (l : list counter) : list Runtime.event := ELoad f :: ECall 0 :: map (EInc 0) l.
Lemma one_file_ok : forall f l, valid (one_file f l) /\ loaded (one_file f l) = [f] /\ incs 0 (one_file f l) = l /\
  touched 0 (one_file f l) = true.
Proof.
  intros f l. split; [|split; [|split; [|reflexivity]]].
  - apply validb_valid. cbn. induction l as [|c l IH]; [reflexivity|]. exact IH.
  - unfold one_file, loaded. cbn. f_equal. induction l as [|c l IH]; [reflexivity|]. exact IH.
  - unfold one_file, incs. cbn. induction l as [|c l IH]; [reflexivity|]. cbn. now rewrite IH.
Qed.
(** Five positions to a line *)
Definition line_env : env := mkEnv no_comments (fun _ => false) (fun p => (1 + p / 5, p mod 5)) false [].
Definition short (x : totals) : N * N := (t_total x, t_covered x).
(** The theorem applies to [ex_count]: its report lists 10 statements of which 9 were reached, 2 functions of which one
    was entered and 6 paths of which 4 were taken; line 28 is uncovered. *)
Example report_ex :
  match instrument line_env 60 "f.js" None ex_count with
  | Ok (t', sc) =>
      let l := cnt _ (snd (run_program pure_toy 9 t' tt w0)) in
      let log := evs _ (snd (run_program pure_toy 9 ex_count tt w0)) in
      (exists st a j r, Runtime.run (one_file (emitted_for "__coverage__" "f.js" (sc_fc sc)) l) rt0 = Some st /\
         published (rheap st) "__coverage__" "f.js" = Some a /\ data_at (rheap st) a = Some j /\ read_fc j = Some r /\
         same_data r (FixtureRun.after l (sc_fc sc)) /\
         forall c, seen c = true -> slot_exists (sc_fc sc) c = true ->
           exists items ev, program_items ex_count = Some items /\ tells line_env items log r c ev) /\
      match to_summary Debug (FixtureRun.after l (sc_fc sc)), get_uncovered_lines (FixtureRun.after l (sc_fc sc)) with
      | Ok s, Ok ls => (short (cs_statements s), short (cs_functions s), short (cs_branches s), short (cs_lines s), ls)
          = ((10, 9), (2, 1), (6, 4), (9, 8), [28])
      | _, _ => False
      end
  | _ => False
  end.
Proof.
  destruct (instrument line_env 60 "f.js" None ex_count) as [[t' sc]| |] eqn:H; [|vm_compute in H; discriminate..].
  cbv zeta. set (l := cnt _ (snd (run_program pure_toy 9 t' tt w0))). split.
  - destruct (one_file_ok (emitted_for "__coverage__" "f.js" (sc_fc sc)) l) as (V & L & I0 & T).
    assert (Pl : Forall DataObject.plain (idents ex_count)) by (vm_compute; repeat constructor).
    destruct (produced_literal line_env 60 "f.js" None ex_count _ t' sc eq_refl H Pl) as [O _].
    destruct (record_tells_original_partial line_env 60 "f.js" None ex_count _ t' sc "__coverage__" eq_refl eq_refl eq_refl eq_refl
      eq_refl ltac:(match goal with |- NoDup ?l => replace l with (nodup event_dec l) by (vm_compute; reflexivity); apply NoDup_nodup end)
      eq_refl Pl H pure_toy ltac:(discriminate) 9%nat tt w0 (one_file (emitted_for "__coverage__" "f.js" (sc_fc sc)) l) 0%nat)
      as (st & a & j & r & A1 & A2 & A3 & A4 & A5 & A6).
    + exact V.
    + rewrite L. repeat constructor. intros [].
    + rewrite L. constructor; [|constructor]. exists (sc_fc sc). apply O.
    + now rewrite L.
    + exact T.
    + now rewrite I0.
    + exists st, a, j, r. rewrite I0 in A5. repeat (split; [assumption|]). intros c Hs Hc.
      destruct (A6 c Hs Hc) as (ev & Te). eexists _, ev. split; [reflexivity|exact Te].
  - subst l. vm_compute in H. injection H as <- <-. vm_compute. reflexivity.
Qed.
