(** C69: what the percentages of a report say.

    Reports are read through thresholds ("at least 80 percent of the statements").  The percentage is computed in single
    precision with a floor on the way (percent.rs:4-13), so that it could be wrong on either side of a threshold.  Proved here:
    it is never wrong.  A percentage of at least k means that at least k in a hundred of the places were reached, for whole k
    and for hundredths; 100 means that everything was reached.  For the report of a project that is a statement about the
    sources: at 100 percent every statement, function and branch path that the report knows of was executed in some process. *)
From Coq Require Import NArith ZArith Reals.
From Coq Require Import Floats.SpecFloat.
From Flocq Require Import Core.Core.
From Coq Require Import String List Bool Lia Lra PeanoNat Permutation.
Import ListNotations.
From Verif Require Import Base IndexMap Decimal Float FloatR Percent Oxide OxideSpec OxideMergeProofs OxideMerge OxideViews Growth SourceCov
  SourceCovProofs Hints Ast Visitor VisitorEx Template Runtime Produced Report Sem SemShape SemErase SemVisit SemProps Account Accurate EndToEnd Runs Project.
Open Scope string_scope. Open Scope list_scope. Open Scope N_scope.

(** ** Thresholds *)
(** The binary32 number nearest to [j] hundredths *)
Definition mark (j : N) : R := rnd32 (IZR (Z.of_N j) / 100)%R.

Lemma quotient : forall j c t, 0 < t -> (j <= 10000 * c / t <-> j * t <= 10000 * c).
Proof.
  intros j c t Ht. split; intros H.
  - pose proof (N.mul_div_le (10000 * c) t ltac:(lia)). nia.
  - apply N.div_le_lower_bound; [lia|]. nia.
Qed.
(** Different hundredths round to different numbers *)
Lemma mark_lt : forall h j, h < j -> j <= 10000 -> (mark h < mark j)%R.
Proof.
  intros h j L B. set (k := ((256 * Z.of_N (j - 1) + 99) / 100)%Z).
  assert (K1 : (256 * Z.of_N (j - 1) <= 100 * k)%Z).
  { unfold k. pose proof (Z.div_mod (256 * Z.of_N (j - 1) + 99) 100 ltac:(lia)).
    pose proof (Z.mod_pos_bound (256 * Z.of_N (j - 1) + 99) 100 ltac:(lia)). lia. }
  assert (K2 : (100 * k <= 256 * Z.of_N (j - 1) + 99)%Z).
  { unfold k. apply Z.mul_div_le. lia. }
  assert (K3 : (0 <= k < 30000)%Z) by lia.
  apply Rle_lt_trans with (IZR k * bpow radix2 (-8))%R; [|apply Rlt_le_trans with (IZR (k + 1) * bpow radix2 (-8))%R].
  - unfold mark. rewrite <- (rnd_id (IZR k * bpow radix2 (-8))) by (apply format32; simpl; lia).
    apply rnd_mono. change (bpow radix2 (-8)) with (/ 256)%R.
    assert (Q : (256 * Z.of_N h <= 100 * k)%Z) by lia. apply IZR_le in Q. rewrite !mult_IZR in Q. lra.
  - apply Rmult_lt_compat_r; [apply bpow_gt_0|]. apply IZR_lt. lia.
  - unfold mark. rewrite <- (rnd_id (IZR (k + 1) * bpow radix2 (-8))) by (apply format32; simpl; lia).
    apply rnd_mono. change (bpow radix2 (-8)) with (/ 256)%R.
    assert (Q : (100 * (k + 1) <= 256 * Z.of_N j)%Z) by lia. apply IZR_le in Q. rewrite !mult_IZR in Q. lra.
Qed.
Lemma mark_whole : forall k, k <= 100 -> mark (100 * k) = IZR (Z.of_N k).
Proof.
  intros k B. unfold mark. replace (IZR (Z.of_N (100 * k)) / 100)%R with (IZR (Z.of_N k)).
  - apply rnd_id, format32_Z. lia.
  - rewrite N2Z.inj_mul, mult_IZR. simpl (Z.of_N 100). lra.
Qed.
Lemma percent_mark : forall c t, c <= t -> 0 < t -> val32 (percent c t) = mark (10000 * c / t).
Proof. intros c t Hc Ht. now destruct (percent_truncates c t Hc Ht) as [_ ->]. Qed.

(** The percentage reaches a threshold given in hundredths exactly when the ratio does. *)
Theorem percent_hundredths : forall c t j, c <= t -> j <= 10000 -> ((mark j <= val32 (percent c t))%R <-> j * t <= 10000 * c).
Proof.
  intros c t j Hc Hj. destruct (N.eq_dec t 0) as [->|Ht].
  - replace c with 0 by lia. split; [intros _; lia|]. intros _. rewrite percent_zero, <- (percent_full 1), percent_mark by lia.
    change (10000 * 1 / 1) with 10000. destruct (N.eq_dec j 10000) as [->|]; [apply Rle_refl|]. apply Rlt_le, mark_lt; lia.
  - rewrite percent_mark by lia. assert (Q : 10000 * c / t <= 10000).
    { apply N.div_le_upper_bound; [lia|]. nia. }
    rewrite <- quotient by lia. destruct (N.lt_trichotomy j (10000 * c / t)) as [L|[E|L]].
    + split; [lia|]. intros _. now apply Rlt_le, mark_lt.
    + rewrite E. split; [reflexivity|]. intros _. apply Rle_refl.
    + split; [|lia]. intros H. exfalso. pose proof (mark_lt _ _ L Hj). lra.
Qed.
(** ... in particular for whole percentages *)
Theorem percent_threshold : forall c t k, c <= t -> k <= 100 -> ((IZR (Z.of_N k) <= val32 (percent c t))%R <-> k * t <= 100 * c).
Proof.
  intros c t k Hc Hk. rewrite <- mark_whole by assumption. rewrite percent_hundredths by lia. lia.
Qed.
Theorem percent_is_100 : forall c t, c <= t -> (percent c t = f32_of_Z 100 <-> c = t).
Proof.
  intros c t Hc. split; [|intros ->; apply percent_full]. intros E.
  assert (H : (IZR (Z.of_N 100) <= val32 (percent c t))%R).
  { rewrite E, <- (percent_full 1), percent_mark by lia. change (10000 * 1 / 1) with (100 * 100). rewrite mark_whole by lia. apply Rle_refl. }
  rewrite percent_threshold in H by lia. lia.
Qed.
(** A percentage of zero does not mean that nothing was reached. *)
Theorem zero_percent_refuted : exists c t, 0 < c /\ c <= t /\ percent c t = percent 0 t.
Proof. exists 1, 10001. split; [lia|]. split; [lia|]. vm_compute. reflexivity. Qed.
(** It means that less than one place in ten thousand was. *)
Theorem percent_is_0 : forall c t, c <= t -> 0 < t -> (val32 (percent c t) = 0%R <-> 10000 * c < t).
Proof.
  intros c t Hc Ht. rewrite percent_mark by assumption. assert (M0 : mark 0 = 0%R).
  { unfold mark. simpl (Z.of_N 0). replace (0 / 100)%R with 0%R by lra. apply rnd_0. }
  assert (Q : 10000 * c / t <= 10000) by (apply N.div_le_upper_bound; [lia|]; nia). split.
  - intros E. destruct (N.eq_dec (10000 * c / t) 0) as [Z|Z].
    + apply N.div_small_iff in Z; [exact Z|lia].
    + pose proof (mark_lt 0 (10000 * c / t) (proj1 (N.neq_0_lt_0 _) Z) Q). lra.
  - intros L. now rewrite N.div_small.
Qed.

(** ** The summary of a file *)
Definition full (t : totals) : Prop := t_pct t = PValue (f32_of_Z 100).
Definition meets (k : N) (t : totals) : Prop := exists x, t_pct t = PValue x /\ (IZR (Z.of_N k) <= val32 x)%R.

Lemma filter_all : forall A (p : A -> bool) l, length (filter p l) = length l <-> forall x, In x l -> p x = true.
Proof.
  intros A p l. induction l as [|x l IH]; [split; [intros _ y []|reflexivity]|]. cbn [filter]. destruct (p x) eqn:E; cbn [length].
  - split.
    + intros H y [<-|I]; [exact E|]. apply IH; [congruence|exact I].
    + intros H. f_equal. apply IH. intros y I. apply H. now right.
  - split.
    + intros H. pose proof (filter_length_le _ p l). lia.
    + intros H. rewrite (H x (or_introl eq_refl)) in E. discriminate.
Qed.
Lemma full_spec : forall A (p : A -> bool) l, full (spec_totals (N.of_nat (length l)) (N.of_nat (length (filter p l)))) <->
  forall x, In x l -> p x = true.
Proof.
  intros A p l. pose proof (filter_length_le _ p l). unfold full, spec_totals. cbn [t_pct]. rewrite <- filter_all. split.
  - intros E. assert (E' : percent (N.of_nat (length (filter p l))) (N.of_nat (length l)) = f32_of_Z 100) by congruence.
    apply percent_is_100 in E'; lia.
  - intros ->. now rewrite percent_full.
Qed.
Lemma meets_spec : forall k c t, c <= t -> k <= 100 -> (meets k (spec_totals t c) <-> k * t <= 100 * c).
Proof.
  intros k c t Hc Hk. rewrite <- percent_threshold by assumption. unfold meets, spec_totals. cbn [t_pct]. split.
  - intros (x & E & H). injection E as ->. exact H.
  - intros H. now exists (percent c t).
Qed.
Lemma hit_true : forall x : N, negb (x =? 0) = true <-> x <> 0.
Proof. intros x. destruct (N.eqb_spec x 0); cbn; split; congruence. Qed.

(** A hundred percent of the statements, functions, branch paths: every counter of the table is positive.  A hundred percent of
    the lines: on every line at least one of the statements that start there ran. *)
Theorem summary_full : forall m fc s,
  table_ok stmt_loc (fc_s fc) (fc_statement_map fc) ->
  N.of_nat (length (concat (im_values (fc_b fc)))) < u32_mod ->
  (forall bt, fc_b_t fc = Some bt -> N.of_nat (length (concat (im_values bt))) < u32_mod) ->
  to_summary m fc = Ok s ->
  (full (cs_statements s) <-> forall k h, In (k, h) (fc_s fc) -> h <> 0) /\
  (full (cs_functions s) <-> forall k h, In (k, h) (fc_f fc) -> h <> 0) /\
  (full (cs_branches s) <-> forall k l h, In (k, l) (fc_b fc) -> In h l -> h <> 0) /\
  (forall t bt, cs_branches_true s = Some t -> fc_b_t fc = Some bt -> (full t <-> forall k l h, In (k, l) bt -> In h l -> h <> 0)) /\
  (full (cs_lines s) <-> forall k h rg, In (k, h) (fc_s fc) -> im_get k (fc_statement_map fc) = Some rg ->
     exists k' h' rg', In (k', h') (fc_s fc) /\ im_get k' (fc_statement_map fc) = Some rg' /\
       line (rstart rg') = line (rstart rg) /\ h' <> 0).
Proof.
  intros m fc s Tk B1 B2 E. rewrite (to_summary_spec m fc Tk B1 B2) in E. cbv zeta in E. injection E as <-.
  cbn [cs_statements cs_functions cs_branches cs_branches_true cs_lines].
  assert (Simple : forall tb : imap N N, full (spec_totals (N.of_nat (length tb)) (covered_count (im_values tb))) <->
    forall k h, In (k, h) tb -> h <> 0).
  { intros tb. unfold covered_count. rewrite <- (map_length snd tb). unfold im_values. rewrite full_spec. split.
    - intros H k h I. apply hit_true, H. apply in_map_iff. now exists (k, h).
    - intros H x I. apply in_map_iff in I as ([k h] & <- & I). apply hit_true. now apply (H k). }
  assert (Deep : forall tb : imap N (list N), full (spec_totals (N.of_nat (length (concat (im_values tb)))) (covered_count (concat (im_values tb)))) <->
    forall k l h, In (k, l) tb -> In h l -> h <> 0).
  { intros tb. unfold covered_count. rewrite full_spec. split.
    - intros H k l h I J. apply hit_true, H. apply in_concat. exists l. split; [|exact J]. apply in_map_iff. now exists (k, l).
    - intros H x I. apply in_concat in I as (l & I & J). apply in_map_iff in I as ([k l'] & E & I). cbn in E. subst l'.
      apply hit_true. now apply (H k l). }
  split; [apply Simple|]. split; [apply Simple|]. split; [apply Deep|]. split.
  - intros t bt E Eb. rewrite Eb in E. cbn [option_map] in E. injection E as <-. apply Deep.
  - rewrite full_spec.
    assert (Row : forall r, In r (stmt_rows fc) <-> exists k h rg, In (k, h) (fc_s fc) /\ im_get k (fc_statement_map fc) = Some rg /\
      r = (rg, (h, rg))).
    { intros r. unfold stmt_rows, rows. rewrite in_flat_map. split.
      - intros ([k h] & I & J). cbn [fst snd] in J. destruct (im_get k (fc_statement_map fc)) as [rg|] eqn:G; [|destruct J].
        cbn in J. destruct J as [<-|[]]. now exists k, h, rg.
      - intros (k & h & rg & I & G & ->). exists (k, h). split; [exact I|]. cbn [fst snd]. rewrite G. now left. }
    split.
    + intros H k h rg I G. assert (J : In (line (rstart rg)) (first_occ (map fst (line_rows fc)))).
      { apply first_occ_in. apply in_map_iff. exists (line (rstart rg), h). split; [reflexivity|]. apply line_rows_in.
        exists (rg, (h, rg)). split; [apply Row; now exists k, h, rg|]. now split. }
      apply H in J. apply hit_true, line_max in J. destruct J as (r & J & El & Hn). apply Row in J as (k' & h' & rg' & I' & G' & ->).
      exists k', h', rg'. now repeat split.
    + intros H l J. rewrite first_occ_in in J. apply in_map_iff in J as ([l' h] & El & J). cbn in El. subst l'.
      apply line_rows_in in J as (r & J & El & Eh). apply Row in J as (k & h0 & rg & I & G & ->). cbn in El, Eh.
      destruct (H k h0 rg I G) as (k' & h' & rg' & I' & G' & El' & Hn). apply hit_true, line_max. exists (rg', (h', rg')).
      split; [apply Row; now exists k', h', rg'|]. cbn. split; [congruence|exact Hn].
Qed.
(** All statements, therefore all lines *)
Theorem statements_then_lines : forall m fc s,
  table_ok stmt_loc (fc_s fc) (fc_statement_map fc) ->
  N.of_nat (length (concat (im_values (fc_b fc)))) < u32_mod ->
  (forall bt, fc_b_t fc = Some bt -> N.of_nat (length (concat (im_values bt))) < u32_mod) ->
  to_summary m fc = Ok s -> full (cs_statements s) -> full (cs_lines s).
Proof.
  intros m fc s Tk B1 B2 E H. destruct (summary_full m fc s Tk B1 B2 E) as (H1 & _ & _ & _ & H5). apply H5. intros k h rg I G.
  exists k, h, rg. split; [exact I|]. split; [exact G|]. split; [reflexivity|]. exact (proj1 H1 H k h I).
Qed.
(** Not the other way round: two statements on one line, of which one ran *)
Definition one_line (h : N) : file_coverage :=
  mkFC false "f.js" [(0, mkRange (mkLoc 1 0) (mkLoc 1 9)); (1, mkRange (mkLoc 1 10) (mkLoc 1 19))] [] [] [(0, 1); (1, h)] [] [] None None.
Theorem lines_then_statements_refuted : exists m fc s, table_ok stmt_loc (fc_s fc) (fc_statement_map fc) /\
  to_summary m fc = Ok s /\ full (cs_lines s) /\ ~ full (cs_statements s).
Proof.
  exists Release, (one_line 0). destruct (to_summary Release (one_line 0)) as [s|r|] eqn:E; [|vm_compute in E; discriminate|vm_compute in E; discriminate].
  exists s. assert (Tk : table_ok stmt_loc (fc_s (one_line 0)) (fc_statement_map (one_line 0))).
  { intros k I. cbn in I. destruct I as [<-|[<-|[]]]; eexists; eexists; split; reflexivity. }
  split; [exact Tk|]. split; [reflexivity|].
  destruct (summary_full Release (one_line 0) s Tk ltac:(vm_compute; reflexivity) ltac:(discriminate) E) as (H1 & _ & _ & _ & H5). split.
  - apply H5. intros k h rg I G. exists 0, 1, (mkRange (mkLoc 1 0) (mkLoc 1 9)). split; [now left|]. split; [reflexivity|].
    cbn in I. destruct I as [E1|[E1|[]]]; injection E1 as <- <-; cbn in G; injection G as <-; now split.
  - intros H. apply H1 with (k := 1) (h := 0) in H; [congruence|]. right. now left.
Qed.

(** ** The report of a project *)
(** Events of the files of the report, with the file they belong to *)
Definition listed (pe : part -> list event) (parts : list part) (x : part) (ev : event) : Prop := In x parts /\ In ev (pe x).
(** The event happened in one of the processes *)
Definition somewhere (logs : program -> list (list event)) (P : program) (ev : event) : Prop := exists log, In log (logs P) /\ In ev log.
Definition many (pe : part -> list event) (parts : list part) : nat := list_sum (map (fun x => length (pe x)) parts).
(** ... and how many of them did *)
Definition met (logs : program -> list (list event)) (pe : part -> list event) (parts : list part) : nat :=
  list_sum (map (fun x => length (filter (happened (concat (logs (r_prog x)))) (pe x))) parts).

Lemma happened_in : forall log ev, happened log ev = true <-> In ev log.
Proof. intros log ev. unfold happened. destruct (in_dec event_dec ev log); split; congruence || auto. Qed.
Lemma somewhere_concat : forall logs P ev, somewhere logs P ev <-> happened (concat (logs P)) ev = true.
Proof.
  intros logs P ev. rewrite happened_in, in_concat. unfold somewhere. split; intros (log & I & J); now exists log.
Qed.
Lemma sum_many : forall A (g : A -> nat) l, sumN (map (fun x => N.of_nat (g x)) l) = N.of_nat (list_sum (map g l)).
Proof.
  intros A g l. unfold sumN, list_sum. induction l as [|x l IH]; [reflexivity|]. cbn [map fold_right]. rewrite IH. lia.
Qed.
Lemma adds_up_counts : forall logs pe parts t, adds_up logs pe parts t ->
  t_total t = N.of_nat (many pe parts) /\ t_covered t = N.of_nat (met logs pe parts) /\
  (parts <> [] -> t_pct t = PValue (percent (t_covered t) (t_total t))).
Proof.
  intros logs pe parts t (H1 & H2 & _ & H3). split; [rewrite H1; apply sum_many|]. split; [|exact H3].
  rewrite H2. unfold met, reached. apply sum_many.
Qed.
Lemma met_le : forall logs pe parts, (met logs pe parts <= many pe parts)%nat.
Proof.
  intros logs pe parts. unfold met, many, list_sum. induction parts as [|x l IH]; [apply le_n|]. cbn [map fold_right].
  pose proof (filter_length_le _ (happened (concat (logs (r_prog x)))) (pe x)). lia.
Qed.
Lemma met_all : forall logs pe parts, met logs pe parts = many pe parts <-> forall x ev, listed pe parts x ev -> somewhere logs (r_prog x) ev.
Proof.
  intros logs pe parts. induction parts as [|x l IH]; [split; [intros _ y ev [[] _]|reflexivity]|].
  pose proof (met_le logs pe l) as L. pose proof (filter_length_le _ (happened (concat (logs (r_prog x)))) (pe x)) as L1.
  pose proof (filter_all _ (happened (concat (logs (r_prog x)))) (pe x)) as Fa.
  unfold met, many, list_sum in *. cbn [map fold_right]. split.
  - intros E. assert (E1 : length (filter (happened (concat (logs (r_prog x)))) (pe x)) = length (pe x)) by lia.
    rewrite E1 in E. apply Nat.add_cancel_l in E. intros y ev [[<-|I] J].
    + apply somewhere_concat. exact (proj1 Fa E1 ev J).
    + apply (proj1 IH E). now split.
  - intros H. f_equal.
    + apply Fa. intros ev J. apply somewhere_concat, H. split; [now left|exact J].
    + apply IH. intros y ev [I J]. apply H. split; [now right|exact J].
Qed.
Lemma adds_up_says : forall logs pe parts t, adds_up logs pe parts t -> parts <> [] ->
  (full t <-> forall x ev, listed pe parts x ev -> somewhere logs (r_prog x) ev) /\
  (forall k, k <= 100 -> (meets k t <-> (N.to_nat k * many pe parts <= 100 * met logs pe parts)%nat)).
Proof.
  intros logs pe parts t A Ne. destruct (adds_up_counts _ _ _ _ A) as (H1 & H2 & H3). specialize (H3 Ne).
  pose proof (met_le logs pe parts) as L. split.
  - unfold full. rewrite H3, H1, H2, <- met_all. split.
    + intros E. assert (E' : percent (N.of_nat (met logs pe parts)) (N.of_nat (many pe parts)) = f32_of_Z 100) by congruence.
      apply percent_is_100 in E'; lia.
    + intros ->. now rewrite percent_full.
  - intros k Hk. assert (Q : meets k t <-> k * t_total t <= 100 * t_covered t).
    { rewrite <- percent_threshold by lia. unfold meets. rewrite H3. split.
      - intros (x & E & H). injection E as ->. exact H.
      - intros H. now exists (percent (t_covered t) (t_total t)). }
    rewrite Q, H1, H2. lia.
Qed.

(** ** Lines *)
(** The lines on which the statements of a file start *)
Definition start_lines (fc : file_coverage) : list N :=
  nodup N.eq_dec (flat_map (fun kv => match im_get (fst kv) (fc_statement_map fc) with Some rg => [line (rstart rg)] | None => [] end) (fc_s fc)).

Lemma filter_split : forall A (p : A -> bool) l, (length (filter p l) + length (filter (fun x => negb (p x)) l) = length l)%nat.
Proof. intros A p l. induction l as [|x l IH]; [reflexivity|]. cbn [filter]. destruct (p x); cbn [negb length]; lia. Qed.
Lemma start_rows : forall fc, map fst (line_rows fc) =
  flat_map (fun kv => match im_get (fst kv) (fc_statement_map fc) with Some rg => [line (rstart rg)] | None => [] end) (fc_s fc).
Proof.
  intros fc. unfold line_rows, stmt_rows, rows. rewrite map_map. induction (fc_s fc) as [|[k h] l IH]; [reflexivity|].
  cbn [flat_map fst snd]. destruct (im_get k (fc_statement_map fc)) as [rg|]; cbn [app map stmt_loc fst]; [|exact IH]. now rewrite <- IH.
Qed.
(** The covered lines and the uncovered lines of a file are its lines. *)
Theorem lines_and_uncovered : forall m fc s ls,
  table_ok stmt_loc (fc_s fc) (fc_statement_map fc) ->
  N.of_nat (length (concat (im_values (fc_b fc)))) < u32_mod ->
  (forall bt, fc_b_t fc = Some bt -> N.of_nat (length (concat (im_values bt))) < u32_mod) ->
  to_summary m fc = Ok s -> get_uncovered_lines fc = Ok ls ->
  t_total (cs_lines s) = N.of_nat (length (start_lines fc)) /\
  t_covered (cs_lines s) + N.of_nat (length ls) = t_total (cs_lines s) /\
  incl ls (start_lines fc) /\ NoDup ls /\ (full (cs_lines s) <-> ls = []).
Proof.
  intros m fc s ls Tk B1 B2 E U. rewrite (to_summary_spec m fc Tk B1 B2) in E. cbv zeta in E. injection E as <-.
  rewrite (uncovered_spec fc Tk) in U. injection U as <-. cbn [cs_lines spec_totals t_total t_covered].
  pose proof (filter_split _ (fun l => maxN (vals_of l (line_rows fc)) =? 0) (first_occ (map fst (line_rows fc)))) as Sp. cbv beta in Sp.
  assert (St : forall n, In n (first_occ (map fst (line_rows fc))) <-> In n (start_lines fc)).
  { intros n. unfold start_lines. rewrite nodup_In, <- start_rows. apply first_occ_in. }
  split; [|split; [lia|split; [|split]]].
  - f_equal. apply Permutation_length, NoDup_Permutation; [apply first_occ_NoDup|apply NoDup_nodup|exact St].
  - intros n I. apply filter_In in I as [I _]. now apply St.
  - apply NoDup_filter, first_occ_NoDup.
  - rewrite full_spec, <- filter_all. split.
    + intros Q. apply length_zero_iff_nil. lia.
    + intros Q. rewrite Q in Sp. cbn [length] in Sp. lia.
Qed.

Lemma map_res_all : forall A B (f : A -> res B) l, (forall x, In x l -> exists y, f x = Ok y) -> exists ys, map_res f l = Ok ys.
Proof.
  intros A B f l. induction l as [|x l IH]; intros H; [now exists []|]. destruct (H x (or_introl eq_refl)) as (y & E).
  destruct IH as (ys & Es). { intros z I. apply H. now right. } exists (y :: ys). cbn [map_res]. rewrite E. cbn [bind]. now rewrite Es.
Qed.
(** What the report of a map says: the totals of statements, functions and branch paths about the events of the sources, and
    the total of the lines about the uncovered lines of the files, which [part_of] ties to the sources. *)
Definition says_all (logs : program -> list (list event)) (s : coverage_summary) (parts : list part) : Prop :=
  forall f pe, In (f, pe) [(cs_statements, r_stmts); (cs_functions, r_fns); (cs_branches, r_paths)] ->
    (full (f s) <-> forall x ev, listed pe parts x ev -> somewhere logs (r_prog x) ev) /\
    forall k, k <= 100 -> (meets k (f s) <-> (N.to_nat k * many pe parts <= 100 * met logs pe parts)%nat).
Definition lines_add (M : coverage_map) (s : coverage_summary) (lss : list (list N)) : Prop :=
  map_res get_uncovered_lines (im_values M) = Ok lss /\
  t_total (cs_lines s) = N.of_nat (list_sum (map (fun R => length (start_lines R)) (im_values M))) /\
  t_covered (cs_lines s) + N.of_nat (length (concat lss)) = t_total (cs_lines s) /\
  (full (cs_lines s) <-> concat lss = []) /\
  (forall k, k <= 100 -> (meets k (cs_lines s) <-> k * t_total (cs_lines s) <= 100 * t_covered (cs_lines s))).
Lemma report_of : forall m l sel logs M, NoDup (map p_path l) -> small l -> cm_ok M ->
  (forall p, In p (cm_get_files M) <-> exists P, In P l /\ p_path P = p /\ sel p = true) ->
  (forall P R, In P l -> cm_get_coverage_for_file M (p_path P) = Some R -> readable logs P R) ->
  (exists P, In P l /\ sel (p_path P) = true) ->
  exists s parts lss, cm_get_coverage_summary m M = Ok s /\
    map (fun x => p_path (r_prog x)) parts = cm_get_files M /\
    Permutation (map r_prog parts) (filter (fun P => sel (p_path P)) l) /\
    Forall (part_of logs M) parts /\ says_all logs s parts /\ lines_add M s lss.
Proof.
  intros m l sel logs M W Sm (Nd & Pth) Fs Tl (P & IP & RP).
  destruct (summaries_of m l sel logs M W Sm (conj Nd Pth) Fs Tl) as (s & parts & Es & Fl & Pm & Pt & A1 & A2 & A3 & ss & Ess & Fit).
  assert (Good : forall R, In R (im_values M) -> table_ok stmt_loc (fc_s R) (fc_statement_map R) /\
    N.of_nat (length (concat (im_values (fc_b R)))) < u32_mod /\ fc_b_t R = None).
  { intros R I. apply in_map_iff in I as ([p R0] & E0 & I). cbn in E0. subst R0.
    assert (Ip : In p (cm_get_files M)) by now apply (in_map fst) in I.
    destruct (proj1 (Fs p) Ip) as (Q & IQ & <- & _). apply (im_in_get _ Nd) in I.
    destruct (Tl Q R IQ I) as (P2 & P4 & U & L1 & L2 & L3 & _). split; [exact P2|]. split; [|exact P4].
    rewrite L3. destruct Sm as (_ & _ & B3). eapply N.le_lt_trans; [|exact B3]. unfold sum_over, sumN. clear - IQ.
    induction l as [|Q' l IH]; [contradiction|]. cbn [map fold_right]. destruct IQ as [->|I]; [lia|]. specialize (IH I). lia. }
  destruct (map_res_all _ _ get_uncovered_lines (im_values M)) as (lss & Els).
  { intros R I. destruct (Good R I) as (Tk & _). eexists. now apply uncovered_spec. }
  destruct (map_summary_is_sum m M ss Ess Fit) as (s' & Es' & Nums & Pct & _). assert (s' = s) by congruence. subst s'. clear Es'.
  assert (Sum : sum_nums cs_lines t_total ss = N.of_nat (list_sum (map (fun R => length (start_lines R)) (im_values M))) /\
    sum_nums cs_lines t_covered ss + N.of_nat (length (concat lss)) = sum_nums cs_lines t_total ss).
  { clear - Good Ess Els. revert ss lss Ess Els Good. generalize (im_values M). intros L. induction L as [|R L IH]; intros ss lss Ess Els Good.
    - cbn in Ess, Els. injection Ess as <-. injection Els as <-. split; reflexivity.
    - cbn [map_res] in Ess, Els. destruct (to_summary m R) as [s0| |] eqn:E0; try discriminate. cbn [bind] in Ess.
      destruct (map_res (to_summary m) L) as [ss0| |] eqn:E1; try discriminate. cbn [bind] in Ess. injection Ess as <-.
      destruct (get_uncovered_lines R) as [ls0| |] eqn:E2; try discriminate. cbn [bind] in Els.
      destruct (map_res get_uncovered_lines L) as [lss0| |] eqn:E3; try discriminate. cbn [bind] in Els. injection Els as <-.
      destruct (IH ss0 lss0 eq_refl eq_refl) as [I1 I2]. { intros R' I. apply Good. now right. }
      destruct (Good R (or_introl eq_refl)) as (Tk & Bb & Bt).
      destruct (lines_and_uncovered m R s0 ls0 Tk Bb ltac:(congruence) E0 E2) as (Q1 & Q2 & _).
      unfold sum_nums, sumN, list_sum in *. cbn [map fold_right concat]. rewrite app_length. split; lia. }
  destruct Sum as [S1 S2].
  assert (N1 : t_total (cs_lines s) = sum_nums cs_lines t_total ss) by (apply Nums; cbn; tauto).
  assert (N2 : t_covered (cs_lines s) = sum_nums cs_lines t_covered ss) by (apply Nums; cbn; tauto).
  assert (Ne : ss <> []).
  { intros ->. assert (Em : im_values M = []).
    { destruct (im_values M) as [|R L]; [reflexivity|]. cbn [map_res] in Ess. destruct (to_summary m R); try discriminate. cbn [bind] in Ess.
      destruct (map_res (to_summary m) L); discriminate. }
    assert (Ip : In (p_path P) (cm_get_files M)). { apply Fs. now exists P. }
    unfold cm_get_files, im_keys in Ip. unfold im_values in Em. apply map_eq_nil in Em. rewrite Em in Ip. destruct Ip. }
  assert (Pc : t_pct (cs_lines s) = PValue (percent (t_covered (cs_lines s)) (t_total (cs_lines s)))).
  { rewrite (Pct cs_lines) by (cbn; tauto). destruct ss; [congruence|reflexivity]. }
  exists s, parts, lss. split; [exact Es|]. split; [exact Fl|]. split; [exact Pm|]. split; [exact Pt|]. split.
  { assert (Np : parts <> []).
    { intros ->. cbn [map] in Pm. apply Permutation_nil in Pm. assert (I : In P (filter (fun P => sel (p_path P)) l)) by (apply filter_In; now split).
      rewrite Pm in I. destruct I. }
    intros f pe I. destruct I as [I|[I|[I|[]]]]; injection I as <- <-; now apply adds_up_says. }
  split; [exact Els|].
  split; [congruence|]. split; [congruence|]. split.
  - unfold full. rewrite Pc. split.
    + intros H. assert (H' : percent (t_covered (cs_lines s)) (t_total (cs_lines s)) = f32_of_Z 100) by congruence.
      apply percent_is_100 in H'; [|lia]. apply length_zero_iff_nil. lia.
    + intros H. rewrite H in S2. cbn [length] in S2. replace (t_covered (cs_lines s)) with (t_total (cs_lines s)) by lia. now rewrite percent_full.
  - intros k Hk. rewrite <- percent_threshold by lia. unfold meets. rewrite Pc. split.
    + intros (x & Ex & H). injection Ex as ->. exact H.
    + intros H. now exists (percent (t_covered (cs_lines s)) (t_total (cs_lines s))).
Qed.

(** For every test run of a project of modelled files in which some file ran, the report exists, and its percentages are about
    the sources: 100 percent of the statements, functions or branch paths means that every one of the events that the report
    lists happened in some process, and k percent that at least k in a hundred of them did.  The lines of the report are those
    of its files, and the uncovered ones are the uncovered lines of its files. *)
Theorem project_threshold_partial : forall m l gcv hs rss logs, NoDup (map p_path l) -> Forall modelled l -> small l ->
  Forall2 (process (project l) gcv) hs rss -> (forall P, In P l -> Forall2 (acted gcv P) hs (logs P)) ->
  (forall P ev, In P l -> N.of_nat (count_occ event_dec (concat (logs P)) ev) < u32_mod) ->
  (exists P, In P l /\ ran_once gcv (p_path P) hs = true) ->
  exists M s parts lss, merge_maps m rss = Ok M /\ cm_get_coverage_summary m M = Ok s /\
    map (fun x => p_path (r_prog x)) parts = cm_get_files M /\
    Permutation (map r_prog parts) (filter (fun P => ran_once gcv (p_path P) hs) l) /\
    Forall (part_of logs M) parts /\ says_all logs s parts /\ lines_add M s lss.
Proof.
  intros m l gcv hs rss logs W Hm Sm F Ha Hb Hr.
  destruct (project_tells_partial m l gcv hs rss logs W Hm F Ha Hb) as (M & E & Ok1 & Fs & Tl).
  destruct (report_of m l (fun p => ran_once gcv p hs) logs M W Sm Ok1 Fs) as (s & parts & lss & H).
  { intros P R I G. destruct (Tl P R I G) as ((P1 & P2 & P3 & P4) & T). exact (conj (proj1 P2) (conj P4 T)). }
  { exact Hr. }
  exists M, s, parts, lss. exact (conj E H).
Qed.

(** One process that runs one of two files satisfies the premises. *)
Example threshold_ex : forall tf cf tg cg, instrument line_env 60 "f.js" None ex_count = Ok (tf, cf) ->
  instrument line_env 60 "g.js" None ex_count = Ok (tg, cg) ->
  let F := count_program "f.js" tf cf in let l := [F; count_program "g.js" tg cg] in
  let hs := [one_file (count_emitted F) (count_incs 1 F)] in
  let logs := fun P => if String.eqb (p_path P) "f.js" then [count_log 1] else [[]] in
  exists rss, NoDup (map p_path l) /\ Forall modelled l /\ small l /\ Forall2 (process (project l) "__coverage__") hs rss /\
    (forall P, In P l -> Forall2 (acted "__coverage__" P) hs (logs P)) /\
    (forall P ev, In P l -> N.of_nat (count_occ event_dec (concat (logs P)) ev) < u32_mod) /\
    exists P, In P l /\ ran_once "__coverage__" (p_path P) hs = true.
Proof.
  intros tf cf tg cg Hf Hg F l hs logs.
  destruct (count_modelled _ _ _ Hf) as (Mf & F1 & F2 & F3), (count_modelled _ _ _ Hg) as (Mg & G1 & G2 & G3).
  assert (Wl : NoDup (map p_path l)). { repeat constructor; cbn; intuition discriminate. }
  assert (Hm : Forall modelled l). { constructor; [exact Mf|]. constructor; [exact Mg|constructor]. }
  destruct (one_file_ok (count_emitted F) (count_incs 1 F)) as (V2 & _). destruct (one_ok (count_emitted F) (count_incs 1 F)) as (L2 & U2 & D2).
  destruct (process_intro l "__coverage__" _ V2) as (r2 & P2).
  { rewrite L2. repeat constructor; intros []. } { exact Wl. } { exact Hm. }
  { rewrite L2. constructor; [exists F; split; [now left|reflexivity]|constructor]. }
  exists [r2]. split; [exact Wl|]. split; [exact Hm|]. split.
  { unfold small, sum_over, l, F, paths_of, p_record, count_program. cbn [map p_cov sumN fold_right]. rewrite F1, G1, F2, G2, F3, G3. repeat split. }
  split; [constructor; [exact P2|constructor]|]. split; [|split].
  - cbn [em_gcv em_path count_emitted emitted_for] in D2. intros P [<-|[<-|[]]].
    + constructor; [|constructor]. unfold acted. rewrite U2. exists pure_toy, 1%nat, tt, w0. split; [reflexivity|].
      change (p_path F) with "f.js" in D2 |- *. rewrite D2. apply Permutation_refl.
    + constructor; [|constructor]. unfold acted. rewrite U2. reflexivity.
  - intros P ev _. refine (N.le_lt_trans _ _ _ (occurrences_le ev _) _). unfold logs.
    destruct (String.eqb (p_path P) "f.js"); vm_compute; reflexivity.
  - exists F. split; [now left|]. unfold hs, ran_once. cbn [existsb]. rewrite U2. reflexivity.
Qed.
(** Thresholds of two files of ten statements, of which five ran each: 50 is reached, 51 is not. *)
Example threshold_numbers_ex : meets 50 (spec_totals 20 10) /\ ~ meets 51 (spec_totals 20 10) /\ ~ full (spec_totals 20 10) /\
  ~ meets 100 (spec_totals 4000000000 3999999999).
Proof.
  split; [apply meets_spec; lia|]. split; [rewrite meets_spec by lia; lia|]. split; [|rewrite meets_spec by lia; lia].
  intros H. unfold full, spec_totals in H. cbn [t_pct] in H. assert (E : percent 10 20 = f32_of_Z 100) by congruence.
  apply percent_is_100 in E; lia.
Qed.
(** The file of [lines_then_statements_refuted] has one line, and it is covered. *)
Example lines_ex : start_lines (one_line 0) = [1] /\ get_uncovered_lines (one_line 0) = Ok [].
Proof. split; reflexivity. Qed.
