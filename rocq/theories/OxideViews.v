(** Theorems about the derived views of a coverage record and about coverage maps
    (claims C08-C11, C13-C16). *)
From Coq Require Import PeanoNat NArith String List Bool Lia Permutation.
Import ListNotations.
From Verif Require Import Base IndexMap Oxide OxideSpec OxideMerge.
Open Scope N_scope.

(** ** Specification vocabulary *)

(** Distinct elements in order of first appearance. *)
Fixpoint first_occ {K} {E : EqB K} (l : list K) : list K :=
  match l with
  | [] => []
  | x :: l' => x :: filter (fun y => negb (eqb y x)) (first_occ l')
  end.

Definition maxN (l : list N) : N := fold_right N.max 0 l.

(** Values of the rows with key [k], in order. *)
Definition vals_of {K V} {E : EqB K} (k : K) (rs : list (K * V)) : list V :=
  map snd (filter (fun r => eqb (fst r) k) rs).

Section FO.
Context {K : Type} {E : EqB K}.

Lemma first_occ_in : forall (l : list K) x, In x (first_occ l) <-> In x l.
Proof.
  induction l as [|y l IH]; intros x; simpl; [tauto|].
  rewrite filter_In, IH. split.
  - intros [?|[? _]]; auto.
  - intros [?|Hin]; auto. destruct (eqb x y) eqn:He.
    + apply eqb_spec in He; auto.
    + right; split; auto.
Qed.

Lemma NoDup_filter' : forall A (p : A -> bool) l, NoDup l -> NoDup (filter p l).
Proof.
  induction 1; simpl; [constructor|]. destruct (p x); auto. constructor; auto.
  rewrite filter_In. tauto.
Qed.

Lemma first_occ_NoDup : forall l : list K, NoDup (first_occ l).
Proof.
  induction l as [|y l IH]; simpl; constructor.
  - rewrite filter_In, eqb_refl. simpl. intros [_ ?]; discriminate.
  - now apply NoDup_filter'.
Qed.

Lemma first_occ_snoc : forall (l : list K) x,
  first_occ (l ++ [x]) = if existsb (eqb x) l then first_occ l else first_occ l ++ [x].
Proof.
  induction l as [|y l IH]; intros x; simpl; auto.
  rewrite IH. destruct (eqb x y) eqn:He; simpl.
  - apply eqb_spec in He; subst. destruct (existsb (eqb y) l); auto.
    rewrite filter_app. simpl. rewrite eqb_refl. simpl. now rewrite app_nil_r.
  - destruct (existsb (eqb x) l); auto.
    rewrite filter_app. simpl. rewrite He. simpl. reflexivity.
Qed.

Lemma existsb_eqb_in : forall (l : list K) x, existsb (eqb x) l = true <-> In x l.
Proof.
  intros. rewrite existsb_exists. split.
  - intros (y & Hy & He). apply eqb_spec in He; subst; auto.
  - intros Hin. exists x. split; auto. apply eqb_refl.
Qed.
End FO.

Lemma filter_length_le : forall A (p : A -> bool) l, (length (filter p l) <= length l)%nat.
Proof. induction l as [|x l IH]; simpl; auto. destruct (p x); simpl; lia. Qed.

(** Table of a function over the distinct keys. *)
Definition tab {K V} (f : K -> V) (ks : list K) : list (K * V) := map (fun k => (k, f k)) ks.

Lemma tab_get : forall K V (E : EqB K) (f : K -> V) ks k,
  im_get k (tab f ks) = if existsb (eqb k) ks then Some (f k) else None.
Proof.
  induction ks as [|k' ks IH]; intros k; simpl; auto.
  destruct (eqb k k') eqn:He; simpl; auto. apply eqb_spec in He; subst; auto.
Qed.

Lemma tab_insert : forall K V (E : EqB K) (f : K -> V) ks k v, NoDup ks ->
  im_insert k v (tab f ks) =
  if existsb (eqb k) ks then tab (fun x => if eqb x k then v else f x) ks
  else tab (fun x => if eqb x k then v else f x) (ks ++ [k]).
Proof.
  induction ks as [|k' ks IH]; intros k v Hnd; simpl.
  - unfold tab. simpl. now rewrite eqb_refl.
  - inversion Hnd; subst. destruct (eqb k k') eqn:He; simpl.
    + apply eqb_spec in He; subst. rewrite eqb_refl. f_equal. unfold tab.
      apply map_ext_in. intros x Hx. destruct (eqb x k') eqn:He; auto.
      apply eqb_spec in He; subst. contradiction.
    + assert (Hs : eqb k' k = false).
      { apply eqb_neq. apply eqb_neq in He. auto. }
      rewrite IH by auto. destruct (existsb (eqb k) ks); simpl; rewrite Hs; auto.
Qed.

Lemma tab_update : forall K V (E : EqB K) (f : K -> V) ks k g, NoDup ks ->
  im_update k g (tab f ks) = tab (fun x => if eqb x k then g (f x) else f x) ks.
Proof.
  induction ks as [|k' ks IH]; intros k g Hnd; simpl; auto.
  inversion Hnd; subst. destruct (eqb k k') eqn:He; simpl.
  - apply eqb_spec in He; subst. rewrite eqb_refl. f_equal. unfold tab.
    apply map_ext_in. intros x Hx. destruct (eqb x k') eqn:He; auto.
    apply eqb_spec in He; subst. contradiction.
  - assert (Hs : eqb k' k = false) by (apply eqb_neq; apply eqb_neq in He; auto).
    rewrite Hs, IH; auto.
Qed.

Lemma tab_ext : forall K V (f g : K -> V) ks, (forall k, In k ks -> f k = g k) -> tab f ks = tab g ks.
Proof. intros. unfold tab. apply map_ext_in. intros. now rewrite H. Qed.

Lemma vals_of_snoc : forall K V (E : EqB K) k (rs : list (K * V)) r,
  vals_of k (rs ++ [r]) = if eqb (fst r) k then vals_of k rs ++ [snd r] else vals_of k rs.
Proof.
  intros. unfold vals_of. rewrite filter_app, map_app. simpl.
  destruct (eqb (fst r) k); simpl; auto. now rewrite app_nil_r.
Qed.

Lemma vals_of_notin : forall K V (E : EqB K) k (rs : list (K * V)), ~ In k (map fst rs) -> vals_of k rs = [].
Proof.
  induction rs as [|[k' v] rs IH]; intros Hn; auto. unfold vals_of in *; simpl in *.
  destruct (eqb k' k) eqn:He; [apply eqb_spec in He; subst; tauto|]. apply IH; tauto.
Qed.

Lemma maxN_snoc : forall l x, maxN (l ++ [x]) = N.max (maxN l) x.
Proof. induction l; simpl; intros; [lia|]. rewrite IHl. lia. Qed.

(** ** C08: line coverage *)

(** (start line, hits) of every counted statement *)
Definition line_rows (fc : file_coverage) : list (N * N) :=
  map (fun r => (line (rstart (fst r)), fst (snd r))) (stmt_rows fc).

Definition spec_line_coverage (fc : file_coverage) : list (N * N) :=
  tab (fun l => maxN (vals_of l (line_rows fc))) (first_occ (map fst (line_rows fc))).

Definition line_step' (lm : line_hit_map) (lh : N * N) : line_hit_map :=
  match im_get (fst lh) lm with
  | Some pre_val => if pre_val <? snd lh then im_insert (fst lh) (snd lh) lm else lm
  | None => im_insert (fst lh) (snd lh) lm
  end.

Lemma line_fold_rows : forall sm s lm, table_ok stmt_loc s sm ->
  fold_res (line_step sm) lm s =
  Ok (fold_left line_step' (map (fun r => (line (rstart (fst r)), fst (snd r))) (rows stmt_loc s sm)) lm).
Proof.
  induction s as [|[k h] s IH]; intros lm Hok; auto.
  destruct (Hok k) as (t & r & Ht & Hr); [simpl; auto|]. simpl. unfold line_step at 1. simpl.
  rewrite Ht. simpl. inversion Hr; subst r.
  assert (Hok' : table_ok stmt_loc s sm) by (intros k' Hin; apply Hok; simpl; auto).
  unfold line_step' at 2. simpl.
  destruct (im_get (line (rstart t)) lm) as [pv|]; simpl.
  - destruct (pv <? h); simpl; apply IH; auto.
  - apply IH; auto.
Qed.

Lemma line_fold_spec : forall rs, fold_left line_step' rs [] =
  tab (fun l => maxN (vals_of l rs)) (first_occ (map fst rs)).
Proof.
  induction rs as [|[l h] rs IH] using rev_ind; auto.
  rewrite fold_left_app, IH. simpl. unfold line_step'. simpl.
  rewrite tab_get, map_app. simpl. rewrite first_occ_snoc.
  assert (Hex : existsb (eqb l) (first_occ (map fst rs)) = existsb (eqb l) (map fst rs)).
  { apply eq_true_iff_eq. rewrite !existsb_eqb_in. apply first_occ_in. }
  change (existsb (N.eqb l)) with (existsb (eqb l)).
  rewrite Hex. destruct (existsb (eqb l) (map fst rs)) eqn:Hin.
  - destruct (N.ltb_spec (maxN (vals_of l rs)) h).
    + rewrite tab_insert by apply first_occ_NoDup. change (existsb (N.eqb l)) with (existsb (eqb l)). rewrite Hex.
      apply tab_ext. intros k Hk. rewrite vals_of_snoc. simpl.
      rewrite (N.eqb_sym l k). destruct (N.eqb_spec k l); subst; auto.
      rewrite maxN_snoc. lia.
    + apply tab_ext. intros k Hk. rewrite vals_of_snoc. simpl.
      destruct (N.eqb_spec l k); subst; auto. rewrite maxN_snoc. lia.
  - rewrite tab_insert by apply first_occ_NoDup. change (existsb (N.eqb l)) with (existsb (eqb l)). rewrite Hex.
    apply tab_ext. intros k Hk. rewrite vals_of_snoc. simpl.
    rewrite (N.eqb_sym l k). destruct (N.eqb_spec k l); subst; auto.
    rewrite maxN_snoc. rewrite vals_of_notin; [simpl; lia|].
    intros Hc. apply existsb_eqb_in in Hc. congruence.
Qed.

Theorem line_coverage_spec : forall fc,
  table_ok stmt_loc (fc_s fc) (fc_statement_map fc) ->
  get_line_coverage fc = Ok (spec_line_coverage fc).
Proof.
  intros fc Hok. unfold get_line_coverage. rewrite line_fold_rows by auto.
  f_equal. apply line_fold_spec.
Qed.

Lemma line_fold_panics : forall sm s lm, (exists k, In k (im_keys s) /\ im_get k sm = None) ->
  fold_res (line_step sm) lm s = Panic RStatementMissing.
Proof.
  induction s as [|[k h] s IH]; intros lm (k0 & Hin & Hn); simpl in *; [tauto|].
  unfold line_step at 1. simpl. destruct (im_get k sm) as [r|] eqn:Hk; simpl; auto.
  assert (Hex : exists k1, In k1 (im_keys s) /\ im_get k1 sm = None).
  { destruct Hin as [->|Hin]; [congruence|eauto]. }
  destruct (im_get (line (rstart r)) lm) as [pv|]; simpl; [destruct (pv <? h); simpl|]; auto.
Qed.

(** It panics exactly when some counted statement has no location. *)
Theorem line_coverage_panics_iff : forall fc,
  (exists why, get_line_coverage fc = Panic why) <->
  exists k, In k (im_keys (fc_s fc)) /\ im_get k (fc_statement_map fc) = None.
Proof.
  intros fc. split.
  - intros [why Hp].
    destruct (existsb (fun k => match im_get k (fc_statement_map fc) with None => true | _ => false end) (im_keys (fc_s fc))) eqn:E.
    + apply existsb_exists in E as (k & Hin & Hk). exists k. split; auto.
      destruct (im_get k (fc_statement_map fc)); congruence.
    + rewrite line_coverage_spec in Hp; [discriminate|]. intros k Hin.
      destruct (im_get k (fc_statement_map fc)) eqn:E2; [eexists; eexists; split; reflexivity|].
      assert (existsb (fun k => match im_get k (fc_statement_map fc) with None => true | _ => false end) (im_keys (fc_s fc)) = true); [|congruence].
      apply existsb_exists. exists k. rewrite E2. auto.
  - intros Hex. exists RStatementMissing. apply line_fold_panics; auto.
Qed.

Theorem line_coverage_panics : forall fc k,
  In k (im_keys (fc_s fc)) -> im_get k (fc_statement_map fc) = None ->
  get_line_coverage fc = Panic RStatementMissing.
Proof. intros. apply line_fold_panics; eauto. Qed.

(** Reading of the specification: value and domain per line. *)
Lemma maxN_ge : forall l x, In x l -> x <= maxN l.
Proof. induction l as [|y l IH]; simpl; intros x []; subst; [lia|]. specialize (IH _ H). lia. Qed.
Lemma maxN_in : forall l, l <> [] -> In (maxN l) l.
Proof.
  induction l as [|y l IH]; intros Hn; [congruence|]. simpl.
  destruct l as [|z l]; [left; simpl; lia|].
  assert (In (maxN (z :: l)) (z :: l)) by (apply IH; discriminate).
  destruct (N.max_spec y (maxN (z :: l))) as [[_ ->]|[_ ->]]; auto.
Qed.

Theorem line_coverage_value : forall fc lc l h,
  get_line_coverage fc = Ok lc -> table_ok stmt_loc (fc_s fc) (fc_statement_map fc) ->
  im_get l lc = Some h ->
  (exists r, In r (stmt_rows fc) /\ line (rstart (fst r)) = l /\ fst (snd r) = h) /\
  (forall r, In r (stmt_rows fc) -> line (rstart (fst r)) = l -> fst (snd r) <= h).
Proof.
  intros fc lc l h Hlc Hok Hget. rewrite line_coverage_spec in Hlc by auto. inversion Hlc; subst; clear Hlc.
  unfold spec_line_coverage in Hget. rewrite tab_get in Hget.
  destruct (existsb (eqb l) _) eqn:Hex; [|discriminate]. inversion Hget; subst; clear Hget.
  apply existsb_eqb_in, first_occ_in, in_map_iff in Hex as ([l' h'] & Hl & Hin). simpl in Hl; subst l'.
  assert (Hv : forall x, In x (vals_of l (line_rows fc)) <-> exists r, In r (stmt_rows fc) /\ line (rstart (fst r)) = l /\ fst (snd r) = x).
  { intros x. unfold vals_of, line_rows. rewrite in_map_iff. split.
    - intros ([l1 h1] & <- & Hf). apply filter_In in Hf as [Hf He]. apply in_map_iff in Hf as (r & Hr & Hin').
      inversion Hr; subst. apply eqb_spec in He. simpl in He. exists r. auto.
    - intros (r & Hin' & Hl & Hx). exists (l, x). split; auto. apply filter_In. split.
      + apply in_map_iff. exists r. subst. auto.
      + simpl. apply N.eqb_refl. }
  split.
  - apply Hv. apply maxN_in. intros Hnil.
    assert (In h' (vals_of l (line_rows fc))).
    { unfold vals_of. apply in_map_iff. exists (l, h'). split; auto. apply filter_In. split; auto. simpl. apply N.eqb_refl. }
    rewrite Hnil in H. destruct H.
  - intros r Hin' Hl. apply maxN_ge. apply Hv. eauto.
Qed.

(** ** C09: uncovered lines *)
Theorem uncovered_spec : forall fc,
  table_ok stmt_loc (fc_s fc) (fc_statement_map fc) ->
  get_uncovered_lines fc =
  Ok (filter (fun l => maxN (vals_of l (line_rows fc)) =? 0) (first_occ (map fst (line_rows fc)))).
Proof.
  intros fc Hok. unfold get_uncovered_lines. rewrite line_coverage_spec by auto. simpl. f_equal.
  unfold spec_line_coverage, tab.
  induction (first_occ (map fst (line_rows fc))) as [|x l IH]; simpl; auto.
  destruct (maxN (vals_of x (line_rows fc)) =? 0); simpl; now rewrite IH.
Qed.

Theorem uncovered_iff : forall fc ls,
  table_ok stmt_loc (fc_s fc) (fc_statement_map fc) ->
  get_uncovered_lines fc = Ok ls ->
  NoDup ls /\
  forall l, In l ls <->
    (exists r, In r (stmt_rows fc) /\ line (rstart (fst r)) = l) /\
    (forall r, In r (stmt_rows fc) -> line (rstart (fst r)) = l -> fst (snd r) = 0).
Proof.
  intros fc ls Hok Hu. rewrite uncovered_spec in Hu by auto. inversion Hu; subst; clear Hu. split.
  - apply NoDup_filter', first_occ_NoDup.
  - intros l. rewrite filter_In, first_occ_in. unfold line_rows. rewrite map_map. simpl.
    rewrite in_map_iff, N.eqb_eq. split.
    + intros [(r & Hl & Hin) Hz]. split; [eauto|]. intros r' Hin' Hl'.
      assert (fst (snd r') <= maxN (vals_of l (line_rows fc))).
      { apply maxN_ge. unfold vals_of, line_rows. apply in_map_iff. exists (l, fst (snd r')). split; auto.
        apply filter_In. split; [|simpl; apply N.eqb_refl]. apply in_map_iff. exists r'. split; [congruence|auto]. }
      unfold line_rows in H. lia.
    + intros [(r & Hin & Hl) Hz]. split; [eauto|].
      assert (Hall : forall x, In x (vals_of l (map (fun r => (line (rstart (fst r)), fst (snd r))) (stmt_rows fc))) -> x = 0).
      { intros x Hx. unfold vals_of in Hx. apply in_map_iff in Hx as ([l1 h1] & <- & Hf).
        apply filter_In in Hf as [Hf He]. apply in_map_iff in Hf as (r' & Hr' & Hin').
        inversion Hr'; subst. apply eqb_spec in He. simpl in *. eauto. }
      clear -Hall. revert Hall. generalize (vals_of l (map (fun r => (line (rstart (fst r)), fst (snd r))) (stmt_rows fc))).
      induction l0 as [|x v IH]; simpl; intros Hall; auto. rewrite (Hall x) by auto. rewrite IH; auto.
Qed.

(** ** C10: branch coverage by line *)
Definition branch_line_spec (b : branch) : option N :=
  match b_line b, b_loc b with
  | Some l, _ => Some l
  | None, Some r => Some (line (rstart r))
  | None, None => None
  end.

(** every branch of the branch table has counters and a line *)
Definition branches_ok (fc : file_coverage) : Prop :=
  forall k b, In (k, b) (fc_branch_map fc) ->
    branch_line_spec b <> None /\ im_get k (fc_b fc) <> None.

(** (line, path counters) of every branch *)
Definition branch_line_rows (fc : file_coverage) : list (N * list N) :=
  flat_map (fun kb => match branch_line_spec (snd kb), im_get (fst kb) (fc_b fc) with
                      | Some l, Some d => [(l, d)]
                      | _, _ => []
                      end) (fc_branch_map fc).

Definition path_counters (fc : file_coverage) (l : N) : list N :=
  concat (vals_of l (branch_line_rows fc)).

Lemma branch_line_eq : forall b, branch_line b =
  match branch_line_spec b with Some l => Ok l | None => Panic RLineOrLoc end.
Proof. intros [[?|] ? ? [?|]]; reflexivity. Qed.

Lemma prefilter_rows : forall bh bm pd,
  (forall k b, In (k, b) bm -> branch_line_spec b <> None /\ im_get k bh <> None) ->
  fold_res (prefilter_step bh) pd bm =
  Ok (fold_left (fun pd r => match im_get (fst r) pd with
                 | Some _ => im_update (fst r) (fun d => (d ++ snd r)%list) pd
                 | None => im_insert (fst r) (snd r) pd end)
     (flat_map (fun kb => match branch_line_spec (snd kb), im_get (fst kb) bh with
                      | Some l, Some d => [(l, d)]
                      | _, _ => []
                      end) bm) pd).
Proof.
  induction bm as [|[k b] bm IH]; intros pd Hok; auto.
  destruct (Hok k b) as [H1 H2]; [simpl; auto|].
  simpl. unfold prefilter_step at 1. simpl. rewrite branch_line_eq.
  destruct (branch_line_spec b) as [l|]; [|congruence]. simpl.
  destruct (im_get k bh) as [d|] eqn:Hd; [|congruence]. simpl.
  destruct (im_get l pd); simpl; apply IH; intros; apply Hok; simpl; auto.
Qed.

Lemma prefilter_spec : forall rs : list (N * list N),
  fold_left (fun pd r => match im_get (fst r) pd with
                 | Some _ => im_update (fst r) (fun d => (d ++ snd r)%list) pd
                 | None => im_insert (fst r) (snd r) pd end) rs [] =
  tab (fun l => concat (vals_of l rs)) (first_occ (map fst rs)).
Proof.
  induction rs as [|[l d] rs IH] using rev_ind; auto.
  rewrite fold_left_app, IH. simpl.
  rewrite tab_get, map_app. simpl. rewrite first_occ_snoc.
  assert (Hex : existsb (eqb l) (first_occ (map fst rs)) = existsb (eqb l) (map fst rs)).
  { apply eq_true_iff_eq. rewrite !existsb_eqb_in. apply first_occ_in. }
  change (existsb (N.eqb l)) with (existsb (eqb l)). rewrite Hex.
  destruct (existsb (eqb l) (map fst rs)) eqn:Hin.
  - rewrite tab_update by apply first_occ_NoDup. apply tab_ext. intros k Hk.
    rewrite vals_of_snoc. simpl. rewrite (N.eqb_sym l k).
    destruct (N.eqb_spec k l); subst; auto. rewrite concat_app. simpl. now rewrite app_nil_r.
  - rewrite tab_insert by apply first_occ_NoDup. change (existsb (N.eqb l)) with (existsb (eqb l)). rewrite Hex.
    apply tab_ext. intros k Hk. rewrite vals_of_snoc. simpl. rewrite (N.eqb_sym l k).
    destruct (N.eqb_spec k l); subst; auto.
    rewrite vals_of_notin; [simpl; now rewrite app_nil_r|].
    intros Hc. apply existsb_eqb_in in Hc. congruence.
Qed.

Theorem branch_by_line_spec : forall fc, branches_ok fc ->
  get_branch_coverage_by_line fc =
  Ok (tab (fun l => coverage_of (path_counters fc l)) (first_occ (map fst (branch_line_rows fc)))).
Proof.
  intros fc Hok. unfold get_branch_coverage_by_line. rewrite prefilter_rows by apply Hok.
  simpl. rewrite prefilter_spec. unfold tab. rewrite map_map. reflexivity.
Qed.

(** Counts per line: total = number of path counters, covered = positive ones. *)
Theorem branch_by_line_counts : forall fc r l c, branches_ok fc ->
  get_branch_coverage_by_line fc = Ok r -> im_get l r = Some c ->
  c_total c = N.of_nat (length (path_counters fc l)) /\
  c_covered c = N.of_nat (length (filter (fun x => negb (x =? 0)) (path_counters fc l))) /\
  c_covered c <= c_total c.
Proof.
  intros fc r l c Hok Hr Hget. rewrite branch_by_line_spec in Hr by auto. inversion Hr; subst; clear Hr.
  rewrite tab_get in Hget. destruct (existsb _ _); [|discriminate]. inversion Hget; subst; clear Hget.
  unfold coverage_of; simpl. repeat split; auto.
  - unfold positive_hits. do 2 f_equal. apply filter_ext. intros x. destruct x; reflexivity.
  - unfold positive_hits. pose proof (filter_length_le _ (fun x => 0 <? x) (path_counters fc l)). lia.
Qed.

(** ** C11: summaries *)
Definition covered_count (l : list N) : N := N.of_nat (length (filter (fun x => negb (x =? 0)) l)).

Lemma positive_hits_covered : forall l, N.of_nat (positive_hits l) = covered_count l.
Proof.
  intros. unfold positive_hits, covered_count. do 2 f_equal. apply filter_ext. intros x; destruct x; reflexivity.
Qed.

Definition spec_totals (total covered : N) : totals :=
  mkTotals total covered 0 (PValue (percent covered total)).

Lemma simple_totals_spec : forall lm, compute_simple_totals lm =
  spec_totals (N.of_nat (length lm)) (covered_count (im_values lm)).
Proof. intros. unfold compute_simple_totals, spec_totals. now rewrite positive_hits_covered. Qed.

Lemma covered_count_le : forall l, covered_count l <= N.of_nat (length l).
Proof.
  intros. unfold covered_count.
  pose proof (filter_length_le _ (fun x => negb (x =? 0)) l). lia.
Qed.

Lemma covered_count_app : forall a b, covered_count (a ++ b)%list = covered_count a + covered_count b.
Proof. intros. unfold covered_count. rewrite filter_app, app_length. lia. Qed.

Lemma branch_totals_fold : forall m vs c t,
  t + N.of_nat (length (concat vs)) < u32_mod -> c + covered_count (concat vs) < u32_mod ->
  fold_res (branch_totals_step m) (c, t) vs =
  Ok (c + covered_count (concat vs), t + N.of_nat (length (concat vs))).
Proof.
  induction vs as [|v vs IH]; intros c t Ht Hc; simpl in *.
  - unfold covered_count; simpl. f_equal. f_equal; lia.
  - rewrite app_length in *. rewrite covered_count_app in *.
    unfold branch_totals_step at 1. simpl. rewrite positive_hits_covered.
    rewrite u32_add_fits by lia. simpl. rewrite u32_add_fits by lia. simpl.
    rewrite IH by lia. f_equal. f_equal; lia.
Qed.

Lemma branch_totals_spec : forall m bm,
  N.of_nat (length (concat (im_values bm))) < u32_mod ->
  compute_branch_totals m bm =
  Ok (spec_totals (N.of_nat (length (concat (im_values bm)))) (covered_count (concat (im_values bm)))).
Proof.
  intros m bm Hl. unfold compute_branch_totals.
  pose proof (covered_count_le (concat (im_values bm))).
  rewrite branch_totals_fold by lia. reflexivity.
Qed.

(** The whole summary, from the tables only. *)
Theorem to_summary_spec : forall m fc,
  table_ok stmt_loc (fc_s fc) (fc_statement_map fc) ->
  N.of_nat (length (concat (im_values (fc_b fc)))) < u32_mod ->
  (forall bt, fc_b_t fc = Some bt -> N.of_nat (length (concat (im_values bt))) < u32_mod) ->
  let lines := first_occ (map fst (line_rows fc)) in
  to_summary m fc = Ok (mkSummary
    (spec_totals (N.of_nat (length lines))
       (N.of_nat (length (filter (fun l => negb (maxN (vals_of l (line_rows fc)) =? 0)) lines))))
    (spec_totals (N.of_nat (length (fc_s fc))) (covered_count (im_values (fc_s fc))))
    (spec_totals (N.of_nat (length (fc_f fc))) (covered_count (im_values (fc_f fc))))
    (spec_totals (N.of_nat (length (concat (im_values (fc_b fc))))) (covered_count (concat (im_values (fc_b fc)))))
    (option_map (fun bt => spec_totals (N.of_nat (length (concat (im_values bt)))) (covered_count (concat (im_values bt))))
       (fc_b_t fc))).
Proof.
  intros m fc Hok Hb Hbt lines. unfold to_summary. rewrite line_coverage_spec by auto. simpl.
  rewrite branch_totals_spec by auto. simpl. rewrite !simple_totals_spec.
  assert (Hl : spec_totals (N.of_nat (length (spec_line_coverage fc))) (covered_count (im_values (spec_line_coverage fc)))
    = spec_totals (N.of_nat (length lines))
       (N.of_nat (length (filter (fun l => negb (maxN (vals_of l (line_rows fc)) =? 0)) lines)))).
  { unfold spec_line_coverage, tab. fold lines. rewrite map_length. f_equal.
    unfold covered_count, im_values. rewrite map_map. simpl. f_equal.
    induction lines as [|x l IH]; simpl; auto. destruct (_ =? 0); simpl; auto. }
  rewrite Hl. destruct (fc_b_t fc) as [bt|]; simpl; auto.
  rewrite branch_totals_spec by auto. reflexivity.
Qed.

Definition totals_sane (t : totals) : Prop :=
  t_covered t <= t_total t /\ t_skipped t = 0 /\ t_pct t = PValue (percent (t_covered t) (t_total t)).

Theorem to_summary_sane : forall m fc s,
  table_ok stmt_loc (fc_s fc) (fc_statement_map fc) ->
  N.of_nat (length (concat (im_values (fc_b fc)))) < u32_mod ->
  (forall bt, fc_b_t fc = Some bt -> N.of_nat (length (concat (im_values bt))) < u32_mod) ->
  to_summary m fc = Ok s ->
  totals_sane (cs_lines s) /\ totals_sane (cs_statements s) /\ totals_sane (cs_functions s) /\
  totals_sane (cs_branches s) /\ (forall t, cs_branches_true s = Some t -> totals_sane t).
Proof.
  intros m fc s Hok Hb Hbt Hs. rewrite to_summary_spec in Hs by auto. inversion Hs; subst; clear Hs; simpl.
  unfold totals_sane, spec_totals; simpl. repeat split; auto.
  - pose proof (filter_length_le _ (fun l => negb (maxN (vals_of l (line_rows fc)) =? 0)) (first_occ (map fst (line_rows fc)))). lia.
  - pose proof (covered_count_le (im_values (fc_s fc))). unfold im_values in *. rewrite map_length in *. lia.
  - pose proof (covered_count_le (im_values (fc_f fc))). unfold im_values in *. rewrite map_length in *. lia.
  - apply covered_count_le.
  - destruct (fc_b_t fc); inversion H; subst; simpl. apply covered_count_le.
  - destruct (fc_b_t fc); inversion H; subst; simpl; auto.
  - destruct (fc_b_t fc); inversion H; subst; simpl; auto.
Qed.

(** ** C13: merging summaries *)
Definition totals_plus (a b : totals) : totals :=
  mkTotals (t_total a + t_total b) (t_covered a + t_covered b) (t_skipped a + t_skipped b)
    (PValue (percent (t_covered a + t_covered b) (t_total a + t_total b))).

Definition totals_fit (a b : totals) : Prop :=
  t_total a + t_total b < u32_mod /\ t_covered a + t_covered b < u32_mod /\
  t_skipped a + t_skipped b < u32_mod.

Lemma totals_merge_spec : forall m a b, totals_fit a b -> totals_merge m a b = Ok (totals_plus a b).
Proof.
  intros m a b (H1 & H2 & H3). unfold totals_merge.
  rewrite !u32_add_fits by auto. reflexivity.
Qed.

Definition bt_of (s : coverage_summary) : totals :=
  match cs_branches_true s with Some t => t | None => totals_default end.

Definition summary_fit (a b : coverage_summary) : Prop :=
  totals_fit (cs_lines a) (cs_lines b) /\ totals_fit (cs_statements a) (cs_statements b) /\
  totals_fit (cs_functions a) (cs_functions b) /\ totals_fit (cs_branches a) (cs_branches b) /\
  totals_fit (bt_of a) (bt_of b).

Definition summary_plus (a b : coverage_summary) : coverage_summary :=
  mkSummary (totals_plus (cs_lines a) (cs_lines b)) (totals_plus (cs_statements a) (cs_statements b))
    (totals_plus (cs_functions a) (cs_functions b)) (totals_plus (cs_branches a) (cs_branches b))
    (match cs_branches_true b with
     | Some t => Some (totals_plus (bt_of a) t)
     | None => cs_branches_true a
     end).

Theorem summary_merge_spec : forall m a b, summary_fit a b -> summary_merge m a b = Ok (summary_plus a b).
Proof.
  intros m a b (H1 & H2 & H3 & H4 & H5). unfold summary_merge.
  rewrite !totals_merge_spec by auto. simpl.
  unfold summary_plus, bt_of in *. destruct (cs_branches_true b) as [t|]; simpl; auto.
  rewrite totals_merge_spec by auto. reflexivity.
Qed.

(** Numbers of a summary, without the derived percentage. *)
Definition nums (t : totals) : N * N * N := (t_total t, t_covered t, t_skipped t).
Definition summary_nums (s : coverage_summary) :=
  (nums (cs_lines s), nums (cs_statements s), nums (cs_functions s), nums (cs_branches s),
   nums (bt_of s)).

Theorem summary_merge_comm : forall m a b, summary_fit a b ->
  exists r1 r2, summary_merge m a b = Ok r1 /\ summary_merge m b a = Ok r2 /\
  summary_nums r1 = summary_nums r2 /\
  cs_lines r1 = cs_lines r2 /\ cs_statements r1 = cs_statements r2 /\
  cs_functions r1 = cs_functions r2 /\ cs_branches r1 = cs_branches r2.
Proof.
  intros m a b H. assert (H' : summary_fit b a).
  { destruct H as (H1 & H2 & H3 & H4 & H5). unfold summary_fit, totals_fit in *. intuition lia. }
  exists (summary_plus a b), (summary_plus b a).
  rewrite !summary_merge_spec by auto. split; [auto|]. split; [auto|].
  assert (Hp : forall x y, totals_plus x y = totals_plus y x).
  { intros x y. unfold totals_plus. f_equal; try lia. do 2 f_equal; lia. }
  unfold summary_plus; simpl. rewrite (Hp (cs_lines b)), (Hp (cs_statements b)), (Hp (cs_functions b)), (Hp (cs_branches b)).
  repeat split; auto. unfold summary_nums; simpl. f_equal. unfold bt_of; simpl.
  destruct (cs_branches_true a), (cs_branches_true b); simpl; unfold nums, totals_plus, totals_default; simpl; auto;
  rewrite ?N.add_0_r; auto. f_equal; [f_equal|]; lia.
Qed.

(** Coverage-map summary = sum of the per-file summaries. *)
Definition sum_nums (f : coverage_summary -> totals) (g : totals -> N) (ss : list coverage_summary) : N :=
  sumN (map (fun s => g (f s)) ss).

Definition all_fit (ss : list coverage_summary) : Prop :=
  forall f g, In f [cs_lines; cs_statements; cs_functions; cs_branches; bt_of] ->
              In g [t_total; t_covered; t_skipped] -> sum_nums f g ss < u32_mod.

Lemma summary_fold_gen : forall m ss acc,
  (forall f g, In f [cs_lines; cs_statements; cs_functions; cs_branches; bt_of] ->
              In g [t_total; t_covered; t_skipped] -> g (f acc) + sum_nums f g ss < u32_mod) ->
  exists r, fold_res (summary_merge m) acc ss = Ok r /\ r = fold_left summary_plus ss acc /\
  forall f g, In f [cs_lines; cs_statements; cs_functions; cs_branches; bt_of] ->
              In g [t_total; t_covered; t_skipped] -> g (f r) = g (f acc) + sum_nums f g ss.
Proof.
  induction ss as [|s ss IH]; intros acc Hf.
  - exists acc. split; auto. split; auto. intros. unfold sum_nums; simpl. lia.
  - simpl. assert (Hfit : summary_fit acc s).
    { unfold summary_fit, totals_fit. unfold sum_nums in Hf. simpl in Hf.
      repeat split;
      match goal with |- ?g (?f acc) + _ < _ => specialize (Hf f g) end;
      (assert (forall A (x y z w u : A), True) by auto); simpl in Hf; intuition; try lia. }
    rewrite summary_merge_spec by auto. simpl.
    assert (Hstep : forall f g, In f [cs_lines; cs_statements; cs_functions; cs_branches; bt_of] ->
              In g [t_total; t_covered; t_skipped] -> g (f (summary_plus acc s)) = g (f acc) + g (f s)).
    { intros f g Hif Hig. simpl in Hif, Hig.
      assert (Hb : forall g', In g' [t_total; t_covered; t_skipped] ->
                g' (bt_of (summary_plus acc s)) = g' (bt_of acc) + g' (bt_of s)).
      { intros g' Hg'. unfold summary_plus, bt_of. cbn [cs_branches_true]. unfold bt_of.
        destruct (cs_branches_true s) as [ts|], (cs_branches_true acc) as [ta|];
        simpl in Hg'; destruct Hg' as [<-|[<-|[<-|[]]]]; unfold bt_of, totals_plus, totals_default;
        cbn [t_total t_covered t_skipped]; lia. }
      destruct Hif as [<-|[<-|[<-|[<-|[<-|[]]]]]]; [| | | | apply Hb; simpl; auto];
      destruct Hig as [<-|[<-|[<-|[]]]]; reflexivity. }
    destruct (IH (summary_plus acc s)) as (r & Hr & He & Hn).
    { intros f g Hif Hig. rewrite Hstep by auto. specialize (Hf f g Hif Hig). unfold sum_nums in *; simpl in Hf. lia. }
    exists r. split; auto. split; auto. intros f g Hif Hig. rewrite Hn, Hstep by auto. unfold sum_nums; simpl. lia.
Qed.
Lemma summary_fold_pct : forall f ss acc, In f [cs_lines; cs_statements; cs_functions; cs_branches] -> ss <> [] ->
  let r := fold_left summary_plus ss acc in t_pct (f r) = PValue (percent (t_covered (f r)) (t_total (f r))).
Proof.
  intros f ss acc Hf. revert acc. induction ss as [|s [|s' ss] IH]; intros acc Hn; [congruence| |].
  - cbn [fold_left]. simpl in Hf. destruct Hf as [<-|[<-|[<-|[<-|[]]]]]; reflexivity.
  - cbn [fold_left]. apply IH. discriminate.
Qed.
Lemma summary_fold_truths : forall ss acc,
  (forall t, cs_branches_true acc = Some t -> t_pct t = PValue (percent (t_covered t) (t_total t))) ->
  let r := fold_left summary_plus ss acc in
  (cs_branches_true r = None <-> cs_branches_true acc = None /\ Forall (fun s => cs_branches_true s = None) ss) /\
  (forall t, cs_branches_true r = Some t -> t_pct t = PValue (percent (t_covered t) (t_total t))).
Proof.
  induction ss as [|s ss IH]; intros acc Ha; cbn [fold_left].
  - split; [|exact Ha]. split; [auto|tauto].
  - destruct (IH (summary_plus acc s)) as [A B].
    { unfold summary_plus. cbn [cs_branches_true]. destruct (cs_branches_true s); [|exact Ha]. intros t' [= <-]. reflexivity. }
    split; [|exact B]. cbv zeta in A. rewrite A. unfold summary_plus. cbn [cs_branches_true]. split.
    + intros [E F]. destruct (cs_branches_true s) eqn:Es; [discriminate E|]. split; [exact E|]. now constructor.
    + intros [E F]. inversion F; subst. now rewrite H1.
Qed.

Theorem map_summary_is_sum : forall m cm ss,
  map_res (to_summary m) (im_values cm) = Ok ss -> all_fit ss ->
  exists r, cm_get_coverage_summary m cm = Ok r /\
  (forall f g, In f [cs_lines; cs_statements; cs_functions; cs_branches; bt_of] ->
              In g [t_total; t_covered; t_skipped] -> g (f r) = sum_nums f g ss) /\
  (forall f, In f [cs_lines; cs_statements; cs_functions; cs_branches] -> t_pct (f r) =
     match ss with [] => PUnknown | _ => PValue (percent (t_covered (f r)) (t_total (f r))) end) /\
  (cs_branches_true r = None <-> Forall (fun s => cs_branches_true s = None) ss) /\
  (forall t, cs_branches_true r = Some t -> t_pct t = PValue (percent (t_covered t) (t_total t))).
Proof.
  intros m cm ss Hss Hfit. unfold cm_get_coverage_summary.
  assert (Hf : forall fcs acc ss, map_res (to_summary m) fcs = Ok ss ->
    fold_res (fun acc fc => let* s := to_summary m fc in summary_merge m acc s) acc fcs =
    fold_res (summary_merge m) acc ss).
  { induction fcs as [|fc fcs IH]; intros acc ss0 H; simpl in H; [inversion H; auto|].
    apply bind_ok in H as (s & Hs & H). apply bind_ok in H as (ss' & Hs' & H). inversion H; subst.
    simpl. rewrite Hs. simpl. destruct (summary_merge m acc s); simpl; auto. }
  rewrite (Hf _ _ _ Hss).
  destruct (summary_fold_gen m ss summary_derived_default) as (r & Hr & He & Hn).
  { intros f g Hif Hig. specialize (Hfit f g Hif Hig).
    replace (g (f summary_derived_default)) with 0; [lia|].
    simpl in Hif, Hig. destruct Hif as [<-|[<-|[<-|[<-|[<-|[]]]]]]; destruct Hig as [<-|[<-|[<-|[]]]]; reflexivity. }
  destruct (summary_fold_truths ss summary_derived_default) as [T1 T2]; [discriminate|]. rewrite <- He in T1, T2.
  exists r. split; auto. split; [|split; [|split; [rewrite T1; cbn; tauto|exact T2]]].
  2:{ intros f Hif. rewrite He. destruct ss as [|s ss'].
      - simpl in Hif. destruct Hif as [<-|[<-|[<-|[<-|[]]]]]; reflexivity.
      - apply summary_fold_pct; [exact Hif|discriminate]. }
  intros f g Hif Hig. rewrite Hn by auto.
  replace (g (f summary_derived_default)) with 0; [lia|].
  simpl in Hif, Hig. destruct Hif as [<-|[<-|[<-|[<-|[<-|[]]]]]]; destruct Hig as [<-|[<-|[<-|[]]]]; reflexivity.
Qed.

(** A summary is empty when it has no lines. *)
Theorem summary_is_empty_spec : forall s, summary_is_empty s = true <-> t_total (cs_lines s) = 0.
Proof. intros s. unfold summary_is_empty. apply N.eqb_eq. Qed.
(** ** C14: reset_hits *)
Theorem reset_hits_spec : forall fc,
  let r := reset_hits fc in
  fc_all r = fc_all fc /\ fc_path r = fc_path fc /\ fc_statement_map r = fc_statement_map fc /\
  fc_fn_map r = fc_fn_map fc /\ fc_branch_map r = fc_branch_map fc /\
  fc_input_source_map r = fc_input_source_map fc /\
  fc_s r = tab (fun _ => 0) (im_keys (fc_s fc)) /\
  fc_f r = tab (fun _ => 0) (im_keys (fc_f fc)) /\
  im_keys (fc_b r) = im_keys (fc_b fc) /\
  Forall2 (fun x y => y = repeat 0 (length x)) (im_values (fc_b fc)) (im_values (fc_b r)) /\
  (fc_b_t r = None <-> fc_b_t fc = None) /\
  (forall bt bt', fc_b_t fc = Some bt -> fc_b_t r = Some bt' ->
     im_keys bt' = im_keys bt /\
     Forall2 (fun x y => y = repeat 0 (length x)) (im_values bt) (im_values bt')).
Proof.
  intros fc r. unfold r, reset_hits, reset_line_hits; simpl.
  assert (Hv : forall m, Forall2 (fun x y : list N => y = repeat 0 (length x)) (im_values m) (im_values (reset_branch_hits m))).
  { induction m as [|[k v] m IH]; simpl; constructor; auto. simpl. clear. induction v; simpl; congruence. }
  assert (Hk : forall m, im_keys (reset_branch_hits m) = im_keys m).
  { intros m. unfold im_keys, reset_branch_hits. now rewrite map_map. }
  assert (Ht : forall m : line_hit_map, map (fun kv => (fst kv, 0)) m = tab (fun _ => 0) (im_keys m)).
  { intros m. unfold tab, im_keys. now rewrite map_map. }
  repeat split; auto.
  - destruct (fc_b_t fc); simpl; congruence.
  - destruct (fc_b_t fc); simpl; congruence.
  - rewrite H in H0; simpl in H0; inversion H0; auto.
  - rewrite H in H0; simpl in H0; inversion H0; auto.
Qed.

Theorem reset_hits_idempotent : forall fc, reset_hits (reset_hits fc) = reset_hits fc.
Proof.
  intros fc. unfold reset_hits, reset_line_hits, reset_branch_hits; simpl. rewrite !map_map. simpl.
  assert (H : forall m : branch_hit_map,
    map (fun x => (fst x, map (fun _ => 0) (map (fun _ => 0) (snd x)))) m = map (fun x => (fst x, map (fun _ => 0) (snd x))) m).
  { intros m. apply map_ext. intros [k v]; simpl. now rewrite map_map. }
  rewrite H. f_equal. destruct (fc_b_t fc); simpl; auto. rewrite map_map. simpl. now rewrite H.
Qed.

(** Summary of a reset record: same totals, nothing covered. *)
Lemma covered_zero : forall l, (forall x, In x l -> x = 0) -> covered_count l = 0.
Proof.
  intros l H. unfold covered_count. induction l as [|x l IH]; auto. simpl.
  rewrite (H x) by (simpl; auto). simpl. apply IH. intros; apply H; simpl; auto.
Qed.

Theorem reset_summary : forall m fc s,
  table_ok stmt_loc (fc_s fc) (fc_statement_map fc) ->
  N.of_nat (length (concat (im_values (fc_b fc)))) < u32_mod -> fc_b_t fc = None ->
  to_summary m fc = Ok s ->
  exists s', to_summary m (reset_hits fc) = Ok s' /\
  t_total (cs_statements s') = t_total (cs_statements s) /\ t_covered (cs_statements s') = 0 /\
  t_total (cs_functions s') = t_total (cs_functions s) /\ t_covered (cs_functions s') = 0 /\
  t_total (cs_branches s') = t_total (cs_branches s) /\ t_covered (cs_branches s') = 0 /\
  t_total (cs_lines s') = t_total (cs_lines s) /\ t_covered (cs_lines s') = 0.
Proof.
  intros m fc s Hok Hb Hbt Hs. rewrite to_summary_spec in Hs by (auto; congruence).
  inversion Hs; subst; clear Hs; simpl.
  assert (Hok' : table_ok stmt_loc (fc_s (reset_hits fc)) (fc_statement_map (reset_hits fc))).
  { intros k Hin. destruct (reset_keys fc) as (K1 & _). rewrite K1 in Hin. apply Hok; auto. }
  assert (Hlen : length (concat (im_values (fc_b (reset_hits fc)))) = length (concat (im_values (fc_b fc)))).
  { simpl. unfold reset_branch_hits. induction (fc_b fc) as [|[k v] l IH]; simpl; auto.
    rewrite !app_length, map_length. f_equal. apply IH. simpl in Hb. rewrite app_length in Hb. lia. }
  rewrite to_summary_spec; auto.
  2:{ rewrite Hlen. auto. }
  2:{ simpl. rewrite Hbt. simpl. discriminate. }
  eexists. split; [reflexivity|]. simpl cs_lines. simpl cs_statements. simpl cs_functions. simpl cs_branches.
  unfold spec_totals; simpl t_total; simpl t_covered.
  destruct (reset_rows fc) as (E1 & _).
  assert (Hlr : map fst (line_rows (reset_hits fc)) = map fst (line_rows fc)).
  { unfold line_rows. rewrite E1, !map_map. reflexivity. }
  assert (Hz : forall l x, In x (vals_of l (line_rows (reset_hits fc))) -> x = 0).
  { intros l x Hx. unfold vals_of, line_rows in Hx. rewrite E1 in Hx.
    apply in_map_iff in Hx as (y & <- & Hf). apply filter_In in Hf as [Hf _].
    rewrite map_map in Hf. apply in_map_iff in Hf as (z & <- & _). reflexivity. }
  simpl in Hlen. rewrite Hlr, Hlen. repeat split.
  - simpl. unfold reset_line_hits. now rewrite map_length.
  - apply covered_zero. simpl. unfold reset_line_hits, im_values. rewrite map_map. simpl.
    intros x Hx. apply in_map_iff in Hx as (? & <- & _). auto.
  - simpl. unfold reset_line_hits. now rewrite map_length.
  - apply covered_zero. simpl. unfold reset_line_hits, im_values. rewrite map_map. simpl.
    intros x Hx. apply in_map_iff in Hx as (? & <- & _). auto.
  - apply covered_zero. simpl. unfold reset_branch_hits, im_values. rewrite map_map. simpl.
    intros x Hx. apply in_concat in Hx as (v & Hv & Hx). apply in_map_iff in Hv as (? & <- & _).
    apply in_map_iff in Hx as (? & <- & _). auto.
  - assert (Hm : forall l, maxN (vals_of l (line_rows (reset_hits fc))) = 0).
    { intros l. specialize (Hz l). revert Hz. generalize (vals_of l (line_rows (reset_hits fc))).
      induction l0 as [|x v IH]; simpl; intros Hz; auto. rewrite (Hz x) by auto. rewrite IH; auto. }
    induction (first_occ (map fst (line_rows fc))) as [|x l IH]; simpl; auto.
    rewrite Hm. simpl. auto.
Qed.

(** ** C15: coverage maps *)
Definition cm_ok (cm : coverage_map) : Prop :=
  NoDup (cm_get_files cm) /\ forall p fc, cm_get_coverage_for_file cm p = Some fc -> fc_path fc = p.

Lemma merge_path : forall m a b r, fc_merge m a b = Ok r -> fc_path a = fc_path b -> fc_path r = fc_path a.
Proof.
  intros m a b r Hm Hp. destruct (fc_all b) eqn:Hb.
  - rewrite merge_placeholder_ignored in Hm by auto. congruence.
  - destruct (fc_all a) eqn:Ha.
    + rewrite merge_placeholder_replaced in Hm by auto. congruence.
    + eapply merge_keeps_identity in Hm as (_ & ? & _); auto.
Qed.

(** Adding a record: its file gets the merge (or the record itself), all other files
    are untouched, a new file is appended to the file list. *)
Theorem add_coverage_effect : forall m cm fc cm', cm_ok cm ->
  add_coverage_for_file m cm fc = Ok cm' ->
  cm_ok cm' /\
  (forall p, p <> fc_path fc ->
     cm_get_coverage_for_file cm' p = cm_get_coverage_for_file cm p) /\
  match cm_get_coverage_for_file cm (fc_path fc) with
  | Some old => exists r, fc_merge m old fc = Ok r /\
       cm_get_coverage_for_file cm' (fc_path fc) = Some r /\ cm_get_files cm' = cm_get_files cm
  | None => cm_get_coverage_for_file cm' (fc_path fc) = Some fc /\
       cm_get_files cm' = (cm_get_files cm ++ [fc_path fc])%list
  end.
Proof.
  intros m cm fc cm' (Hnd & Hp) Hadd. unfold add_coverage_for_file in Hadd.
  unfold cm_ok, cm_get_files, cm_get_coverage_for_file in *.
  destruct (im_get (fc_path fc) cm) as [old|] eqn:Hget.
  - apply bind_ok in Hadd as (r & Hr & Hadd). inversion Hadd; subst; clear Hadd.
    assert (Hpath : fc_path r = fc_path fc).
    { pose proof (Hp _ _ Hget). rewrite (merge_path _ _ _ _ Hr); auto. }
    repeat split.
    + rewrite im_update_keys. auto.
    + intros p fc' Hg. rewrite im_get_update in Hg. destruct (eqb p (fc_path fc)) eqn:He; auto.
      apply eqb_spec in He; subst. rewrite Hget in Hg. simpl in Hg. congruence.
    + intros p Hn. rewrite im_get_update. destruct (eqb p (fc_path fc)) eqn:He; auto. apply eqb_spec in He. congruence.
    + exists r. split; auto. rewrite im_get_update, eqb_refl, Hget. simpl. split; auto.
      apply im_update_keys.
  - inversion Hadd; subst; clear Hadd. repeat split.
    + apply im_wf_insert; auto.
    + intros p fc' Hg. rewrite im_get_insert in Hg. destruct (eqb p (fc_path fc)) eqn:He; auto.
      apply eqb_spec in He; subst. congruence.
    + intros p Hn. rewrite im_get_insert. destruct (eqb p (fc_path fc)) eqn:He; auto. apply eqb_spec in He. congruence.
    + rewrite im_get_insert, eqb_refl. auto.
    + rewrite im_keys_insert. unfold im_has. now rewrite Hget.
Qed.

(** Left-to-right merge of a list of records. *)
Definition merge_all (m : ovf_mode) (old : option file_coverage) (l : list file_coverage)
  : res (option file_coverage) :=
  fold_res (fun acc fc => match acc with
                          | None => Ok (Some fc)
                          | Some x => let* r := fc_merge m x fc in Ok (Some r)
                          end) old l.

Definition of_path (p : string) (l : list file_coverage) : list file_coverage :=
  filter (fun fc => String.eqb (fc_path fc) p) l.

Lemma adds_effect : forall m l cm cm', cm_ok cm ->
  fold_res (add_coverage_for_file m) cm l = Ok cm' ->
  cm_ok cm' /\
  (forall p, merge_all m (cm_get_coverage_for_file cm p) (of_path p l)
             = Ok (cm_get_coverage_for_file cm' p)) /\
  cm_get_files cm' = first_occ (cm_get_files cm ++ map fc_path l).
Proof.
  induction l as [|fc l IH] using rev_ind; intros cm cm' Hok Hf.
  - simpl in Hf. inversion Hf; subst. split; auto. split; auto. simpl. rewrite app_nil_r.
    destruct Hok as [Hnd _]. clear -Hnd. induction Hnd as [|x l Hx Hnd IH]; simpl; auto.
    f_equal. rewrite <- IH. symmetry.
    clear IH Hnd.
    assert (Hg : forall l', ~ In x l' -> filter (fun y => negb (eqb y x)) l' = l').
    { clear. induction l' as [|y l' IH]; simpl; intros Hn; auto.
      assert (He : String.eqb y x = false) by (apply String.eqb_neq; intros ->; tauto).
      rewrite He. simpl. f_equal. apply IH; tauto. }
    apply Hg; auto.
  - rewrite fold_res_app in Hf. apply bind_ok in Hf as (cm1 & H1 & H2).
    simpl in H2. apply bind_ok in H2 as (cm2 & H2 & H3). inversion H3; subst; clear H3.
    destruct (IH _ _ Hok H1) as (Hok1 & Hg1 & Hf1).
    destruct (add_coverage_effect _ _ _ _ Hok1 H2) as (Hok2 & Hother & Hself).
    split; auto. split.
    + intros p. unfold of_path, merge_all. rewrite filter_app, fold_res_app.
      fold (of_path p l). fold (merge_all m (cm_get_coverage_for_file cm p) (of_path p l)).
      rewrite Hg1. simpl. destruct (String.eqb (fc_path fc) p) eqn:He.
      * apply String.eqb_eq in He; subst. simpl.
        destruct (cm_get_coverage_for_file cm1 (fc_path fc)) as [old|].
        -- destruct Hself as (r & Hr & Hg & _). rewrite Hr. simpl. now rewrite Hg.
        -- destruct Hself as (Hg & _). simpl. now rewrite Hg.
      * apply String.eqb_neq in He. simpl. rewrite Hother; auto.
    + rewrite map_app, app_assoc. cbn [map]. rewrite first_occ_snoc. rewrite <- Hf1.
      assert (Hex : existsb (eqb (fc_path fc)) (cm_get_files cm ++ map fc_path l) =
                    im_has (fc_path fc) cm1).
      { apply eq_true_iff_eq. rewrite existsb_eqb_in, im_has_in. fold (cm_get_files cm1).
        rewrite Hf1. now rewrite first_occ_in. }
      rewrite Hex. unfold im_has. unfold cm_get_coverage_for_file in Hself.
      destruct (im_get (fc_path fc) cm1) as [old|].
      * destruct Hself as (r & _ & _ & Hk). auto.
      * destruct Hself as (_ & Hk). auto.
Qed.

(** Building a map from any sequence of records. *)
Theorem from_iter_spec : forall m l cm, cm_from_iter m l = Ok cm ->
  cm_ok cm /\
  (forall p, merge_all m None (of_path p l) = Ok (cm_get_coverage_for_file cm p)) /\
  cm_get_files cm = first_occ (map fc_path l).
Proof.
  intros m l cm H. apply (adds_effect m l [] cm); auto.
  split; [constructor|discriminate].
Qed.

(** Merging two maps. *)
Theorem map_merge_spec : forall m a b r, cm_ok a -> cm_ok b -> cm_merge m a b = Ok r ->
  cm_ok r /\
  (forall p, match cm_get_coverage_for_file a p, cm_get_coverage_for_file b p with
             | Some x, Some y => exists z, fc_merge m x y = Ok z /\ cm_get_coverage_for_file r p = Some z
             | Some x, None => cm_get_coverage_for_file r p = Some x
             | None, o => cm_get_coverage_for_file r p = o
             end) /\
  cm_get_files r = first_occ (cm_get_files a ++ cm_get_files b).
Proof.
  intros m a b r Ha Hb Hm. unfold cm_merge in Hm.
  destruct (adds_effect _ _ _ _ Ha Hm) as (Hok & Hg & Hf).
  assert (Hkeys : forall cm : coverage_map, cm_ok cm -> map fc_path (im_values cm) = cm_get_files cm).
  { intros cm (Hnd & Hp). unfold im_values, cm_get_files, im_keys. rewrite map_map.
    apply map_ext_in. intros [k v] Hin. simpl. apply Hp. apply im_in_get; auto. }
  split; auto. split.
  - intros p. specialize (Hg p).
    assert (Hof : of_path p (im_values b) = match cm_get_coverage_for_file b p with Some y => [y] | None => [] end).
    { destruct Hb as (Hnd & Hp). unfold cm_get_coverage_for_file in *. clear -Hnd Hp.
      induction b as [|[k v] b IH]; auto. simpl in *. inversion Hnd; subst.
      assert (Hkv : fc_path v = k). { apply (Hp k). simpl. now rewrite String.eqb_refl. }
      rewrite Hkv. rewrite (String.eqb_sym p k).
      assert (Hp' : forall q fc, im_get q b = Some fc -> fc_path fc = q).
      { intros q fc Hq. apply (Hp q). simpl. destruct (String.eqb q k) eqn:He; auto.
        apply String.eqb_eq in He; subst. exfalso. apply H1. apply im_get_in in Hq.
        unfold im_keys. apply in_map_iff. exists (fc_path v, fc); auto. }
      destruct (String.eqb k p) eqn:He.
      - apply String.eqb_eq in He. f_equal. rewrite IH; auto.
        assert (Hn : im_get p b = None) by (apply im_get_None; unfold cm_get_files in H1; congruence). now rewrite Hn.
      - apply IH; auto. }
    rewrite Hof in Hg. destruct (cm_get_coverage_for_file a p) as [x|], (cm_get_coverage_for_file b p) as [y|];
      unfold merge_all in Hg; simpl in Hg; try (inversion Hg; auto; fail).
    destruct (fc_merge m x y) as [z| |]; simpl in Hg; inversion Hg. eauto.
  - rewrite Hf. now rewrite Hkeys.
Qed.

(** ** C16: filtering *)
Theorem filter_spec : forall p cm, cm_ok cm ->
  cm_ok (cm_filter p cm) /\
  (forall q, cm_get_coverage_for_file (cm_filter p cm) q =
     match cm_get_coverage_for_file cm q with Some r => if p r then Some r else None | None => None end) /\
  cm_filter p cm = filter (fun kv => p (snd kv)) cm.
Proof.
  intros p cm Hok.
  assert (Heq : cm_filter p cm = filter (fun kv => p (snd kv)) cm).
  { unfold cm_filter.
    assert (Hgen : forall l acc, NoDup (im_keys (acc ++ l)) -> (forall k v, In (k, v) l -> fc_path v = k) ->
      fold_left (fun acc kv => if p (snd kv) then im_insert (fc_path (snd kv)) (snd kv) acc else acc) l acc
      = (acc ++ filter (fun kv => p (snd kv)) l)%list).
    { induction l as [|[k v] l IH]; intros acc Hnd Hp; simpl; [now rewrite app_nil_r|].
      pose proof (Hp k v (or_introl eq_refl)) as Hkv.
      unfold im_keys in Hnd. rewrite map_app in Hnd. simpl in Hnd.
      destruct (p v) eqn:Hpv.
      - rewrite im_insert_fresh.
        + rewrite IH.
          * rewrite <- app_assoc. simpl. now rewrite Hkv.
          * unfold im_keys. rewrite !map_app. simpl. rewrite <- app_assoc. simpl. now rewrite Hkv.
          * intros; apply Hp; simpl; auto.
        + rewrite Hkv. apply NoDup_remove_2 in Hnd. rewrite in_app_iff in Hnd. unfold im_keys. tauto.
      - apply IH.
        + unfold im_keys. rewrite map_app. apply NoDup_remove_1 in Hnd. auto.
        + intros; apply Hp; simpl; auto. }
    rewrite Hgen; auto.
    - apply Hok.
    - intros k v Hin. apply Hok. apply im_in_get; [apply Hok|auto]. }
  rewrite Heq. destruct Hok as (Hnd & Hp).
  assert (Hget : forall q, im_get q (filter (fun kv => p (snd kv)) cm) =
     match im_get q cm with Some r => if p r then Some r else None | None => None end).
  { intros q. apply (im_get_retain (fun _ v => p v) cm q Hnd). }
  repeat split; auto.
  - apply (im_wf_retain (fun _ v => p v) cm Hnd).
  - intros q fc Hq. unfold cm_get_coverage_for_file in *. rewrite Hget in Hq.
    destruct (im_get q cm) eqn:E; [|discriminate]. destruct (p f) eqn:Hpf; inversion Hq; subst. auto.
Qed.

(** Histories: every map reachable by API calls is well-formed. *)
Inductive cm_reach (m : ovf_mode) : coverage_map -> Prop :=
| reach_new : cm_reach m []
| reach_add : forall cm fc cm', cm_reach m cm -> add_coverage_for_file m cm fc = Ok cm' -> cm_reach m cm'
| reach_merge : forall cm other cm', cm_reach m cm -> cm_reach m other -> cm_merge m cm other = Ok cm' -> cm_reach m cm'
| reach_filter : forall cm p, cm_reach m cm -> cm_reach m (cm_filter p cm).

Theorem reachable_ok : forall m cm, cm_reach m cm -> cm_ok cm.
Proof.
  induction 1.
  - split; [constructor|discriminate].
  - eapply add_coverage_effect; eauto.
  - eapply (map_merge_spec m cm other cm'); eauto.
  - apply filter_spec; auto.
Qed.

(** ** Non-vacuity *)
Example line_cov_example :
  get_line_coverage (mkFC false "x" [(0, range_new 3 0 3 4); (1, range_new 1 0 1 2); (2, range_new 3 5 3 9)] [] []
     [(0, 1); (1, 0); (2, 7)] [] [] None None) = Ok [(3, 7); (1, 0)].
Proof. vm_compute. reflexivity. Qed.

Example map_example :
  exists cm, cm_from_iter Debug [fc_empty "foo.js" false; fc_empty "bar.js" false; fc_empty "foo.js" false] = Ok cm /\
    cm_get_files cm = ["foo.js"; "bar.js"]%string.
Proof. eexists. split; vm_compute; reflexivity. Qed.
