(** Merging another record into a record never takes coverage away: totals and covered counts only grow, an
    uncovered line stays uncovered only if it is uncovered in both, and between records of the same source text no
    percentage goes down. *)
From Coq Require Import Reals.
From Coq Require Import NArith String List Bool Lia PeanoNat Permutation.
Import ListNotations.
From Verif Require Import FloatR Percent.
From Verif Require Import Base IndexMap Oxide OxideSpec OxideMergeProofs OxideMerge OxideViews.
Open Scope string_scope. Open Scope list_scope. Open Scope N_scope.

(** ** Lists of places with counts *)
Section Keyed.
Context {K : Type}.
Definition nz (x : K * N) : bool := negb (snd x =? 0).
Definition reached (L : list (K * N)) : N := N.of_nat (length (filter nz L)).
(** Every place of [L] is in [M], and reached there if reached in [L] *)
Definition grows (L M : list (K * N)) : Prop :=
  forall k h, In (k, h) L -> exists h', In (k, h') M /\ (h <> 0 -> h' <> 0).
Lemma NoDup_map_filter : forall (p : K * N -> bool) (L : list (K * N)), NoDup (map fst L) -> NoDup (map fst (filter p L)).
Proof.
  intros p L. induction L as [|x L IH]; intros W; [constructor|]. cbn in W. apply NoDup_cons_iff in W as [W1 W2].
  cbn [filter]. destruct (p x); [|auto]. cbn. constructor; [|auto]. intros I. apply W1.
  apply in_map_iff in I as (y & E & I). apply filter_In in I as [I _]. rewrite <- E. now apply in_map.
Qed.
Lemma grows_counts : forall L M, NoDup (map fst L) -> grows L M -> (length L <= length M)%nat /\ reached L <= reached M.
Proof.
  intros L M W G. split.
  - rewrite <- (map_length fst L), <- (map_length fst M). apply NoDup_incl_length; [exact W|].
    intros k I. apply in_map_iff in I as ([k' h] & <- & I). destruct (G _ _ I) as (h' & I' & _). now apply (in_map fst) in I'.
  - unfold reached. enough (length (filter nz L) <= length (filter nz M))%nat by lia.
    rewrite <- (map_length fst (filter nz L)), <- (map_length fst (filter nz M)).
    apply NoDup_incl_length; [now apply NoDup_map_filter|].
    intros k I. apply in_map_iff in I as ([k' h] & <- & I). apply filter_In in I as [I Z].
    destruct (G _ _ I) as (h' & I' & P). apply in_map_iff. exists (k', h'). split; [reflexivity|]. apply filter_In. split; [exact I'|].
    unfold nz in *. cbn [snd] in *. destruct (N.eqb_spec h 0); [discriminate|]. destruct (N.eqb_spec h' 0); [now apply P in n|reflexivity].
Qed.
End Keyed.

(** ** The places of a record *)
Definition flat {T} (R : list (range * (N * T))) : list (range * N) := map (fun r => (fst r, fst (snd r))) R.
Definition paths {T} (R : list (range * (list N * T))) : list ((range * nat) * N) :=
  flat_map (fun r => map (fun j => ((fst r, j), nth j (fst (snd r)) 0)) (seq 0 (length (fst (snd r))))) R.

Lemma rows_hits : forall T H (loc : T -> option range) (hits : imap N H) (mp : imap N T), table_ok loc hits mp ->
  map (fun r => fst (snd r)) (rows loc hits mp) = im_values hits.
Proof.
  intros T H loc hits mp. unfold rows, im_values. induction hits as [|[k h] hits IH]; intros W; [reflexivity|].
  cbn [flat_map map fst snd]. destruct (W k (or_introl eq_refl)) as (t & r & -> & ->). cbn [app map fst snd]. f_equal.
  apply IH. intros k' I. apply W. now right.
Qed.
Lemma reached_flat : forall T (R : list (range * (N * T))), reached (flat R) = covered_count (map (fun r => fst (snd r)) R).
Proof.
  intros T R. unfold reached, covered_count, flat. f_equal. induction R as [|r R IH]; [reflexivity|].
  cbn [map filter]. unfold nz at 1. cbn [snd]. destruct (negb _); cbn [length]; now rewrite IH.
Qed.
Lemma path_list : forall (l : range) v i w,
  map (fun j => ((l, j), nth (j - i) v 0)) (seq i (length v)) = w -> map snd w = v.
Proof.
  intros l v. induction v as [|x v IH]; intros i w <-; [reflexivity|]. cbn [length seq map snd]. f_equal.
  - now rewrite Nat.sub_diag.
  - rewrite map_map. cbn [snd]. rewrite <- (IH (Datatypes.S i) _ eq_refl) at 2. rewrite map_map. cbn [snd].
    apply map_ext_in. intros j I. apply in_seq in I. replace (j - i)%nat with (Datatypes.S (j - Datatypes.S i)) by lia. reflexivity.
Qed.
Lemma paths_values : forall T (R : list (range * (list N * T))), map snd (paths R) = concat (map (fun r => fst (snd r)) R).
Proof.
  intros T R. unfold paths. induction R as [|r R IH]; [reflexivity|]. cbn [flat_map map concat]. rewrite map_app, IH. f_equal.
  apply (path_list (fst r) (fst (snd r)) 0). apply map_ext. intros j. now rewrite Nat.sub_0_r.
Qed.
Lemma reached_values : forall K (L : list (K * N)), reached L = covered_count (map snd L).
Proof.
  intros K L. unfold reached, covered_count. f_equal. induction L as [|x L IH]; [reflexivity|].
  cbn [map filter]. unfold nz at 1. destruct (negb _); cbn [length]; now rewrite IH.
Qed.
Lemma paths_nodup : forall T (R : list (range * (list N * T))), NoDup (map fst R) -> NoDup (map fst (paths R)).
Proof.
  intros T R. unfold paths. induction R as [|r R IH]; intros W; [constructor|]. cbn in W. apply NoDup_cons_iff in W as [W1 W2].
  cbn [flat_map]. rewrite map_app, map_map. cbn [fst].
  assert (A : NoDup (map (fun j => (fst r, j)) (seq 0 (length (fst (snd r)))))).
  { apply FinFun.Injective_map_NoDup; [|apply seq_NoDup]. intros a b E. now injection E. }
  assert (B : forall x, In x (map (fun j => (fst r, j)) (seq 0 (length (fst (snd r))))) ->
    ~ In x (map fst (flat_map (fun r => map (fun j => ((fst r, j), nth j (fst (snd r)) 0)) (seq 0 (length (fst (snd r))))) R))).
  { intros x I J. apply in_map_iff in I as (j & <- & _). apply in_map_iff in J as ([k h] & E & J). cbn in E. subst k.
    apply in_flat_map in J as (q & J1 & J2). apply in_map_iff in J2 as (j2 & E2 & _). injection E2 as E2 _ _.
    apply W1. rewrite <- E2. now apply in_map. }
  specialize (IH W2). revert A B IH. generalize (map (fun j => (fst r, j)) (seq 0 (length (fst (snd r))))).
  generalize (map fst (flat_map (fun r => map (fun j => ((fst r, j), nth j (fst (snd r)) 0)) (seq 0 (length (fst (snd r))))) R)).
  clear. intros b a A B IH. induction a as [|x a IHa]; [exact IH|]. apply NoDup_cons_iff in A as [A1 A2]. cbn. constructor.
  - rewrite in_app_iff. intros [I|I]; [contradiction|]. now apply (B x (or_introl eq_refl)).
  - apply IHa; [exact A2|]. intros y I. apply B. now right.
Qed.
Lemma paths_in : forall T (R : list (range * (list N * T))) l j h, In ((l, j), h) (paths R) <->
  exists v t, In (l, (v, t)) R /\ (j < length v)%nat /\ h = nth j v 0.
Proof.
  intros T R l j h. unfold paths. rewrite in_flat_map. split.
  - intros ([l' [v t]] & I & J). cbn [fst snd] in J. apply in_map_iff in J as (j' & E & J). injection E as -> -> <-.
    apply in_seq in J. exists v, t. split; [exact I|]. split; [lia|reflexivity].
  - intros (v & t & I & J & ->). exists (l, (v, t)). split; [exact I|]. cbn [fst snd]. apply in_map_iff. exists j.
    split; [reflexivity|]. apply in_seq. lia.
Qed.

(** ** The rows of the merged record *)
Lemma in_lookup : forall T H (R : list (range * (H * T))) l x, NoDup (map fst R) -> (In (l, x) R <-> lookup_row l R = Some x).
Proof.
  intros T H R l x. induction R as [|[l0 y0] R IH]; intros W; [split; [contradiction|discriminate]|]. cbn in W.
  apply NoDup_cons_iff in W as [W1 W2]. unfold lookup_row in *. cbn [find fst]. destruct (range_eqb l0 l) eqn:E.
  - apply range_eqb_spec in E as ->. cbn [option_map snd]. split.
    + intros [E|I]; [now injection E as ->|]. exfalso. apply W1. now apply (in_map fst) in I.
    + intros E. injection E as ->. now left.
  - rewrite <- IH by assumption. split; [intros [E2|I]; [|exact I]|intros I; now right]. injection E2 as -> ->. exfalso.
    assert (range_eqb l l = true) by now apply range_eqb_spec. congruence.
Qed.
Lemma merged_in : forall T H (plus : H -> H -> H) (r1 r2 : list (range * (H * T))) l h t,
  NoDup (map fst r1) -> NoDup (map fst r2) ->
  In (l, (h, t)) (spec_merge_rows plus r1 r2) <->
    (exists h1 h2 t2, In (l, (h1, t)) r1 /\ In (l, (h2, t2)) r2 /\ h = plus h1 h2) \/
    (In (l, (h, t)) r1 /\ ~ In l (map fst r2)) \/ (In (l, (h, t)) r2 /\ ~ In l (map fst r1)).
Proof.
  intros T H plus r1 r2 l h t W1 W2. unfold spec_merge_rows. rewrite in_app_iff, in_map_iff, filter_In. split.
  - intros [([l' [h1 t1]] & E & I)|[I F]].
    + cbn [fst snd] in E. destruct (lookup_row l' r2) as [[h2 t2]|] eqn:L.
      * injection E as <- <- <-. left. exists h1, h2, t2. split; [exact I|]. split; [|reflexivity]. now apply in_lookup.
      * injection E as <- <- <-. right. left. split; [exact I|]. now apply lookup_row_None.
    + right. right. split; [exact I|]. intros J. cbn [fst] in F. apply existsb_loc in J. now rewrite J in F.
  - intros [(h1 & h2 & t2 & I & J & ->)|[[I J]|[I J]]].
    + left. exists (l, (h1, t)). cbn [fst snd]. apply in_lookup in J; [|exact W2]. rewrite J. now split.
    + left. exists (l, (h, t)). cbn [fst snd]. apply lookup_row_None in J. rewrite J. now split.
    + right. split; [exact I|]. cbn [fst]. destruct (existsb _ r1) eqn:E; [|reflexivity]. exfalso. apply J. now apply existsb_loc.
Qed.
Lemma merged_left : forall T H (plus : H -> H -> H) (r1 r2 : list (range * (H * T))) l h t,
  NoDup (map fst r1) -> NoDup (map fst r2) -> In (l, (h, t)) r1 ->
  exists h' t', In (l, (h', t')) (spec_merge_rows plus r1 r2) /\ (h' = h \/ exists h2, h' = plus h h2).
Proof.
  intros T H plus r1 r2 l h t W1 W2 I. destruct (lookup_row l r2) as [[h2 t2]|] eqn:L.
  - exists (plus h h2), t. split; [|right; now exists h2]. apply merged_in; auto. left. exists h, h2, t2.
    split; [exact I|]. split; [|reflexivity]. now apply in_lookup.
  - exists h, t. split; [|now left]. apply merged_in; auto. right. left. split; [exact I|]. now apply lookup_row_None.
Qed.
Lemma merged_right : forall T H (plus : H -> H -> H) (r1 r2 : list (range * (H * T))) l h t,
  NoDup (map fst r1) -> NoDup (map fst r2) -> In (l, (h, t)) r2 ->
  exists h' t', In (l, (h', t')) (spec_merge_rows plus r1 r2) /\ (h' = h \/ exists h1, h' = plus h1 h).
Proof.
  intros T H plus r1 r2 l h t W1 W2 I. destruct (lookup_row l r1) as [[h1 t1]|] eqn:L.
  - exists (plus h1 h), t1. split; [|right; now exists h1]. apply merged_in; auto. left. exists h1, h, t.
    apply in_lookup in L; auto.
  - exists h, t. split; [|now left]. apply merged_in; auto. right. right. split; [exact I|]. now apply lookup_row_None.
Qed.
(** [M] holds the places of [A] and of [B], and a place is reached in [M] if and only if it is in one of them *)
Definition union {K} (A B M : list (K * N)) : Prop :=
  NoDup (map fst A) /\ NoDup (map fst B) /\ NoDup (map fst M) /\ grows A M /\ grows B M /\
  (forall k h, In (k, h) M -> exists h', (In (k, h') A \/ In (k, h') B) /\ (h <> 0 -> exists h'', (In (k, h'') A \/ In (k, h'') B) /\ h'' <> 0)).
Lemma union_counts : forall K (A B M : list (K * N)), union A B M ->
  (length A <= length M /\ length B <= length M /\ length M <= length A + length B)%nat /\
  reached A <= reached M /\ reached B <= reached M /\ reached M <= reached A + reached B.
Proof.
  intros K A B M (WA & WB & WM & GA & GB & U). destruct (grows_counts A M WA GA) as [A1 A2], (grows_counts B M WB GB) as [B1 B2].
  assert (X : (length M <= length A + length B)%nat).
  { rewrite <- (map_length fst A), <- (map_length fst B), <- (map_length fst M), <- app_length.
    apply NoDup_incl_length; [exact WM|]. intros k I. apply in_map_iff in I as ([k' h] & <- & I). destruct (U _ _ I) as (h' & J & _).
    rewrite in_app_iff. destruct J as [J|J]; apply (in_map fst) in J; auto. }
  assert (Y : reached M <= reached A + reached B).
  { unfold reached. enough (length (filter nz M) <= length (filter nz A) + length (filter nz B))%nat by lia.
    rewrite <- (map_length fst (filter nz A)), <- (map_length fst (filter nz B)), <- (map_length fst (filter nz M)), <- app_length.
    apply NoDup_incl_length; [now apply NoDup_map_filter|]. intros k I. apply in_map_iff in I as ([k' h] & <- & I).
    apply filter_In in I as [I Z]. unfold nz in Z. cbn [snd] in Z. destruct (N.eqb_spec h 0) as [|Hh]; [discriminate|].
    destruct (U _ _ I) as (_ & _ & P). destruct (P Hh) as (h2 & J & J2). rewrite in_app_iff.
    assert (Q : nz (k', h2) = true) by (unfold nz; cbn [snd]; destruct (N.eqb_spec h2 0); [contradiction|reflexivity]).
    destruct J as [J|J]; [left|right]; apply in_map_iff; exists (k', h2); (split; [reflexivity|]); apply filter_In; now split. }
  auto.
Qed.
Lemma flat_in : forall T (R : list (range * (N * T))) l h, In (l, h) (flat R) <-> exists t, In (l, (h, t)) R.
Proof.
  intros T R l h. unfold flat. rewrite in_map_iff. split.
  - intros ([l' [h' t]] & E & I). cbn in E. injection E as -> ->. now exists t.
  - intros (t & I). now exists (l, (h, t)).
Qed.
Lemma flat_locs : forall T (R : list (range * (N * T))), map fst (flat R) = map fst R.
Proof. intros T R. unfold flat. rewrite map_map. now apply map_ext. Qed.
Lemma flat_union : forall T (r1 r2 : list (range * (N * T))), NoDup (map fst r1) -> NoDup (map fst r2) ->
  union (flat r1) (flat r2) (flat (spec_merge_rows N.add r1 r2)).
Proof.
  intros T r1 r2 W1 W2. unfold union. rewrite !flat_locs. do 3 (split; [auto using spec_merge_rows_NoDup|]).
  split; [|split].
  - intros l h I. apply flat_in in I as (t & I). destruct (merged_left _ _ N.add r1 r2 l h t W1 W2 I) as (h' & t' & J & E).
    exists h'. split; [apply flat_in; now exists t'|]. destruct E as [->|(h2 & ->)]; lia.
  - intros l h I. apply flat_in in I as (t & I). destruct (merged_right _ _ N.add r1 r2 l h t W1 W2 I) as (h' & t' & J & E).
    exists h'. split; [apply flat_in; now exists t'|]. destruct E as [->|(h2 & ->)]; lia.
  - intros l h I. apply flat_in in I as (t & I). apply merged_in in I; auto.
    destruct I as [(h1 & h2 & t2 & I & J & ->)|[[I _]|[I _]]].
    + exists h1. split; [left; apply flat_in; now exists t|]. intros Z. destruct (N.eq_dec h1 0) as [->|]; [exists h2|exists h1].
      * split; [right; apply flat_in; now exists t2|lia].
      * split; [left; apply flat_in; now exists t|assumption].
    + exists h. split; [left; apply flat_in; now exists t|]. intros Z. exists h. split; [left; apply flat_in; now exists t|assumption].
    + exists h. split; [right; apply flat_in; now exists t|]. intros Z. exists h. split; [right; apply flat_in; now exists t|assumption].
Qed.
Lemma zip_plus_len : forall a b, length (zip_plus a b) = Nat.max (length a) (length b).
Proof. induction a as [|x a IH]; intros [|y b]; cbn; auto. Qed.
Lemma path_union : forall T (r1 r2 : list (range * (list N * T))), NoDup (map fst r1) -> NoDup (map fst r2) ->
  union (paths r1) (paths r2) (paths (spec_merge_rows zip_plus r1 r2)).
Proof.
  intros T r1 r2 W1 W2. unfold union. do 3 (split; [auto using paths_nodup, spec_merge_rows_NoDup|]).
  split; [|split].
  - intros [l j] h I. apply paths_in in I as (v & t & I & L & ->).
    destruct (merged_left _ _ zip_plus r1 r2 l v t W1 W2 I) as (v' & t' & J & E).
    exists (nth j v' 0). split.
    + apply paths_in. exists v', t'. split; [exact J|]. split; [|reflexivity].
      destruct E as [->|(h2 & ->)]; [exact L|]. rewrite zip_plus_len. lia.
    + destruct E as [->|(h2 & ->)]; [auto|]. rewrite zip_plus_nth. lia.
  - intros [l j] h I. apply paths_in in I as (v & t & I & L & ->).
    destruct (merged_right _ _ zip_plus r1 r2 l v t W1 W2 I) as (v' & t' & J & E).
    exists (nth j v' 0). split.
    + apply paths_in. exists v', t'. split; [exact J|]. split; [|reflexivity].
      destruct E as [->|(h2 & ->)]; [exact L|]. rewrite zip_plus_len. lia.
    + destruct E as [->|(h2 & ->)]; [auto|]. rewrite zip_plus_nth. lia.
  - intros [l j] h I. apply paths_in in I as (v & t & I & L & ->). apply merged_in in I; auto.
    destruct I as [(h1 & h2 & t2 & I & J & ->)|[[I _]|[I _]]].
    + rewrite zip_plus_len in L.
      assert (A : (j < length h1)%nat -> In ((l, j), nth j h1 0) (paths r1)) by (intros; apply paths_in; now exists h1, t).
      assert (B : (j < length h2)%nat -> In ((l, j), nth j h2 0) (paths r2)) by (intros; apply paths_in; now exists h2, t2).
      rewrite zip_plus_nth.
      assert (Z1 : (j >= length h1)%nat -> nth j h1 0 = 0) by (intros; now apply nth_overflow).
      assert (Z2 : (j >= length h2)%nat -> nth j h2 0 = 0) by (intros; now apply nth_overflow).
      destruct (Nat.lt_ge_cases j (length h1)) as [C1|C1].
      * exists (nth j h1 0). split; [auto|]. intros Z. destruct (N.eq_dec (nth j h1 0) 0) as [E|E]; [|exists (nth j h1 0); auto].
        exists (nth j h2 0). destruct (Nat.lt_ge_cases j (length h2)) as [C2|C2]; [split; [auto|lia]|specialize (Z2 C2); lia].
      * assert (C2 : (j < length h2)%nat) by lia. exists (nth j h2 0). split; [auto|]. intros Z. exists (nth j h2 0). specialize (Z1 C1).
        split; [auto|lia].
    + assert (A : In ((l, j), nth j v 0) (paths r1)) by (apply paths_in; now exists v, t).
      exists (nth j v 0). split; [now left|]. intros Z. exists (nth j v 0). auto.
    + assert (A : In ((l, j), nth j v 0) (paths r2)) by (apply paths_in; now exists v, t).
      exists (nth j v 0). split; [now right|]. intros Z. exists (nth j v 0). auto.
Qed.

(** ** Lines *)
Lemma maxN_nz : forall l, maxN l <> 0 <-> exists x, In x l /\ x <> 0.
Proof.
  intros l. split.
  - intros Z. destruct l as [|y l]; [now elim Z|]. exists (maxN (y :: l)). split; [apply maxN_in; discriminate|exact Z].
  - intros (x & I & Z). pose proof (maxN_ge l x I). lia.
Qed.
Lemma vals_in : forall (rs : list (N * N)) k v, In v (vals_of k rs) <-> In (k, v) rs.
Proof.
  intros rs k v. unfold vals_of. rewrite in_map_iff. split.
  - intros ([k' v'] & E & I). apply filter_In in I as [I F]. cbn in *. apply N.eqb_eq in F as <-. now subst.
  - intros I. exists (k, v). split; [reflexivity|]. apply filter_In. split; [exact I|]. apply N.eqb_refl.
Qed.
Definition line_of (fc : file_coverage) (l : N) : Prop := exists r, In r (stmt_rows fc) /\ line (rstart (fst r)) = l.
Definition line_hit (fc : file_coverage) (l : N) : Prop :=
  exists r, In r (stmt_rows fc) /\ line (rstart (fst r)) = l /\ fst (snd r) <> 0.
Lemma line_rows_in : forall fc l h, In (l, h) (line_rows fc) <-> exists r, In r (stmt_rows fc) /\ line (rstart (fst r)) = l /\ fst (snd r) = h.
Proof.
  intros fc l h. unfold line_rows. rewrite in_map_iff. split.
  - intros (r & E & I). injection E as <- <-. now exists r.
  - intros (r & I & <- & <-). now exists r.
Qed.
Lemma lines_in : forall fc l h, In (l, h) (spec_line_coverage fc) <-> line_of fc l /\ h = maxN (vals_of l (line_rows fc)).
Proof.
  intros fc l h. unfold spec_line_coverage, tab. rewrite in_map_iff. split.
  - intros (k & E & I). injection E as -> <-. split; [|reflexivity]. rewrite first_occ_in in I. apply in_map_iff in I as ([l' h'] & <- & I).
    apply line_rows_in in I as (r & I & E & _). now exists r.
  - intros ((r & I & E) & ->). exists l. split; [reflexivity|]. apply first_occ_in. apply in_map_iff. exists (l, fst (snd r)).
    split; [reflexivity|]. apply line_rows_in. now exists r.
Qed.
Lemma line_max : forall fc l, maxN (vals_of l (line_rows fc)) <> 0 <-> line_hit fc l.
Proof.
  intros fc l. rewrite maxN_nz. split.
  - intros (x & I & Z). apply vals_in, line_rows_in in I as (r & I & E & <-). now exists r.
  - intros (r & I & E & Z). exists (fst (snd r)). split; [|exact Z]. apply vals_in, line_rows_in. now exists r.
Qed.
Lemma lines_nodup : forall fc, NoDup (map fst (spec_line_coverage fc)).
Proof.
  intros fc. unfold spec_line_coverage, tab. rewrite map_map. cbn [fst]. rewrite map_id. apply first_occ_NoDup.
Qed.
Section Merged.
Variables a b r : file_coverage.
Hypothesis Ua : locs_unique a.
Hypothesis Ub : locs_unique b.
Hypothesis Hr : stmt_rows r = spec_merge_rows N.add (stmt_rows a) (stmt_rows b).
Lemma merged_line_of : forall l, line_of r l <-> line_of a l \/ line_of b l.
Proof.
  destruct Ua as (W1 & _), Ub as (W2 & _). intros l. unfold line_of. rewrite Hr. split.
  - intros ([p [h t]] & I & E). apply merged_in in I; auto. destruct I as [(h1 & h2 & t2 & I & _ & _)|[[I _]|[I _]]]; eauto.
  - intros [([p [h t]] & I & E)|([p [h t]] & I & E)].
    + destruct (merged_left _ _ N.add _ _ _ _ _ W1 W2 I) as (h' & t' & J & _). eauto.
    + destruct (merged_right _ _ N.add _ _ _ _ _ W1 W2 I) as (h' & t' & J & _). eauto.
Qed.
Lemma merged_line_hit : forall l, line_hit r l <-> line_hit a l \/ line_hit b l.
Proof.
  destruct Ua as (W1 & _), Ub as (W2 & _). intros l. unfold line_hit. rewrite Hr. split.
  - intros ([p [h t]] & I & E & Z). cbn [fst snd] in Z. apply merged_in in I; auto.
    destruct I as [(h1 & h2 & t2 & I & J & ->)|[[I _]|[I _]]]; [|left; eauto|right; eauto].
    destruct (N.eq_dec h1 0) as [->|Z1]; [right|left; eauto]. exists (p, (h2, t2)). cbn [fst snd]. auto.
  - intros [([p [h t]] & I & E & Z)|([p [h t]] & I & E & Z)]; cbn [fst snd] in Z.
    + destruct (merged_left _ _ N.add _ _ _ _ _ W1 W2 I) as (h' & t' & J & K). exists (p, (h', t')). split; [exact J|]. split; [exact E|].
      cbn [fst snd]. destruct K as [->|(h2 & ->)]; lia.
    + destruct (merged_right _ _ N.add _ _ _ _ _ W1 W2 I) as (h' & t' & J & K). exists (p, (h', t')). split; [exact J|]. split; [exact E|].
      cbn [fst snd]. destruct K as [->|(h2 & ->)]; lia.
Qed.
Lemma line_union : union (spec_line_coverage a) (spec_line_coverage b) (spec_line_coverage r).
Proof.
  unfold union. do 3 (split; [apply lines_nodup|]). split; [|split].
  - intros l h I. apply lines_in in I as (L & ->). eexists. split; [apply lines_in; split; [apply merged_line_of; now left|reflexivity]|].
    rewrite !line_max, merged_line_hit. auto.
  - intros l h I. apply lines_in in I as (L & ->). eexists. split; [apply lines_in; split; [apply merged_line_of; now right|reflexivity]|].
    rewrite !line_max, merged_line_hit. auto.
  - intros l h I. apply lines_in in I as (L & ->). apply merged_line_of in L as [L|L]; eexists; split.
    1: left; apply lines_in; split; [exact L|reflexivity].
    2: right; apply lines_in; split; [exact L|reflexivity].
    all: rewrite line_max, merged_line_hit; intros [K|K]; eexists; (split; [|apply line_max; exact K]); [left|right];
      apply lines_in; (split; [|reflexivity]); destruct K as (q & I & E & _); now exists q.
Qed.
End Merged.

(** ** Summaries *)
Definition figures : list (coverage_summary -> totals) := [cs_lines; cs_statements; cs_functions; cs_branches].
Definition few_paths (fc : file_coverage) : Prop := N.of_nat (length (concat (im_values (fc_b fc)))) < u32_mod.
Lemma summary_places : forall m fc, OxideMerge.plain fc -> few_paths fc -> exists s, to_summary m fc = Ok s /\
  cs_lines s = spec_totals (N.of_nat (length (spec_line_coverage fc))) (reached (spec_line_coverage fc)) /\
  cs_statements s = spec_totals (N.of_nat (length (flat (stmt_rows fc)))) (reached (flat (stmt_rows fc))) /\
  cs_functions s = spec_totals (N.of_nat (length (flat (fn_rows fc)))) (reached (flat (fn_rows fc))) /\
  cs_branches s = spec_totals (N.of_nat (length (paths (branch_rows fc)))) (reached (paths (branch_rows fc))).
Proof.
  intros m fc (_ & (T1 & T2 & T3) & _ & B) F. eexists. split.
  - apply to_summary_spec; [exact T1|exact F|]. rewrite B. discriminate.
  - cbn [cs_lines cs_statements cs_functions cs_branches].
    assert (L : forall A C (f : A -> C) (l : list A), length l = length (map f l)) by (intros; now rewrite map_length).
    split; [|split; [|split]]; f_equal.
    + unfold spec_line_coverage, tab. now rewrite map_length.
    + rewrite reached_values. unfold spec_line_coverage, tab, covered_count. rewrite map_map. cbn [snd]. f_equal.
      induction (first_occ (map fst (line_rows fc))) as [|x l IH]; [reflexivity|]. cbn [map filter]. destruct (negb _); cbn [length]; now rewrite IH.
    + unfold flat. rewrite map_length, (L _ _ (fun r => fst (snd r))). unfold stmt_rows. rewrite rows_hits by exact T1. unfold im_values. now rewrite map_length.
    + rewrite reached_flat. unfold stmt_rows. now rewrite rows_hits.
    + unfold flat. rewrite map_length, (L _ _ (fun r => fst (snd r))). unfold fn_rows. rewrite rows_hits by exact T2. unfold im_values. now rewrite map_length.
    + rewrite reached_flat. unfold fn_rows. now rewrite rows_hits.
    + rewrite (L _ _ snd), paths_values. unfold branch_rows. now rewrite rows_hits.
    + rewrite reached_values, paths_values. unfold branch_rows. now rewrite rows_hits.
Qed.
Lemma few_places : forall fc, tables_ok fc -> length (concat (im_values (fc_b fc))) = length (paths (branch_rows fc)).
Proof.
  intros fc (_ & _ & T3). rewrite <- (map_length snd (paths _)), paths_values. unfold branch_rows. now rewrite rows_hits.
Qed.
Lemma plain_merged : forall m a b r, OxideMerge.plain a -> OxideMerge.plain b -> merge_fits a b -> fc_merge m a b = Ok r ->
  OxideMerge.plain r /\ stmt_rows r = spec_merge_rows N.add (stmt_rows a) (stmt_rows b) /\
  fn_rows r = spec_merge_rows N.add (fn_rows a) (fn_rows b) /\ branch_rows r = spec_merge_rows zip_plus (branch_rows a) (branch_rows b).
Proof.
  intros m a b r (A1 & A2 & A3 & A4) (B1 & B2 & B3 & B4) F H.
  rewrite (merge_shape m a b A1 B1 A2 B2 A3 B3 F (or_introl A4)) in H. injection H as <-.
  destruct (spec_merge_rows_eq a b (fc_b_t a)) as (M1 & M2 & M3), (spec_merge_wf a b (fc_b_t a) A3 B3) as [X1 X2].
  split; [|auto]. split; [reflexivity|]. split; [exact X1|]. split; [exact X2|exact A4].
Qed.

(** The merged record has every figure of either record, at least as much of it covered, and nothing beyond the two. *)
Theorem merge_never_lowers : forall m a b r, OxideMerge.plain a -> OxideMerge.plain b -> merge_fits a b ->
  fc_merge m a b = Ok r -> few_paths r ->
  exists sa sb sr, to_summary m a = Ok sa /\ to_summary m b = Ok sb /\ to_summary m r = Ok sr /\
  forall f, In f figures ->
    t_covered (f sa) <= t_covered (f sr) /\ t_covered (f sb) <= t_covered (f sr) /\
    t_covered (f sr) <= t_covered (f sa) + t_covered (f sb) /\
    t_total (f sa) <= t_total (f sr) /\ t_total (f sb) <= t_total (f sr) /\ t_total (f sr) <= t_total (f sa) + t_total (f sb).
Proof.
  intros m a b r Pa Pb F H Fr. destruct (plain_merged m a b r Pa Pb F H) as (Pr & R1 & R2 & R3).
  pose proof Pa as (_ & Ta & (A1 & A2 & A3) & _). pose proof Pb as (_ & Tb & (B1 & B2 & B3) & _). pose proof Pr as (_ & Tr & _).
  pose proof (union_counts _ _ _ _ (flat_union _ _ _ A1 B1)) as US. rewrite <- R1 in US.
  pose proof (union_counts _ _ _ _ (flat_union _ _ _ A2 B2)) as UF. rewrite <- R2 in UF.
  pose proof (union_counts _ _ _ _ (path_union _ _ _ A3 B3)) as UB. rewrite <- R3 in UB.
  pose proof (union_counts _ _ _ _ (line_union a b r (conj A1 (conj A2 A3)) (conj B1 (conj B2 B3)) R1)) as UL.
  assert (Fa : few_paths a) by (unfold few_paths in *; rewrite few_places in * by assumption; lia).
  assert (Fb : few_paths b) by (unfold few_paths in *; rewrite few_places in * by assumption; lia).
  destruct (summary_places m a Pa Fa) as (sa & Ea & La & Sa & Na & Ba), (summary_places m b Pb Fb) as (sb & Eb & Lb & Sb & Nb & Bb),
    (summary_places m r Pr Fr) as (sr & Er & Lr & Sr & Nr & Br).
  exists sa, sb, sr. do 3 (split; [assumption|]). intros f I. unfold figures in I. cbn [In] in I.
  destruct I as [<-|[<-|[<-|[<-|[]]]]]; [rewrite La, Lb, Lr|rewrite Sa, Sb, Sr|rewrite Na, Nb, Nr|rewrite Ba, Bb, Br];
    cbn [spec_totals t_covered t_total]; lia.
Qed.

(** A line is uncovered in the merged record if and only if it has statements and is covered in neither. *)
Theorem merge_uncovered : forall m a b r la lb, OxideMerge.plain a -> OxideMerge.plain b -> merge_fits a b ->
  fc_merge m a b = Ok r -> get_uncovered_lines a = Ok la -> get_uncovered_lines b = Ok lb ->
  exists lr, get_uncovered_lines r = Ok lr /\ NoDup lr /\
  forall l, In l lr <-> (In l la /\ In l lb) \/ (In l la /\ ~ line_of b l) \/ (~ line_of a l /\ In l lb).
Proof.
  intros m a b r la lb Pa Pb F H Ha Hb. destruct (plain_merged m a b r Pa Pb F H) as (Pr & R1 & _).
  pose proof Pa as (_ & (Ta & _) & Ua & _). pose proof Pb as (_ & (Tb & _) & Ub & _). pose proof Pr as (_ & (Tr & _) & _).
  eexists. split; [now apply uncovered_spec|]. destruct (uncovered_iff r _ Tr (uncovered_spec r Tr)) as [W I]. split; [exact W|].
  destruct (uncovered_iff a la Ta Ha) as [_ Ia], (uncovered_iff b lb Tb Hb) as [_ Ib].
  assert (N : forall fc l, (forall q, In q (stmt_rows fc) -> line (rstart (fst q)) = l -> fst (snd q) = 0) <-> ~ line_hit fc l).
  { intros fc l. split.
    - intros X (q & J & E & Z). apply Z. now apply X.
    - intros X q J E. destruct (N.eq_dec (fst (snd q)) 0) as [|Z]; [assumption|]. elim X. now exists q. }
  intros l. rewrite I, Ia, Ib, !N. fold (line_of r l). fold (line_of a l). fold (line_of b l).
  rewrite (merged_line_of a b r Ua Ub R1), (merged_line_hit a b r Ua Ub R1).
  assert (D : forall fc, line_hit fc l -> line_of fc l) by (intros fc (q & J & E & _); now exists q).
  assert (Da := D a). assert (Db := D b).
  assert (X : forall fc, line_of fc l \/ ~ line_of fc l).
  { intros fc. destruct (in_dec N.eq_dec l (map (fun q => line (rstart (fst q))) (stmt_rows fc))) as [J|J].
    - left. apply in_map_iff in J as (q & E & J). now exists q.
    - right. intros (q & Q & E). apply J. apply in_map_iff. now exists q. }
  destruct (X a), (X b); tauto.
Qed.

(** [b] speaks of no place that [a] does not have. *)
Definition known (a b : file_coverage) : Prop :=
  (forall l, In l (map fst (stmt_rows b)) -> In l (map fst (stmt_rows a))) /\
  (forall l, In l (map fst (fn_rows b)) -> In l (map fst (fn_rows a))) /\
  (forall l v t, In (l, (v, t)) (branch_rows b) -> exists v' t', In (l, (v', t')) (branch_rows a) /\ (length v <= length v')%nat).
Lemma union_same : forall K (A B M : list (K * N)), union A B M -> (forall k h, In (k, h) B -> In k (map fst A)) -> length M = length A.
Proof.
  intros K A B M U E. destruct (union_counts _ _ _ _ U) as ((L & _) & _). destruct U as (_ & _ & WM & _ & _ & U).
  enough (length M <= length A)%nat by lia. rewrite <- (map_length fst A), <- (map_length fst M). apply NoDup_incl_length; [exact WM|].
  intros k I. apply in_map_iff in I as ([k' h] & <- & I). destruct (U _ _ I) as (h' & [J|J] & _); [now apply (in_map fst) in J|now apply (E _ h')].
Qed.
(** Two records with the same places, the second at least as much reached *)
Definition same_more (a r : file_coverage) : Prop :=
  (length (spec_line_coverage r) = length (spec_line_coverage a) /\ reached (spec_line_coverage a) <= reached (spec_line_coverage r)) /\
  (length (flat (stmt_rows r)) = length (flat (stmt_rows a)) /\ reached (flat (stmt_rows a)) <= reached (flat (stmt_rows r))) /\
  (length (flat (fn_rows r)) = length (flat (fn_rows a)) /\ reached (flat (fn_rows a)) <= reached (flat (fn_rows r))) /\
  (length (paths (branch_rows r)) = length (paths (branch_rows a)) /\ reached (paths (branch_rows a)) <= reached (paths (branch_rows r))).
Lemma percentages_grow : forall m a r, OxideMerge.plain a -> OxideMerge.plain r -> few_paths r -> same_more a r ->
  exists sa sr, to_summary m a = Ok sa /\ to_summary m r = Ok sr /\
  forall f, In f figures -> t_total (f sr) = t_total (f sa) /\ t_covered (f sa) <= t_covered (f sr) /\
  exists x y, t_pct (f sa) = PValue x /\ t_pct (f sr) = PValue y /\ (val32 x <= val32 y)%R.
Proof.
  intros m a r Pa Pr Fr ((UL & GL) & (US & GS) & (UF & GF) & (UB & GB)).
  pose proof Pa as (_ & Ta & _). pose proof Pr as (_ & Tr & _).
  assert (Fa : few_paths a) by (unfold few_paths in *; rewrite few_places in * by assumption; now rewrite <- UB).
  destruct (summary_places m a Pa Fa) as (sa & E1 & La & Sa & Na & Ba), (summary_places m r Pr Fr) as (sr & E2 & Lr & Sr & Nr & Br).
  exists sa, sr. do 2 (split; [assumption|]).
  assert (P : forall c1 c2 t, c1 <= c2 -> c2 <= t -> (val32 (percent c1 t) <= val32 (percent c2 t))%R).
  { intros c1 c2 t H1 H2. destruct (N.eq_dec t 0) as [->|]; [rewrite !percent_zero; apply Rle_refl|apply percent_monotone; lia]. }
  assert (Q : forall K (L : list (K * N)), reached L <= N.of_nat (length L)).
  { intros K L. unfold reached. pose proof (filter_length_le _ nz L). lia. }
  intros f I. unfold figures in I. cbn [In] in I.
  destruct I as [<-|[<-|[<-|[<-|[]]]]]; [rewrite La, Lr|rewrite Sa, Sr|rewrite Na, Nr|rewrite Ba, Br];
    cbn [spec_totals t_covered t_total t_pct]; [rewrite UL|rewrite US|rewrite UF|rewrite UB]; (split; [reflexivity|]); (split; [assumption|]);
    eexists _, _; (split; [reflexivity|]); (split; [reflexivity|]); apply P; try assumption;
    [rewrite <- UL|rewrite <- US|rewrite <- UF|rewrite <- UB]; apply Q.
Qed.
(** Then no percentage of [a] goes down by the merge. *)
Theorem merge_percentages : forall m a b r sa sr, OxideMerge.plain a -> OxideMerge.plain b -> merge_fits a b -> known a b ->
  fc_merge m a b = Ok r -> few_paths r -> to_summary m a = Ok sa -> to_summary m r = Ok sr ->
  forall f, In f figures -> t_total (f sr) = t_total (f sa) /\ t_covered (f sa) <= t_covered (f sr) /\
  exists x y, t_pct (f sa) = PValue x /\ t_pct (f sr) = PValue y /\ (val32 x <= val32 y)%R.
Proof.
  intros m a b r sa sr Pa Pb F (K1 & K2 & K3) H Fr Ha Hr.
  destruct (plain_merged m a b r Pa Pb F H) as (Pr & R1 & R2 & R3).
  pose proof Pa as (_ & Ta & (A1 & A2 & A3) & _). pose proof Pb as (_ & Tb & (B1 & B2 & B3) & _). pose proof Pr as (_ & Tr & _).
  assert (US : length (flat (stmt_rows r)) = length (flat (stmt_rows a))).
  { rewrite R1. eapply union_same; [now apply flat_union|]. intros k h I. rewrite flat_locs. apply K1. rewrite <- flat_locs. now apply (in_map fst) in I. }
  assert (UF : length (flat (fn_rows r)) = length (flat (fn_rows a))).
  { rewrite R2. eapply union_same; [now apply flat_union|]. intros k h I. rewrite flat_locs. apply K2. rewrite <- flat_locs. now apply (in_map fst) in I. }
  assert (UB : length (paths (branch_rows r)) = length (paths (branch_rows a))).
  { rewrite R3. eapply union_same; [now apply path_union|]. intros [l j] h I. apply paths_in in I as (v & t & I & L & _).
    destruct (K3 _ _ _ I) as (v' & t' & J & L2). apply in_map_iff. exists ((l, j), nth j v' 0). split; [reflexivity|].
    apply paths_in. exists v', t'. split; [exact J|]. split; [lia|reflexivity]. }
  assert (UL : length (spec_line_coverage r) = length (spec_line_coverage a)).
  { eapply union_same; [apply (line_union a b r); [now split|now split|exact R1]|]. intros l h I. apply lines_in in I as ((q & I & E) & _).
    apply (in_map fst) in I. apply K1 in I. apply in_map_iff in I as (q' & E' & I). rewrite <- E'  in E. apply in_map_iff.
    exists (l, maxN (vals_of l (line_rows a))). split; [reflexivity|]. apply lines_in. split; [now exists q'|reflexivity]. }
  destruct (percentages_grow m a r Pa Pr Fr) as (s1 & s2 & E1 & E2 & G).
  - split; [split; [exact UL|]|]. { eapply grows_counts; [apply lines_nodup|]. apply (line_union a b r); [now split|now split|exact R1]. }
    split; [split; [exact US|]|]. { rewrite R1. eapply grows_counts; [now rewrite flat_locs|]. now apply flat_union. }
    split; [split; [exact UF|]|]. { rewrite R2. eapply grows_counts; [now rewrite flat_locs|]. now apply flat_union. }
    split; [exact UB|]. rewrite R3. eapply grows_counts; [now apply paths_nodup|]. now apply path_union.
  - rewrite E1 in Ha. injection Ha as <-. rewrite E2 in Hr. injection Hr as <-. exact G.
Qed.

(** ** Examples *)
(** Two runs of [if (c) {\n a(); \n} else { b(); }] taking either side *)
Definition side (x y : N) : file_coverage :=
  mkFC false "f.js" [(0, range_new 1 0 3 13); (1, range_new 2 1 2 5); (2, range_new 3 9 3 13)] []
    [(0, mkBranch (Some (range_new 1 0 3 13)) BIf [range_new 1 0 3 13; range_new 1 0 3 13] (Some 1))]
    [(0, x + y); (1, x); (2, y)] [] [(0, [x; y])] None None.
Lemma side_plain : forall x y, OxideMerge.plain (side x y).
Proof. intros x y. repeat split; try solve_table; try solve_nodup. Qed.
Lemma side_fits : merge_fits (side 2 0) (side 0 1).
Proof. apply fits_by_totals; vm_compute; reflexivity. Qed.
Example growth_ex : known (side 2 0) (side 0 1) /\
  exists r sa sr, fc_merge Debug (side 2 0) (side 0 1) = Ok r /\ few_paths r /\
  to_summary Debug (side 2 0) = Ok sa /\ to_summary Debug r = Ok sr /\
  map (fun f => (t_covered (f sa), t_total (f sa))) figures = [(2, 3); (2, 3); (0, 0); (1, 2)] /\
  map (fun f => (t_covered (f sr), t_total (f sr))) figures = [(3, 3); (3, 3); (0, 0); (2, 2)] /\
  get_uncovered_lines (side 2 0) = Ok [3] /\ get_uncovered_lines r = Ok [].
Proof.
  split.
  - split; [|split]; cbn; auto. intros l v t [E|[]]. injection E as <- <- <-. eexists _, _. split; [left; reflexivity|]. cbn. lia.
  - eexists _, _, _. split; [vm_compute; reflexivity|]. split; [vm_compute; reflexivity|]. split; [vm_compute; reflexivity|].
    split; [vm_compute; reflexivity|]. repeat split; vm_compute; reflexivity.
Qed.
(** Merging the record of another version of the file may lower a percentage. *)
Theorem percentage_lowered_refuted : exists a b r sa sr, OxideMerge.plain a /\ OxideMerge.plain b /\ merge_fits a b /\
  fc_merge Debug a b = Ok r /\ few_paths r /\ to_summary Debug a = Ok sa /\ to_summary Debug r = Ok sr /\
  exists x y, t_pct (cs_statements sa) = PValue x /\ t_pct (cs_statements sr) = PValue y /\ (val32 y < val32 x)%R.
Proof.
  set (one := fun l n => mkFC false "f.js" [(0, range_new l 0 l 4)] [] [] [(0, n)] [] [] None None).
  assert (P : forall l n, OxideMerge.plain (one l n)) by (intros l n; repeat split; try solve_table; try solve_nodup).
  assert (F : merge_fits (one 1 1) (one 2 0)) by (apply fits_by_totals; vm_compute; reflexivity).
  destruct (fc_merge Debug (one 1 1) (one 2 0)) as [r| |] eqn:E; [|vm_compute in E; discriminate..].
  destruct (to_summary Debug (one 1 1)) as [sa| |] eqn:Ea; [|vm_compute in Ea; discriminate..].
  destruct (to_summary Debug r) as [sr| |] eqn:Er; [|vm_compute in E; injection E as <-; vm_compute in Er; discriminate..].
  exists (one 1 1), (one 2 0), r, sa, sr. do 4 (split; [auto|]). split; [vm_compute in E; injection E as <-; vm_compute; reflexivity|].
  split; [exact Ea|]. split; [exact Er|]. exists (percent 1 1), (percent 1 2). split; [|split].
  - vm_compute in Ea. injection Ea as <-. vm_compute. reflexivity.
  - vm_compute in E. injection E as <-. vm_compute in Er. injection Er as <-. vm_compute. reflexivity.
  - eapply Rlt_trans; [apply percent_lt_100; lia|]. rewrite (proj2 (percent_100_iff 1 1 ltac:(lia) ltac:(lia)) eq_refl). Lra.lra.
Qed.
