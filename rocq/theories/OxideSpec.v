(** Specification vocabulary for coverage records, independent of the merge
    algorithm: which hits does a record report for a source location? *)
From Coq Require Import NArith String List Bool Lia.
Import ListNotations.
From Verif Require Import Base IndexMap Oxide.
Open Scope N_scope.

Definition loc_eqb (a b : location) : bool := (line a =? line b) && (column a =? column b).
Definition range_eqb (a b : range) : bool :=
  loc_eqb (rstart a) (rstart b) && loc_eqb (rend a) (rend b).

Lemma range_eqb_spec : forall a b, range_eqb a b = true <-> a = b.
Proof.
  intros [[a1 a2] [a3 a4]] [[b1 b2] [b3 b4]]. unfold range_eqb, loc_eqb; simpl.
  rewrite !andb_true_iff, !N.eqb_eq. split.
  - intros [[? ?] [? ?]]; subst; auto.
  - intros H; inversion H; auto.
Qed.
#[global] Instance EqB_range : EqB range := {| eqb := range_eqb; eqb_spec := range_eqb_spec |}.

(** The (location, hits, metadata) rows of a table pair, in counter order; rows whose
    metadata or location is missing are skipped. *)
Definition rows {T H} (loc : T -> option range) (hits : imap N H) (mp : imap N T)
  : list (range * (H * T)) :=
  flat_map (fun kh =>
    match im_get (fst kh) mp with
    | Some t => match loc t with Some r => [(r, (snd kh, t))] | None => [] end
    | None => []
    end) hits.

Definition fn_loc (f : func) : option range := Some (f_loc f).
Definition stmt_loc (r : range) : option range := Some r.
Definition br_loc (b : branch) : option range := hd_error (b_locations b).

Definition stmt_rows (fc : file_coverage) := rows stmt_loc (fc_s fc) (fc_statement_map fc).
Definition fn_rows (fc : file_coverage) := rows fn_loc (fc_f fc) (fc_fn_map fc).
Definition branch_rows (fc : file_coverage) := rows br_loc (fc_b fc) (fc_branch_map fc).

(** Total of [val] over the rows of location [l]. *)
Definition hits_at {T H} (val : H -> N) (rs : list (range * (H * T))) (l : range) : N :=
  sumN (map (fun r => val (fst (snd r))) (filter (fun r => range_eqb (fst r) l) rs)).

(** What a record reports for a location. *)
Definition stmt_hits (fc : file_coverage) (l : range) : N := hits_at (fun h => h) (stmt_rows fc) l.
Definition fn_hits (fc : file_coverage) (l : range) : N := hits_at (fun h => h) (fn_rows fc) l.
Definition path_hits (fc : file_coverage) (l : range) (j : nat) : N :=
  hits_at (fun v => nth j v 0) (branch_rows fc) l.

(** Every counter has metadata with a location. *)
Definition table_ok {T H} (loc : T -> option range) (hits : imap N H) (mp : imap N T) : Prop :=
  forall k, In k (im_keys hits) -> exists t r, im_get k mp = Some t /\ loc t = Some r.

Definition tables_ok (fc : file_coverage) : Prop :=
  table_ok stmt_loc (fc_s fc) (fc_statement_map fc) /\
  table_ok fn_loc (fc_f fc) (fc_fn_map fc) /\
  table_ok br_loc (fc_b fc) (fc_branch_map fc).

(** No location is listed twice. *)
Definition locs_unique (fc : file_coverage) : Prop :=
  NoDup (map fst (stmt_rows fc)) /\ NoDup (map fst (fn_rows fc)) /\
  NoDup (map fst (branch_rows fc)).

(** Merged rows: the first table's rows with the second table's hits of the same
    location added, then the second table's rows for locations the first lacks. *)
Definition lookup_row {T H} (l : range) (rs : list (range * (H * T))) : option (H * T) :=
  option_map snd (find (fun r => range_eqb (fst r) l) rs).

Definition spec_merge_rows {T H} (plus : H -> H -> H) (r1 r2 : list (range * (H * T)))
  : list (range * (H * T)) :=
  map (fun r => match lookup_row (fst r) r2 with
                | Some (h2, _) => (fst r, (plus (fst (snd r)) h2, snd (snd r)))
                | None => r
                end) r1
  ++ filter (fun r => negb (existsb (fun q => range_eqb (fst q) (fst r)) r1)) r2.

(** Pointwise sum of path counters, the longer array wins. *)
Fixpoint zip_plus (a b : list N) : list N :=
  match a, b with
  | [], _ => b
  | _, [] => a
  | x :: a', y :: b' => (x + y) :: zip_plus a' b'
  end.

(** All sums of hits of equal locations fit in a u32. *)
Definition sums_fit {T H} (val : H -> N) (r1 r2 : list (range * (H * T))) : Prop :=
  forall l, hits_at val r1 l + hits_at val r2 l < u32_mod.

Definition merge_fits (a b : file_coverage) : Prop :=
  sums_fit (fun h => h) (stmt_rows a) (stmt_rows b) /\
  sums_fit (fun h => h) (fn_rows a) (fn_rows b) /\
  (forall j, sums_fit (fun v => nth j v 0) (branch_rows a) (branch_rows b)).
