(** Registration histories: what any sequence of calls on a fresh [SourceCoverage]
    yields, and what [freeze] does to it (C17-C19). *)
From Coq Require Import NArith String List Bool Lia PeanoNat Permutation.
Import ListNotations.
From Verif Require Import Base IndexMap Decimal Oxide SourceCov.
Open Scope N_scope.

(** ** Specification vocabulary *)

(** One call of the public API; [is_report_logic] as passed by the caller. *)
Inductive call :=
| CStmt (loc : range)
| CFn (name : option string) (decl loc : range)
| CBranch (t : branch_type) (loc : range) (is_report_logic : bool)
| CPath (branch : N) (loc : range)
| CSourceMap (sm : option source_map).

Definition do_call (c : call) (sc : source_cov) : res (source_cov * option N) :=
  match c with
  | CStmt l => let (sc', i) := new_statement l sc in Ok (sc', Some i)
  | CFn n d l => let (sc', i) := new_function n d l sc in Ok (sc', Some i)
  | CBranch t l rl => let (sc', i) := new_branch t l rl sc in Ok (sc', Some i)
  | CPath b l => let* (sc', i) := add_branch_path b l sc in Ok (sc', Some i)
  | CSourceMap m => Ok (set_input_source_map m sc, None)
  end.

Definition do_calls (cs : list call) (sc : source_cov) : res (source_cov * list (option N)) :=
  fold_res (fun st c => let* (sc', r) := do_call c (fst st) in Ok (sc', snd st ++ [r])%list)
    (sc, []) cs.

(** What was registered, read off the history. *)
Definition stmts_of (cs : list call) : list range :=
  flat_map (fun c => match c with CStmt l => [l] | _ => [] end) cs.
Definition fns_of (cs : list call) : list (option string * range * range) :=
  flat_map (fun c => match c with CFn n d l => [(n, d, l)] | _ => [] end) cs.
Definition branches_of (cs : list call) : list (branch_type * range * bool) :=
  flat_map (fun c => match c with CBranch t l rl => [(t, l, rl)] | _ => [] end) cs.
Definition paths_of (b : N) (cs : list call) : list range :=
  flat_map (fun c => match c with CPath b' l => if b' =? b then [l] else [] | _ => [] end) cs.
Definition source_map_of (cs : list call) : option source_map :=
  fold_left (fun m c => match c with CSourceMap m' => m' | _ => m end) cs None.

(** A path may only be added to a branch registered earlier. *)
Fixpoint calls_valid_from (n : N) (cs : list call) : bool :=
  match cs with
  | [] => true
  | CPath b _ :: cs' => (b <? n) && calls_valid_from n cs'
  | CBranch _ _ _ :: cs' => calls_valid_from (n + 1) cs'
  | _ :: cs' => calls_valid_from n cs'
  end.
Definition calls_valid := calls_valid_from 0.

Definition zeros {A} (l : list A) : list N := map (fun _ => 0) l.

(** Does a branch get truthiness counters? *)
Definition truthy_branch (x : branch_type * range * bool) : bool :=
  match x with (BinaryExpr, _, true) => true | _ => false end.

(** The record the history describes. *)
Definition spec_record (path : string) (report_logic : bool) (cs : list call) : file_coverage :=
  mkFC false path
    (number_from 0 (stmts_of cs))
    (map (fun x => match x with (i, (n, d, l)) =>
            (i, mkFunc (match n with Some s => s
                        | None => ("(anonymous_" ++ dec i ++ ")")%string end)
                       d l (line (rstart l))) end)
         (number_from 0 (fns_of cs)))
    (map (fun x => match x with (i, (t, l, _)) =>
            (i, mkBranch (Some l) t (paths_of i cs) (Some (line (rstart l)))) end)
         (number_from 0 (branches_of cs)))
    (number_from 0 (zeros (stmts_of cs)))
    (number_from 0 (zeros (fns_of cs)))
    (map (fun x => (fst x, zeros (paths_of (fst x) cs))) (number_from 0 (branches_of cs)))
    (if report_logic || existsb truthy_branch (branches_of cs) then
       Some (map (fun x => (fst x, zeros (paths_of (fst x) cs)))
                 (filter (fun x => truthy_branch (snd x)) (number_from 0 (branches_of cs))))
     else None)
    (source_map_of cs).

Definition lenN {A} (l : list A) : N := N.of_nat (length l).

Definition spec_state (path : string) (rl : bool) (cs : list call) : source_cov :=
  mkSC (spec_record path rl cs) (lenN (stmts_of cs)) (lenN (fns_of cs)) (lenN (branches_of cs)).

(** The value returned by call [c] made after the history [pre]. *)
Definition spec_return (pre : list call) (c : call) : option N :=
  match c with
  | CStmt _ => Some (lenN (stmts_of pre))
  | CFn _ _ _ => Some (lenN (fns_of pre))
  | CBranch _ _ _ => Some (lenN (branches_of pre))
  | CPath b _ => Some (lenN (paths_of b pre))
  | CSourceMap _ => None
  end.

Fixpoint spec_returns (pre : list call) (cs : list call) : list (option N) :=
  match cs with
  | [] => []
  | c :: cs' => spec_return pre c :: spec_returns (pre ++ [c]) cs'
  end.

(** ** Proofs *)

Lemma fresh_key : forall A B (f : N -> A -> B) (l : list A),
  ~ In (lenN l) (im_keys (map (fun x => (fst x, f (fst x) (snd x))) (number_from 0 l))).
Proof.
  intros A B f l H. unfold im_keys in H. rewrite map_map in H.
  apply in_map_iff in H as [[i x] [He Hi]]. simpl in He. subst i.
  apply in_number_from in Hi. simpl in Hi. unfold lenN in Hi. lia.
Qed.

Lemma fresh_key_raw : forall A (l : list A), ~ In (lenN l) (im_keys (number_from 0 l)).
Proof.
  intros A l H. unfold im_keys in H. apply in_map_iff in H as [[i x] [He Hi]].
  simpl in He; subst i. apply in_number_from in Hi. simpl in Hi. unfold lenN in Hi. lia.
Qed.

Lemma number_from_snoc : forall A (l : list A) x,
  number_from 0 (l ++ [x]) = (number_from 0 l ++ [(lenN l, x)])%list.
Proof. intros. rewrite number_from_app. simpl. unfold lenN. do 3 f_equal. Qed.

Lemma calls_valid_app : forall cs1 cs2 n,
  calls_valid_from n (cs1 ++ cs2) =
  calls_valid_from n cs1 && calls_valid_from (n + lenN (branches_of cs1)) cs2.
Proof.
  induction cs1 as [|c cs1 IH]; intros cs2 n.
  - simpl. unfold lenN; simpl. now rewrite N.add_0_r.
  - destruct c; simpl; rewrite ?IH; auto.
    + unfold lenN; simpl length. do 2 f_equal. lia.
    + now rewrite andb_assoc.
Qed.

Lemma calls_valid_bound : forall cs b n, calls_valid_from n cs = true ->
  n + lenN (branches_of cs) <= b -> paths_of b cs = [].
Proof.
  induction cs as [|c cs IH]; intros b n Hv Hb; [reflexivity|].
  destruct c as [l|n0 d l|t l rl|b' l|m]; simpl in *;
    try (now apply (IH b n)).
  - apply (IH b (n + 1)); [assumption|]. unfold lenN in *; simpl length in Hb. lia.
  - apply andb_true_iff in Hv as [Hl Hv]. rewrite (IH b n Hv Hb).
    apply N.ltb_lt in Hl. destruct (N.eqb_spec b' b); [unfold lenN in *; lia|reflexivity].
Qed.

Lemma im_update_map : forall A B (g : N -> A -> B) (f : B -> B) (l : list (N * A)) k,
  NoDup (map fst l) ->
  im_update k f (map (fun x => (fst x, g (fst x) (snd x))) l) =
  map (fun x => (fst x, if fst x =? k then f (g (fst x) (snd x)) else g (fst x) (snd x))) l.
Proof.
  induction l as [|[i a] l IH]; intros k Hnd; [reflexivity|].
  inversion Hnd; subst. simpl.
  destruct (N.eqb_spec k i) as [->|Hne]; simpl.
  - rewrite N.eqb_refl. f_equal. apply map_ext_in. intros [j b] Hj. simpl.
    destruct (N.eqb_spec j i) as [->|]; [|reflexivity].
    exfalso. apply H1. apply (in_map fst) in Hj. exact Hj.
  - destruct (N.eqb_spec i k); [congruence|]. f_equal. now apply IH.
Qed.

Lemma NoDup_filter_fst : forall A (p : N * A -> bool) l,
  NoDup (map fst l) -> NoDup (map fst (filter p l)).
Proof.
  induction l as [|x l IH]; intros H; simpl; [assumption|].
  inversion H; subst. destruct (p x); simpl; auto. constructor; auto.
  intros Hin. apply H2. apply in_map_iff in Hin as [y [He Hy]].
  apply filter_In in Hy as [Hy _]. rewrite <- He. now apply in_map.
Qed.

Lemma zeros_snoc : forall A (l : list A) x, zeros (l ++ [x]) = (zeros l ++ [0])%list.
Proof. intros. unfold zeros. now rewrite map_app. Qed.

Lemma zeros_length : forall A (l : list A), length (zeros l) = length l.
Proof. intros. apply map_length. Qed.

Lemma flat_map_snoc : forall A B (f : A -> list B) l x,
  flat_map f (l ++ [x]) = (flat_map f l ++ f x)%list.
Proof. intros. rewrite flat_map_app. simpl. now rewrite app_nil_r. Qed.

Ltac snoc_of := unfold stmts_of, fns_of, branches_of, paths_of; rewrite !flat_map_snoc;
  fold stmts_of fns_of branches_of.

Lemma source_map_snoc : forall cs c, source_map_of (cs ++ [c]) =
  match c with CSourceMap m => m | _ => source_map_of cs end.
Proof. intros. unfold source_map_of. rewrite fold_left_app. destruct c; reflexivity. Qed.

Lemma paths_snoc : forall b cs c, paths_of b (cs ++ [c]) =
  (paths_of b cs ++ match c with CPath b' l => if b' =? b then [l] else [] | _ => [] end)%list.
Proof. intros. unfold paths_of. now rewrite flat_map_snoc. Qed.
Lemma stmts_snoc : forall cs c, stmts_of (cs ++ [c]) =
  (stmts_of cs ++ match c with CStmt l => [l] | _ => [] end)%list.
Proof. intros. unfold stmts_of. now rewrite flat_map_snoc. Qed.
Lemma fns_snoc : forall cs c, fns_of (cs ++ [c]) =
  (fns_of cs ++ match c with CFn n d l => [(n, d, l)] | _ => [] end)%list.
Proof. intros. unfold fns_of. now rewrite flat_map_snoc. Qed.
Lemma branches_snoc : forall cs c, branches_of (cs ++ [c]) =
  (branches_of cs ++ match c with CBranch t l rl => [(t, l, rl)] | _ => [] end)%list.
Proof. intros. unfold branches_of. now rewrite flat_map_snoc. Qed.

Definition bm_entry (cs : list call) (i : N) (x : branch_type * range * bool) : branch :=
  mkBranch (Some (snd (fst x))) (fst (fst x)) (paths_of i cs) (Some (line (rstart (snd (fst x))))).
Definition fn_entry (i : N) (x : option string * range * range) : func :=
  mkFunc (fn_name_or_anonymous (fst (fst x)) i) (snd (fst x)) (snd x) (line (rstart (snd x))).

Definition spec_bm (cs : list call) : branch_map :=
  map (fun x => (fst x, bm_entry cs (fst x) (snd x))) (number_from 0 (branches_of cs)).
Definition spec_b (cs : list call) : branch_hit_map :=
  map (fun x => (fst x, zeros (paths_of (fst x) cs))) (number_from 0 (branches_of cs)).
Definition spec_bt_rows (cs : list call) : branch_hit_map :=
  map (fun x => (fst x, zeros (paths_of (fst x) cs)))
      (filter (fun x => truthy_branch (snd x)) (number_from 0 (branches_of cs))).
Definition spec_bt (rl : bool) (cs : list call) : option branch_hit_map :=
  if rl || existsb truthy_branch (branches_of cs) then Some (spec_bt_rows cs) else None.
Definition spec_fm (cs : list call) : function_map :=
  map (fun x => (fst x, fn_entry (fst x) (snd x))) (number_from 0 (fns_of cs)).

Lemma spec_record_alt : forall p rl cs, spec_record p rl cs =
  mkFC false p (number_from 0 (stmts_of cs)) (spec_fm cs) (spec_bm cs)
    (number_from 0 (zeros (stmts_of cs))) (number_from 0 (zeros (fns_of cs)))
    (spec_b cs) (spec_bt rl cs) (source_map_of cs).
Proof.
  intros. unfold spec_record, spec_fm, spec_bm, spec_b, spec_bt, spec_bt_rows. f_equal.
  - apply map_ext. intros [i [[n d] l]]. reflexivity.
  - apply map_ext. intros [i [[t l] b]]. reflexivity.
Qed.

Lemma no_truthy_rows : forall cs, existsb truthy_branch (branches_of cs) = false ->
  spec_bt_rows cs = [].
Proof.
  intros cs H. unfold spec_bt_rows.
  assert (filter (fun x : N * (branch_type * range * bool) => truthy_branch (snd x))
            (number_from 0 (branches_of cs)) = []) as ->; [|reflexivity].
  generalize 0 as i. induction (branches_of cs) as [|x l IH]; intros i; simpl in *; [reflexivity|].
  apply orb_false_iff in H as [Hx Hl]. rewrite Hx. now apply IH.
Qed.

Lemma existsb_snoc : forall A (p : A -> bool) l x, existsb p (l ++ [x]) = existsb p l || p x.
Proof. intros. rewrite existsb_app. simpl. now rewrite orb_false_r. Qed.

(** Registering a branch (no paths yet). *)
Lemma spec_rows_new_branch : forall cs t l rl, calls_valid cs = true ->
  let cs' := (cs ++ [CBranch t l rl])%list in
  let n := lenN (branches_of cs) in
  spec_bm cs' = (spec_bm cs ++ [(n, mkBranch (Some l) t [] (Some (line (rstart l))))])%list /\
  spec_b cs' = (spec_b cs ++ [(n, [])])%list /\
  spec_bt_rows cs' = (spec_bt_rows cs ++
    if truthy_branch (t, l, rl) then [(n, [])] else [])%list.
Proof.
  intros cs t l rl Hv cs' n.
  assert (Hp : forall i, paths_of i cs' = paths_of i cs).
  { intros i. unfold cs'. rewrite paths_snoc. apply app_nil_r. }
  assert (Hn : paths_of n cs = []) by (apply (calls_valid_bound cs n 0 Hv); unfold n; lia).
  assert (Hb : branches_of cs' = (branches_of cs ++ [(t, l, rl)])%list)
    by (unfold cs'; now rewrite branches_snoc).
  unfold spec_bm, spec_b, spec_bt_rows. rewrite Hb, number_from_snoc. fold n.
  rewrite filter_app, !map_app. repeat split; f_equal.
  - apply map_ext. intros [i x]. unfold bm_entry; simpl. now rewrite Hp.
  - simpl. unfold bm_entry; simpl. now rewrite Hp, Hn.
  - apply map_ext. intros [i x]. simpl. now rewrite Hp.
  - simpl. now rewrite Hp, Hn.
  - apply map_ext. intros [i x]. simpl. now rewrite Hp.
  - cbn [filter snd]. destruct (truthy_branch (t, l, rl)); [|reflexivity].
    simpl. now rewrite Hp, Hn.
Qed.

(** Adding a path. *)
Lemma spec_rows_new_path : forall cs b l,
  let cs' := (cs ++ [CPath b l])%list in
  spec_bm cs' = im_update b (push_location l) (spec_bm cs) /\
  spec_b cs' = im_update b (fun c => c ++ [0])%list (spec_b cs) /\
  spec_bt_rows cs' = im_update b (fun c => c ++ [0])%list (spec_bt_rows cs).
Proof.
  intros cs b l cs'.
  assert (Hb : branches_of cs' = branches_of cs)
    by (unfold cs'; rewrite branches_snoc; apply app_nil_r).
  assert (Hp : forall i, paths_of i cs' = (paths_of i cs ++ if i =? b then [l] else [])%list).
  { intros i. unfold cs'. rewrite paths_snoc. now rewrite (N.eqb_sym b i). }
  unfold spec_bm, spec_b, spec_bt_rows. rewrite Hb.
  rewrite (im_update_map _ _ (bm_entry cs)) by apply number_from_NoDup.
  rewrite (im_update_map _ _ (fun i _ => zeros (paths_of i cs))) by apply number_from_NoDup.
  rewrite (im_update_map _ _ (fun i _ => zeros (paths_of i cs)))
    by (apply NoDup_filter_fst, number_from_NoDup).
  repeat split; apply map_ext; intros [i x]; simpl; unfold bm_entry; rewrite Hp;
    destruct (N.eqb_spec i b); rewrite ?app_nil_r, ?zeros_snoc; reflexivity.
Qed.

Lemma spec_rows_other : forall cs c,
  match c with CBranch _ _ _ | CPath _ _ => False | _ => True end ->
  let cs' := (cs ++ [c])%list in
  spec_bm cs' = spec_bm cs /\ spec_b cs' = spec_b cs /\ spec_bt_rows cs' = spec_bt_rows cs /\
  branches_of cs' = branches_of cs.
Proof.
  intros cs c Hc cs'.
  assert (Hb : branches_of cs' = branches_of cs)
    by (unfold cs'; rewrite branches_snoc; destruct c; try contradiction; apply app_nil_r).
  assert (Hp : forall i, paths_of i cs' = paths_of i cs).
  { intros i. unfold cs'. rewrite paths_snoc. destruct c; try contradiction; apply app_nil_r. }
  unfold spec_bm, spec_b, spec_bt_rows. rewrite Hb. repeat split;
    apply map_ext; intros [i x]; unfold bm_entry; simpl; now rewrite Hp.
Qed.

Lemma spec_b_get : forall cs b,
  im_get b (spec_b cs) =
  if b <? lenN (branches_of cs) then Some (zeros (paths_of b cs)) else None.
Proof.
  intros cs b. unfold spec_b.
  destruct (N.ltb_spec b (lenN (branches_of cs))) as [Hl|Hl].
  - apply im_in_get.
    + unfold im_wf, im_keys. rewrite map_map. apply number_from_NoDup.
    + destruct (nth_error (branches_of cs) (N.to_nat b)) as [x|] eqn:Hx.
      * apply in_map_iff. exists (b, x). split; [reflexivity|].
        pose proof (im_get_number_from _ (branches_of cs) 0 b) as G.
        rewrite N.sub_0_r in G. rewrite Hx in G. apply im_get_in. rewrite G.
        destruct (N.leb_spec 0 b); [reflexivity|lia].
      * apply nth_error_None in Hx. unfold lenN in Hl. lia.
  - apply im_get_None. intros Hin. unfold im_keys in Hin. rewrite map_map in Hin.
    apply in_map_iff in Hin as [[i x] [He Hi]]. simpl in He. subst i.
    apply in_number_from in Hi. simpl in Hi. unfold lenN in Hl. lia.
Qed.

Lemma spec_bm_get : forall cs b,
  im_get b (spec_bm cs) = None <-> lenN (branches_of cs) <= b.
Proof.
  intros cs b. rewrite im_get_None. unfold spec_bm, im_keys. rewrite map_map.
  rewrite (map_ext _ fst) by reflexivity. rewrite number_from_fst. split; intros H.
  - destruct (N.ltb_spec b (lenN (branches_of cs))) as [Hl|]; [|assumption].
    exfalso. apply H. apply in_map_iff. exists (N.to_nat b). split; [lia|].
    apply in_seq. unfold lenN in Hl. lia.
  - intros Hin. apply in_map_iff in Hin as [i [He Hi]]. apply in_seq in Hi.
    unfold lenN in H. lia.
Qed.

Lemma existsb_truthy_path : forall cs c,
  match c with CBranch _ _ _ => False | _ => True end ->
  existsb truthy_branch (branches_of (cs ++ [c])) = existsb truthy_branch (branches_of cs).
Proof. intros cs c Hc. rewrite branches_snoc. destruct c; try contradiction; now rewrite app_nil_r. Qed.

Lemma im_insert_zero_snoc : forall A (l : list A) (x : A),
  im_insert (lenN l) 0 (number_from 0 (zeros l)) = number_from 0 (zeros (l ++ [x])).
Proof.
  intros. rewrite zeros_snoc, number_from_snoc. unfold lenN at 2. rewrite zeros_length.
  apply im_insert_fresh. pose proof (fresh_key_raw _ (zeros l)) as H.
  unfold lenN in *. now rewrite zeros_length in H.
Qed.

Lemma do_call_spec : forall p rl cs c, calls_valid cs = true ->
  do_call c (spec_state p rl cs) =
  if calls_valid (cs ++ [c]) then Ok (spec_state p rl (cs ++ [c]), spec_return cs c)
  else Panic RInvalidBranch.
Proof.
  intros p rl cs c Hv. unfold calls_valid in *. rewrite calls_valid_app, Hv.
  rewrite N.add_0_l. unfold spec_state. rewrite !spec_record_alt.
  rewrite stmts_snoc, fns_snoc, source_map_snoc.
  destruct c as [l|n d l|t l r|b l|m]; cbn [calls_valid_from andb].
  - (* statement *)
    destruct (spec_rows_other cs (CStmt l) I) as (H1 & H2 & H3 & H4).
    unfold do_call, new_statement, set_stmts, spec_bt, spec_fm. rewrite fns_snoc.
    cbn [sc_fc sc_s sc_f sc_b fc_all fc_path fc_statement_map fc_fn_map fc_branch_map fc_s fc_f
         fc_b fc_b_t fc_input_source_map].
    rewrite H1, H2, H3, H4, !app_nil_r, number_from_snoc.
    rewrite (im_insert_fresh (lenN (stmts_of cs)) l) by apply fresh_key_raw.
    rewrite im_insert_zero_snoc with (x := l).
    unfold lenN. rewrite app_length. simpl length. do 3 f_equal. lia.
  - (* function *)
    destruct (spec_rows_other cs (CFn n d l) I) as (H1 & H2 & H3 & H4).
    unfold do_call, new_function, set_fns, spec_bt, spec_fm. rewrite fns_snoc.
    cbn [sc_fc sc_s sc_f sc_b fc_all fc_path fc_statement_map fc_fn_map fc_branch_map fc_s fc_f
         fc_b fc_b_t fc_input_source_map].
    rewrite H1, H2, H3, H4, !app_nil_r, number_from_snoc, map_app.
    rewrite im_insert_fresh by apply (fresh_key _ _ fn_entry).
    rewrite im_insert_zero_snoc with (x := (n, d, l)).
    unfold lenN. rewrite app_length. simpl length. do 3 f_equal. lia.
  - (* branch *)
    destruct (spec_rows_new_branch cs t l r Hv) as (H1 & H2 & H3). cbv zeta in *.
    unfold do_call, new_branch, set_branches, spec_bt, spec_fm. rewrite fns_snoc.
    cbn [sc_fc sc_s sc_f sc_b fc_all fc_path fc_statement_map fc_fn_map fc_branch_map fc_s fc_f
         fc_b fc_b_t fc_input_source_map].
    rewrite H1, H2, H3, !branches_snoc, !app_nil_r, existsb_snoc.
    rewrite (im_insert_fresh _ _ (spec_bm cs)) by (apply (fresh_key _ _ (bm_entry cs))).
    rewrite (im_insert_fresh _ _ (spec_b cs))
      by (apply (fresh_key _ _ (fun i _ => zeros (paths_of i cs)))).
    replace (maybe_new_branch_true t (lenN (branches_of cs)) r
       (if rl || existsb truthy_branch (branches_of cs) then Some (spec_bt_rows cs) else None))
      with (if rl || (existsb truthy_branch (branches_of cs) || truthy_branch (t, l, r))
            then Some (spec_bt_rows cs ++
                 (if truthy_branch (t, l, r) then [(lenN (branches_of cs), [])] else []))%list
            else None).
    + unfold spec_return, lenN. rewrite app_length. simpl length.
      assert (Hl : N.of_nat (length (branches_of cs) + 1) = N.of_nat (length (branches_of cs)) + 1)
        by lia.
      rewrite Hl. reflexivity.
    + unfold maybe_new_branch_true.
      assert (Hfr : im_insert (lenN (branches_of cs)) [] (spec_bt_rows cs) =
                    (spec_bt_rows cs ++ [(lenN (branches_of cs), [])])%list).
      { apply im_insert_fresh. unfold spec_bt_rows, im_keys. rewrite map_map. intros Hin.
        apply in_map_iff in Hin as [[i x] [He Hi]]. simpl in He. subst i.
        apply filter_In in Hi as [Hi _]. apply in_number_from in Hi. simpl in Hi.
        unfold lenN in Hi. lia. }
      destruct r; [destruct t|]; cbn [truthy_branch];
        rewrite ?orb_false_r, ?orb_true_r, ?app_nil_r; try reflexivity.
      * destruct (rl || existsb truthy_branch (branches_of cs)) eqn:Hx; [now rewrite Hfr|].
        apply orb_false_iff in Hx as [_ Hx]. rewrite (no_truthy_rows cs Hx). reflexivity.
      * destruct t; rewrite ?orb_false_r, ?app_nil_r; reflexivity.
  - (* path *)
    destruct (spec_rows_new_path cs b l) as (H1 & H2 & H3).
    unfold do_call, add_branch_path, set_branches, spec_bt, spec_fm. rewrite fns_snoc.
    cbn [sc_fc sc_s sc_f sc_b fc_all fc_path fc_statement_map fc_fn_map fc_branch_map fc_s fc_f
         fc_b fc_b_t fc_input_source_map].
    rewrite H1, H3, existsb_truthy_path, !branches_snoc, !app_nil_r by exact I.
    rewrite <- H2, !spec_b_get, branches_snoc, app_nil_r.
    destruct (N.ltb_spec b (lenN (branches_of cs))) as [Hl|Hl]; cbn [andb].
    + destruct (im_get b (spec_bm cs)) as [e|] eqn:He.
      2:{ apply spec_bm_get in He. lia. }
      cbn [expect bind]. rewrite paths_snoc, N.eqb_refl, zeros_length, app_length.
      cbn [spec_return]. simpl length. unfold maybe_add_branch_true, lenN.
      replace (length (paths_of b cs) + 1 - 1)%nat with (length (paths_of b cs)) by lia.
      destruct (rl || existsb truthy_branch (branches_of cs)); reflexivity.
    + assert (im_get b (spec_bm cs) = None) as -> by now apply spec_bm_get.
      reflexivity.
  - (* input source map *)
    destruct (spec_rows_other cs (CSourceMap m) I) as (H1 & H2 & H3 & H4).
    unfold do_call, set_input_source_map, spec_bt, spec_fm. rewrite fns_snoc.
    cbn [sc_fc sc_s sc_f sc_b fc_all fc_path fc_statement_map fc_fn_map fc_branch_map fc_s fc_f
         fc_b fc_b_t fc_input_source_map].
    rewrite H1, H2, H3, H4, !app_nil_r. reflexivity.
Qed.

Lemma spec_state_nil : forall p rl, spec_state p rl [] = sc_new p rl.
Proof. intros p []; reflexivity. Qed.

Lemma calls_valid_cut : forall pre c cs,
  calls_valid (pre ++ c :: cs) = true -> calls_valid (pre ++ [c]) = true.
Proof.
  intros pre c cs H. replace (pre ++ c :: cs)%list with ((pre ++ [c]) ++ cs)%list in H
    by now rewrite <- app_assoc.
  unfold calls_valid in *. rewrite calls_valid_app in H. now apply andb_true_iff in H.
Qed.

Lemma do_calls_from : forall p rl cs pre rets, calls_valid pre = true ->
  fold_res (fun st c => let* (sc', r) := do_call c (fst st) in Ok (sc', snd st ++ [r])%list)
    (spec_state p rl pre, rets) cs =
  if calls_valid (pre ++ cs) then Ok (spec_state p rl (pre ++ cs), rets ++ spec_returns pre cs)%list
  else Panic RInvalidBranch.
Proof.
  intros p rl cs. induction cs as [|c cs IH]; intros pre rets Hv.
  - cbn [fold_res spec_returns]. rewrite !app_nil_r, Hv. reflexivity.
  - cbn [fold_res fst snd]. rewrite do_call_spec by assumption.
    destruct (calls_valid (pre ++ [c])) eqn:Hc; cbn [bind].
    + rewrite IH by assumption. rewrite <- !app_assoc. reflexivity.
    + destruct (calls_valid (pre ++ c :: cs)) eqn:Hcs; [|reflexivity].
      apply calls_valid_cut in Hcs. congruence.
Qed.

(** C17/C18: the outcome of any sequence of calls on a fresh builder, in full. *)
Theorem registration_spec : forall path rl cs,
  do_calls cs (sc_new path rl) =
  if calls_valid cs then Ok (spec_state path rl cs, spec_returns [] cs)
  else Panic RInvalidBranch.
Proof.
  intros. unfold do_calls. rewrite <- spec_state_nil. rewrite do_calls_from by reflexivity.
  reflexivity.
Qed.

Lemma spec_returns_app : forall cs1 cs2 pre,
  spec_returns pre (cs1 ++ cs2) = (spec_returns pre cs1 ++ spec_returns (pre ++ cs1) cs2)%list.
Proof.
  induction cs1 as [|c cs1 IH]; intros cs2 pre; simpl; [now rewrite app_nil_r|].
  rewrite IH, <- app_assoc. reflexivity.
Qed.

(** A sequence panics exactly when some path is added to a branch not registered before. *)
Theorem registration_panics_iff : forall path rl cs,
  (exists r, do_calls cs (sc_new path rl) = Panic r) <->
  exists pre b l post, cs = (pre ++ CPath b l :: post)%list /\ lenN (branches_of pre) <= b.
Proof.
  intros path rl cs. rewrite registration_spec. split.
  - intros [r H]. destruct (calls_valid cs) eqn:Hv; [discriminate|]. clear H.
    unfold calls_valid in Hv.
    assert (G : forall cs n, calls_valid_from n cs = false ->
      exists pre b l post, cs = (pre ++ CPath b l :: post)%list /\ n + lenN (branches_of pre) <= b).
    { clear. induction cs as [|c cs IH]; intros n H; [discriminate|].
      assert (Hgen : forall m, calls_valid_from m cs = false ->
                m + 0 = n + lenN (branches_of [c]) ->
                exists pre b l post, c :: cs = (pre ++ CPath b l :: post)%list
                                     /\ n + lenN (branches_of pre) <= b).
      { intros m Hm He. destruct (IH m Hm) as (pre & b & l & post & Hcs & Hb).
        exists (c :: pre), b, l, post. subst cs. split; [reflexivity|].
        replace (branches_of (c :: pre)) with (branches_of [c] ++ branches_of pre)%list
          by (unfold branches_of; simpl; now rewrite app_nil_r).
        unfold lenN in *. rewrite app_length. lia. }
      destruct c as [l|n0 d l|t l rl|b' l|m]; simpl in H.
      + apply (Hgen n H). unfold lenN; simpl; lia.
      + apply (Hgen n H). unfold lenN; simpl; lia.
      + apply (Hgen (n + 1) H). unfold lenN; simpl; lia.
      + apply andb_false_iff in H as [H|H].
        * exists [], b', l, cs. split; [reflexivity|]. apply N.ltb_ge in H.
          unfold lenN; simpl; lia.
        * apply (Hgen n H). unfold lenN; simpl; lia.
      + apply (Hgen n H). unfold lenN; simpl; lia. }
    destruct (G cs 0 Hv) as (pre & b & l & post & Hcs & Hb).
    exists pre, b, l, post. split; [assumption|lia].
  - intros (pre & b & l & post & Hcs & Hb). subst cs.
    destruct (calls_valid (pre ++ CPath b l :: post)) eqn:Hv; [|eauto].
    apply calls_valid_cut in Hv. unfold calls_valid in Hv. rewrite calls_valid_app in Hv.
    apply andb_true_iff in Hv as [_ Hv]. simpl in Hv. rewrite andb_true_r in Hv.
    apply N.ltb_lt in Hv. lia.
Qed.

(** Ids are handed out 0,1,2,... per kind, and path indices 0,1,2,... per branch. *)
Theorem registration_ids : forall path rl cs sc rets pre c post,
  do_calls cs (sc_new path rl) = Ok (sc, rets) -> cs = (pre ++ c :: post)%list ->
  nth_error rets (length pre) = Some (spec_return pre c).
Proof.
  intros path rl cs sc rets pre c post H ->. rewrite registration_spec in H.
  destruct (calls_valid _); [|discriminate]. inversion H; subst; clear H.
  rewrite spec_returns_app, nth_error_app2.
  - replace (length (spec_returns [] pre)) with (length pre).
    + rewrite Nat.sub_diag. reflexivity.
    + clear. generalize (@nil call) as q. induction pre as [|x pre IH]; intros; simpl; auto.
  - apply Nat.eq_le_incl. clear. generalize (@nil call) as q.
    induction pre as [|x pre IH]; intros; simpl; auto.
Qed.

(** One more path: the returned index, the branch's new row, and nothing else. *)
Theorem add_path_effect : forall path rl cs sc rets b loc,
  do_calls cs (sc_new path rl) = Ok (sc, rets) ->
  match im_get b (fc_branch_map (sc_fc sc)), im_get b (fc_b (sc_fc sc)) with
  | Some br, Some counts =>
      length (b_locations br) = length counts /\
      exists sc', add_branch_path b loc sc = Ok (sc', N.of_nat (length counts)) /\
      im_get b (fc_branch_map (sc_fc sc')) =
        Some (mkBranch (b_loc br) (b_type br) (b_locations br ++ [loc]) (b_line br)) /\
      im_get b (fc_b (sc_fc sc')) = Some (counts ++ [0])%list /\
      (forall b', b' <> b ->
         im_get b' (fc_branch_map (sc_fc sc')) = im_get b' (fc_branch_map (sc_fc sc)) /\
         im_get b' (fc_b (sc_fc sc')) = im_get b' (fc_b (sc_fc sc))) /\
      match fc_b_t (sc_fc sc), fc_b_t (sc_fc sc') with
      | Some bt, Some bt' =>
          forall k, im_get k bt' =
            (if k =? b then option_map (fun c => c ++ [0])%list (im_get k bt) else im_get k bt)
      | None, None => True
      | _, _ => False
      end /\
      fc_statement_map (sc_fc sc') = fc_statement_map (sc_fc sc) /\
      fc_s (sc_fc sc') = fc_s (sc_fc sc) /\
      fc_fn_map (sc_fc sc') = fc_fn_map (sc_fc sc) /\
      fc_f (sc_fc sc') = fc_f (sc_fc sc) /\
      im_keys (fc_branch_map (sc_fc sc')) = im_keys (fc_branch_map (sc_fc sc)) /\
      im_keys (fc_b (sc_fc sc')) = im_keys (fc_b (sc_fc sc))
  | None, None => add_branch_path b loc sc = Panic RInvalidBranch
  | _, _ => False
  end.
Proof.
  intros path rl cs sc rets b loc H. rewrite registration_spec in H.
  destruct (calls_valid cs) eqn:Hv; [|discriminate]. inversion H; subst; clear H.
  unfold spec_state. rewrite spec_record_alt. cbn [sc_fc fc_branch_map fc_b].
  rewrite spec_b_get. destruct (N.ltb_spec b (lenN (branches_of cs))) as [Hl|Hl].
  2:{ assert (im_get b (spec_bm cs) = None) as Hn by now apply spec_bm_get. rewrite Hn.
      unfold add_branch_path. cbn [sc_fc fc_branch_map fc_b]. rewrite Hn. reflexivity. }
  destruct (im_get b (spec_bm cs)) as [br|] eqn:Hbr.
  2:{ apply spec_bm_get in Hbr. lia. }
  split.
  { unfold spec_bm in Hbr. rewrite (im_get_map _ _ _ _ (bm_entry cs)) in Hbr.
    destruct (im_get b (number_from 0 (branches_of cs))) as [x|]; [|discriminate].
    simpl in Hbr. inversion Hbr; subst. unfold bm_entry; simpl. now rewrite zeros_length. }
  unfold add_branch_path. cbn [sc_fc fc_branch_map fc_b fc_b_t]. rewrite Hbr.
  rewrite im_get_update, spec_b_get. destruct (N.ltb_spec b (lenN (branches_of cs))); [|lia].
  rewrite eqb_refl. cbn [expect bind option_map]. eexists. split; [|].
  { f_equal. f_equal. rewrite app_length. simpl. f_equal. lia. }
  unfold set_branches. cbn [sc_fc fc_branch_map fc_b fc_b_t fc_statement_map fc_s fc_fn_map fc_f].
  rewrite !im_update_keys, !im_get_update, eqb_refl, Hbr, spec_b_get.
  destruct (N.ltb_spec b (lenN (branches_of cs))); [|lia].
  split; [reflexivity|]. split; [reflexivity|]. split; [|split; [|repeat split]].
  - intros b' Hne. rewrite !im_get_update. assert (eqb b' b = false) as -> by (apply eqb_neq; congruence).
    auto.
  - unfold spec_bt. destruct (rl || _); [|exact I]. simpl. intros k. rewrite im_get_update.
    destruct (N.eqb_spec k b) as [->|Hne]; [now rewrite eqb_refl|].
    assert (eqb k b = false) as -> by (apply eqb_neq; congruence). reflexivity.
Qed.

(** ** Freezing *)

Definition pathless (bm : branch_map) (k : N) : bool :=
  match im_get k bm with Some b => negb (has_paths b) | None => false end.

Lemma prune_facts : forall V bm (m : imap N V), im_wf m -> im_wf bm ->
  im_wf (prune bm m) /\
  forall k, im_get k (prune bm m) = if pathless bm k then None else im_get k m.
Proof.
  intros V bm. induction bm as [|[k0 b0] bm IH]; intros m Hm Hbm.
  - split; [assumption|reflexivity].
  - inversion Hbm as [|? ? Hk Hnd]; subst. unfold prune. cbn [fold_left fst snd].
    change (fold_left _ bm ?x) with (prune bm x).
    assert (Hp : forall k, pathless ((k0, b0) :: bm) k =
              (if k =? k0 then negb (has_paths b0) else pathless bm k)).
    { intros k. unfold pathless. cbn [im_get]. change (eqb k k0) with (k =? k0).
      destruct (k =? k0); reflexivity. }
    assert (Hk0 : pathless bm k0 = false).
    { unfold pathless. destruct (im_get k0 bm) eqn:He; [|reflexivity].
      apply im_get_in in He. apply (in_map fst) in He. contradiction. }
    destruct (has_paths b0) eqn:H0.
    + destruct (IH m Hm Hnd) as [W G]. split; [assumption|]. intros k. rewrite G, Hp.
      destruct (N.eqb_spec k k0) as [->|]; [now rewrite Hk0|reflexivity].
    + destruct (IH (im_swap_remove k0 m) (im_swap_remove_wf _ _ Hm) Hnd) as [W G].
      split; [assumption|]. intros k. rewrite G, Hp, im_get_swap_remove by assumption.
      change (eqb k k0) with (k =? k0).
      destruct (N.eqb_spec k k0) as [->|]; [now rewrite Hk0|reflexivity].
Qed.

Lemma prune_nothing : forall V bm (m : imap N V),
  (forall kb, In kb bm -> has_paths (snd kb) = true) -> prune bm m = m.
Proof.
  intros V bm. induction bm as [|kb bm IH]; intros m H; [reflexivity|].
  unfold prune. cbn [fold_left]. rewrite (H kb) by now left.
  apply IH. intros; apply H; now right.
Qed.

Definition wf_state (sc : source_cov) : Prop :=
  im_wf (fc_branch_map (sc_fc sc)) /\ im_wf (fc_b (sc_fc sc)) /\
  match fc_b_t (sc_fc sc) with Some bt => im_wf bt | None => True end.

(** C19: what freezing changes, as lookups, and that it changes nothing else. *)
Theorem freeze_spec : forall sc, wf_state sc ->
  let dead := pathless (fc_branch_map (sc_fc sc)) in
  let fc := sc_fc sc in
  let fc' := sc_fc (freeze sc) in
  (forall k, im_get k (fc_branch_map fc') =
             if dead k then None else im_get k (fc_branch_map fc)) /\
  (forall k, im_get k (fc_b fc') = if dead k then None else im_get k (fc_b fc)) /\
  match fc_b_t fc, fc_b_t fc' with
  | Some bt, Some bt' => forall k, im_get k bt' = if dead k then None else im_get k bt
  | None, None => True
  | _, _ => False
  end /\
  im_keys (fc_branch_map fc') = filter (fun k => negb (dead k)) (im_keys (fc_branch_map fc)) /\
  wf_state (freeze sc) /\
  fc_statement_map fc' = fc_statement_map fc /\ fc_s fc' = fc_s fc /\
  fc_fn_map fc' = fc_fn_map fc /\ fc_f fc' = fc_f fc /\
  fc_all fc' = fc_all fc /\ fc_path fc' = fc_path fc /\
  fc_input_source_map fc' = fc_input_source_map fc.
Proof.
  intros sc (Wm & Wb & Wt) dead fc fc'. unfold fc', freeze, set_branches, wf_state.
  cbn [sc_fc fc_all fc_path fc_statement_map fc_fn_map fc_branch_map fc_s fc_f fc_b fc_b_t
       fc_input_source_map]. fold fc.
  assert (G : forall k, im_get k (im_retain (fun _ b => has_paths b) (fc_branch_map fc)) =
                        if dead k then None else im_get k (fc_branch_map fc)).
  { intros k. rewrite im_get_retain by assumption. unfold dead, pathless. fold fc.
    destruct (im_get k (fc_branch_map fc)) as [b|]; [|reflexivity].
    destruct (has_paths b); reflexivity. }
  destruct (prune_facts _ (fc_branch_map fc) (fc_b fc) Wb Wm) as [Wb' Gb].
  split; [exact G|]. split; [exact Gb|]. split.
  { fold fc in Wt. destruct (fc_b_t fc) as [bt|]; [|exact I]. simpl.
    apply (prune_facts _ (fc_branch_map fc) bt Wt Wm). }
  split.
  { assert (Hd : forall kb, In kb (fc_branch_map fc) -> dead (fst kb) = negb (has_paths (snd kb))).
    { intros [k b] Hin. unfold dead, pathless. fold fc. rewrite (im_in_get _ Wm k b Hin). reflexivity. }
    unfold im_retain, im_keys. revert Hd. generalize (fc_branch_map fc) as m.
    induction m as [|[k b] m IH]; intros Hd; [reflexivity|]. cbn [filter map fst snd].
    pose proof (Hd (k, b) (or_introl eq_refl)) as Hkb. cbn [fst snd] in Hkb.
    rewrite Hkb, negb_involutive.
    destruct (has_paths b); cbn [map fst]; [f_equal|]; apply IH; intros; apply Hd; now right. }
  split; [|repeat split].
  split; [now apply im_wf_retain|]. split; [assumption|].
  fold fc in Wt. destruct (fc_b_t fc) as [bt|]; [|exact I]. simpl.
  apply (prune_facts _ (fc_branch_map fc) bt Wt Wm).
Qed.

Theorem freeze_idempotent : forall sc, freeze (freeze sc) = freeze sc.
Proof.
  intros sc. set (fc := sc_fc sc).
  assert (H : forall kb, In kb (im_retain (fun _ b => has_paths b) (fc_branch_map fc)) ->
                         has_paths (snd kb) = true).
  { intros kb Hin. apply filter_In in Hin. tauto. }
  unfold freeze at 1. unfold freeze, set_branches.
  cbn [sc_fc sc_s sc_f sc_b fc_all fc_path fc_statement_map fc_fn_map fc_branch_map fc_s fc_f
       fc_b fc_b_t fc_input_source_map]. fold fc.
  f_equal. f_equal.
  - unfold im_retain. induction (fc_branch_map fc) as [|kb m IH]; [reflexivity|].
    cbn [filter]. destruct (has_paths (snd kb)) eqn:E; [|apply IH; intros; apply H].
    + cbn [filter]. rewrite E. f_equal. apply IH. intros kb' Hin. apply H.
      unfold im_retain. cbn [filter]. rewrite E. now right.
    + unfold im_retain. cbn [filter]. now rewrite E.
  - now apply prune_nothing.
  - destruct (fc_b_t fc) as [bt|]; [|reflexivity]. simpl. f_equal. now apply prune_nothing.
Qed.

(** Every state the API can build meets the hypothesis. *)
Theorem reachable_wf_state : forall path rl cs sc rets,
  do_calls cs (sc_new path rl) = Ok (sc, rets) -> wf_state sc.
Proof.
  intros path rl cs sc rets H. rewrite registration_spec in H.
  destruct (calls_valid cs); [|discriminate]. inversion H; subst; clear H.
  unfold spec_state, wf_state. rewrite spec_record_alt. cbn [sc_fc fc_branch_map fc_b fc_b_t].
  unfold im_wf, im_keys, spec_bm, spec_b, spec_bt, spec_bt_rows.
  rewrite !map_map. repeat split; try apply number_from_NoDup.
  destruct (rl || _); [|exact I]. rewrite map_map. cbn [fst].
  apply NoDup_filter_fst, number_from_NoDup.
Qed.

(** A frozen history: exactly the branches with a path remain, in registration order in
    the branch table; counters and truthiness counters keep one zero per path. *)
Theorem frozen_record : forall path rl cs sc rets,
  do_calls cs (sc_new path rl) = Ok (sc, rets) ->
  let fc := sc_fc (freeze sc) in
  fc_branch_map fc =
    filter (fun kb => has_paths (snd kb)) (fc_branch_map (spec_record path rl cs)) /\
  (forall k, im_get k (fc_b fc) =
     if (k <? lenN (branches_of cs)) && negb (lenN (paths_of k cs) =? 0)
     then Some (zeros (paths_of k cs)) else None) /\
  (forall k n, im_get k (fc_b fc) = Some n -> n <> []) /\
  set_branches fc [] [] None = set_branches (spec_record path rl cs) [] [] None.
Proof.
  intros path rl cs sc rets H. pose proof (reachable_wf_state _ _ _ _ _ H) as W.
  rewrite registration_spec in H.
  destruct (calls_valid cs) eqn:Hv; [|discriminate]. inversion H; subst; clear H.
  cbv zeta. destruct (freeze_spec _ W) as (_ & Gb & _). unfold spec_state in *.
  rewrite spec_record_alt in *. cbn [sc_fc fc_branch_map fc_b] in *.
  assert (Hd : forall k, pathless (spec_bm cs) k =
             (k <? lenN (branches_of cs)) && (lenN (paths_of k cs) =? 0)).
  { intros k. unfold pathless. destruct (N.ltb_spec k (lenN (branches_of cs))) as [Hl|Hl].
    - unfold spec_bm. rewrite (im_get_map _ _ _ _ (bm_entry cs)).
      rewrite im_get_number_from. destruct (N.leb_spec 0 k); [|lia].
      destruct (nth_error (branches_of cs) (N.to_nat (k - 0))) as [x|] eqn:Hx.
      + simpl. unfold bm_entry, has_paths, lenN; simpl. destruct (paths_of k cs); reflexivity.
      + apply nth_error_None in Hx. unfold lenN in Hl. lia.
    - assert (im_get k (spec_bm cs) = None) as -> by now apply spec_bm_get. reflexivity. }
  assert (Gb' : forall k, im_get k (fc_b (sc_fc (freeze
      (mkSC (mkFC false path (number_from 0 (stmts_of cs)) (spec_fm cs) (spec_bm cs)
       (number_from 0 (zeros (stmts_of cs))) (number_from 0 (zeros (fns_of cs))) (spec_b cs)
       (spec_bt rl cs) (source_map_of cs)) (lenN (stmts_of cs)) (lenN (fns_of cs))
       (lenN (branches_of cs)))))) = 
     if (k <? lenN (branches_of cs)) && negb (lenN (paths_of k cs) =? 0)
     then Some (zeros (paths_of k cs)) else None).
  { intros k. rewrite Gb, Hd, spec_b_get.
    destruct (k <? lenN (branches_of cs)), (lenN (paths_of k cs) =? 0); reflexivity. }
  split; [reflexivity|]. split; [exact Gb'|]. split; [|reflexivity].
  intros k n Hk. rewrite Gb' in Hk.
  destruct (k <? lenN (branches_of cs)), (N.eqb_spec (lenN (paths_of k cs)) 0) as [|He]; try discriminate.
  simpl in Hk. inversion Hk; subst. intros Hz. apply He. apply (f_equal (@length N)) in Hz.
  rewrite zeros_length in Hz. unfold lenN. rewrite Hz. reflexivity.
Qed.

(** ** Concrete histories *)

Definition r1 := range_new 1 0 1 10.
Definition r2 := range_new 2 0 2 10.

(** Branch 0 gets no path, branches 1 and 2 do, interleaved. *)
Definition sample_calls : list call :=
  [CStmt r1; CBranch BIf r1 false; CFn None r1 r2; CBranch BinaryExpr r2 true;
   CBranch BSwitch r2 true; CPath 2 r1; CPath 1 r2; CPath 2 r2; CFn (Some "f"%string) r1 r1;
   CPath 1 r1].

Example sample_calls_run :
  do_calls sample_calls (sc_new "a.js" false) =
  Ok (mkSC (mkFC false "a.js" [(0, r1)]
        [(0, mkFunc "(anonymous_0)" r1 r2 2); (1, mkFunc "f" r1 r1 1)]
        [(0, mkBranch (Some r1) BIf [] (Some 1)); (1, mkBranch (Some r2) BinaryExpr [r2; r1] (Some 2));
         (2, mkBranch (Some r2) BSwitch [r1; r2] (Some 2))]
        [(0, 0)] [(0, 0); (1, 0)] [(0, []); (1, [0; 0]); (2, [0; 0])] (Some [(1, [0; 0])]) None)
       1 2 3,
      [Some 0; Some 0; Some 0; Some 1; Some 2; Some 0; Some 0; Some 1; Some 1; Some 1]).
Proof. vm_compute. reflexivity. Qed.

(** C19, last clause: false of the code. [swap_remove_entry] moves the last counter row
    into the hole, so the counter table is no longer in the order of the branch table. *)
Theorem freeze_order_refuted : exists cs sc rets,
  do_calls cs (sc_new "a.js" false) = Ok (sc, rets) /\
  im_keys (fc_branch_map (sc_fc (freeze sc))) = [1; 2] /\
  im_keys (fc_b (sc_fc (freeze sc))) = [2; 1].
Proof.
  exists sample_calls. rewrite registration_spec. change (calls_valid sample_calls) with true.
  do 2 eexists. split; [reflexivity|]. split; vm_compute; reflexivity.
Qed.

(** What does hold: the frozen counter table lists the same branches as the frozen
    branch table, in some order. *)
Theorem freeze_counters_perm : forall sc, wf_state sc ->
  im_keys (fc_b (sc_fc sc)) = im_keys (fc_branch_map (sc_fc sc)) ->
  Permutation (im_keys (fc_b (sc_fc (freeze sc)))) (im_keys (fc_branch_map (sc_fc (freeze sc)))).
Proof.
  intros sc W Hk. destruct (freeze_spec sc W) as (Gm & Gb & _ & _ & (Wm' & Wb' & _) & _).
  apply NoDup_Permutation; [exact Wb'|exact Wm'|]. intros k.
  assert (Hin : In k (im_keys (fc_b (sc_fc sc))) <-> In k (im_keys (fc_branch_map (sc_fc sc))))
    by now rewrite Hk.
  rewrite <- !im_has_in in *. unfold im_has in *. rewrite Gm, Gb.
  destruct (pathless _ k); [tauto|exact Hin].
Qed.
