(** Property theorems proved in [SourceCovProofs.v]; generated by tools/genprops.py. *)
From Coq Require Import NArith String List Bool Lia PeanoNat Permutation.
Import ListNotations.
From Verif Require Import Base IndexMap Decimal Oxide SourceCov.
Open Scope N_scope.
From Verif Require Import SourceCovProofs.

Theorem C17_registration_spec : forall path rl cs,
  do_calls cs (sc_new path rl) =
  if calls_valid cs then Ok (spec_state path rl cs, spec_returns [] cs)
  else Panic RInvalidBranch.
Proof. exact (@registration_spec). Qed.
Print Assumptions C17_registration_spec.

Theorem C17_registration_ids : forall path rl cs sc rets pre c post,
  do_calls cs (sc_new path rl) = Ok (sc, rets) -> cs = (pre ++ c :: post)%list ->
  nth_error rets (length pre) = Some (spec_return pre c).
Proof. exact (@registration_ids). Qed.
Print Assumptions C17_registration_ids.

Theorem C17_reachable_wf_state : forall path rl cs sc rets,
  do_calls cs (sc_new path rl) = Ok (sc, rets) -> wf_state sc.
Proof. exact (@reachable_wf_state). Qed.
Print Assumptions C17_reachable_wf_state.

Theorem C17_sample_calls_run :
  do_calls sample_calls (sc_new "a.js" false) =
  Ok (mkSC (mkFC false "a.js" [(0, r1)]
        [(0, mkFunc "(anonymous_0)" r1 r2 2); (1, mkFunc "f" r1 r1 1)]
        [(0, mkBranch (Some r1) BIf [] (Some 1)); (1, mkBranch (Some r2) BinaryExpr [r2; r1] (Some 2));
         (2, mkBranch (Some r2) BSwitch [r1; r2] (Some 2))]
        [(0, 0)] [(0, 0); (1, 0)] [(0, []); (1, [0; 0]); (2, [0; 0])] (Some [(1, [0; 0])]) None)
       1 2 3,
      [Some 0; Some 0; Some 0; Some 1; Some 2; Some 0; Some 0; Some 1; Some 1; Some 1]).
Proof. exact (@sample_calls_run). Qed.
Print Assumptions C17_sample_calls_run.

Theorem C18_add_path_effect : forall path rl cs sc rets b loc,
  do_calls cs (sc_new path rl) = Ok (sc, rets) ->
  match im_get b (fc_branch_map (sc_fc sc)), im_get b (fc_b (sc_fc sc)) with
  | Some br, Some counts =>
      length (b_locations br) = length counts /\
      exists sc', add_branch_path b loc sc = Ok (sc', N.of_nat (length counts)) /\
      im_get b (fc_branch_map (sc_fc sc')) =
        Some (mkBranch (b_loc br) (b_type br) (b_locations br ++ [loc]) (b_line br)) /\
      im_get b (fc_b (sc_fc sc')) = Some (counts ++ [0])%list /\
      (forall b', b' <> b ->
         im_get b' (fc_branch_map (sc_fc sc')) = im_get b' (fc_branch_map (sc_fc sc)) /\
         im_get b' (fc_b (sc_fc sc')) = im_get b' (fc_b (sc_fc sc))) /\
      match fc_b_t (sc_fc sc), fc_b_t (sc_fc sc') with
      | Some bt, Some bt' =>
          forall k, im_get k bt' =
            (if k =? b then option_map (fun c => c ++ [0])%list (im_get k bt) else im_get k bt)
      | None, None => True
      | _, _ => False
      end /\
      fc_statement_map (sc_fc sc') = fc_statement_map (sc_fc sc) /\
      fc_s (sc_fc sc') = fc_s (sc_fc sc) /\
      fc_fn_map (sc_fc sc') = fc_fn_map (sc_fc sc) /\
      fc_f (sc_fc sc') = fc_f (sc_fc sc) /\
      im_keys (fc_branch_map (sc_fc sc')) = im_keys (fc_branch_map (sc_fc sc)) /\
      im_keys (fc_b (sc_fc sc')) = im_keys (fc_b (sc_fc sc))
  | None, None => add_branch_path b loc sc = Panic RInvalidBranch
  | _, _ => False
  end.
Proof. exact (@add_path_effect). Qed.
Print Assumptions C18_add_path_effect.

Theorem C18_registration_panics_iff : forall path rl cs,
  (exists r, do_calls cs (sc_new path rl) = Panic r) <->
  exists pre b l post, cs = (pre ++ CPath b l :: post)%list /\ lenN (branches_of pre) <= b.
Proof. exact (@registration_panics_iff). Qed.
Print Assumptions C18_registration_panics_iff.

Theorem C18_registration_ids : forall path rl cs sc rets pre c post,
  do_calls cs (sc_new path rl) = Ok (sc, rets) -> cs = (pre ++ c :: post)%list ->
  nth_error rets (length pre) = Some (spec_return pre c).
Proof. exact (@registration_ids). Qed.
Print Assumptions C18_registration_ids.

Theorem C19_freeze_spec : forall sc, wf_state sc ->
  let dead := pathless (fc_branch_map (sc_fc sc)) in
  let fc := sc_fc sc in
  let fc' := sc_fc (freeze sc) in
  (forall k, im_get k (fc_branch_map fc') =
             if dead k then None else im_get k (fc_branch_map fc)) /\
  (forall k, im_get k (fc_b fc') = if dead k then None else im_get k (fc_b fc)) /\
  match fc_b_t fc, fc_b_t fc' with
  | Some bt, Some bt' => forall k, im_get k bt' = if dead k then None else im_get k bt
  | None, None => True
  | _, _ => False
  end /\
  im_keys (fc_branch_map fc') = filter (fun k => negb (dead k)) (im_keys (fc_branch_map fc)) /\
  wf_state (freeze sc) /\
  fc_statement_map fc' = fc_statement_map fc /\ fc_s fc' = fc_s fc /\
  fc_fn_map fc' = fc_fn_map fc /\ fc_f fc' = fc_f fc /\
  fc_all fc' = fc_all fc /\ fc_path fc' = fc_path fc /\
  fc_input_source_map fc' = fc_input_source_map fc.
Proof. exact (@freeze_spec). Qed.
Print Assumptions C19_freeze_spec.

Theorem C19_freeze_idempotent : forall sc, freeze (freeze sc) = freeze sc.
Proof. exact (@freeze_idempotent). Qed.
Print Assumptions C19_freeze_idempotent.

Theorem C19_frozen_record : forall path rl cs sc rets,
  do_calls cs (sc_new path rl) = Ok (sc, rets) ->
  let fc := sc_fc (freeze sc) in
  fc_branch_map fc =
    filter (fun kb => has_paths (snd kb)) (fc_branch_map (spec_record path rl cs)) /\
  (forall k, im_get k (fc_b fc) =
     if (k <? lenN (branches_of cs)) && negb (lenN (paths_of k cs) =? 0)
     then Some (zeros (paths_of k cs)) else None) /\
  (forall k n, im_get k (fc_b fc) = Some n -> n <> []) /\
  set_branches fc [] [] None = set_branches (spec_record path rl cs) [] [] None.
Proof. exact (@frozen_record). Qed.
Print Assumptions C19_frozen_record.

Theorem C19_freeze_counters_perm : forall sc, wf_state sc ->
  im_keys (fc_b (sc_fc sc)) = im_keys (fc_branch_map (sc_fc sc)) ->
  Permutation (im_keys (fc_b (sc_fc (freeze sc)))) (im_keys (fc_branch_map (sc_fc (freeze sc)))).
Proof. exact (@freeze_counters_perm). Qed.
Print Assumptions C19_freeze_counters_perm.

Theorem C19_freeze_order_refuted : exists cs sc rets,
  do_calls cs (sc_new "a.js" false) = Ok (sc, rets) /\
  im_keys (fc_branch_map (sc_fc (freeze sc))) = [1; 2] /\
  im_keys (fc_b (sc_fc (freeze sc))) = [2; 1].
Proof. exact (@freeze_order_refuted). Qed.
Print Assumptions C19_freeze_order_refuted.

