(** Property theorems proved in [Layout.v]; generated by tools/genprops.py. *)
From Coq Require Import NArith String List Bool Lia PeanoNat.
Import ListNotations.
From Verif Require Import Base IndexMap Decimal Oxide SourceCov Hints Ast Visitor VisitorEx.
Open Scope N_scope.
From Verif Require Import Layout.

Theorem C53_layout_independent : forall e1 e2 phi mv lm n path1 path2 ism1 ism2 t,
  no_template t -> phi dummy_span = dummy_span ->
  (forall r, line (rstart (mv r)) = lm (line (rstart r))) ->
  (forall sp, In sp (dummy_span :: all_spans t) -> hint e2 (phi sp) = hint e1 sp /\ range_of e2 (phi sp) = mv (range_of e1 sp)) ->
  should_ignore_file (e_word e2) (e_comments e2) (phi (nspan t)) = should_ignore_file (e_word e1) (e_comments e1) (nspan t) ->
  e_report_logic e2 = e_report_logic e1 -> e_ignore_methods e2 = e_ignore_methods e1 ->
  instrument e2 n path2 ism2 (relayout phi t) = move_out phi mv lm path2 ism2 (instrument e1 n path1 ism1 t).
Proof. exact (@layout_independent). Qed.
Print Assumptions C53_layout_independent.

Theorem C53_name_only_in_record : forall e n path1 path2 ism1 ism2 t, no_template t ->
  instrument e n path2 ism2 t =
  match instrument e n path1 ism1 t with
  | Ok (o, c) => Ok (retitle_tree path2 ism2 o, mkSC (retitle path2 ism2 (sc_fc c)) (sc_s c) (sc_f c) (sc_b c))
  | Panic r => Panic r
  | OutOfFuel => OutOfFuel
  end.
Proof. exact (@name_only_in_record). Qed.
Print Assumptions C53_name_only_in_record.

Theorem C53_comments_only_hints : forall e1 e2 n path ism t, no_template t ->
  (forall p, e_lookup e2 p = e_lookup e1 p) -> e_report_logic e2 = e_report_logic e1 -> e_ignore_methods e2 = e_ignore_methods e1 ->
  (forall sp, In sp (dummy_span :: all_spans t) -> hint e2 sp = hint e1 sp) ->
  should_ignore_file (e_word e2) (e_comments e2) (nspan t) = should_ignore_file (e_word e1) (e_comments e1) (nspan t) ->
  instrument e2 n path ism t = instrument e1 n path ism t.
Proof. exact (@comments_only_hints). Qed.
Print Assumptions C53_comments_only_hints.

Theorem C53_no_hints_no_comments : forall e n path ism t, no_template t ->
  (forall sp, In sp (dummy_span :: all_spans t) -> hint e sp = None) ->
  should_ignore_file (e_word e) (e_comments e) (nspan t) = false ->
  instrument e n path ism t = instrument (mkEnv no_comments (e_word e) (e_lookup e) (e_report_logic e) (e_ignore_methods e)) n path ism t.
Proof. exact (@no_hints_no_comments). Qed.
Print Assumptions C53_no_hints_no_comments.

Theorem C53_leading_lines : forall e1 e2 d k n path ism t, no_template t ->
  (* positions have a line, and the numbers fit into 32 bits *)
  (forall sp, In sp (all_spans t) -> sp = dummy_span \/ (lo sp <> 0 /\ hi sp <> 0)) ->
  (forall p, 0 < fst (e_lookup e1 p) /\ fst (e_lookup e1 p) + k < u32_mod) ->
  (* the second source is the first one with [d] bytes and [k] lines in front *)
  (forall p, e_lookup e2 (p + d) = (fst (e_lookup e1 p) + k, snd (e_lookup e1 p))) ->
  (forall p, p <> 0 -> leading (e_comments e2) (p + d) = leading (e_comments e1) p /\
    trailing (e_comments e2) (p + d) = trailing (e_comments e1) p) ->
  leading (e_comments e1) 0 = None -> leading (e_comments e2) 0 = None ->
  lo (nspan t) <> 0 -> hi (nspan t) <> 0 ->
  e_word e2 = e_word e1 -> e_report_logic e2 = e_report_logic e1 -> e_ignore_methods e2 = e_ignore_methods e1 ->
  instrument e2 n path ism (relayout (shift_span d) t) =
  move_out (shift_span d) (shift_range k) (shift_line k) path ism (instrument e1 n path ism t).
Proof. exact (@leading_lines). Qed.
Print Assumptions C53_leading_lines.

Theorem C53_hint_comment_matters_ex :
  run_counters (comment_env 17 "istanbul ignore next") ex_function <> run_counters plain_env ex_function /\
  run_counters (comment_env 17 "ignore the next line") ex_function = run_counters plain_env ex_function.
Proof. exact (@hint_comment_matters_ex). Qed.
Print Assumptions C53_hint_comment_matters_ex.

Theorem C53_no_hint_comment_ex : forall n path ism,
  instrument (comment_env 17 "ignore the next line") n path ism ex_function = instrument plain_env n path ism ex_function.
Proof. exact (@no_hint_comment_ex). Qed.
Print Assumptions C53_no_hint_comment_ex.

Theorem C53_leading_lines_ex : forall n path ism,
  instrument (lines_env 30 3) n path ism (relayout (shift_span 30) ex_function) =
  move_out (shift_span 30) (shift_range 3) (shift_line 3) path ism (instrument (lines_env 0 0) n path ism ex_function).
Proof. exact (@leading_lines_ex). Qed.
Print Assumptions C53_leading_lines_ex.

Theorem C53_leading_lines_record_ex :
  match instrument (lines_env 30 3) 40 "f.js" None (relayout (shift_span 30) ex_function) with
  | Ok (_, c) => (im_get 1 (fc_statement_map (sc_fc c)), option_map f_line (im_get 0 (fc_fn_map (sc_fc c))))
  | _ => (None, None)
  end = (Some (range_new 4 24 4 33), Some 4).
Proof. exact (@leading_lines_record_ex). Qed.
Print Assumptions C53_leading_lines_record_ex.

Theorem C53_other_name_ex : 
  match instrument plain_env 40 "f.js" None ex_function, instrument plain_env 40 "g.js" None ex_function with
  | Ok (a, c), Ok (b, d) => retitle_tree "g.js" None a = b /\ a <> b /\ fc_path (sc_fc c) = "f.js"%string /\ fc_path (sc_fc d) = "g.js"%string
  | _, _ => False
  end.
Proof. exact (@other_name_ex). Qed.
Print Assumptions C53_other_name_ex.

